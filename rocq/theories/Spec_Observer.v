(** What observers should be told. *)
From Verif Require Import M_Observer Spec_Transact.

(** The observers, by key: registering replaces, deregistering removes. *)
Definition registered (l : list sv_op) : gmap string observer :=
  fold_left (fun m o => match o with SvRegister k o => <[k := o]> m | SvDeregister k => delete k m | _ => m end) l ∅.

(** The calls that a commit of [txes] should lead to, in any order: one for each registered observer that is interested in one of the
    transactions, with those transactions, in order, that touched one of its attributes. *)
Definition interested (o : observer) (r : Z * gset Z) : Prop := exists a, a ∈ ob_attrs o /\ a ∈ r.2.
Definition should_call (m : gmap string observer) (txes : reports) (x : call) : Prop :=
  exists o told, m !! x.1.2 = Some o /\ x = (ob_fn o, x.1.2, told) /\ told <> [] /\ sublist told txes
    /\ forall r, r ∈ txes -> r ∈ told <-> interested o r.
Definition calls_for (m : gmap string observer) (txes : reports) (cs : list call) : Prop :=
  NoDup (map (fun x => x.1.2) cs) /\ (forall x, x ∈ cs -> should_call m txes x)
  /\ (forall k o, m !! k = Some o -> Exists (interested o) txes -> exists x, x ∈ cs /\ x.1.2 = k).

(** The commits of a schedule, each with the observers registered at that time *)
Fixpoint commits (m : gmap string observer) (l : list sv_op) : list (gmap string observer * reports) :=
  match l with
  | [] => []
  | SvRegister k o :: l => commits (<[k := o]> m) l
  | SvDeregister k :: l => commits (delete k m) l
  | SvCommit txes :: l => (m, txes) :: commits m l
  | SvWork :: l => commits m l
  end.

(** Nobody registers or deregisters while a commit waits for the worker, and in the end the worker has nothing to do.  [n] commits are waiting. *)
Fixpoint undisturbed (n : nat) (m : gmap string observer) (l : list sv_op) : Prop :=
  match l with
  | [] => n = 0%nat
  | SvRegister k o :: l => n = 0%nat /\ undisturbed n (<[k := o]> m) l
  | SvDeregister k :: l => n = 0%nat /\ undisturbed n (delete k m) l
  | SvCommit txes :: l => undisturbed (if decide (m = ∅) then n else S n) m l
  | SvWork :: l => undisturbed (pred n) m l
  end.

(** A session all of whose calls succeed, without going back to a savepoint; it makes [n] transacts. *)
Definition is_transact (o : ip_op) : bool := match o with OpTransact _ _ | OpTransactTerms _ _ _ => true | _ => false end.
Definition succeeds (mv : Z) (c : conn) (o : conn_op) (n : nat) : Prop :=
  match o with
  | CTransact now es => n = 1%nat
  | CSession l _ => n = length (filter is_transact l) /\ (forall s, OpRollbackTo s ∉ l)
      /\ exists ig rs, ig_steps mv (conn_begin c) l = Ok (ig, rs) /\ Forall (eq (Ok tt)) rs
  | CReopen => False
  end.

(** Calls that commit if they succeed. *)
Definition committing (o : conn_op) : Prop := match o with CTransact _ _ => True | CSession _ commit => commit = true | CReopen => False end.

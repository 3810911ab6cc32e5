(** Transaction observers: db/src/tx_observer.rs, transaction/src/lib.rs:269-274, src/conn.rs:360-369. *)
From Verif Require Export M_Conn.

(** tx_observer.rs:31-35 TxObserver; the closure is represented by a number. *)
Record observer := Observer { ob_fn : nat; ob_attrs : gset Z }.
Notation reports := (list (Z * gset Z)).
(** A call of a closure: which one, and its arguments *)
Notation call := (nat * string * list (Z * gset Z))%type.

(** tx_observer.rs:47-55 *)
Definition applicable_reports (o : observer) (rs : reports) : reports := filter (fun r => ob_attrs o ∩ r.2 ≠ ∅) rs.

(** tx_observer.rs:66-69 TxCommand.  [cm_observers] is the Weak: the allocation that it points to. *)
Record command := Command { cm_reports : reports; cm_observers : nat }.

(** tx_observer.rs:97-101 TxObservationService together with its worker's channel (190-219).  The observers live in the allocation
    [sv_alloc], whose only strong reference is the service's.  [sv_calls] are the calls made so far. *)
Record service := Service { sv_alloc : nat; sv_observers : list (string * observer); sv_queue : list command; sv_calls : list call }.
Definition service_new : service := Service 0 [] [] [].

(** Arc::make_mut: if a Weak points to the allocation, the value moves to a new one. *)
Definition make_mut (sv : service) : nat :=
  if existsb (fun c => Nat.eqb (cm_observers c) (sv_alloc sv)) (sv_queue sv) then S (sv_alloc sv) else sv_alloc sv.

(** IndexMap::insert *)
Fixpoint observers_insert (k : string) (o : observer) (l : list (string * observer)) : list (string * observer) :=
  match l with
  | [] => [(k, o)]
  | (k', o') :: l => if decide (k = k') then (k, o) :: l else (k', o') :: observers_insert k o l
  end.
(** IndexMap::remove is swap_remove: the last entry takes the place of the removed one. *)
Definition observers_remove (k : string) (l : list (string * observer)) : list (string * observer) :=
  match list_find (fun x => x.1 = k) l with
  | None => l
  | Some (i, _) =>
      match last l with
      | Some x => if decide (S i = length l) then take i l else take i l ++ x :: drop (S i) (take (pred (length l)) l)
      | None => l
      end
  end.

(** tx_observer.rs:115-121 register, deregister *)
Definition register (sv : service) (k : string) (o : observer) : service :=
  Service (make_mut sv) (observers_insert k o (sv_observers sv)) (sv_queue sv) (sv_calls sv).
Definition deregister (sv : service) (k : string) : service :=
  Service (make_mut sv) (observers_remove k (sv_observers sv)) (sv_queue sv) (sv_calls sv).
(** tx_observer.rs:127-152 in_progress_did_commit *)
Definition did_commit (sv : service) (txes : reports) : service :=
  match sv_observers sv with
  | [] => sv
  | _ => Service (sv_alloc sv) (sv_observers sv) (sv_queue sv ++ [Command txes (sv_alloc sv)]) (sv_calls sv)
  end.
(** tx_observer.rs:82-93 TxCommand::execute *)
Definition execute (sv : service) (c : command) : list call :=
  if Nat.eqb (cm_observers c) (sv_alloc sv)
  then omap (fun '(k, o) => match applicable_reports o (cm_reports c) with [] => None | rs => Some (ob_fn o, k, rs) end) (sv_observers sv)
  else [].
(** tx_observer.rs:199-216: the worker handles a message.  If an observer registers or deregisters another meanwhile, the service gets
    a new allocation and the worker goes on with the old one: as if it had handled the message before. *)
Definition work (sv : service) : service :=
  match sv_queue sv with
  | [] => sv
  | c :: q => Service (sv_alloc sv) (sv_observers sv) q (sv_calls sv ++ execute sv c)
  end.

Inductive sv_op := SvRegister (k : string) (o : observer) | SvDeregister (k : string) | SvCommit (txes : reports) | SvWork.
Definition sv_step (sv : service) (o : sv_op) : service :=
  match o with
  | SvRegister k o => register sv k o
  | SvDeregister k => deregister sv k
  | SvCommit txes => did_commit sv txes
  | SvWork => work sv
  end.
Definition sv_run (l : list sv_op) : service := fold_left sv_step l service_new.

(** What a call on a connection hands to the service (lib.rs:269-274), if it commits: see [conn_step]. *)
Definition conn_handed (mv : Z) (c : conn) (o : conn_op) : option reports :=
  match o with
  | CTransact now es =>
      match ig_transact mv now (conn_begin c) es with
      | (ig, Ok _) => match conn_commit c ig with Ok (_, t) => Some t | _ => None end
      | _ => None
      end
  | CSession l true =>
      match ig_steps mv (conn_begin c) l with
      | Ok (ig, _) => match conn_commit c ig with Ok (_, t) => Some t | _ => None end
      | _ => None
      end
  | _ => None
  end.

(** Several connections to one file: src/conn.rs:55-67, 232-294, transaction/src/lib.rs:88-98, 235-277, and the locking that SQLite does for them.
    Each connection has its own metadata (conn.rs:66) and, because [begin_transaction] borrows it mutably (conn.rs:289-294), at most one
    InProgress.  Writers begin IMMEDIATE transactions: SQLite lets one in at a time.  Readers do not change anything and are left out. *)
From Verif Require Export M_Conn.

Record shared := Shared { sh_disk : store; sh_conns : list (metadata * option inprog) }.

Inductive sh_op :=
  | SBegin (i : nat)               (* Conn::begin_transaction *)
  | SCall (i : nat) (o : ip_op)    (* a call on the InProgress of connection i *)
  | SCommit (i : nat)              (* InProgress::commit *)
  | SDrop (i : nat).               (* InProgress::rollback, or dropping it *)

Inductive sh_out := SOk | SBusy | SErr (e : dberr) | SPanicked (p : panicsite) | SNone.

(** Some connection holds the RESERVED lock. *)
Definition sh_locked (sh : shared) : bool := existsb (fun x : metadata * option inprog => is_some x.2) (sh_conns sh).
Definition sh_set (sh : shared) (i : nat) (md : metadata) (o : option inprog) : shared :=
  Shared (sh_disk sh) (<[i := (md, o)]> (sh_conns sh)).

(** One call.  A call that panics unwinds: the InProgress is dropped, which rolls SQLite back.  [SNone] answers calls that the types
    exclude. *)
Definition sh_step (mv : Z) (sh : shared) (o : sh_op) : shared * sh_out :=
  match o with
  | SBegin i =>
      match sh_conns sh !! i with
      | Some (md, None) => if sh_locked sh then (sh, SBusy) else (sh_set sh i md (Some (conn_begin (Conn (sh_disk sh) md))), SOk)
      | _ => (sh, SNone)
      end
  | SCall i o =>
      match sh_conns sh !! i with
      | Some (md, Some ig) =>
          match ig_step mv ig o with
          | (ig', Ok _) => (sh_set sh i md (Some ig'), SOk)
          | (ig', Err e) => (sh_set sh i md (Some ig'), SErr e)
          | (_, Panic p) => (sh_set sh i md None, SPanicked p)
          end
      | _ => (sh, SNone)
      end
  | SCommit i =>
      match sh_conns sh !! i with
      | Some (md, Some ig) =>
          match conn_commit (Conn (sh_disk sh) md) ig with
          | Ok (c, _) => (Shared (cn_disk c) (<[i := (cn_md c, None)]> (sh_conns sh)), SOk)
          | Err e => (sh_set sh i md None, SErr e)
          | Panic p => (sh_set sh i md None, SPanicked p)
          end
      | _ => (sh, SNone)
      end
  | SDrop i =>
      match sh_conns sh !! i with
      | Some (md, Some _) => (sh_set sh i md None, SOk)
      | _ => (sh, SNone)
      end
  end.

(** A run, with what each call answered *)
Fixpoint sh_run (mv : Z) (sh : shared) (l : list sh_op) : shared * list (sh_op * sh_out) :=
  match l with
  | [] => (sh, [])
  | o :: l => let '(sh1, r) := sh_step mv sh o in let '(sh2, t) := sh_run mv sh1 l in (sh2, (o, r) :: t)
  end.

(** Connections without an InProgress *)
Definition sh_start (disk : store) (mds : list metadata) : shared := Shared disk (map (fun md => (md, None)) mds).

(** Histories of a file, as its users see them. *)
From Verif Require Import M_Conn Spec_Tx.

(** The calls made on an InProgress are clean if each one succeeds or leaves the SQLite transaction as it was, and none goes back to
    a savepoint.  (Calls that are not clean are the subject of C07.) *)
Fixpoint clean_calls (mv : Z) (ig : inprog) (l : list ip_op) : Prop :=
  match l with
  | [] => True
  | o :: l =>
      let '(ig', r) := ig_step mv ig o in
      (match o with OpRollbackTo _ => False | _ => True end)
      /\ (r = Ok tt \/ ig_store ig' = ig_store ig)
      /\ clean_calls mv ig' l
  end.

(** A history is clean if what it commits was built by clean calls, and if reopening the file gives the attributes that were in
    memory.  (C26 says when it does.) *)
Fixpoint clean_history (mv : Z) (c : conn) (l : list conn_op) : Prop :=
  match l with
  | [] => True
  | o :: l =>
      let c' := (conn_step mv c o).1 in
      match o with
      | CTransact _ _ => True
      | CSession ops commit => commit = true -> clean_calls mv (conn_begin c) ops
      | CReopen => sc_attribute_map (md_schema (cn_md c')) = sc_attribute_map (md_schema (cn_md c))
      end
      /\ clean_history mv c' l
  end.

(** No attribute was ever uninstalled: the log has no retraction of a :db/valueType. *)
Definition never_uninstalled (l : list txrow) : Prop :=
  forall r, r ∈ l -> ~ (t_a r = DB_VALUE_TYPE /\ t_added r = false).

(** The connection [c] is the result of creating a store and a clean history during which no attribute was uninstalled. *)
Definition clean (mv : Z) (c : conn) : Prop :=
  exists now c0 l, conn_open mv now None = Ok c0 /\ c = conn_run mv c0 l /\ clean_history mv c0 l
    /\ never_uninstalled (st_log (cn_disk c)).

(** The errors that a transact can end in after it has begun to write *)
Definition late_errors : list dberr :=
  [ENotYetImplemented; EBadSQLValuePair; EBadSchemaAssertion; EUnrecognizedEntid; ESchemaAlterationFailed; EWrongTypeValueForFts;
   EFtsInsertionFailed; ECouldNotSearch; EDatomsUpdateFailedToAdd].

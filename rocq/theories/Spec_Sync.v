(** Files that share a remote log. *)
From Verif Require Import M_Sync Spec_Tx Spec_Conn Spec_Transact.

(** The history of a file can be sent: no attribute was ever uninstalled, transactions say when they happened and not when others
    did, none says anything about a later one, and what can be read of their values is what was written.  (C21 says when it is.)  The value of when the file was
    created is not sent. *)
Record sendable (l : list txrow) : Prop := {
  sd_installed : never_uninstalled l;
  sd_instant : forall r, r ∈ l -> t_a r = DB_TX_INSTANT -> t_e r = t_tx r;
  sd_earlier : forall r, r ∈ l -> TX0 <= t_e r -> t_e r <= t_tx r;
  sd_reads_back : forall r v, r ∈ l -> TX0 < t_tx r ->
    from_sql_value_pair (t_v r) (t_tag r) = Ok v -> to_sql_value_pair v = (t_v r, t_tag r) }.

(** Reopening the file gives the schema that was in memory.  (C26 says when it does.) *)
Fixpoint reopens_same (mv : Z) (c : conn) (l : list conn_op) : Prop :=
  match l with
  | [] => True
  | o :: l =>
      let c' := (conn_step mv c o).1 in
      (match o with CReopen => schema_of c' = schema_of c | _ => True end) /\ reopens_same mv c' l
  end.

(** A file that no one ever synced, and a file after calls that do not sync *)
Definition newcomer (c : conn) : peer := Peer c ∅ 0%N.
Definition worked (mv : Z) (l : list conn_op) (p : peer) : peer := Peer (conn_run mv (pe_conn p) l) (pe_tu p) (pe_known p).

(** Uuids are never given twice, and none is the nil uuid. *)
Definition uuids_fresh (U : nat -> N) : Prop := (forall i j, U i = U j -> i = j) /\ forall i, U i <> 0%N.

(** Files that share the remote [s], when [n] uuids have been used.  New ones join at any time.  One that has seen everything can do
    any work and then sync; one that did nothing since its last sync can sync at any time.  (A file that did some work and has not
    seen everything would have to merge.)  Syncs that fail are left out, because they can spoil the remote: see C48. *)
Inductive fleet (U : nat -> N) : remote -> nat -> list peer -> Prop :=
  | fleet_nobody : fleet U remote_empty 0 []
  | fleet_join s n ps mv now c : fleet U s n ps -> conn_open mv now None = Ok c -> fleet U s n (newcomer c :: ps)
  | fleet_push s n ps i p mv l w p' s' n' rep :
      fleet U s n ps -> ps !! i = Some p -> pe_known p = rm_head s ->
      clean_history mv (pe_conn p) l -> reopens_same mv (pe_conn p) l -> sendable (st_log (disk (conn_run mv (pe_conn p) l))) ->
      w_uuid w = U -> peer_sync w test_remote (worked mv l p) s n = ((p', s', n'), SOk rep) ->
      fleet U s' n' (<[i := p']> ps)
  | fleet_pull s n ps i p w p' s' n' rep :
      fleet U s n ps -> ps !! i = Some p -> w_uuid w = U -> peer_sync w test_remote p s n = ((p', s', n'), SOk rep) ->
      fleet U s' n' (<[i := p']> ps).

(** Two files have the same facts, the same transactions and the same schema.  Only when they were created may differ. *)
Definition about_creation (e a : Z) : Prop := e = TX0 /\ a = DB_TX_INSTANT.
Record replica (p q : peer) : Prop := {
  rp_facts : forall e a v, ~ about_creation e a -> ((e, a, v) ∈ facts (disk (pe_conn p)) <-> (e, a, v) ∈ facts (disk (pe_conn q)));
  rp_log : forall r, ~ about_creation (t_e r) (t_a r) -> (r ∈ transactions (disk (pe_conn p)) <-> r ∈ transactions (disk (pe_conn q)));
  rp_schema : schema_of (pe_conn p) = schema_of (pe_conn q) }.

(* ---------------------------------------------------------------- one sync *)

(** The latest transaction of a file, and whether the file has transactions that were not synced: [tu] says which were. *)
Definition latest (st : store) (tx : Z) : Prop :=
  (exists r, r ∈ transactions st /\ t_tx r = tx) /\ forall r, r ∈ transactions st -> t_tx r <= tx.
Definition unsynced (st : store) (tu : gmap Z N) : Prop := exists tx, latest st tx /\ tu !! tx = None.
(** A file to which something was transacted after it was created *)
Definition used (st : store) : Prop := exists r1 r2, r1 ∈ transactions st /\ r2 ∈ transactions st /\ t_tx r1 < t_tx r2.

(** [h'] comes after [h] when one follows the parents of transactions from [h']. *)
Inductive descends (log : list entry) (h : N) : N -> Prop :=
  | descends_here : descends log h h
  | descends_next en : en ∈ log -> descends log h (en_parent en) -> descends log h (en_uuid en).

(** What a remote becomes when clients sync with it, one after the other *)
Inductive later (s : remote) : remote -> Prop :=
  | later_refl : later s s
  | later_sync s1 w p n p' s2 n' r : later s s1 -> peer_sync w test_remote p s1 n = ((p', s2, n'), r) -> later s s2.

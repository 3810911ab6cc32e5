(** What rewinding is meant to do. *)
From Verif Require Import M_Timelines Spec_Tx Spec_Conn Spec_Transact.

(** The transactions from [from] on are those that happened between [c1] and [c2]. *)
Definition since (from : Z) (c1 c2 : conn) : Prop :=
  (forall r, r ∈ st_log (disk c1) -> t_tx r < from)
  /\ (forall r, r ∈ st_log (disk c2) -> r ∈ st_log (disk c1) \/ from <= t_tx r).

(** None of them says anything about attributes or idents. *)
Definition only_data (from : Z) (c : conn) : Prop :=
  forall r, r ∈ st_log (disk c) -> from <= t_tx r -> t_a r ∉ METADATA_LIST.
(** What can be read of their values is what was written.  (C21 says when it is.) *)
Definition reads_back (from : Z) (c : conn) : Prop :=
  forall r v, r ∈ st_log (disk c) -> from <= t_tx r ->
    from_sql_value_pair (t_v r) (t_tag r) = Ok v -> to_sql_value_pair v = (t_v r, t_tag r).
(** Nothing was ever said about the next transaction. *)
Definition next_tx_unused (c : conn) : Prop :=
  forall p r, parts_of c !! ":db.part/tx" = Some p -> r ∈ st_log (disk c) -> t_e r <> pt_next p.

(** The row after the move *)
Definition moved (from timeline : Z) (r : txrow) : txrow :=
  if decide (from <= t_tx r) then TxRow (t_e r) (t_a r) (t_v r) (t_tag r) (t_tx r) (t_added r) timeline else r.

(** The store [st] is that of [c2] rewound to [c1]: it has the facts of [c1], its main timeline is the one of [c1], and nothing of
    the log is lost. *)
Record rewound (from timeline : Z) (c1 c2 : conn) (st : store) : Prop := {
  rw_facts : forall x, x ∈ facts st <-> x ∈ facts (disk c1);
  rw_main : transactions st = transactions (disk c1);
  rw_log : st_log st = map (moved from timeline) (st_log (disk c2)) }.

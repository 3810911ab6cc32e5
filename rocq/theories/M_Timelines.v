(** Moving transactions off the main timeline: db/src/timelines.rs. *)
From Verif Require Export M_Conn.

(** timelines.rs:38-69 collect_ordered_txs_to_move.  GROUP BY tx ORDER BY tx DESC.  The query selects one timeline, so the rows
    cannot be of mixed timelines. *)
Definition collect_ordered_txs_to_move (st : store) (from timeline : Z) : res (list Z) :=
  match rev (merge_sort Z.le (remove_dups (map t_tx (filter (fun r => from <= t_tx r /\ t_timeline r = timeline) (st_log st))))) with
  | [] => Err ETimelinesInvalidRange
  | txs => Ok txs
  end.

(** timelines.rs:71-89 move_transactions_to.  The statement names the transactions but not the timeline they are on.  With more
    parameters than SQLite allows it fails. *)
Definition on_timeline (timeline : Z) (r : txrow) : txrow :=
  TxRow (t_e r) (t_a r) (t_v r) (t_tag r) (t_tx r) (t_added r) timeline.
Definition move_transactions_to (mv : Z) (st : store) (txs : list Z) (timeline : Z) : store * res unit :=
  if mv <? Z.of_nat (length txs) then (st, Err ESql)
  else (set_log st (map (fun r => if decide (t_tx r ∈ txs) then on_timeline timeline r else r) (st_log st)), Ok tt).

(** timelines.rs:91-94 remove_tx_from_datoms *)
Definition remove_tx_from_datoms (st : store) (tx : Z) : store :=
  set_datoms st (filter (fun d => d_e d <> tx) (st_datoms st)).

(** timelines.rs:96-102 is_timeline_empty *)
Definition is_timeline_empty (st : store) (timeline : Z) : bool :=
  is_nil (filter (fun r => t_timeline r = timeline) (st_log st)).

(** timelines.rs:105-134 reversed_terms_for.  The value is the one in the log, also for fulltext attributes. *)
Definition reversed_term (r : txrow) : res term_s :=
  let! v := from_sql_value_pair (t_v r) (t_tag r) in
  Ok (Term (if t_added r then ORetract else OAdd) (t_e r) (t_a r) v).
Definition reversed_terms_for (st : store) (tx : Z) : res (list term_s) :=
  rmapM reversed_term (filter (fun r => t_tx r = tx /\ t_timeline r = TIMELINE_MAIN) (st_log st)).

(** internal_types.rs:103-116 rewrap *)
Definition rewrap (t : term_s) : term_t := Term (tm_op t) (inl (tm_e t)) (tm_a t) (inl (tm_v t)).

(** timelines.rs:158-184: one transaction.  The schema and the partition map are the ones the caller passed, for every
    transaction. *)
Definition rewind_one (mv now : Z) (st : store) (s : schema) (pm : partition_map) (tx : Z) : store * res (option schema) :=
  match reversed_terms_for st tx with
  | Err e => (st, Err e)
  | Panic p => (st, Panic p)
  | Ok ts =>
      with_st (transact_terms mv now Materialize st pm s s (map rewrap ts) ∅) (fun st r =>
        (remove_tx_from_datoms st (rp_tx (tr_report r)), Ok (tr_schema r)))
  end.
(** timelines.rs:157-184: [last] is the schema that the previous transaction left; only the last one's is returned. *)
Fixpoint rewind_all (mv now : Z) (st : store) (s : schema) (pm : partition_map) (txs : list Z) (last : option schema)
    : store * res (option schema) :=
  match txs with
  | [] => (st, Ok last)
  | tx :: txs => with_st (rewind_one mv now st s pm tx) (fun st new => rewind_all mv now st s pm txs new)
  end.

(** timelines.rs:137-192 move_from_main_timeline, with [txs_from = from..].  All transactions of one call get the same clock
    reading; the instants are removed again. *)
Definition move_from_main_timeline (mv now : Z) (st : store) (s : schema) (pm : partition_map) (from timeline : Z)
    : store * res (option schema * partition_map) :=
  if decide (timeline = TIMELINE_MAIN) then (st, Err ENotYetImplemented) else
  if negb (is_timeline_empty st timeline) then (st, Err ETimelinesMoveToNonEmpty) else
  match collect_ordered_txs_to_move st from TIMELINE_MAIN with
  | Err e => (st, Err e)
  | Panic p => (st, Panic p)
  | Ok txs =>
      with_st (rewind_all mv now st s pm txs None) (fun st last =>
      with_st (move_transactions_to mv st txs timeline) (fun st _ =>
        (st, let! pm := read_partition_map st in Ok (last, pm))))
  end.

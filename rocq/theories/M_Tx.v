(** The transactor: db/src/tx.rs stages 3 and 4 (stage 1 and 2 are in M_Entity). *)
From Verif Require Export M_Upsert M_Meta.

Global Instance typed_value_countable : Countable typed_value.
Proof.
  refine (inj_countable'
    (fun v => match v with
      | TVRef e => inl (inl (inl e)) | TVBoolean b => inl (inl (inr b))
      | TVLong z => inl (inr (inl z)) | TVDouble d => inl (inr (inr (match d with DNaN => None | DKey k => Some k end)))
      | TVInstant z => inr (inl (inl z)) | TVString s => inr (inl (inr s))
      | TVKeyword k => inr (inr (inl k)) | TVUuid u => inr (inr (inr u)) end)
    (fun x => match x with
      | inl (inl (inl e)) => TVRef e | inl (inl (inr b)) => TVBoolean b
      | inl (inr (inl z)) => TVLong z
      | inl (inr (inr d)) => TVDouble (match d with None => DNaN | Some k => DKey k end)
      | inr (inl (inl z)) => TVInstant z | inr (inl (inr s)) => TVString s
      | inr (inr (inl k)) => TVKeyword k | inr (inr (inr u)) => TVUuid u end) _).
  intros [| | |[]| | | |]; reflexivity.
Defined.

(* ---------------------------------------------------------------- the trie *)

(** internal_types.rs:211-220 AddAndRetract, AEVTrie: a -> e -> (add, retract).  The attribute in the key of the
    Rust map is a function of [a]. *)
Record trie_entry := Entry { te_attr : attribute; te_add : gset typed_value; te_retract : gset typed_value }.
Notation trie := (gmap (Z * Z) trie_entry) (only parsing).

(** tx.rs:1081-1105, one term *)
Definition extend_trie (s : schema) (tr : trie) (t : term_s) : res trie :=
  let! at_ := require_attribute s (tm_a t) in
  let en := default (Entry at_ ∅ ∅) (tr !! (tm_a t, tm_e t)) in
  Ok (<[(tm_a t, tm_e t) := match tm_op t with
        | OAdd => Entry (te_attr en) ({[tm_v t]} ∪ te_add en) (te_retract en)
        | ORetract => Entry (te_attr en) (te_add en) ({[tm_v t]} ∪ te_retract en) end]> tr).

(** internal_types.rs:154-161 *)
Definition unwrap_term (t : term_t) : res term_s :=
  match tm_e t, tm_v t with
  | inl e, inl v => Ok (Term (tm_op t) e (tm_a t) v)
  | _, _ => Panic PUnwrapTerm
  end.

(** tx.rs:1107-1123.  The terms that upserted are not part of the trie. *)
Definition into_aev_trie (s : schema) (resolved allocated : list term_s) (inert : list term_t) : res trie :=
  let! tr := rfold (extend_trie s) ∅ resolved in
  let! tr := rfold (extend_trie s) tr allocated in
  let! ts := rmapM unwrap_term inert in
  rfold (extend_trie s) tr ts.

(** tx_checking.rs:27-42 *)
Definition entry_typed (en : trie_entry) : bool :=
  bool_decide (set_Forall (fun v => tv_type v = at_type (te_attr en)) (te_add en ∪ te_retract en)).
(** tx_checking.rs:55-75 *)
Definition entry_no_conflict (en : trie_entry) : bool :=
  (at_multival (te_attr en) || bool_decide (size (te_add en) <= 1)%nat)
  && bool_decide (te_add en ## te_retract en).
Definition trie_all (f : trie_entry -> bool) (tr : trie) : bool :=
  bool_decide (map_Forall (fun _ en => f en = true) tr).

(** tx.rs:1127-1157.  [now] is the clock, already truncated to microseconds. *)
Definition get_or_insert_tx_instant (s : schema) (now tx : Z) (tr : trie) : res (Z * trie) :=
  let! at_ := require_attribute s DB_TX_INSTANT in
  let en := default (Entry at_ ∅ ∅) (tr !! (DB_TX_INSTANT, tx)) in
  match elements (te_add en) with
  | [] => Ok (now, <[(DB_TX_INSTANT, tx) := Entry (te_attr en) ({[TVInstant now]} ∪ te_add en) (te_retract en)]> tr)
  | [TVInstant i] => Ok (i, <[(DB_TX_INSTANT, tx) := en]> tr)
  | _ => Panic PTxInstant
  end.

(** tx.rs:868-887: the datoms of an entry; BTreeMap order is replaced by the order of [gmap]. *)
Definition entry_reduced (k : Z * Z) (en : trie_entry) : list reduced :=
  map (fun v => Reduced k.2 k.1 (te_attr en) v true) (elements (te_add en))
  ++ map (fun v => Reduced k.2 k.1 (te_attr en) v false) (elements (te_retract en)).
Definition trie_reduced (tr : trie) : list reduced :=
  flat_map (fun p => entry_reduced p.1 p.2) (map_to_list tr).

(** tx.rs:886: what the watcher is told *)
Definition event : Type := op * Z * Z * typed_value.
Definition reduced_event (r : reduced) : event :=
  (if r_added r then OAdd else ORetract, r_e r, r_a r, r_v r).

(* ---------------------------------------------------------------- stage 4 *)

(** db/src/tx.rs:104-107 TransactorAction *)
Inductive action := Materialize | MaterializeAndCommit.

(** db/src/types.rs TxReport *)
Record txreport := TxReport { rp_tx : Z; rp_instant : Z; rp_tempids : gmap string Z }.

Definition with_st {A B} (x : store * res A) (k : store -> A -> store * res B) : store * res B :=
  match x with
  | (st, Ok a) => k st a
  | (st, Err e) => (st, Err e)
  | (st, Panic p) => (st, Panic p)
  end.

(** tx.rs:868-911: queues and search tables.  An empty queue is not inserted. *)
Definition is_queue (fts many : bool) (r : reduced) : bool :=
  Bool.eqb (at_fulltext (r_attr r)) fts && Bool.eqb (at_multival (r_attr r)) many.
Definition queue (fts many : bool) (l : list reduced) : list reduced :=
  filter (fun r => is_queue fts many r = true) l.

Definition fill_searches (mv : Z) (st : store) (l : list reduced) : store * res (list srow * list srow) :=
  let one := queue false false l in
  let many := queue false true l in
  let fone := queue true false l in
  let fmany := queue true true l in
  with_st (st, if is_nil one then Ok [] else insert_non_fts_searches mv inexact_ok [] one) (fun st inexact =>
  with_st (st, if is_nil many then Ok [] else insert_non_fts_searches mv exact_ok [] many) (fun st exact =>
  with_st (if is_nil fone then (st, Ok inexact) else insert_fts_searches mv inexact_ok st inexact fone) (fun st inexact =>
  with_st (if is_nil fmany then (st, Ok exact) else insert_fts_searches mv exact_ok st exact fmany) (fun st exact =>
  (st, Ok (exact, inexact)))))).

(** tx.rs:912-921, db.rs:1088-1096 *)
Definition materialize (act : action) (st : store) (tx : Z) (exact inexact : list srow)
    : store * res (list sresult) :=
  match search (st_datoms st) exact inexact with
  | Err e => (st, Err e)
  | Panic p => (st, Panic p)
  | Ok rs =>
      with_st (update_datoms st tx rs) (fun st _ =>
        (match act with MaterializeAndCommit => insert_transaction st tx rs | Materialize => st end, Ok rs))
  end.

(** tx.rs:925-962: metadata *)
Definition evolve_metadata (act : action) (st : store) (schema_mut : schema) (tx : Z) (rs : list sresult)
    : store * res (option schema) :=
  let quads := match act with
               | Materialize => resolved_metadata_assertions rs
               | MaterializeAndCommit => committed_metadata_assertions st tx
               end in
  match (let! q := quads in update_schema_from_entid_quadruples schema_mut q) with
  | Err e => (st, Err e)
  | Panic p => (st, Panic p)
  | Ok (new_schema, rep) =>
      if decide (new_schema = schema_mut) then (st, Ok None)
      else with_st (update_metadata st new_schema rep) (fun st _ => (st, Ok (Some new_schema)))
  end.

(** The result of a transaction: report, partition map, new schema if it changed, watcher events. *)
Record txresult := TxResult {
  tr_report : txreport; tr_parts : partition_map; tr_schema : option schema; tr_events : list event }.

(** tx.rs:837-968 *)
Definition apply_trie (mv now : Z) (act : action) (st : store) (schema_mut s : schema) (tx : Z) (tr : trie)
    : store * res (Z * option schema * list event) :=
  if negb (trie_all entry_typed tr) then (st, Err ETypeDisagreements) else
  if negb (trie_all entry_no_conflict tr) then (st, Err ECardinalityConflicts) else
  match get_or_insert_tx_instant s now tx tr with
  | Err e => (st, Err e)
  | Panic p => (st, Panic p)
  | Ok (instant, tr) =>
      let l := trie_reduced tr in
      with_st (fill_searches mv st l) (fun st '(exact, inexact) =>
      with_st (materialize act st tx exact inexact) (fun st rs =>
      with_st (if existsb (fun r => might_update_metadata (r_a r)) l
               then evolve_metadata act st schema_mut tx rs else (st, Ok None)) (fun st sc =>
      (st, Ok (instant, sc, map reduced_event l)))))
  end.

(* ---------------------------------------------------------------- stage 3 *)

(** tx.rs:788-827: what stage 3 computes: the partition map, the report's tempids, and the populations. *)
Record resolved_terms := Resolved {
  rv_parts : partition_map;
  rv_tempids : tempid_map;
  rv_upserted : list term_s;
  rv_resolved : list term_s;
  rv_allocated : list term_s;
  rv_inert : list term_t }.

Definition resolve_terms (mv : Z) (st : store) (pm : partition_map) (s : schema)
    (ts : list term_t) (tempid_set : gset tempid) : res resolved_terms :=
  let! (g, inert) := gen_from s ts in
  let! (g, tempids) := evolve_loop (evolve_fuel g) mv st g ∅ in
  let g := allocate_unresolved_upserts g in
  let! labels := temp_ids_in_allocations s g in
  let! (start, pm) := pm_allocate pm ":db.part/user" (Z.of_nat (length labels)) in
  let allocs : tempid_map := list_to_map (map (fun '(t, i) => (t, start + Z.of_nat i)) labels) in
  let! (upserted, resolved, allocated) := into_final_populations g allocs in
  if negb (bool_decide (map_Forall (fun t _ => tempids !! t = None) allocs)) then Panic PTx808 else
  let tempids := allocs ∪ tempids in
  if negb (bool_decide (dom tempids = tempid_set)) then Panic PTx813 else
  Ok (Resolved pm tempids upserted resolved allocated inert).

(** tx.rs:822-826: only external tempids are reported. *)
Definition report_tempids (m : tempid_map) : gmap string Z :=
  list_to_map (flat_map (fun p => match p.1 with TExternal x => [(x, p.2)] | TInternal _ => [] end) (map_to_list m)).

(** tx.rs:722-969 *)
Definition transact_simple_terms (mv now : Z) (act : action) (st : store) (pm : partition_map)
    (schema_mut s : schema) (tx : Z) (ts : list term_t) (tempid_set : gset tempid)
    : store * res txresult :=
  match resolve_terms mv st pm s ts tempid_set with
  | Err e => (st, Err e)
  | Panic p => (st, Panic p)
  | Ok r =>
      match into_aev_trie s (rv_resolved r) (rv_allocated r) (rv_inert r) with
      | Err e => (st, Err e)
      | Panic p => (st, Panic p)
      | Ok tr =>
          with_st (apply_trie mv now act st schema_mut s tx tr) (fun st '(instant, sc, ev) =>
            (st, Ok (TxResult (TxReport tx instant (report_tempids (rv_tempids r))) (rv_parts r) sc ev)))
      end
  end.

(** tx.rs:973-994 start_tx, 1060-1079 transact_terms_with_action *)
Definition transact_terms (mv now : Z) (act : action) (st : store) (pm : partition_map)
    (schema_mut s : schema) (ts : list term_t) (tempid_set : gset tempid) : store * res txresult :=
  match pm_allocate pm ":db.part/tx" 1 with
  | Err e => (st, Err e)
  | Panic p => (st, Panic p)
  | Ok (tx, pm) => transact_simple_terms mv now act st pm schema_mut s tx ts tempid_set
  end.

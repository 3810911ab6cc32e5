(** Properties of transactions: C01-C10, C12-C20, C23, C50, C51.

    [clean mv c]: the connection [c] was reached from a new file by any number of transacts, sessions and reopenings, as Spec_Conn
    says.  [accepted mv now c es c' r]: moreover, transacting [es] succeeded with report [r] and leads to [c'].
    [understood c es r l ts σ]: what the input says, independently of the transactor (Spec_Transact). *)
From Verif Require Import M_Conn Spec_Partition Spec_Tx Spec_Conn Spec_Upsert Spec_Entity Spec_Transact.
From Verif Require Import P_Conn P_Entity P_TxProps P_Panic P_History P_TxThms Cases.

(** A transaction with an upsert, a new entity, a changed value and a retraction *)
Definition case_tx : list entity :=
  [ add (tmp "t") (person "name") (v_str "Ivan"); add (tmp "t") (person "age") (v_int 31); add (tmp "t") (person "friend") (v_str "u");
    add (tmp "u") (person "name") (v_str "Olga"); retract (ent 65544) (person "friend") (v_int 65543) ].
Example case_tx_accepted : accepted MV 4000 case_conn case_tx (after case_conn case_tx) (report case_conn case_tx).
Proof. apply accepts; [exact case_clean|vm_compute; reflexivity]. Qed.

(* ------------------------------------------------------------------ C01 *)

(** C01: the datoms of a store are what replaying its log gives, with the transaction that asserted each last. *)
Theorem C01_log_determines_datoms : forall mv c, clean mv c -> forall k tx,
  replay (transactions (disk c)) k = Some tx <-> exists d, d ∈ st_datoms (disk c) /\ d_key d = k /\ d_tx d = tx.
Proof. exact (fun mv c H => conn_replay c (clean_ok mv c H)). Qed.
Print Assumptions C01_log_determines_datoms.
Example C01_log_determines_datoms_case : clean MV case_conn
  /\ replay (transactions (disk (after case_conn case_tx))) (65543, 65536, 5, SInt 30) = None
  /\ replay (transactions (disk (after case_conn case_tx))) (65543, 65536, 5, SInt 31) = Some 268435459.
Proof. split; [exact case_clean|]. split; vm_compute; reflexivity. Qed.

(** ... and so are the facts that queries see, where the row of a fulltext value holds the number of the text. *)
Theorem C01_log_determines_facts : forall mv c, clean mv c -> forall e a p, (e, a, p) ∈ facts (disk c) <->
  exists row, row ∈ transactions (disk c) /\ replay (transactions (disk c)) (t_key row) = Some (t_tx row)
    /\ t_e row = e /\ t_a row = a /\ row_value (sc_attribute_map (schema_of c)) (disk c) row p.
Proof. exact (fun mv c H => replay_facts c (clean_ok mv c H)). Qed.
Print Assumptions C01_log_determines_facts.
Example C01_log_determines_facts_case : clean MV case_conn
  /\ bool_decide ((65543, 65537, (SText "a life", 10)) ∈ facts (disk case_conn)) = true.
Proof. split; [exact case_clean|vm_compute; reflexivity]. Qed.

(** The statement is false for histories that retract the :db/valueType of an attribute and install it again with another type: an
    assertion in the log is never undone, though the datom is gone.  Nor do values then have the type of their attribute (C05). *)
Definition uninstall_age : list entity :=
  [ retract (EPEntid (EIdent (person "age"))) (db_ "valueType") (v_kw (nskw "db.type" "long"));
    retract (EPEntid (EIdent (person "age"))) (db_ "cardinality") (v_kw (nskw "db.cardinality" "one"));
    retract (EPEntid (EIdent (person "age"))) (db_ "ident") (v_kw (person "age")) ].
Definition install_age : list entity :=
  [ add (ent 65536) (db_ "ident") (v_kw (person "age")); add (ent 65536) (db_ "valueType") (v_kw (nskw "db.type" "string"));
    add (ent 65536) (db_ "cardinality") (v_kw (nskw "db.cardinality" "one")) ].
Definition reinstall : list conn_op :=
  case_history ++ [CTransact 4000 uninstall_age; CTransact 5000 install_age; CTransact 6000 [add (ent 65543) (person "age") (v_str "old")]].
Theorem C01_uninstall_refuted : exists l, only_transacts l = true
  /\ (exists k tx, replay (transactions (disk (run l))) k = Some tx /\ forall d, d ∈ st_datoms (disk (run l)) -> d_key d <> k)
  /\ ~ well_typed (schema_of (run l)) (disk (run l)).
Proof.
  exists reinstall. split; [reflexivity|]. split.
  - exists (65543, 65536, 5, SInt 30), 268435458. split; [vm_compute; reflexivity|]. apply no_datom. vm_compute. reflexivity.
  - apply (ill_typed _ _ 65544 65536 40); vm_compute; reflexivity.
Qed.
Print Assumptions C01_uninstall_refuted.

(* ------------------------------------------------------------------ C02 *)

(** C02: in the log, a datom is asserted, retracted, asserted... in turn, and no transaction mentions a datom twice. *)
Theorem C02_log_minimal : forall mv c, clean mv c -> log_minimal (disk c).
Proof. exact (fun mv c H => match conn_store_ok c (clean_ok mv c H) with ex_intro _ _ So => P_Inv.so_min _ _ _ So end). Qed.
Print Assumptions C02_log_minimal.
Example C02_log_minimal_case : clean MV case_conn /\ length (st_log (disk case_conn)) <> 0%nat.
Proof. split; [exact case_clean|vm_compute; discriminate]. Qed.

(** The rows that a transaction adds to the log are exactly the differences between the facts before and after. *)
Theorem C02_rows_are_changes : forall mv now c es c' r, accepted mv now c es c' r ->
  exists new, st_log (disk c') = st_log (disk c) ++ new
    /\ (forall row, row ∈ new -> t_tx row = rp_tx r /\ t_timeline row = TIMELINE_MAIN
         /\ exists p, row_value (sc_attribute_map (schema_of c)) (disk c') row p)
    /\ forall e a p b,
         (exists row, row ∈ new /\ t_e row = e /\ t_a row = a /\ t_added row = b /\ row_value (sc_attribute_map (schema_of c)) (disk c') row p)
         <-> changed (disk c) (disk c') b (e, a, p).
Proof. exact (fun _ _ _ _ _ _ => thm_rows). Qed.
Print Assumptions C02_rows_are_changes.
Example C02_rows_are_changes_case : accepted MV 4000 case_conn case_tx (after case_conn case_tx) (report case_conn case_tx)
  /\ length (st_log (disk (after case_conn case_tx))) = (length (st_log (disk case_conn)) + 6)%nat.
Proof. split; [exact case_tx_accepted|vm_compute; reflexivity]. Qed.

(* ------------------------------------------------------------------ C03, C04, C05 *)

(** C03 *)
Theorem C03_cardinality_one : forall mv c, clean mv c -> card_one (schema_of c) (disk c).
Proof. exact (fun mv c H => conn_card_one c (clean_ok mv c H)). Qed.
Print Assumptions C03_cardinality_one.
Example C03_cardinality_one_case : clean MV case_conn /\ at_multival <$> sc_attribute_map (schema_of case_conn) !! 65536 = Some false
  /\ bool_decide ((65543, 65536, (SInt 30, 5)) ∈ facts (disk case_conn)) = true.
Proof. split; [exact case_clean|]. split; vm_compute; reflexivity. Qed.

(** C04 *)
Theorem C04_values_unique : forall mv c, clean mv c -> values_unique (schema_of c) (disk c).
Proof. exact (fun mv c H => conn_values_unique c (clean_ok mv c H)). Qed.
Print Assumptions C04_values_unique.
Example C04_values_unique_case : clean MV case_conn /\ (at_unique <$> sc_attribute_map (schema_of case_conn) !! 65541) = Some (Some UIdentity)
  /\ bool_decide ((65543, 65541, (SText "Ivan", 10)) ∈ facts (disk case_conn)) = true.
Proof. split; [exact case_clean|]. split; vm_compute; reflexivity. Qed.

(** C05 *)
Theorem C05_well_typed : forall mv c, clean mv c -> well_typed (schema_of c) (disk c) /\ facts_distinct (disk c).
Proof. exact (fun mv c H => conj (conn_well_typed c (clean_ok mv c H)) (conn_facts_distinct c (clean_ok mv c H))). Qed.
Print Assumptions C05_well_typed.
Example C05_well_typed_case : clean MV case_conn /\ facts (disk case_conn) <> [].
Proof. split; [exact case_clean|vm_compute; discriminate]. Qed.

(** A literal of an accepted input reads at the type of its attribute, or is a tempid at type ref. *)
Theorem C05_literals_typed : forall mv now c es c' r, accepted mv now c es c' r ->
  forall o e a v, EntAdd o e a (VPAtom v) ∈ es -> written_backward a = false ->
  exists n at_, reads_name (schema_of c) a n /\ sc_attribute_map (schema_of c) !! n = Some at_
    /\ ((exists tv, reads_literal (schema_of c) v (at_type at_) tv) \/ (at_type at_ = VTRef /\ is_Some (as_tempid v))).
Proof. exact (fun _ _ _ _ _ _ H o e a v => thm_literal H o e a v). Qed.
Print Assumptions C05_literals_typed.
Example C05_literals_typed_case : result case_conn [add (tmp "t") (person "age") (v_str "x")] = Err EBadValuePair
  /\ accepted MV 4000 case_conn case_tx (after case_conn case_tx) (report case_conn case_tx).
Proof. split; [vm_compute; reflexivity|exact case_tx_accepted]. Qed.

(** Whatever a transaction asks for has the type of its attribute, unless it is dropped as part of an upsert. *)
Theorem C05_asked_typed : forall mv now c es c' r, accepted mv now c es c' r -> exists l ts σ, understood c es r l ts σ
  /\ forall t o e a v, t ∈ ts -> subst σ t = Some (Term o e a v) ->
     (exists at_, sc_attribute_map (schema_of c) !! a = Some at_ /\ tv_type v = at_type at_) \/ upserting c ts σ t.
Proof. exact (fun _ _ _ _ _ _ => thm_typed). Qed.
Print Assumptions C05_asked_typed.
Example C05_asked_typed_case : accepted MV 4000 case_conn case_tx (after case_conn case_tx) (report case_conn case_tx).
Proof. exact case_tx_accepted. Qed.

(* ------------------------------------------------------------------ C06, C07 *)

(** C06: a transact that fails, or a session that is dropped, leaves the connection and the file as they were.  (Caches: C37.) *)
Theorem C06_failed_transact : forall mv now c es c' r, conn_transact mv now c es = (c', r) -> (forall x, r <> Ok x) -> c' = c.
Proof. exact conn_transact_fail. Qed.
Print Assumptions C06_failed_transact.
Theorem C06_dropped_session : forall mv c l, (conn_step mv c (CSession l false)).1 = c.
Proof. exact thm_dropped. Qed.
Print Assumptions C06_dropped_session.
(** A transaction that fails at its last statement, after writing *)
Definition failing : list entity := [add (ent 65543) (person "age") (v_int 77); add (ent 65544) (person "name") (v_str "Ivan")].
Example C06_failed_transact_case : result case_conn failing = Err EDatomsUpdateFailedToAdd.
Proof. vm_compute. reflexivity. Qed.
Example C06_dropped_session_case :
  (conn_step MV case_conn (CSession [OpTransact 4000 case_tx; OpTransact 5000 failing] false)).2 = Ok tt.
Proof. vm_compute. reflexivity. Qed.

(** C07: of a transact that fails inside an InProgress, the errors before the first write leave it as it was. *)
Theorem C07_early_errors_partial : forall mv now ig es ig' e, ig_transact mv now ig es = (ig', Err e) -> e ∉ late_errors ->
  ig_store ig' = ig_store ig /\ ig_parts ig' = ig_parts ig /\ ig_schema ig' = ig_schema ig /\ ig_gen ig' = ig_gen ig.
Proof. exact ig_transact_late. Qed.
Print Assumptions C07_early_errors_partial.
Example C07_early_errors_partial_case :
  (ig_transact MV 4000 (conn_begin case_conn) [add (ent 99999) (person "friend") (v_int 65543)]).2 = Err EUnallocatedEntid
  /\ bool_decide (EUnallocatedEntid ∉ late_errors) = true.
Proof. split; vm_compute; reflexivity. Qed.
(** The full statement is false: committing after a failed transact loses facts that nothing retracted. *)
Theorem C07_failed_then_commit_refuted : exists c es e, clean MV c
  /\ (ig_transact MV 4000 (conn_begin c) es).2 = Err e
  /\ exists f, f ∈ facts (disk c) /\ f ∉ facts (disk (conn_step MV c (CSession [OpTransact 4000 es] true)).1).
Proof.
  exists case_conn, failing, EDatomsUpdateFailedToAdd. split; [exact case_clean|]. split; [vm_compute; reflexivity|].
  exists (65543, 65536, (SInt 30, 5)). split; [apply fact_is_in|apply fact_not_in]; vm_compute; reflexivity.
Qed.
Print Assumptions C07_failed_then_commit_refuted.

(* ------------------------------------------------------------------ C08 *)

(** C08: the id of a transaction is greater than those of all rows of the log, which new rows carry (C02). *)
Theorem C08_tx_greater : forall mv now c es c' r, accepted mv now c es c' r ->
  (forall row, row ∈ st_log (disk c) -> t_tx row < rp_tx r) /\ TX0 <= rp_tx r <= I64_MAX.
Proof. exact (fun _ _ _ _ _ _ => thm_tx). Qed.
Print Assumptions C08_tx_greater.
Example C08_tx_greater_case : accepted MV 4000 case_conn case_tx (after case_conn case_tx) (report case_conn case_tx)
  /\ rp_tx (report case_conn case_tx) = 268435459.
Proof. split; [exact case_tx_accepted|vm_compute; reflexivity]. Qed.

(** Ids increase along histories, whatever happens between two transactions, and also if the file is reopened. *)
Theorem C08_tx_increases : forall mv now1 now2 c es1 es2 c1 r1 l c3 r2,
  clean mv c -> conn_transact mv now1 c es1 = (c1, Ok r1) -> clean_history mv c1 l ->
  conn_transact mv now2 (conn_run mv c1 l) es2 = (c3, Ok r2) -> never_uninstalled (st_log (disk c3)) -> rp_tx r1 < rp_tx r2.
Proof. exact txs_increase. Qed.
Print Assumptions C08_tx_increases.
Example C08_tx_increases_case : clean MV case_conn /\ is_ok (result case_conn case_tx) = true
  /\ is_ok (result (conn_run MV (after case_conn case_tx) [CTransact 4000 failing; CReopen]) case_tx) = true
  /\ rp_tx (report (conn_run MV (after case_conn case_tx) [CTransact 4000 failing; CReopen]) case_tx) = 268435460.
Proof. split; [exact case_clean|]. split_and!; vm_compute; reflexivity. Qed.

(** The instant of the report is recorded as the transaction's :db/txInstant; it is the time of the call unless the input gives
    another.  (The exception is a fact about the transaction that was there before it, which C19 is about.) *)
Theorem C08_instant : forall mv now c es c' r, accepted mv now c es c' r -> exists l ts σ, understood c es r l ts σ
  /\ (holds (disk c') (rp_tx r) DB_TX_INSTANT (TVInstant (rp_instant r))
      \/ holds (disk c) (rp_tx r) DB_TX_INSTANT (TVInstant (rp_instant r)) /\ exists w, asks ts σ ORetract (rp_tx r) DB_TX_INSTANT w)
  /\ (rp_instant r = now \/ asks ts σ OAdd (rp_tx r) DB_TX_INSTANT (TVInstant (rp_instant r))).
Proof. exact (fun _ _ _ _ _ _ => thm_instant). Qed.
Print Assumptions C08_instant.
Example C08_instant_case : accepted MV 4000 case_conn case_tx (after case_conn case_tx) (report case_conn case_tx)
  /\ rp_instant (report case_conn case_tx) = 4000
  /\ rp_instant (report case_conn [add (EPTxFn "transaction-tx") (db_ "txInstant") (VPAtom (VTyped (TVInstant 1000)))]) = 1000.
Proof. split; [exact case_tx_accepted|]. split; vm_compute; reflexivity. Qed.

(* ------------------------------------------------------------------ C09 *)

(** C09: an assertion of an accepted transaction holds afterwards, unless it was dropped as part of an upsert, or held before and
    the same transaction retracts another value. *)
Theorem C09_assertions_hold : forall mv now c es c' r, accepted mv now c es c' r -> exists l ts σ, understood c es r l ts σ
  /\ forall t e a v, t ∈ ts -> subst σ t = Some (Term OAdd e a v) ->
     holds (disk c') e a v \/ upserting c ts σ t
     \/ holds (disk c) e a v /\ exists w, w <> v /\ asks ts σ ORetract e a w
          /\ (card_many_attr (schema_of c) a -> to_sql_value_pair w = to_sql_value_pair v).
Proof. exact (fun _ _ _ _ _ _ => thm_add). Qed.
Print Assumptions C09_assertions_hold.
Example C09_assertions_hold_case : accepted MV 4000 case_conn case_tx (after case_conn case_tx) (report case_conn case_tx)
  /\ bool_decide ((65543, 65536, (SInt 31, 5)) ∈ facts (disk (after case_conn case_tx))) = true.
Proof. split; [exact case_tx_accepted|vm_compute; reflexivity]. Qed.

(** In terms of the input: an assertion about an entity named by number *)
Theorem C09_plain_assertion : forall mv now c es c' r, accepted mv now c es c' r -> forall e a n at_ v tv,
  EntAdd OAdd (EPEntid (EEntid e)) a (VPAtom v) ∈ es -> written_backward a = false ->
  reads_name (schema_of c) a n -> sc_attribute_map (schema_of c) !! n = Some at_ -> reads_literal (schema_of c) v (at_type at_) tv ->
  as_tempid v = None \/ at_type at_ <> VTRef ->
  holds (disk c') e n tv
  \/ holds (disk c) e n tv /\ exists l ts σ w, understood c es r l ts σ /\ w <> tv /\ asks ts σ ORetract e n w
       /\ (at_multival at_ = true -> to_sql_value_pair w = to_sql_value_pair tv).
Proof. exact (fun _ _ _ _ _ _ H => thm_plain_add H). Qed.
Print Assumptions C09_plain_assertion.
Example C09_plain_assertion_case :
  accepted MV 4000 case_conn [add (ent 65543) (person "age") (v_int 32)] (after case_conn [add (ent 65543) (person "age") (v_int 32)])
    (report case_conn [add (ent 65543) (person "age") (v_int 32)])
  /\ reads_literal (schema_of case_conn) (VEdn (EInt 32)) VTLong (TVLong 32).
Proof. split; [apply accepts; [exact case_clean|vm_compute; reflexivity]|done]. Qed.

(** The unrestricted statement is false in both ways. *)
Definition dropped : list entity := [add (tmp "t") (person "name") (v_str "Ivan"); add (tmp "t") (person "email") (v_str "i@x")].
Theorem C09_upsert_drops_refuted : exists c es c' r, accepted MV 4000 c es c' r /\ rp_tempids r !! "t" = Some 65543
  /\ add (tmp "t") (person "email") (v_str "i@x") ∈ es /\ ~ holds (disk c') 65543 65540 (TVString "i@x").
Proof.
  exists case_conn, dropped, (after case_conn dropped), (report case_conn dropped).
  split; [apply accepts; [exact case_clean|vm_compute; reflexivity]|]. split; [vm_compute; reflexivity|]. split; [right; left|].
  apply fact_not_in. vm_compute. reflexivity.
Qed.
Print Assumptions C09_upsert_drops_refuted.
Definition undone : list entity := [add (ent 65543) (person "age") (v_int 30); retract (ent 65543) (person "age") (v_int 31)].
Theorem C09_retract_other_refuted : exists c es c' r, accepted MV 4000 c es c' r
  /\ add (ent 65543) (person "age") (v_int 30) ∈ es /\ ~ holds (disk c') 65543 65536 (TVLong 30).
Proof.
  exists case_conn, undone, (after case_conn undone), (report case_conn undone).
  split; [apply accepts; [exact case_clean|vm_compute; reflexivity]|]. split; [left|].
  apply fact_not_in. vm_compute. reflexivity.
Qed.
Print Assumptions C09_retract_other_refuted.

(* ------------------------------------------------------------------ C10 *)

(** C10: what is retracted does not hold afterwards, unless it is also asserted; whatever disappears was retracted (the value named,
    for cardinality many) or replaced; whatever appears was asserted, or is the transaction's own instant. *)
Theorem C10_changes_are_asked : forall mv now c es c' r, accepted mv now c es c' r -> exists l ts σ, understood c es r l ts σ
  /\ (forall e a v, asks ts σ ORetract e a v -> holds (disk c') e a v ->
        ~ holds (disk c) e a v
        /\ ((exists w, w <> v /\ asks ts σ OAdd e a w /\ to_sql_value_pair w = to_sql_value_pair v) \/ is_instant r e a (to_sql_value_pair v)))
  /\ (forall e a p, changed (disk c) (disk c') false (e, a, p) ->
        (exists w, asks ts σ ORetract e a w /\ (card_many_attr (schema_of c) a -> to_sql_value_pair w = p))
        \/ (card_one_attr (schema_of c) a /\ exists w, to_sql_value_pair w <> p /\ holds (disk c') e a w
            /\ (asks ts σ OAdd e a w \/ is_instant r e a (to_sql_value_pair w))))
  /\ (forall e a p, changed (disk c) (disk c') true (e, a, p) ->
        (exists w, asks ts σ OAdd e a w /\ to_sql_value_pair w = p) \/ is_instant r e a p).
Proof. exact (fun _ _ _ _ _ _ => thm_retract). Qed.
Print Assumptions C10_changes_are_asked.
Example C10_changes_are_asked_case : accepted MV 4000 case_conn case_tx (after case_conn case_tx) (report case_conn case_tx)
  /\ bool_decide ((65544, 65538, (SInt 65543, 0)) ∈ facts (disk (after case_conn case_tx))) = false
  /\ bool_decide ((65543, 65536, (SInt 30, 5)) ∈ facts (disk (after case_conn case_tx))) = false.
Proof. split; [exact case_tx_accepted|]. split; vm_compute; reflexivity. Qed.
(** For cardinality one the value named by the retraction does not matter. *)
Definition wrong_retract : list entity := [retract (ent 65543) (person "age") (v_int 31)].
Theorem C10_wrong_value_refuted : exists c es c' r, accepted MV 4000 c es c' r /\ es = [retract (ent 65543) (person "age") (v_int 31)]
  /\ holds (disk c) 65543 65536 (TVLong 30) /\ ~ holds (disk c') 65543 65536 (TVLong 30).
Proof.
  exists case_conn, wrong_retract, (after case_conn wrong_retract), (report case_conn wrong_retract).
  split; [apply accepts; [exact case_clean|vm_compute; reflexivity]|]. split; [reflexivity|].
  split; [apply fact_is_in|apply fact_not_in]; vm_compute; reflexivity.
Qed.
Print Assumptions C10_wrong_value_refuted.

(* ------------------------------------------------------------------ C12 *)

(** C12: if everything asked for already holds, no fact changes and nothing but the instant is logged. *)
Theorem C12_noop : forall mv now c es c' r, accepted mv now c es c' r -> exists l ts σ, understood c es r l ts σ
  /\ ((forall t, t ∈ ts -> exists e a v, subst σ t = Some (Term OAdd e a v) /\ holds (disk c) e a v) ->
      (forall e a p, (e, a) <> (rp_tx r, DB_TX_INSTANT) -> (e, a, p) ∈ facts (disk c') <-> (e, a, p) ∈ facts (disk c))
      /\ exists new, st_log (disk c') = st_log (disk c) ++ new /\ forall x, x ∈ new -> t_e x = rp_tx r /\ t_a x = DB_TX_INSTANT).
Proof. exact (fun _ _ _ _ _ _ => thm_noop). Qed.
Print Assumptions C12_noop.
Definition noop : list entity := [add (ent 65543) (person "age") (v_int 30); add (tmp "t") (person "name") (v_str "Ivan"); add (tmp "t") (person "nick") (v_str "Vanya")].
Example C12_noop_case : accepted MV 4000 case_conn noop (after case_conn noop) (report case_conn noop)
  /\ rp_tempids (report case_conn noop) !! "t" = Some 65543
  /\ length (st_log (disk (after case_conn noop))) = S (length (st_log (disk case_conn))).
Proof. split; [apply accepts; [exact case_clean|vm_compute; reflexivity]|]. split; vm_compute; reflexivity. Qed.

(* ------------------------------------------------------------------ C13 *)

(** C13: the report has exactly the user's tempids, and every term has a meaning under the resolution it reports. *)
Theorem C13_tempids_resolved : forall mv now c es c' r, accepted mv now c es c' r -> exists l ts σ, understood c es r l ts σ
  /\ (forall t, t ∈ ts -> is_Some (subst σ t))
  /\ forall n, is_Some (rp_tempids r !! n) <-> exists t, t ∈ ts /\ TExternal n ∈ tempids_of t.
Proof. exact (fun _ _ _ _ _ _ => thm_tempids). Qed.
Print Assumptions C13_tempids_resolved.
Example C13_tempids_resolved_case : accepted MV 4000 case_conn case_tx (after case_conn case_tx) (report case_conn case_tx)
  /\ rp_tempids (report case_conn case_tx) !! "t" = Some 65543 /\ rp_tempids (report case_conn case_tx) !! "u" = Some 65545.
Proof. split; [exact case_tx_accepted|]. split; vm_compute; reflexivity. Qed.

(* ------------------------------------------------------------------ C14 *)

(** C14: asserting, for a tempid, a value of an indexed identity attribute that an entity has, makes it that entity.  Without the
    index, or if the value is itself a tempid, it is that entity or the assertion is dropped or the value is retracted. *)
Theorem C14_upsert : forall mv now c es c' r, accepted mv now c es c' r -> exists l ts σ, understood c es r l ts σ
  /\ (forall t x v e at_, t ∈ ts -> identity_add (schema_of c) t x -> tm_v t = inl v ->
       sc_attribute_map (schema_of c) !! tm_a t = Some at_ -> at_index at_ = true ->
       holds (disk c) e (tm_a t) v -> σ !! x = Some e)
  /\ (forall t x v e e1, t ∈ ts -> identity_add (schema_of c) t x -> subst_v σ (tm_v t) = Some v -> σ !! x = Some e1 ->
       holds (disk c) e (tm_a t) v -> e1 = e \/ upserting c ts σ t \/ ~ holds (disk c') e (tm_a t) v \/ holds (disk c) e1 (tm_a t) v).
Proof. exact (fun _ _ _ _ _ _ => thm_upsert). Qed.
Print Assumptions C14_upsert.
Example C14_upsert_case : accepted MV 4000 case_conn case_tx (after case_conn case_tx) (report case_conn case_tx)
  /\ rp_tempids (report case_conn case_tx) !! "t" = Some 65543.
Proof. split; [exact case_tx_accepted|vm_compute; reflexivity]. Qed.

(** Two identity attributes cannot make a tempid two entities. *)
Theorem C14_upserts_agree : forall mv now c es c' r, accepted mv now c es c' r -> exists l ts σ, understood c es r l ts σ
  /\ forall t u x v w e1 e2 at1 at2, t ∈ ts -> u ∈ ts -> identity_add (schema_of c) t x -> identity_add (schema_of c) u x ->
     tm_v t = inl v -> tm_v u = inl w -> sc_attribute_map (schema_of c) !! tm_a t = Some at1 -> sc_attribute_map (schema_of c) !! tm_a u = Some at2 ->
     at_index at1 = true -> at_index at2 = true -> holds (disk c) e1 (tm_a t) v -> holds (disk c) e2 (tm_a u) w -> e1 = e2.
Proof. exact thm_upsert_agree. Qed.
Print Assumptions C14_upserts_agree.
Example C14_upserts_agree_case :
  result case_conn [add (tmp "t") (person "name") (v_str "Ivan"); add (tmp "t") (person "name") (v_str "Petr")] = Err EConflictingUpserts
  /\ accepted MV 4000 case_conn case_tx (after case_conn case_tx) (report case_conn case_tx).
Proof. split; [vm_compute; reflexivity|exact case_tx_accepted]. Qed.
(** The index is needed: an attribute can be made an identity without being indexed (installing one so is rejected).  Then the tempid
    does not become the entity that has the value, and the transaction is rejected. *)
Definition install_code : list entity :=
  [ add (tmp "a") (db_ "ident") (v_kw (person "code")); add (tmp "a") (db_ "valueType") (v_kw (nskw "db.type" "string"));
    add (tmp "a") (db_ "cardinality") (v_kw (nskw "db.cardinality" "one")) ].
Definition identify_code : list entity := [add (EPEntid (EIdent (person "code"))) (db_ "unique") (v_kw (nskw "db.unique" "identity"))].
Definition unindexed : list conn_op :=
  case_history ++ [CTransact 4000 install_code; CTransact 5000 identify_code; CTransact 6000 [add (ent 65543) (person "code") (v_str "x")]].
Theorem C14_unindexed_refuted : exists c a, clean MV c
  /\ sc_ident_map (schema_of c) !! person "code" = Some a
  /\ at_unique <$> sc_attribute_map (schema_of c) !! a = Some (Some UIdentity)
  /\ holds (disk c) 65543 a (TVString "x")
  /\ result c [add (tmp "t") (person "code") (v_str "x")] = Err EDatomsUpdateFailedToAdd.
Proof.
  exists (run unindexed), 65545. split; [apply run_clean; vm_compute; reflexivity|]. split; [vm_compute; reflexivity|].
  split; [vm_compute; reflexivity|]. split; [apply fact_is_in|]; vm_compute; reflexivity.
Qed.
Print Assumptions C14_unindexed_refuted.

(* ------------------------------------------------------------------ C15, C50 *)

(** C15: transacting ends in a report or an error, or in one of the panics that [may_panic] lists. *)
Theorem C15_panics : forall mv now c es c' p, clean mv c -> conn_transact mv now c es = (c', Panic p) -> may_panic mv c es p.
Proof. exact (fun mv now c es c' p => transact_panics mv now c es c' p). Qed.
Print Assumptions C15_panics.
Definition panic808 : list entity :=
  [ add (tmp "t1") (person "name") (v_str "Ivan"); add (tmp "t2") (person "name") (v_str "Petr"); add (tmp "t1") (person "spouse") (v_str "t2") ].
Definition many_bios : list entity :=
  map (fun i => add (tmp (String (ascii_of_nat (i mod 200 + 40)) (if bool_decide (i < 200)%nat then "a" else "b"))) (person "bio") (v_str "same"))
    (seq 0 340).
Definition many_instants : list entity := [add (EPEntid (EIdent (db_ "txInstant"))) (db_ "cardinality") (v_kw (nskw "db.cardinality" "many"))].
Definition two_instants : list entity :=
  [ add (EPTxFn "transaction-tx") (db_ "txInstant") (VPAtom (VTyped (TVInstant 1)));
    add (EPTxFn "transaction-tx") (db_ "txInstant") (VPAtom (VTyped (TVInstant 2))) ].
Example C15_panics_case : clean MV case_conn /\ result case_conn panic808 = Panic PTx808.
Proof. split; [exact case_clean|vm_compute; reflexivity]. Qed.
(** "Never panics" is false: four of these do happen, for inputs that the API accepts and with SQLite's usual limit. *)
Theorem C15_never_panics_refuted : clean MV case_conn /\ clean MV (run (case_history ++ [CTransact 4000 many_instants]))
  /\ result case_conn panic808 = Panic PTx808
  /\ result case_conn [add (ent 65543) (nskw "person" "_") (v_int 65544)] = Panic PKeyword
  /\ result case_conn many_bios = Panic PRepeatValues
  /\ result (run (case_history ++ [CTransact 4000 many_instants])) two_instants = Panic PTxInstant.
Proof. split; [exact case_clean|]. split; [apply run_clean; vm_compute; reflexivity|]. split_and!; vm_compute; reflexivity. Qed.
Print Assumptions C15_never_panics_refuted.

(** C50: reading the entities of a transaction terminates.  The fuel of the model's loop, the size of the input, is always enough:
    more gives the same result, and running out ([POther]) does not happen. *)
Theorem C50_reading_terminates : forall pm s tx es ip fuel, (list_sum (map ent_size es) <= fuel)%nat ->
  stage1_loop pm s tx fuel es [] ip = stage1_loop pm s tx (list_sum (map ent_size es)) es [] ip
  /\ forall p, stage1_loop pm s tx fuel es [] ip = Panic p -> p = PKeyword.
Proof.
  exact (fun pm s tx es ip fuel H => conj (stage1_loop_fuel pm s tx fuel (list_sum (map ent_size es)) es [] ip H (le_n _))
    (fun p E => stage1_loop_panic pm s tx fuel es [] ip H p E)).
Qed.
Print Assumptions C50_reading_terminates.
(** A map in a map *)
Definition nested : list entity :=
  [ EntMap [ (at_kw (person "name"), v_str "Anna");
             (at_kw (person "friend"), VPMap [ (at_kw (person "name"), v_str "Ivan"); (at_kw (person "age"), v_int 33) ]);
             (at_kw (person "nick"), VPVector [VPAtom (VEdn (EText "An")); VPAtom (VEdn (EText "Ann"))]) ] ].
Example C50_reading_terminates_case : list_sum (map ent_size nested) <> 0%nat /\ is_ok (result case_conn nested) = true.
Proof. split; vm_compute; [discriminate|reflexivity]. Qed.

(* ------------------------------------------------------------------ C51 *)

(** C51: maps and vectors are notation.  The entities of an accepted transaction unfold to single assertions and retractions [l],
    with a tempid of its own for each map without :db/id, and the outcome is determined by [l]: C09, C10, C13, C14 and C16 hold with
    one and the same reading of the input. *)
Theorem C51_notation : forall mv now c es c' r, accepted mv now c es c' r ->
  exists l own ts σ, understood c es r l ts σ /\ unfolds (schema_of c) es l own /\ NoDup own /\ Forall flat l
  /\ (forall t, t ∈ ts -> is_Some (subst σ t))
  /\ (forall t e a v, t ∈ ts -> subst σ t = Some (Term OAdd e a v) ->
        holds (disk c') e a v \/ upserting c ts σ t
        \/ holds (disk c) e a v /\ exists w, w <> v /\ asks ts σ ORetract e a w /\ (card_many_attr (schema_of c) a -> to_sql_value_pair w = to_sql_value_pair v))
  /\ (forall e a v, asks ts σ ORetract e a v -> holds (disk c') e a v ->
        ~ holds (disk c) e a v
        /\ ((exists w, w <> v /\ asks ts σ OAdd e a w /\ to_sql_value_pair w = to_sql_value_pair v) \/ is_instant r e a (to_sql_value_pair v)))
  /\ (forall e a p, changed (disk c) (disk c') false (e, a, p) ->
        (exists w, asks ts σ ORetract e a w /\ (card_many_attr (schema_of c) a -> to_sql_value_pair w = p))
        \/ (card_one_attr (schema_of c) a /\ exists w, to_sql_value_pair w <> p /\ holds (disk c') e a w
            /\ (asks ts σ OAdd e a w \/ is_instant r e a (to_sql_value_pair w))))
  /\ (forall e a p, changed (disk c) (disk c') true (e, a, p) ->
        (exists w, asks ts σ OAdd e a w /\ to_sql_value_pair w = p) \/ is_instant r e a p)
  /\ (forall t x v e at_, t ∈ ts -> identity_add (schema_of c) t x -> tm_v t = inl v -> sc_attribute_map (schema_of c) !! tm_a t = Some at_ ->
        at_index at_ = true -> holds (disk c) e (tm_a t) v -> σ !! x = Some e)
  /\ (forall x e, σ !! x = Some e -> names c ts σ x e \/ ~ allocated (parts_of c) e /\ allocated (parts_of c') e)
  /\ (forall x y e, σ !! x = Some e -> σ !! y = Some e -> names c ts σ x e \/ names c ts σ y e \/ rtsc (shares (schema_of c) ts σ) x y).
Proof. exact (fun _ _ _ _ _ _ => thm_notation). Qed.
Print Assumptions C51_notation.
Example C51_notation_case : accepted MV 4000 case_conn nested (after case_conn nested) (report case_conn nested)
  /\ fact_in (65545, 65538, (SInt 65543, 0)) (disk (after case_conn nested)) = true
  /\ fact_in (65543, 65536, (SInt 33, 5)) (disk (after case_conn nested)) = true
  /\ fact_in (65545, 65539, (SText "Ann", 10)) (disk (after case_conn nested)) = true.
Proof. split; [apply accepts; [exact case_clean|vm_compute; reflexivity]|]. split_and!; vm_compute; reflexivity. Qed.

(* ------------------------------------------------------------------ C16, C17 *)

(** C16: the entid of a tempid is that of an entity that it names, or was not allocated before; two tempids have the same entid only
    if one of them names it or they are linked by shared identity values; tempids that share an identity value are the same, unless
    one of them names an entity. *)
Theorem C16_fresh_entids : forall mv now c es c' r, accepted mv now c es c' r -> exists l ts σ, understood c es r l ts σ
  /\ (forall x e, σ !! x = Some e -> names c ts σ x e \/ ~ allocated (parts_of c) e /\ allocated (parts_of c') e)
  /\ (forall x y e, σ !! x = Some e -> σ !! y = Some e -> names c ts σ x e \/ names c ts σ y e \/ rtsc (shares (schema_of c) ts σ) x y)
  /\ (forall t u x y v, t ∈ ts -> u ∈ ts -> identity_add (schema_of c) t x -> identity_add (schema_of c) u y -> tm_a t = tm_a u ->
       tm_v t = inl v -> tm_v u = inl v -> σ !! x = σ !! y \/ exists z e, (z = x \/ z = y) /\ σ !! z = Some e /\ names c ts σ z e).
Proof. exact (fun _ _ _ _ _ _ => thm_fresh). Qed.
Print Assumptions C16_fresh_entids.
Definition sharing : list entity :=
  [ add (tmp "a") (person "name") (v_str "Zoe"); add (tmp "b") (person "name") (v_str "Zoe"); add (tmp "b") (person "age") (v_int 5);
    add (tmp "d") (person "age") (v_int 6) ].
Example C16_fresh_entids_case : accepted MV 4000 case_conn sharing (after case_conn sharing) (report case_conn sharing)
  /\ rp_tempids (report case_conn sharing) !! "a" = Some 65545 /\ rp_tempids (report case_conn sharing) !! "b" = Some 65545
  /\ rp_tempids (report case_conn sharing) !! "d" = Some 65546.
Proof. split; [apply accepts; [exact case_clean|vm_compute; reflexivity]|]. split_and!; vm_compute; reflexivity. Qed.

(** C17: an allocated entid that is the entity of some row of the log is never handed out again, also if the file is reopened. *)
Theorem C17_not_reused_partial : forall mv now c l es c' r e, clean mv c ->
  allocated (parts_of c) e -> (exists row, row ∈ st_log (disk c) /\ t_e row = e) ->
  clean_history mv c l -> accepted mv now (conn_run mv c l) es c' r ->
  exists l1 ts σ, understood (conn_run mv c l) es r l1 ts σ /\ forall x, σ !! x = Some e -> names (conn_run mv c l) ts σ x e.
Proof. exact thm_kept. Qed.
Print Assumptions C17_not_reused_partial.
Example C17_not_reused_partial_case : clean MV (after case_conn case_tx) /\ clean_history MV (after case_conn case_tx) [CReopen]
  /\ rp_tempids (report case_conn case_tx) !! "u" = Some 65545
  /\ rp_tempids (report (conn_run MV (after case_conn case_tx) [CReopen]) sharing) !! "a" = Some 65546.
Proof.
  split; [exact (accepted_clean _ _ _ _ _ _ case_tx_accepted)|]. split.
  - split; [|exact I]. apply (bool_decide_eq_true_1 (_ = _)). vm_compute. reflexivity.
  - split; vm_compute; reflexivity.
Qed.
(** An entid that only occurs as a value is handed out twice. *)
Definition only_value : list entity := [add (ent 65543) (person "friend") (v_str "new")].
Definition another : list entity := [add (tmp "y") (person "nick") (v_str "z")].
Theorem C17_reused_refuted : exists c es c' r, accepted MV 4000 c es c' r /\ rp_tempids r !! "new" = Some 65545
  /\ holds (disk c') 65543 65538 (TVRef 65545)
  /\ exists c2 r2, conn_transact MV 4000 (conn_run MV c' [CReopen]) another = (c2, Ok r2) /\ rp_tempids r2 !! "y" = Some 65545.
Proof.
  exists case_conn, only_value, (after case_conn only_value), (report case_conn only_value).
  split; [apply accepts; [exact case_clean|vm_compute; reflexivity]|]. split; [vm_compute; reflexivity|].
  split; [apply fact_is_in; vm_compute; reflexivity|].
  exists (after (conn_run MV (after case_conn only_value) [CReopen]) another), (report (conn_run MV (after case_conn only_value) [CReopen]) another).
  split; [apply transacts|]; vm_compute; reflexivity.
Qed.
Print Assumptions C17_reused_refuted.

(* ------------------------------------------------------------------ C18, C19 *)

(** C18: a lookup ref of an accepted input denotes the one entity that has the value of the unique attribute. *)
Theorem C18_lookup_entity : forall mv now c es c' r, accepted mv now c es c' r -> forall o b w a v,
  EntAdd o (EPLookup b w) a v ∈ es -> flat (EntAdd o (EPLookup b w) a v) -> written_backward a = false ->
  exists e, reads_lookup (disk c) (schema_of c) b w e /\ (forall e', reads_lookup (disk c) (schema_of c) b w e' -> e' = e)
    /\ exists l ts σ t, understood c es r l ts σ /\ t ∈ ts /\ tm_op t = o /\ tm_e t = inl e /\ reads_name (schema_of c) a (tm_a t).
Proof. exact (fun _ _ _ _ _ _ H => thm_lookup H). Qed.
Print Assumptions C18_lookup_entity.
Theorem C18_lookup_value : forall mv now c es c' r, accepted mv now c es c' r -> forall o e a b w,
  EntAdd o e a (VPLookup b w) ∈ es -> written_backward a = false ->
  exists e', reads_lookup (disk c) (schema_of c) b w e' /\ (forall e2, reads_lookup (disk c) (schema_of c) b w e2 -> e2 = e')
    /\ exists l ts σ t, understood c es r l ts σ /\ t ∈ ts /\ tm_op t = o /\ tm_v t = inl (TVRef e') /\ reads_name (schema_of c) a (tm_a t).
Proof. exact (fun _ _ _ _ _ _ H => thm_lookup_value H). Qed.
Print Assumptions C18_lookup_value.
Definition by_lookup (n : string) : list entity :=
  [ add (EPLookup (at_kw (person "name")) (VEdn (EText n))) (person "age") (v_int 50);
    add (ent 65544) (person "friend") (VPLookup (at_kw (person "name")) (VEdn (EText n))) ].
Example C18_lookup_entity_case : accepted MV 4000 case_conn (by_lookup "Ivan") (after case_conn (by_lookup "Ivan")) (report case_conn (by_lookup "Ivan"))
  /\ bool_decide ((65543, 65536, (SInt 50, 5)) ∈ facts (disk (after case_conn (by_lookup "Ivan")))) = true
  /\ result case_conn (by_lookup "nobody") = Err EUnrecognizedIdent
  /\ is_ok (result case_conn [add (EPLookup (at_kw (person "age")) (VEdn (EInt 30))) (person "age") (v_int 50)]) = false.
Proof. split; [apply accepts; [exact case_clean|vm_compute; reflexivity]|]. split_and!; vm_compute; reflexivity. Qed.

(** C19: an entity named by number is allocated, or is the transaction itself. *)
Theorem C19_allocated : forall mv now c es c' r, accepted mv now c es c' r -> forall o e a v,
  EntAdd o (EPEntid (EEntid e)) a v ∈ es -> flat (EntAdd o (EPEntid (EEntid e)) a v) -> written_backward a = false ->
  allocated (parts_of c) e \/ e = rp_tx r.
Proof. exact (fun _ _ _ _ _ _ H => thm_unallocated H). Qed.
Print Assumptions C19_allocated.
Example C19_allocated_case : result case_conn [add (ent 99999) (person "friend") (v_int 65543)] = Err EUnallocatedEntid
  /\ accepted MV 4000 case_conn case_tx (after case_conn case_tx) (report case_conn case_tx)
  /\ retract (ent 65544) (person "friend") (v_int 65543) ∈ case_tx.
Proof. split; [vm_compute; reflexivity|]. split; [exact case_tx_accepted|unfold case_tx; do 4 right; left]. Qed.
(** In reversed notation the entity is not checked. *)
Definition backward : list entity := [add (ent 65543) (nskw "person" "_friend") (v_int 99999)].
Theorem C19_reversed_refuted : exists c es c' r e a v, accepted MV 4000 c es c' r /\ ~ allocated (parts_of c) e /\ e <> rp_tx r
  /\ holds (disk c') e a v.
Proof.
  exists case_conn, backward, (after case_conn backward), (report case_conn backward), 99999, 65538, (TVRef 65543).
  split; [apply accepts; [exact case_clean|vm_compute; reflexivity]|]. split.
  - apply not_allocated. vm_compute. reflexivity.
  - split; [vm_compute; discriminate|]. apply fact_is_in. vm_compute. reflexivity.
Qed.
Print Assumptions C19_reversed_refuted.

(* ------------------------------------------------------------------ C20 *)

(** C20: an accepted transaction does not assert two values for a cardinality-one attribute of an entity, nor assert and retract the
    same fact, except that assertions dropped as part of an upsert are not checked. *)
Theorem C20_no_conflicts : forall mv now c es c' r, accepted mv now c es c' r -> exists l ts σ, understood c es r l ts σ
  /\ (forall t u e a v w, t ∈ ts -> u ∈ ts -> subst σ t = Some (Term OAdd e a v) -> subst σ u = Some (Term OAdd e a w) ->
       card_one_attr (schema_of c) a -> v = w \/ upserting c ts σ t \/ upserting c ts σ u)
  /\ (forall t e a v, t ∈ ts -> subst σ t = Some (Term OAdd e a v) -> asks ts σ ORetract e a v -> upserting c ts σ t).
Proof. exact (fun _ _ _ _ _ _ => thm_conflicts). Qed.
Print Assumptions C20_no_conflicts.
Example C20_no_conflicts_case : accepted MV 4000 case_conn case_tx (after case_conn case_tx) (report case_conn case_tx)
  /\ result case_conn [add (ent 65543) (person "age") (v_int 1); add (ent 65543) (person "age") (v_int 2)] = Err ECardinalityConflicts
  /\ result case_conn [add (ent 65543) (person "nick") (v_str "x"); retract (ent 65543) (person "nick") (v_str "x")] = Err ECardinalityConflicts.
Proof. split; [exact case_tx_accepted|]. split; vm_compute; reflexivity. Qed.
Definition conflict : list entity := [add (tmp "t") (person "name") (v_str "Ivan"); add (tmp "t") (person "name") (v_str "Zed")].
Theorem C20_upsert_conflict_refuted : exists c es c' r, accepted MV 4000 c es c' r
  /\ es = [add (tmp "t") (person "name") (v_str "Ivan"); add (tmp "t") (person "name") (v_str "Zed")]
  /\ at_multival <$> sc_attribute_map (schema_of c) !! 65541 = Some false.
Proof.
  exists case_conn, conflict, (after case_conn conflict), (report case_conn conflict).
  split; [apply accepts; [exact case_clean|vm_compute; reflexivity]|]. split; [reflexivity|vm_compute; reflexivity].
Qed.
Print Assumptions C20_upsert_conflict_refuted.

(* ------------------------------------------------------------------ C23 *)

(** C23, in transactions: [:db/add e :ns/_name v] asserts :ns/name of the entity v with the value e. *)
Theorem C23_reversed_add : forall mv now c es c' r, accepted mv now c es c' r -> forall e k v,
  EntAdd OAdd e (EIdent k) v ∈ es -> flat (EntAdd OAdd e (EIdent k) v) -> kw_is_backward k = true ->
  exists l ts σ t k' r', understood c es r l ts σ /\ t ∈ ts
    /\ kw_unreversed k = Ok (Some k') /\ sc_ident_map (schema_of c) !! k' = Some (tm_a t)
    /\ tm_op t = OAdd /\ reads_value (disk c) (schema_of c) (rp_tx r) v VTRef (as_value (tm_e t))
    /\ reads_entity (disk c) (parts_of c) (schema_of c) (rp_tx r) e r' /\ tm_v t = as_value r'.
Proof. exact (fun _ _ _ _ _ _ H => thm_backward H). Qed.
Print Assumptions C23_reversed_add.
Definition befriend : list entity := [add (ent 65544) (nskw "person" "_friend") (v_int 65543)].
Example C23_reversed_add_case : accepted MV 4000 case_conn befriend (after case_conn befriend) (report case_conn befriend)
  /\ bool_decide ((65543, 65538, (SInt 65544, 0)) ∈ facts (disk (after case_conn befriend))) = true.
Proof. split; [apply accepts; [exact case_clean|vm_compute; reflexivity]|vm_compute; reflexivity]. Qed.
(** Retracting in reversed notation asserts instead. *)
Definition unfriend : list entity := [retract (ent 65544) (nskw "person" "_friend") (v_int 65543)].
Theorem C23_reversed_retract_refuted : exists c es c' r, accepted MV 4000 c es c' r
  /\ es = [retract (ent 65544) (nskw "person" "_friend") (v_int 65543)]
  /\ ~ holds (disk c) 65543 65538 (TVRef 65544) /\ holds (disk c') 65543 65538 (TVRef 65544).
Proof.
  exists case_conn, unfriend, (after case_conn unfriend), (report case_conn unfriend).
  split; [apply accepts; [exact case_clean|vm_compute; reflexivity]|]. split; [reflexivity|].
  split; [apply fact_not_in|apply fact_is_in]; vm_compute; reflexivity.
Qed.
Print Assumptions C23_reversed_retract_refuted.

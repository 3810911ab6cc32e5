(** C58: aggregates. *)
From Verif Require Import M_Query M_Aggregate Spec_Value Spec_Tx Spec_Conn Spec_Transact Spec_Cache Spec_Query Spec_Union Spec_Aggregate P_QueryConn P_Aggregate
  Cases Cases_Cache Cases_Query.

(** A query with count, min, max and sum: there is a list [l] of the solutions, in which each combination of values of the variables of
    [:find] and [:with] is once; the result has a row for each group of solutions that agree about the variables that are not aggregated,
    with what the functions are for the group.  (Nothing but counts and no solution: a row of zeros, or none.) *)
Theorem C58_groups : forall mv c sq g vals r, clean mv c -> sqlite_ok sq -> all_readable (disk c) -> safe (ag_tuples g) vals ->
  Forall (branched (schema_of c) (ag_in g) vals) (ag_where g) -> well_aggregated g -> twinless (disk c) \/ closed_find (ag_tuples g) ->
  q_aggregated sq c g vals = Ok r ->
  exists l rows, listing (disk c) (schema_of c) (ag_tuples g) vals l /\ aggregated (ag_limit (ag_find g)) (ag_elements (ag_find g)) l rows /\ ag_shaped (ag_find g) rows r.
Proof. exact uncached_aggregate. Qed.
Print Assumptions C58_groups.
Definition ages : list clause := [pat (NVar "?x") (a_ "age") (VVar "?a")].
(** How many there are of each age, and the ages of all of them together, when two are thirty *)
Definition g_ages : agg_query := AggQuery (AgRel [ElVar "?a"; ElAgg AggCount "?x"]) [] [] ages.
Definition g_sum : agg_query := AggQuery (AgRel [ElAgg AggSum "?a"; ElAgg AggMax "?a"]) ["?x"] [] ages.
Lemma coeval_clean : clean MV coeval /\ all_readable (disk coeval) /\ twinless (disk coeval).
Proof. split; [apply after_clean; [exact case_clean|vm_compute; reflexivity]|]. apply open_sound. vm_compute. reflexivity. Qed.
Lemma branched_plain s ins vals cs : Forall plain cs -> Forall (branched s ins vals) cs.
Proof. intros H. apply (plain_regular s ins vals) in H. eapply Forall_impl; [exact H|]. intros c Hc. left. exact Hc. Qed.
Example C58_groups_case : clean MV coeval /\ all_readable (disk coeval) /\ twinless (disk coeval) /\ safe (ag_tuples g_ages) ∅ /\ safe (ag_tuples g_sum) ∅
  /\ Forall (branched (schema_of coeval) [] ∅) ages /\ well_aggregated g_ages /\ well_aggregated g_sum
  /\ q_aggregated sq0 coeval g_ages ∅ = Ok (RRel [[TVLong 30; TVLong 2]]) /\ q_aggregated sq0 coeval g_sum ∅ = Ok (RRel [[TVLong 60; TVLong 30]])
  /\ q_aggregated sq0 case_conn g_ages ∅ = Ok (RRel [[TVLong 40; TVLong 1]; [TVLong 30; TVLong 1]]) /\ q_aggregated sq0 case_conn g_sum ∅ = Ok (RRel [[TVLong 70; TVLong 40]]).
Proof.
  destruct coeval_clean as (H1 & H2 & H3). split; [exact H1|]. split; [exact H2|]. split; [exact H3|]. split; [apply safeb_sound; vm_compute; reflexivity|]. split; [apply safeb_sound; vm_compute; reflexivity|].
  split; [apply branched_plain; repeat constructor|]. split; [|split].
  - split; [exists AggCount, "?x"; by right; left|intros o v _ Hi; by apply elem_of_nil in Hi|intros v Hv; by apply elem_of_nil in Hv|].
    right. exists "?a". split; [by left|]. intros Hi. by apply elem_of_nil in Hi.
  - split; [exists AggSum, "?a"; by left|intros o v _ Hi; by apply elem_of_nil in Hi|intros v _ Hi; by apply elem_of_nil in Hi|by left].
  - split_and!; vm_compute; reflexivity.
Qed.

(** One function of one variable: it is that function of the answers of the query that asks for the variable, each of which counts once. *)
Theorem C58_total : forall mv c sq v o ins ws vals r, clean mv c -> sqlite_ok sq -> all_readable (disk c) -> safe (Query (FRel [v]) ins ws [] LNone) vals ->
  Forall (branched (schema_of c) ins vals) ws -> v ∉ ins -> twinless (disk c) \/ closed_find (Query (FRel [v]) ins ws [] LNone) ->
  q_aggregated sq c (ag_all v o ins ws) vals = Ok r ->
  exists x, r = RScalar x /\ total o (answer (disk c) (schema_of c) (Query (FRel [v]) ins ws [] LNone) vals) x.
Proof. exact aggregate_all. Qed.
Print Assumptions C58_total.
(** Older than fifty is nobody. *)
Definition elders : list clause := ages ++ [CPred ">" [FVar "?a"; FInteger 50]].
Example C58_total_case : safe (Query (FRel ["?a"]) [] ages [] LNone) ∅ /\ safe (Query (FRel ["?a"]) [] elders [] LNone) ∅ /\ Forall (branched (schema_of coeval) [] ∅) elders
  /\ q_aggregated sq0 case_conn (ag_all "?a" AggSum [] ages) ∅ = Ok (RScalar (Some (TVLong 70)))
  /\ q_aggregated sq0 coeval (ag_all "?a" AggSum [] ages) ∅ = Ok (RScalar (Some (TVLong 30)))
  /\ q_aggregated sq0 case_conn (ag_all "?a" AggMin [] ages) ∅ = Ok (RScalar (Some (TVLong 30)))
  /\ q_aggregated sq0 case_conn (ag_all "?a" AggMax [] elders) ∅ = Ok (RScalar None)
  /\ q_aggregated sq0 case_conn (ag_all "?a" AggCount [] elders) ∅ = Ok (RScalar (Some (TVLong 0))).
Proof.
  split; [apply safeb_sound; vm_compute; reflexivity|]. split; [apply safeb_sound; vm_compute; reflexivity|]. split; [apply branched_plain; repeat constructor|].
  split_and!; vm_compute; reflexivity.
Qed.

(** Counting what a query lists does not fail, and gives the number of its rows. *)
Theorem C58_count : forall mv c sq v ins ws vals rows, clean mv c -> sqlite_ok sq -> all_readable (disk c) -> safe (Query (FRel [v]) ins ws [] LNone) vals ->
  Forall (branched (schema_of c) ins vals) ws -> v ∉ ins -> twinless (disk c) \/ closed_find (Query (FRel [v]) ins ws [] LNone) ->
  q_uncached sq c (Query (FRel [v]) ins ws [] LNone) vals = Ok (RRel rows) -> rows <> [] ->
  q_aggregated sq c (ag_all v AggCount ins ws) vals = Ok (RScalar (Some (TVLong (Z.of_nat (length rows))))).
Proof. exact count_rows. Qed.
Print Assumptions C58_count.
Example C58_count_case : q_uncached sq0 case_conn (Query (FRel ["?a"]) [] ages [] LNone) ∅ = Ok (RRel [[TVLong 40]; [TVLong 30]])
  /\ q_aggregated sq0 case_conn (ag_all "?a" AggCount [] ages) ∅ = Ok (RScalar (Some (TVLong 2)))
  /\ q_uncached sq0 coeval (Query (FRel ["?a"]) [] ages [] LNone) ∅ = Ok (RRel [[TVLong 30]])
  /\ q_aggregated sq0 coeval (ag_all "?a" AggCount [] ages) ∅ = Ok (RScalar (Some (TVLong 1))).
Proof. split_and!; vm_compute; reflexivity. Qed.

(* ---------------------------------------------------------------- what does not hold *)

(** No solutions: the count is 0, and the sum an error, because SQLite's sum of nothing is NULL, which is not a value. *)
Theorem C58_sum_refuted : clean MV case_conn /\ all_readable (disk case_conn) /\ twinless (disk case_conn) /\ safe (Query (FRel ["?a"]) [] elders [] LNone) ∅ /\ Forall plain elders
  /\ q_aggregated sq0 case_conn (ag_all "?a" AggCount [] elders) ∅ = Ok (RScalar (Some (TVLong 0)))
  /\ ~ exists r, q_aggregated sq0 case_conn (ag_all "?a" AggSum [] elders) ∅ = Ok r.
Proof.
  split; [exact case_clean|]. destruct (open_sound case_conn) as [H1 H2]; [vm_compute; reflexivity|]. split; [exact H1|]. split; [exact H2|].
  split; [apply safeb_sound; vm_compute; reflexivity|]. split; [repeat constructor|]. split; [vm_compute; reflexivity|].
  assert (q_aggregated sq0 case_conn (ag_all "?a" AggSum [] elders) ∅ = Err EBadSQLValuePair) as -> by (vm_compute; reflexivity). intros [r Hr]. discriminate Hr.
Qed.
Print Assumptions C58_sum_refuted.

(** No solutions: the count is 0 if that is found by running the query, and nothing if it is known without. *)
Definition misnamed : list clause := [pat (NVar "?x") (a_ "name") (VVar "?a"); pat (NVar "?x") (a_ "age") (VVar "?a")].
Theorem C58_count_refuted : ~ forall mv c sq v ins ws vals, clean mv c -> sqlite_ok sq -> all_readable (disk c) -> twinless (disk c) -> safe (Query (FRel [v]) ins ws [] LNone) vals ->
  Forall plain ws -> v ∉ ins -> q_aggregated sq c (ag_all v AggCount ins ws) vals <> Ok (RScalar None).
Proof.
  intros H. destruct (open_sound case_conn) as [H1 H2]; [vm_compute; reflexivity|].
  apply (H MV case_conn sq0 "?a" [] misnamed ∅ case_clean sq0_ok H1 H2); [apply safeb_sound; vm_compute; reflexivity|repeat constructor|intros Hi; by apply elem_of_nil in Hi|].
  vm_compute. reflexivity.
Qed.
Print Assumptions C58_count_refuted.

(** The largest value of an input is not computed, so that there is a row for each solution of [:with]. *)
Definition g_repeated : agg_query := AggQuery (AgRel [ElAgg AggMax "?y"]) ["?x"] ["?y"] ages.
Definition v_seven : gmap var typed_value := {["?y" := TVLong 7]}.
Theorem C58_input_refuted : exists r, clean MV case_conn /\ all_readable (disk case_conn) /\ twinless (disk case_conn) /\ safe (ag_tuples g_repeated) v_seven /\ Forall plain ages
  /\ q_aggregated sq0 case_conn g_repeated v_seven = Ok r
  /\ ~ exists l rows, aggregated None (ag_elements (ag_find g_repeated)) l rows /\ ag_shaped (ag_find g_repeated) rows r.
Proof.
  exists (RRel [[TVLong 7]; [TVLong 7]]). split; [exact case_clean|]. destruct (open_sound case_conn) as [H1 H2]; [vm_compute; reflexivity|]. split; [exact H1|]. split; [exact H2|].
  split; [apply safeb_sound; vm_compute; reflexivity|]. split; [repeat constructor|]. split; [vm_compute; reflexivity|].
  intros (l & rows & HA & HS). cbn in HS. destruct HA as [(reps & _ & R2 & _ & R4)|(_ & _ & E)]; [|rewrite E in HS; discriminate HS].
  rewrite <- HS in R4. cbn [up_to] in R4. destruct reps as [|σ [|σ' reps]]; [inversion R4|inversion R4 as [|? ? ? ? _ R5]; inversion R5|].
  cbn in R2. apply NoDup_cons in R2 as [R2 _]. apply R2. by left.
Qed.
Print Assumptions C58_input_refuted.

(** Nor is the result grouped by an input: without solutions that is an error and not an empty result. *)
Definition g_by_input : agg_query := AggQuery (AgRel [ElVar "?y"; ElAgg AggCount "?x"]) [] ["?y"] elders.
Theorem C58_input_group_refuted : clean MV case_conn /\ all_readable (disk case_conn) /\ twinless (disk case_conn) /\ safe (ag_tuples g_by_input) v_seven /\ Forall plain elders
  /\ ~ exists r, q_aggregated sq0 case_conn g_by_input v_seven = Ok r.
Proof.
  split; [exact case_clean|]. destruct (open_sound case_conn) as [H1 H2]; [vm_compute; reflexivity|]. split; [exact H1|]. split; [exact H2|].
  split; [apply safeb_sound; vm_compute; reflexivity|]. split; [repeat constructor|].
  assert (q_aggregated sq0 case_conn g_by_input v_seven = Err EBadSQLValuePair) as -> by (vm_compute; reflexivity). intros [r Hr]. discriminate Hr.
Qed.
Print Assumptions C58_input_group_refuted.

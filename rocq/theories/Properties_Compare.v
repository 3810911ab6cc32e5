(** C55: comparisons in queries. *)
From Verif Require Import M_Query Spec_Value Spec_Tx Spec_Conn Spec_Transact Spec_Cache Spec_Query P_QueryConn P_QueryLaws Cases Cases_Cache Cases_Query.

(** To a query add a comparison of inputs, constants and variables of [:find].  The rows of the new query are those rows of the old one for
    which it holds.  (C41 and C42 say what a query with comparisons gives, whichever variables they are of.) *)
Theorem C55_picks : forall mv c sq q name args vals rows rows', clean mv c -> sqlite_ok sq -> all_readable (disk c) ->
  safe (adding q (CPred name args)) vals -> Forall (regular (schema_of c) (q_in q) vals) (q_where q) ->
  well_ordered q -> q_limit q = LNone -> twinless (disk c) \/ closed_find q ->
  (forall x, x ∈ flat_map farg_vars args -> x ∈ find_vars (q_find q) \/ x ∈ q_in q) ->
  q_uncached sq c q vals = Ok (RRel rows) -> q_uncached sq c (adding q (CPred name args)) vals = Ok (RRel rows') ->
  forall row, row ∈ rows' <-> row ∈ rows /\ compares (schema_of c) (of_row q vals row) name args.
Proof. intros. by eapply comparison_picks. Qed.
Print Assumptions C55_picks.
(** Of its negation, those for which it does not. *)
Theorem C55_negated : forall mv c sq q name args vals rows rows', clean mv c -> sqlite_ok sq -> all_readable (disk c) ->
  safe (adding q (CPred name args)) vals -> Forall (regular (schema_of c) (q_in q) vals) (q_where q) ->
  well_ordered q -> q_limit q = LNone -> twinless (disk c) \/ closed_find q ->
  (forall x, x ∈ flat_map farg_vars args -> x ∈ find_vars (q_find q) \/ x ∈ q_in q) ->
  q_uncached sq c q vals = Ok (RRel rows) -> q_uncached sq c (adding q (CNot UImplicit [CPred name args])) vals = Ok (RRel rows') ->
  forall row, row ∈ rows' <-> row ∈ rows /\ ~ compares (schema_of c) (of_row q vals row) name args.
Proof. intros. by eapply negation_picks. Qed.
Print Assumptions C55_negated.
Definition younger : list farg := [FVar "?a"; FInteger 35].
Example C55_case : clean MV case_conn /\ sqlite_ok sq0 /\ all_readable (disk case_conn) /\ twinless (disk case_conn)
  /\ safe (adding q_names (CPred "<" younger)) ∅ /\ Forall (regular (schema_of case_conn) [] ∅) (q_where q_names) /\ well_ordered q_names
  /\ (forall x, x ∈ flat_map farg_vars younger -> x ∈ find_vars (q_find q_names) \/ x ∈ q_in q_names)
  /\ q_uncached sq0 case_conn q_names ∅ = Ok (RRel [[TVString "Petr"; TVLong 40]; [TVString "Ivan"; TVLong 30]])
  /\ q_uncached sq0 case_conn (adding q_names (CPred "<" younger)) ∅ = Ok (RRel [[TVString "Ivan"; TVLong 30]])
  /\ q_uncached sq0 case_conn (adding q_names (CNot UImplicit [CPred "<" younger])) ∅ = Ok (RRel [[TVString "Petr"; TVLong 40]]).
Proof.
  split; [exact case_clean|]. split; [exact sq0_ok|]. destruct (open_sound case_conn) as [H1 H2]; [vm_compute; reflexivity|].
  split; [exact H1|]. split; [exact H2|]. split; [apply safeb_sound; vm_compute; reflexivity|]. split; [by repeat constructor|].
  split; [by intros x Hx; apply elem_of_nil in Hx|]. split.
  - intros x Hx. apply elem_of_list_singleton in Hx as ->. left. right. left.
  - split; [|split]; vm_compute; reflexivity.
Qed.
(** Without [safe], a comparison lets values of other types through: a reference is found, and read as a number. *)
Definition q_below : query := ask (FColl "?v") [pat (NEntid 65544) NPlaceholder (VVar "?v"); CPred "<" [FVar "?v"; FInteger 70000]].
Theorem C55_open_refuted : exists r, clean MV case_conn /\ all_readable (disk case_conn) /\ twinless (disk case_conn) /\ Forall plain (q_where q_below)
  /\ q_uncached sq0 case_conn q_below ∅ = Ok r /\ ~ gives r (answer (disk case_conn) (schema_of case_conn) q_below ∅).
Proof.
  exists (RColl [TVLong 65543; TVLong 40]). split; [exact case_clean|]. destruct (open_sound case_conn) as [H1 H2]; [vm_compute; reflexivity|].
  split; [exact H1|]. split; [exact H2|]. split; [by repeat constructor|]. split; [vm_compute; reflexivity|].
  apply (extra_coll _ _ (TVLong 65543)); [|vm_compute; reflexivity]. intros (σ & [_ H] & [= E]). apply Forall_cons_1 in H as [H _].
  assert (matches (disk case_conn) (schema_of case_conn) (given [("?v", TVLong 65543)]) (Pattern (NEntid 65544) NPlaceholder (VVar "?v") NPlaceholder)) as K.
  { eapply matches_agree; [|exact H]. intros x Hx. apply elem_of_list_singleton in Hx as ->. exact E. }
  apply matchesb_iff in K. vm_compute in K. discriminate K.
Qed.
Print Assumptions C55_open_refuted.
(** Instants are compared by the microsecond: one is found that is before the one it is to be at or after. *)
Definition q_since : query := ask (FColl "?t") [pat NPlaceholder (NIdent (nskw "db" "txInstant")) (VVar "?t"); CPred ">=" [FVar "?t"; FConst (TVInstant 3001)]].
Theorem C55_fraction_refuted : exists r, clean MV case_conn /\ all_readable (disk case_conn) /\ twinless (disk case_conn) /\ Forall plain (q_where q_since)
  /\ q_uncached sq0 case_conn q_since ∅ = Ok r /\ ~ gives r (answer (disk case_conn) (schema_of case_conn) q_since ∅).
Proof.
  exists (RColl [TVInstant 3000]). split; [exact case_clean|]. destruct (open_sound case_conn) as [H1 H2]; [vm_compute; reflexivity|].
  split; [exact H1|]. split; [exact H2|]. split; [by repeat constructor|]. split; [vm_compute; reflexivity|].
  apply (extra_coll _ _ (TVInstant 3000)); [|vm_compute; reflexivity]. intros (σ & [_ H] & [= E]). apply Forall_cons_1 in H as [_ H]. apply Forall_cons_1 in H as [H _].
  destruct H as (a & b & v & w & [= <- <-] & Hv & Hw & Hr). cbn in Hv, Hw. subst v w. rewrite <- E in Hr. by destruct Hr.
Qed.
Print Assumptions C55_fraction_refuted.
(** A comparison before the pattern that binds its variable is an error, whatever the answers are. *)
Definition q_first : query := ask (FColl "?x") [CPred "<" younger; pat (NVar "?x") (a_ "age") (VVar "?a")].
Theorem C55_order_refuted : clean MV case_conn /\ all_readable (disk case_conn) /\ safe q_first ∅ /\ Forall plain (q_where q_first)
  /\ q_uncached sq0 case_conn q_first ∅ = Err EAlgebrizer /\ answer (disk case_conn) (schema_of case_conn) q_first ∅ [TVRef 65543].
Proof.
  split; [exact case_clean|]. split; [apply all_readableb_sound; vm_compute; reflexivity|]. split; [apply safeb_sound; vm_compute; reflexivity|].
  split; [by repeat constructor|]. split; [vm_compute; reflexivity|]. exists (given [("?x", TVRef 65543); ("?a", TVLong 30)]). split; [|reflexivity].
  split; [intros x v Hx; by apply elem_of_nil in Hx|]. constructor; [|constructor; [|done]].
  - exists (FVar "?a"), (FInteger 35), (TVLong 30), (TVLong 35). split_and!; [done|done|by left|vm_compute; reflexivity].
  - apply matchesb_iff. vm_compute. reflexivity.
Qed.
Print Assumptions C55_order_refuted.

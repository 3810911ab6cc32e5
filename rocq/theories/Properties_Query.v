(** C38, C41-C44: what queries return. *)
From Verif Require Import M_Query Spec_Value Spec_Tx Spec_Conn Spec_Transact Spec_Cache Spec_Query P_QueryConn Cases Cases_Cache Cases_Query.

(* ---------------------------------------------------------------- C41: patterns *)

(** A query with patterns, type annotations and comparisons gives its answers, each once.  The conditions ([safe], [twinless]) are those of
    Spec_Query.v: in a pattern whose attribute is not known the value is a variable that is nowhere else, or has a type whose values
    the code can tell from those of others; no value of [:find] may be a long or a double that are equal as numbers. *)
Theorem C41_conjunctive : forall mv c sq q vals r, clean mv c -> sqlite_ok sq -> all_readable (disk c) ->
  safe q vals -> Forall plain (q_where q) -> well_ordered q -> q_limit q = LNone -> twinless (disk c) \/ closed_find q ->
  q_uncached sq c q vals = Ok r -> gives r (answer (disk c) (schema_of c) q vals).
Proof. intros. eapply uncached_gives; eauto using plain_regular. Qed.
Print Assumptions C41_conjunctive.
Example C41_conjunctive_case : clean MV case_conn /\ sqlite_ok sq0 /\ all_readable (disk case_conn) /\ twinless (disk case_conn)
  /\ safe q_names ∅ /\ Forall plain (q_where q_names) /\ well_ordered q_names
  /\ q_uncached sq0 case_conn q_names ∅ = Ok (RRel [[TVString "Petr"; TVLong 40]; [TVString "Ivan"; TVLong 30]]).
Proof.
  split; [exact case_clean|]. split; [exact sq0_ok|]. destruct (open_sound case_conn) as [H1 H2]; [vm_compute; reflexivity|].
  split; [exact H1|]. split; [exact H2|]. split; [apply safeb_sound; vm_compute; reflexivity|]. split; [by repeat constructor|].
  split; [by intros x Hx; apply elem_of_nil in Hx|]. vm_compute. reflexivity.
Qed.
(** An integer and a double that are the same number are one row of the result. *)
Definition q_values : query := ask (FColl "?v") [pat (NEntid 65544) NPlaceholder (VVar "?v")].
Theorem C41_twins_refuted : exists r, clean MV measured /\ all_readable (disk measured) /\ safe q_values ∅ /\ Forall plain (q_where q_values)
  /\ q_uncached sq0 measured q_values ∅ = Ok r /\ ~ gives r (answer (disk measured) (schema_of measured) q_values ∅).
Proof.
  exists (RColl [TVString "Petr"; TVRef 65543; TVLong 40]).
  split; [apply after_clean; [apply after_clean; [exact case_clean|vm_compute; reflexivity]|vm_compute; reflexivity]|].
  split; [apply all_readableb_sound; vm_compute; reflexivity|]. split; [apply safeb_sound; vm_compute; reflexivity|]. split; [by repeat constructor|].
  split; [vm_compute; reflexivity|]. apply (missing_coll _ _ (TVDouble (long_to_double 40))); [|vm_compute; reflexivity].
  apply (answer_by (given [("?v", TVDouble (long_to_double 40))])); vm_compute; reflexivity.
Qed.
Print Assumptions C41_twins_refuted.
(** Where the attribute is not known, an integer finds whatever is stored as that integer, such as the number of a fulltext row. *)
Definition q_one : query := ask (FColl "?x") [pat (NVar "?x") NPlaceholder (VInteger 1)].
Theorem C41_integer_refuted : exists r, clean MV case_conn /\ all_readable (disk case_conn) /\ Forall plain (q_where q_one)
  /\ q_uncached sq0 case_conn q_one ∅ = Ok r /\ ~ gives r (answer (disk case_conn) (schema_of case_conn) q_one ∅).
Proof.
  exists (RColl [TVRef 65543; TVRef 40; TVRef 268435456]). split; [exact case_clean|]. split; [apply all_readableb_sound; vm_compute; reflexivity|].
  split; [by repeat constructor|]. split; [vm_compute; reflexivity|]. apply (extra_coll _ _ (TVRef 65543)); [|vm_compute; reflexivity].
  apply (no_answer (given [("?x", TVRef 65543)]) (Pattern (NVar "?x") NPlaceholder (VInteger 1) NPlaceholder)); [reflexivity| |vm_compute; reflexivity].
  intros σ _ [= H] x Hx. apply elem_of_list_singleton in Hx as ->. exact H.
Qed.
Print Assumptions C41_integer_refuted.
(** A reference finds a number. *)
Definition q_to : query := Query (FColl "?x") ["?y"] [pat (NVar "?x") NPlaceholder (VVar "?y")] [] LNone.
Definition v_to : gmap var typed_value := {["?y" := TVRef 65544]}.
Theorem C41_reference_refuted : exists r, clean MV old /\ all_readable (disk old) /\ Forall plain (q_where q_to)
  /\ q_uncached sq0 old q_to v_to = Ok r /\ ~ gives r (answer (disk old) (schema_of old) q_to v_to).
Proof.
  exists (RColl [TVRef 65543]). split; [apply after_clean; [exact case_clean|vm_compute; reflexivity]|]. split; [apply all_readableb_sound; vm_compute; reflexivity|].
  split; [by repeat constructor|]. split; [vm_compute; reflexivity|]. apply (extra_coll _ _ (TVRef 65543)); [|vm_compute; reflexivity].
  apply (no_answer (given [("?x", TVRef 65543); ("?y", TVRef 65544)]) (Pattern (NVar "?x") NPlaceholder (VVar "?y") NPlaceholder)); [reflexivity| |vm_compute; reflexivity].
  intros σ Hi [= H] x Hx. cbn in Hx. apply elem_of_cons in Hx as [->|Hx]; [exact H|]. apply elem_of_list_singleton in Hx as ->. symmetry.
  apply Hi; [by left|reflexivity].
Qed.
Print Assumptions C41_reference_refuted.
(** There a keyword does not find the entity it names. *)
Definition q_type : query := ask (FColl "?x") [pat (NVar "?x") NPlaceholder (VIdent (nskw "db.type" "long"))].
Theorem C41_ident_refuted : exists r, clean MV case_conn /\ all_readable (disk case_conn) /\ Forall plain (q_where q_type)
  /\ q_uncached sq0 case_conn q_type ∅ = Ok r /\ ~ gives r (answer (disk case_conn) (schema_of case_conn) q_type ∅).
Proof.
  exists (RColl [TVRef 25]). split; [exact case_clean|]. split; [apply all_readableb_sound; vm_compute; reflexivity|].
  split; [by repeat constructor|]. split; [vm_compute; reflexivity|]. apply (missing_coll _ _ (TVRef 65536)); [|vm_compute; reflexivity].
  apply (answer_by (given [("?x", TVRef 65536)])); vm_compute; reflexivity.
Qed.
Print Assumptions C41_ident_refuted.

(* ---------------------------------------------------------------- C42: not, or *)

(** The same with [not] and [or], nested or not, if something of what is negated names its attribute or is a comparison, and the alternatives of an [or] are
    patterns of one kind ([regular]).  [or]s with conjunctions are in Properties_Union.v.  What is missing are [or]s nested in
    those and [or]s with variables of their own; the full statement would be C41_conjunctive without [Forall plain]. *)
Theorem C42_regular_partial : forall mv c sq q vals r, clean mv c -> sqlite_ok sq -> all_readable (disk c) ->
  safe q vals -> Forall (regular (schema_of c) (q_in q) vals) (q_where q) -> well_ordered q -> q_limit q = LNone -> twinless (disk c) \/ closed_find q ->
  q_uncached sq c q vals = Ok r -> gives r (answer (disk c) (schema_of c) q vals).
Proof. exact uncached_gives. Qed.
Print Assumptions C42_regular_partial.
Example C42_regular_partial_case : safe q_not ∅ /\ Forall (regular (schema_of case_conn) (q_in q_not) ∅) (q_where q_not) /\ well_ordered q_not
  /\ q_uncached sq0 case_conn q_not ∅ = Ok (RColl [TVString "Petr"]).
Proof.
  split; [apply safeb_sound; vm_compute; reflexivity|]. split.
  - constructor; [done|]. constructor; [|done]. split; [|split; [|done]].
    + left. eexists. split; [by left|done].
    + intros x Hx. by apply elem_of_nil in Hx.
  - split; [by intros x Hx; apply elem_of_nil in Hx|]. vm_compute. reflexivity.
Qed.
Example C42_regular_partial_or_case : safe q_or ∅ /\ Forall (regular (schema_of case_conn) (q_in q_or) ∅) (q_where q_or) /\ well_ordered q_or
  /\ q_uncached sq0 case_conn q_or ∅ = Ok (RColl [TVRef 65543]) /\ q_uncached sq0 case_conn q_or_only ∅ = Ok (RColl [TVRef 65544; TVRef 65543]).
Proof.
  split; [apply safeb_sound; vm_compute; reflexivity|]. split; [apply all_regularb_sound; vm_compute; reflexivity|].
  split; [by intros x Hx; apply elem_of_nil in Hx|]. split; vm_compute; reflexivity.
Qed.
(** A [not] that says nothing about any place is dropped. *)
Definition q_nothing : query := ask (FColl "?n") [pat NPlaceholder (a_ "name") (VVar "?n"); CNot UImplicit [pat NPlaceholder NPlaceholder VPlaceholder]].
Theorem C42_not_refuted : exists r, clean MV case_conn /\ all_readable (disk case_conn) /\ safe q_nothing ∅
  /\ q_uncached sq0 case_conn q_nothing ∅ = Ok r /\ ~ gives r (answer (disk case_conn) (schema_of case_conn) q_nothing ∅).
Proof.
  exists (RColl [TVString "Petr"; TVString "Ivan"]). split; [exact case_clean|]. split; [apply all_readableb_sound; vm_compute; reflexivity|].
  split; [apply safeb_sound; vm_compute; reflexivity|]. split; [vm_compute; reflexivity|]. apply (extra_coll _ _ (TVString "Ivan")); [|vm_compute; reflexivity].
  intros (σ & [_ H] & _). apply Forall_cons_1 in H as [_ H]. apply Forall_cons_1 in H as [H _]. apply H. exists (given []).
  split; [intros x Hx; by apply elem_of_nil in Hx|]. split; [|done]. apply matchesb_iff. vm_compute. reflexivity.
Qed.
Print Assumptions C42_not_refuted.
(** An [or] whose alternatives have values of different types is an error. *)
Definition q_either : query := ask (FColl "?v") [COr UImplicit [AClause (pat (NEntid 65543) (a_ "name") (VVar "?v")); AClause (pat (NEntid 65543) (a_ "age") (VVar "?v"))]].
Theorem C42_or_types_refuted : clean MV case_conn /\ all_readable (disk case_conn) /\ safe q_either ∅
  /\ q_uncached sq0 case_conn q_either ∅ = Err EProjector /\ answer (disk case_conn) (schema_of case_conn) q_either ∅ [TVLong 30].
Proof.
  split; [exact case_clean|]. split; [apply all_readableb_sound; vm_compute; reflexivity|]. split; [apply safeb_sound; vm_compute; reflexivity|].
  split; [vm_compute; reflexivity|]. exists (given [("?v", TVLong 30)]). split; [|reflexivity]. split; [intros x v Hx; by apply elem_of_nil in Hx|].
  constructor; [|done]. exists (given [("?v", TVLong 30)]). split; [by intros x _|]. right. left. apply matchesb_iff. vm_compute. reflexivity.
Qed.
Print Assumptions C42_or_types_refuted.
(** A variable of an [or-join] that is not among those it names is not a variable of its own. *)
Definition q_or_join : query :=
  ask (FColl "?y") [COr (UExplicit ["?x"]) [AClause (pat (NVar "?x") (a_ "age") (VVar "?y"))]; pat (NVar "?x") (a_ "friend") (VVar "?y")].
Lemma or_join_answer : answer (disk case_conn) (schema_of case_conn) q_or_join ∅ [TVRef 65543].
Proof.
  exists (given [("?x", TVRef 65544); ("?y", TVRef 65543)]). split; [|reflexivity]. split; [intros x v Hx; by apply elem_of_nil in Hx|].
  constructor; [|constructor; [|done]].
  - exists (given [("?x", TVRef 65544); ("?y", TVLong 40)]). split; [intros x Hx; by apply elem_of_list_singleton in Hx as ->|]. left.
    apply matchesb_iff. vm_compute. reflexivity.
  - apply matchesb_iff. vm_compute. reflexivity.
Qed.
Theorem C42_or_join_refuted : exists r, clean MV case_conn /\ all_readable (disk case_conn) /\ safe q_or_join ∅
  /\ q_uncached sq0 case_conn q_or_join ∅ = Ok r /\ ~ gives r (answer (disk case_conn) (schema_of case_conn) q_or_join ∅).
Proof.
  exists (RColl []). split; [exact case_clean|]. split; [apply all_readableb_sound; vm_compute; reflexivity|]. split; [apply safeb_sound; vm_compute; reflexivity|].
  split; [vm_compute; reflexivity|]. apply (missing_coll _ _ (TVRef 65543)); [exact or_join_answer|vm_compute; reflexivity].
Qed.
Print Assumptions C42_or_join_refuted.
(** An alternative that has no matches, on account of a required type, takes those of the others with it. *)
Definition q_emptied : query := ask (FColl "?x") [COr UImplicit [AClause (pat (NVar "?x") (a_ "age") (VVar "?y"));
  AAnd [pat (NVar "?x") (a_ "age") (VVar "?y"); CType "?y" VTString]]].
Theorem C42_or_emptied_refuted : exists r, clean MV case_conn /\ all_readable (disk case_conn) /\ safe q_emptied ∅
  /\ q_uncached sq0 case_conn q_emptied ∅ = Ok r /\ ~ gives r (answer (disk case_conn) (schema_of case_conn) q_emptied ∅).
Proof.
  exists (RColl []). split; [exact case_clean|]. split; [apply all_readableb_sound; vm_compute; reflexivity|]. split; [apply safeb_sound; vm_compute; reflexivity|].
  split; [vm_compute; reflexivity|]. apply (missing_coll _ _ (TVRef 65543)); [|vm_compute; reflexivity].
  exists (given [("?x", TVRef 65543); ("?y", TVLong 30)]). split; [|reflexivity]. split; [intros x v Hx; by apply elem_of_nil in Hx|].
  constructor; [|done]. exists (given [("?x", TVRef 65543); ("?y", TVLong 30)]). split; [by intros x _|]. left. apply matchesb_iff. vm_compute. reflexivity.
Qed.
Print Assumptions C42_or_emptied_refuted.
(** An [or] within a [not] has the same name as the one outside, and hides it. *)
Definition q_hidden : query := ask (FColl "?x")
  [ COr UImplicit [AClause (pat (NVar "?x") (a_ "age") (VInteger 30)); AAnd [pat (NVar "?x") (a_ "age") (VInteger 40); pat (NVar "?x") (a_ "age") (VInteger 40)]];
    CNot UImplicit [COr UImplicit [AClause (pat (NVar "?x") (a_ "age") (VInteger 30)); AAnd [pat (NVar "?x") (a_ "age") (VInteger 30); pat (NVar "?x") (a_ "age") (VInteger 30)]]] ].
Theorem C42_or_hidden_refuted : exists r, clean MV case_conn /\ all_readable (disk case_conn) /\ safe q_hidden ∅
  /\ q_uncached sq0 case_conn q_hidden ∅ = Ok r /\ ~ gives r (answer (disk case_conn) (schema_of case_conn) q_hidden ∅).
Proof.
  exists (RColl []). split; [exact case_clean|]. split; [apply all_readableb_sound; vm_compute; reflexivity|]. split; [apply safeb_sound; vm_compute; reflexivity|].
  split; [vm_compute; reflexivity|]. apply (missing_coll _ _ (TVRef 65544)); [|vm_compute; reflexivity].
  exists (given [("?x", TVRef 65544)]). split; [|reflexivity]. split; [intros x v Hx; by apply elem_of_nil in Hx|].
  constructor; [|constructor; [|done]].
  - exists (given [("?x", TVRef 65544)]). split; [by intros x _|]. right. left. split; [|split; [|done]]; apply matchesb_iff; vm_compute; reflexivity.
  - cbn [meets meets_arm]. intros (σ' & Ha & (σ2 & Ha2 & H) & _).
    assert (matches (disk case_conn) (schema_of case_conn) σ2 (Pattern (NVar "?x") (a_ "age") (VInteger 30) NPlaceholder)) as K
      by (destruct H as [H|[[H _]|[]]]; exact H).
    assert (matches (disk case_conn) (schema_of case_conn) (given [("?x", TVRef 65544)]) (Pattern (NVar "?x") (a_ "age") (VInteger 30) NPlaceholder)) as L.
    { eapply matches_agree; [|exact K]. intros x Hx. apply elem_of_list_singleton in Hx as ->.
      pose proof (Ha "?x" ltac:(vm_compute; left)) as E1. pose proof (Ha2 "?x" ltac:(vm_compute; left)) as E2. congruence. }
    apply matchesb_iff in L. vm_compute in L. discriminate L.
Qed.
Print Assumptions C42_or_hidden_refuted.

(* ---------------------------------------------------------------- C43: proved empty *)

(** If the algebrizer says that a query has no results, so that it is not run, it has no solution. *)
Theorem C43_empty : forall mv c q vals a, clean mv c -> all_readable (disk c) -> safe q vals -> Forall (regular (schema_of c) (q_in q) vals) (q_where q) ->
  well_limited q vals -> algebrize (Known (schema_of c) no_cache) q vals = Ok a -> c_empty (aq_cc a) = true ->
  forall σ, ~ solution (disk c) (schema_of c) q vals σ.
Proof. exact uncached_empty. Qed.
Print Assumptions C43_empty.
(** Nor if it says so on account of the cache. *)
Theorem C43_cached_empty : forall mv c q vals a, caching true mv c -> singly_cached c -> all_readable (disk (cc_conn c)) -> safe q vals -> Forall plain (q_where q) ->
  well_limited q vals -> algebrize (Known (schema_of (cc_conn c)) (conn_cache (cc_cache c) (schema_of (cc_conn c)))) q vals = Ok a -> c_empty (aq_cc a) = true ->
  forall σ, ~ solution (disk (cc_conn c)) (schema_of (cc_conn c)) q vals σ.
Proof. exact cached_empty. Qed.
Print Assumptions C43_cached_empty.
Definition proved_empty (k : known) (q : query) (vals : gmap var typed_value) : bool :=
  match algebrize k q vals with Ok a => c_empty (aq_cc a) | _ => false end.
Example C43_empty_case : safe q_wrong_type ∅ /\ Forall (regular (schema_of case_conn) (q_in q_wrong_type) ∅) (q_where q_wrong_type) /\ well_limited q_wrong_type ∅
  /\ proved_empty (Known (schema_of case_conn) no_cache) q_wrong_type ∅ = true
  /\ proved_empty (Known (schema_of case_conn) no_cache) q_names ∅ = false.
Proof.
  split; [apply safeb_sound; vm_compute; reflexivity|]. split; [by repeat constructor|]. split; [done|]. split; vm_compute; reflexivity.
Qed.
(** Not so with [or-join]. *)
Theorem C43_or_refuted : safe q_or_join ∅ /\ proved_empty (Known (schema_of case_conn) no_cache) q_or_join ∅ = true
  /\ answer (disk case_conn) (schema_of case_conn) q_or_join ∅ [TVRef 65543].
Proof. split; [apply safeb_sound; vm_compute; reflexivity|]. split; [vm_compute; reflexivity|exact or_join_answer]. Qed.
Print Assumptions C43_or_refuted.
(** A scalar or a tuple with a limit that is not a number is taken to be empty. *)
Definition q_limited : query := Query (FScalar "?n") ["?k"] [pat NPlaceholder (a_ "name") (VVar "?n")] [] (LVar "?k").
Definition v_limited : gmap var typed_value := {["?k" := TVString "many"]}.
Theorem C43_limit_refuted : safe q_limited v_limited /\ Forall plain (q_where q_limited)
  /\ proved_empty (Known (schema_of case_conn) no_cache) q_limited v_limited = true
  /\ answer (disk case_conn) (schema_of case_conn) q_limited v_limited [TVString "Ivan"].
Proof.
  split; [apply safeb_sound; vm_compute; reflexivity|]. split; [by repeat constructor|]. split; [vm_compute; reflexivity|].
  apply (answer_by (given [("?n", TVString "Ivan"); ("?k", TVString "many")])); vm_compute; reflexivity.
Qed.
Print Assumptions C43_limit_refuted.

(* ---------------------------------------------------------------- C38: the cache *)

(** After a tame history (C36) a query that uses the attribute cache and the same query without it have the same results, if no
    attribute of many values is cached forward. *)
Theorem C38_same_results : forall mv c sq sq' q vals r r', caching true mv c -> singly_cached c -> sqlite_ok sq -> sqlite_ok sq' -> all_readable (disk (cc_conn c)) ->
  safe q vals -> Forall plain (q_where q) -> well_ordered q -> q_limit q = LNone -> twinless (disk (cc_conn c)) \/ closed_find q ->
  q_cached sq c q vals = Ok r -> q_uncached sq' (cc_conn c) q vals = Ok r' ->
  same_results r r' /\ gives r (answer (disk (cc_conn c)) (schema_of (cc_conn c)) q vals).
Proof. exact cached_same. Qed.
Print Assumptions C38_same_results.
Definition cached_history : list cc_op :=
  [ CcCache (person "name") DBoth true; CcCache (person "age") DBoth true;
    CcTransact 4000 [add (tmp "m") (person "name") (v_str "Masha"); add (tmp "m") (person "friend") (v_int 65543)] false ].
Definition with_names : cconn := cc_run MV uncached cached_history.
Definition q_age : query := ask (FColl "?a") [pat (NVar "?x") (a_ "name") (VConst (TVString "Ivan")); pat (NVar "?x") (a_ "age") (VVar "?a")].
Example C38_same_results_case : caching true MV with_names /\ singly_cached with_names /\ all_readable (disk (cc_conn with_names)) /\ twinless (disk (cc_conn with_names))
  /\ safe q_age ∅ /\ Forall plain (q_where q_age)
  /\ q_cached sq0 with_names q_age ∅ = Ok (RColl [TVLong 30]) /\ q_uncached sq0 (cc_conn with_names) q_age ∅ = Ok (RColl [TVLong 30]).
Proof.
  split; [apply tame_runb_sound; [apply uncached_caching|vm_compute; reflexivity]|]. split; [apply singly_cachedb_sound; vm_compute; reflexivity|].
  destruct (open_sound (cc_conn with_names)) as [H1 H2]; [vm_compute; reflexivity|]. split; [exact H1|]. split; [exact H2|].
  split; [apply safeb_sound; vm_compute; reflexivity|]. split; [by repeat constructor|]. split; vm_compute; reflexivity.
Qed.
(** If such an attribute is cached, what it holds is not found. *)
Definition q_nick : query := ask (FColl "?n") [pat (NEntid 65544) (a_ "nick") (VVar "?n")].
Theorem C38_many_refuted : caching true MV the_cached /\ safe q_nick ∅ /\ Forall plain (q_where q_nick)
  /\ q_cached sq0 the_cached q_nick ∅ = Ok (RColl []) /\ q_uncached sq0 (cc_conn the_cached) q_nick ∅ = Ok (RColl [TVString "Petya"]).
Proof.
  split; [apply tame_runb_sound; [apply uncached_caching|vm_compute; reflexivity]|]. split; [apply safeb_sound; vm_compute; reflexivity|].
  split; [by repeat constructor|]. split; vm_compute; reflexivity.
Qed.
Print Assumptions C38_many_refuted.
(** A [not] that the cache answers is dropped. *)
Definition q_nameless : query := Query (FScalar "?x") ["?x"] [CNot (UExplicit ["?x"]) [pat (NVar "?x") (a_ "name") (VVar "?n")]] [] LNone.
Definition v_nameless : gmap var typed_value := {["?x" := TVRef 65543]}.
Theorem C38_not_refuted : caching true MV with_names /\ singly_cached with_names /\ safe q_nameless v_nameless /\ Forall (regular (schema_of (cc_conn with_names)) (q_in q_nameless) v_nameless) (q_where q_nameless)
  /\ q_cached sq0 with_names q_nameless v_nameless = Ok (RScalar (Some (TVRef 65543))) /\ q_uncached sq0 (cc_conn with_names) q_nameless v_nameless = Ok (RScalar None).
Proof.
  split; [apply tame_runb_sound; [apply uncached_caching|vm_compute; reflexivity]|]. split; [apply singly_cachedb_sound; vm_compute; reflexivity|].
  split; [apply safeb_sound; vm_compute; reflexivity|]. split.
  - constructor; [|done]. split; [|split; [|done]].
    + left. eexists. split; [by left|done].
    + intros x Hx _. exact Hx.
  - split; vm_compute; reflexivity.
Qed.
Print Assumptions C38_not_refuted.

(* ---------------------------------------------------------------- C44: order, limit, shapes *)

(** The result has the first rows, as many as [:limit] says, of a list of all answers that is in the order that [:order] says, in the shape
    that [:find] says. *)
Theorem C44_listing : forall mv c sq q vals r, clean mv c -> sqlite_ok sq -> all_readable (disk c) -> safe q vals -> Forall (regular (schema_of c) (q_in q) vals) (q_where q) ->
  well_ordered q -> well_limited q vals -> twinless (disk c) \/ closed_find q -> q_uncached sq c q vals = Ok r ->
  exists l, listing (disk c) (schema_of c) q vals l
    /\ shaped (q_find q) (map (fun σ => map σ (find_vars (q_find q))) (up_to (limit_of q vals) l)) r.
Proof. exact uncached_listing. Qed.
Print Assumptions C44_listing.
Theorem C44_cached_listing : forall mv c sq q vals r, caching true mv c -> singly_cached c -> sqlite_ok sq -> all_readable (disk (cc_conn c)) -> safe q vals ->
  Forall plain (q_where q) -> well_ordered q -> well_limited q vals -> twinless (disk (cc_conn c)) \/ closed_find q -> q_cached sq c q vals = Ok r ->
  exists l, listing (disk (cc_conn c)) (schema_of (cc_conn c)) q vals l
    /\ shaped (q_find q) (map (fun σ => map σ (find_vars (q_find q))) (up_to (limit_of q vals) l)) r.
Proof. exact cached_listing. Qed.
Print Assumptions C44_cached_listing.
Example C44_listing_case : safe q_about v_about /\ Forall (regular (schema_of case_conn) (q_in q_about) v_about) (q_where q_about) /\ well_ordered q_about /\ well_limited q_about v_about
  /\ q_uncached sq0 case_conn q_about v_about = Ok (RRel [[TVRef 65541; TVString "Ivan"]; [TVRef 65539; TVString "Vanya"]; [TVRef 65537; TVString "a life"]]).
Proof.
  split; [apply safeb_sound; vm_compute; reflexivity|]. split; [by repeat constructor|].
  split; [intros x Hx; apply elem_of_list_singleton in Hx as ->; left; by left|]. split; [cbn; lia|]. vm_compute. reflexivity.
Qed.
(** If [:order] is by a variable that is not in [:find], an answer may be there more than once. *)
Definition q_by_name : query := Query (FColl "?a") [] [pat (NVar "?x") (a_ "age") (VVar "?a"); pat (NVar "?x") (a_ "name") (VVar "?n")] [(Asc, "?n")] LNone.
Theorem C44_order_refuted : exists r, clean MV coeval /\ all_readable (disk coeval) /\ safe q_by_name ∅ /\ Forall plain (q_where q_by_name)
  /\ q_uncached sq0 coeval q_by_name ∅ = Ok r
  /\ ~ exists l, listing (disk coeval) (schema_of coeval) q_by_name ∅ l /\ shaped (q_find q_by_name) (map (fun σ => map σ (find_vars (q_find q_by_name))) l) r.
Proof.
  exists (RColl [TVLong 30; TVLong 30]). split; [apply after_clean; [exact case_clean|vm_compute; reflexivity]|]. split; [apply all_readableb_sound; vm_compute; reflexivity|].
  split; [apply safeb_sound; vm_compute; reflexivity|]. split; [by repeat constructor|]. split; [vm_compute; reflexivity|].
  intros (l & [_ _ L _] & S). unfold q_by_name in L, S. cbn [shaped q_find find_vars] in L, S. rewrite <- S in L. cbn [map] in L. apply NoDup_cons in L as [L _]. apply L. by left.
Qed.
Print Assumptions C44_order_refuted.

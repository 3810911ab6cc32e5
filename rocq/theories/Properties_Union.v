(** C42, C44: queries with [or] clauses whose alternatives are conjunctions. *)
From Verif Require Import M_Query Spec_Value Spec_Tx Spec_Conn Spec_Transact Spec_Cache Spec_Query Spec_Union P_QueryConn Cases Cases_Cache Cases_Query.

(** C42_regular_partial with [or]s that have conjunctions among their alternatives ([branched]), if the query asks for something that is
    not an input.  What is missing are [or]s within [not] or [or], or with variables that not every alternative has. *)
Theorem C42_branched_partial : forall mv c sq q vals r, clean mv c -> sqlite_ok sq -> all_readable (disk c) ->
  safe q vals -> Forall (branched (schema_of c) (q_in q) vals) (q_where q) -> open_find q -> well_ordered q -> q_limit q = LNone -> twinless (disk c) \/ closed_find q ->
  q_uncached sq c q vals = Ok r -> gives r (answer (disk c) (schema_of c) q vals).
Proof. exact branched_gives. Qed.
Print Assumptions C42_branched_partial.
(** Older than 35, or not called Petr *)
Definition q_union : query := ask (FRel ["?x"; "?a"]) [COr UImplicit
  [ AAnd [pat (NVar "?x") (a_ "age") (VVar "?a"); CPred ">" [FVar "?a"; FInteger 35]];
    AAnd [pat (NVar "?x") (a_ "age") (VVar "?a"); CNot UImplicit [pat (NVar "?x") (a_ "name") (VConst (TVString "Petr"))]] ]].
Lemma age_long : at_type <$> attribute_of (schema_of case_conn) (Pattern (NVar "?x") (a_ "age") (VVar "?a") NPlaceholder) = Some VTLong.
Proof. vm_compute. reflexivity. Qed.
Lemma q_union_safe : safe q_union ∅ /\ Forall (branched (schema_of case_conn) (q_in q_union) ∅) (q_where q_union) /\ open_find q_union.
Proof.
  split; [apply safeb_sound; vm_compute; reflexivity|]. split.
  - constructor; [|done]. right. do 2 eexists. split; [reflexivity|]. split; [cbn; lia|]. split; [eexists; by left|].
    split; [by intros x Hx|]. split.
    + intros a Ha. apply elem_of_cons in Ha as [->|Ha]; [|apply elem_of_list_singleton in Ha as ->].
      * split; [|done]. by repeat constructor.
      * split; [by repeat constructor|]. split; [done|]. split; [|done]. split; [|split; [|done]].
        -- left. eexists. split; [by left|done].
        -- intros x Hx. by apply elem_of_nil in Hx.
    + exists (fun x => if decide (x = "?a") then VTLong else VTRef). intros a x Ha Hx.
      assert (x = "?x" \/ x = "?a") as Hx2. { repeat (apply elem_of_cons in Hx as [->|Hx]; [by auto|]). by apply elem_of_nil in Hx. }
      exists (Pattern (NVar "?x") (a_ "age") (VVar "?a") NPlaceholder). split.
      { apply elem_of_cons in Ha as [->|Ha]; [by left|apply elem_of_list_singleton in Ha as ->; by left]. }
      destruct Hx2 as [-> | ->].
      * split; [by left|]. right. split; [intros _; reflexivity|]. intros Heq. discriminate Heq.
      * split; [by right; left|]. right. split; [intros Hn; apply elem_of_list_singleton in Hn; discriminate Hn|].
        intros _ at_ Hat. pose proof age_long as K. rewrite Hat in K. by injection K as ->.
  - exists "?x". split; [by left|]. intros Hx. by apply elem_of_nil in Hx.
Qed.
Example C42_branched_partial_case : clean MV case_conn /\ all_readable (disk case_conn) /\ twinless (disk case_conn) /\ safe q_union ∅
  /\ Forall (branched (schema_of case_conn) (q_in q_union) ∅) (q_where q_union) /\ open_find q_union /\ well_ordered q_union
  /\ q_uncached sq0 case_conn q_union ∅ = Ok (RRel [[TVRef 65544; TVLong 40]; [TVRef 65543; TVLong 30]]).
Proof.
  split; [exact case_clean|]. destruct (open_sound case_conn) as [H1 H2]; [vm_compute; reflexivity|]. split; [exact H1|]. split; [exact H2|].
  destruct q_union_safe as (S1 & S2 & S3). split; [exact S1|]. split; [exact S2|]. split; [exact S3|].
  split; [by intros x Hx; apply elem_of_nil in Hx|]. vm_compute. reflexivity.
Qed.

(** Nothing but inputs is asked for: the [or] is not looked at. *)
Definition q_constant : query := Query (FColl "?y") ["?y"] [COr UImplicit
  [AClause (pat (NVar "?x") (a_ "age") (VInteger 50)); AAnd [pat (NVar "?x") (a_ "age") (VInteger 50); pat (NVar "?x") (a_ "age") (VInteger 50)]]] [] LNone.
Definition v_constant : gmap var typed_value := {["?y" := TVLong 1]}.
Lemma no_fifty σ : ~ matches (disk case_conn) (schema_of case_conn) σ (Pattern (NVar "?x") (a_ "age") (VInteger 50) NPlaceholder).
Proof.
  intros (e & a & v & tx & H1 & _ & H3 & H4 & H5).
  assert (matchesb (disk case_conn) (schema_of case_conn) (given []) (Pattern NPlaceholder (a_ "age") (VInteger 50) NPlaceholder) = true) as K.
  { apply matchesb_iff. exists e, a, v, tx. split; [exact H1|]. split; [exact I|]. split; [exact H3|]. split; [exact H4|exact H5]. }
  vm_compute in K. discriminate K.
Qed.
Theorem C42_or_constant_refuted : exists r, clean MV case_conn /\ all_readable (disk case_conn) /\ safe q_constant v_constant
  /\ q_uncached sq0 case_conn q_constant v_constant = Ok r /\ ~ gives r (answer (disk case_conn) (schema_of case_conn) q_constant v_constant).
Proof.
  exists (RColl [TVLong 1]). split; [exact case_clean|]. split; [apply all_readableb_sound; vm_compute; reflexivity|]. split; [apply safeb_sound; vm_compute; reflexivity|].
  split; [vm_compute; reflexivity|]. apply (extra_coll _ _ (TVLong 1)); [|vm_compute; reflexivity].
  intros (σ & [_ H] & _). apply Forall_cons_1 in H as [(σ' & _ & H) _]. destruct H as [H|[H|H]]; [exact (no_fifty σ' H)|exact (no_fifty σ' (proj1 H))|exact H].
Qed.
Print Assumptions C42_or_constant_refuted.

(** C44_listing with such [or]s: order and limit *)
Theorem C44_branched_listing : forall mv c sq q vals r, clean mv c -> sqlite_ok sq -> all_readable (disk c) -> safe q vals ->
  Forall (branched (schema_of c) (q_in q) vals) (q_where q) -> open_find q -> well_ordered q -> well_limited q vals -> twinless (disk c) \/ closed_find q -> q_uncached sq c q vals = Ok r ->
  exists l, listing (disk c) (schema_of c) q vals l
    /\ shaped (q_find q) (map (fun σ => map σ (find_vars (q_find q))) (up_to (limit_of q vals) l)) r.
Proof. exact branched_listing. Qed.
Print Assumptions C44_branched_listing.
Definition q_eldest : query := Query (FRel ["?x"; "?a"]) [] (q_where q_union) [(Desc, "?a")] (LFixed 1).
Example C44_branched_listing_case : safe q_eldest ∅ /\ Forall (branched (schema_of case_conn) (q_in q_eldest) ∅) (q_where q_eldest) /\ open_find q_eldest /\ well_ordered q_eldest /\ well_limited q_eldest ∅
  /\ q_uncached sq0 case_conn q_eldest ∅ = Ok (RRel [[TVRef 65544; TVLong 40]]).
Proof.
  destruct q_union_safe as (_ & S2 & S3). split; [apply safeb_sound; vm_compute; reflexivity|]. split; [exact S2|]. split; [exact S3|].
  split; [intros x Hx; apply elem_of_list_singleton in Hx as ->; left; by right; left|]. split; [cbn; lia|]. vm_compute. reflexivity.
Qed.

(** Where the transactor can panic. *)
From Verif Require Import M_Conn Spec_Value Spec_Partition Spec_Tx Spec_Conn Spec_Upsert Spec_Entity Spec_Transact.
From Verif Require Import P_Base P_Value P_Partition P_Sets P_Store P_Fill P_Step P_Meta P_Inv P_Conn P_Upsert P_Resolve P_Entity P_Nested P_Tx.

Definition no_panic {A} (r : res A) : Prop := forall p, r <> Panic p.
Lemma rbind_Panic {A B} (m : res A) (f : A -> res B) p : rbind m f = Panic p -> m = Panic p \/ exists x, m = Ok x /\ f x = Panic p.
Proof. destruct m; simpl; [eauto|done|intros [= ->]; by left]. Qed.
Lemma rfold_no_panic {A B} (f : A -> B -> res A) l : forall a, (forall a b, b ∈ l -> no_panic (f a b)) -> no_panic (rfold f a l).
Proof.
  induction l as [|b l IH]; intros a H p; cbn [rfold]; [done|]. intros [Hp|(x & _ & Hp)]%rbind_Panic.
  - by apply (H a b (elem_of_list_here _ _) p).
  - eapply IH; [|exact Hp]. intros a' b' Hb. apply H. by right.
Qed.
Lemma with_st_Panic {A B} (x : store * res A) (k : store -> A -> store * res B) st p : with_st x k = (st, Panic p) ->
  x = (st, Panic p) \/ exists st' a, x = (st', Ok a) /\ k st' a = (st, Panic p).
Proof. destruct x as [st' [a| |]]; simpl; [eauto|done|by intros [= -> ->]; left]. Qed.

(* ---------------------------------------------------------------- stages 1 to 3 *)

Lemma stage1_panic pm s tx es p : stage1 pm s tx es = Panic p -> p = PKeyword.
Proof. apply stage1_loop_panic. done. Qed.
Lemma resolve_avs_panic mv st l p : resolve_avs mv st l = Panic p -> p = PTooManyValues /\ chunk_ok 4 mv (length l) = false.
Proof. unfold resolve_avs. destruct (is_nil l); [done|]. simpl. destruct (chunk_ok _ _ _); [done|]. by intros [= <-]. Qed.
Lemma resolve_lookup_refs_no_panic look ts : no_panic (resolve_lookup_refs look ts).
Proof.
  intros p H. apply rmapM_Panic in H as (t & _ & H). unfold replace_lookup_ref in H.
  destruct (tm_e t) as [|[av|]]; simpl in H; [|destruct (look av); simpl in H; [|done]|];
    (destruct (tm_v t) as [|[av'|]]; simpl in H; [|destruct (look av'); simpl in H|]; done).
Qed.
Lemma entities_panic mv st pm s tx es p : entities_to_terms mv st pm s tx es = Panic p ->
  p = PKeyword \/ p = PTooManyValues /\ exists n, chunk_ok 4 mv n = false.
Proof.
  unfold entities_to_terms. intros [H|([ts ip] & _ & H)]%rbind_Panic; [left; by eapply stage1_panic|].
  apply rbind_Panic in H as [H|(look & _ & H)]; [right; apply resolve_avs_panic in H as [-> ?]; eauto|].
  apply rbind_Panic in H as [H|(ts2 & _ & H)]; [|done]. by apply resolve_lookup_refs_no_panic in H.
Qed.
Lemma extend_trie_no_panic s tr t : no_panic (extend_trie s tr t).
Proof. intros p. unfold extend_trie, require_attribute, ok_or. by destruct (_ !! tm_a t). Qed.
Lemma into_aev_trie_no_panic s a b inert : (forall t, t ∈ inert -> tempids_of t = []) -> no_panic (into_aev_trie s a b inert).
Proof.
  intros Hi p H. unfold into_aev_trie in H. apply rbind_Panic in H as [H|(tr1 & _ & H)].
  { eapply rfold_no_panic; [|exact H]. intros. apply extend_trie_no_panic. }
  apply rbind_Panic in H as [H|(tr2 & _ & H)].
  { eapply rfold_no_panic; [|exact H]. intros. apply extend_trie_no_panic. }
  apply rbind_Panic in H as [H|(ts & _ & H)].
  - apply rmapM_Panic in H as (t & Ht & H). apply Hi in Ht. unfold unwrap_term in H. unfold tempids_of in Ht.
    by destruct (tm_e t), (tm_v t).
  - eapply rfold_no_panic; [|exact H]. intros. apply extend_trie_no_panic.
Qed.
Lemma resolve_terms_inert mv st pm s ts ids r t : resolve_terms mv st pm s ts ids = Ok r -> t ∈ rv_inert r -> tempids_of t = [].
Proof.
  unfold resolve_terms. intros H. apply rbind_Ok in H as ([g0 inert] & Hg0 & H). apply rbind_Ok in H as ([g1 τ] & Hl & H).
  apply rbind_Ok in H as (labels & _ & H). apply rbind_Ok in H as ([start pm'] & _ & H). apply rbind_Ok in H as ([[a b] c] & _ & H).
  destruct (negb _); [done|]. destruct (negb _); [done|]. injection H as <-. simpl.
  pose proof (gen_from_Ok _ _ _ _ Hg0) as (_ & _ & _ & _ & Hinert & _). apply Hinert.
Qed.

(* ---------------------------------------------------------------- the instant *)

Lemma tx_instant_panic s now tx tr p : trie_wf s tr -> trie_all entry_typed tr = true -> trie_all entry_no_conflict tr = true ->
  instant_typed (sc_attribute_map s) -> get_or_insert_tx_instant s now tx tr = Panic p ->
  p = PTxInstant /\ card_many_attr s DB_TX_INSTANT.
Proof.
  intros Hwf Hty Hnc (at_ & Ha & Ht) H. unfold get_or_insert_tx_instant, require_attribute in H. rewrite Ha in H. simpl in H.
  destruct (tr !! (DB_TX_INSTANT, tx)) as [en|] eqn:E; simpl in H; [|by rewrite elements_empty in H].
  pose proof (Hwf _ _ _ E) as Hen. assert (te_attr en = at_) as Hat by congruence.
  assert (forall v, v ∈ elements (te_add en) -> exists i, v = TVInstant i) as Hall.
  { intros v Hv%elem_of_elements. destruct (entry_typed_req tr OAdd tx DB_TX_INSTANT v Hty) as (en2 & Hen2 & Hv2); [by exists en|].
    assert (en2 = en) as -> by congruence. rewrite Hat, Ht in Hv2. destruct v; try done. eauto. }
  destruct (elements (te_add en)) as [|v [|w l]] eqn:El; [done| |].
  - destruct (Hall v (elem_of_list_here _ _)) as (i & ->). done.
  - split; [by destruct v; injection H|]. exists at_. split; [done|]. destruct (at_multival at_) eqn:Hm; [done|]. exfalso.
    assert (v = w) as <-.
    { apply (proj2 (entry_no_conflict_req tr tx DB_TX_INSTANT Hnc) v w en); try done; try (exists en; split; [done|]; apply elem_of_elements; rewrite El; set_solver).
      by rewrite Hat. }
    pose proof (NoDup_elements (te_add en)) as Hn. rewrite El in Hn. apply NoDup_cons in Hn as [Hn _]. apply Hn. by left.
Qed.

(* ---------------------------------------------------------------- materialization *)

(** What can go wrong in the insertion statements *)
Definition insertion_panic (mv : Z) (p : panicsite) : Prop :=
  p = PTooManyValues /\ (exists n, chunk_ok 6 mv n = false)
  \/ p = PRepeatValues.
Lemma fts_panic mv ok st tbl es st' p : insert_fts_searches mv ok st tbl es = (st', Panic p) -> insertion_panic mv p.
Proof.
  unfold insert_fts_searches. destruct (rmapM r_string es) as [ss| |q] eqn:Es; [|done|].
  - destruct (chunk_ok _ _ _) eqn:E; [|intros [= _ <-]; left; eauto].
    destruct (fts_chunks_ok _ _) eqn:E2; [by destruct (ok _)|]. intros [= _ <-]. by right.
  - apply rmapM_Panic in Es as (r & _ & Hr). unfold r_string in Hr. by destruct (r_v r).
Qed.
Lemma fill_searches_panic mv st l st' p : fill_searches mv st l = (st', Panic p) ->
  p = PTooManyValues /\ (exists n, chunk_ok 6 mv n = false) \/ p = PRepeatValues /\ exists r, r ∈ l /\ at_fulltext (r_attr r) = true.
Proof.
  assert (forall b q, insertion_panic mv q -> is_nil (queue true b l) = false ->
    q = PTooManyValues /\ (exists n, chunk_ok 6 mv n = false) \/ q = PRepeatValues /\ exists r, r ∈ l /\ at_fulltext (r_attr r) = true) as Hft.
  { intros b q [?|Hq] Hn; [by left|]. right. split; [done|]. destruct (queue true b l) as [|r l'] eqn:E; [done|]. exists r.
    assert (r ∈ queue true b l) as Hr by (rewrite E; by left). apply elem_of_list_filter in Hr as [Hr ?]. split; [done|].
    unfold is_queue in Hr. apply andb_true_iff in Hr as [Hr _]. by apply eqb_prop in Hr. }
  assert (forall ok tbl es q, insert_non_fts_searches mv ok tbl es = Panic q -> q = PTooManyValues /\ (exists n, chunk_ok 6 mv n = false)) as Hno.
  { intros ok tbl es q. unfold insert_non_fts_searches. destruct (chunk_ok _ _ _) eqn:E; [by destruct (ok _)|]. intros [= <-]. eauto. }
  unfold fill_searches. intros [H|(st1 & inx & _ & H)]%with_st_Panic.
  { destruct (is_nil _); [done|]. injection H as _ H. left. by eapply Hno. }
  apply with_st_Panic in H as [H|(st2 & ex & _ & H)].
  { destruct (is_nil _); [done|]. injection H as _ H. left. by eapply Hno. }
  apply with_st_Panic in H as [H|(st3 & inx2 & _ & H)].
  { destruct (is_nil _) eqn:En; [done|]. eapply Hft; [|exact En]. by eapply fts_panic. }
  apply with_st_Panic in H as [H|(st4 & ex2 & _ & H)]; [|done].
  destruct (is_nil _) eqn:En; [done|]. eapply Hft; [|exact En]. by eapply fts_panic.
Qed.
Lemma materialize_no_panic act st tx ex inx st' p : materialize act st tx ex inx <> (st', Panic p).
Proof.
  unfold materialize, search. destruct (bool_decide _); [|done]. intros [H|(st1 & u & _ & H)]%with_st_Panic; [|by destruct act].
  unfold update_datoms in H. by destruct (datoms_unique _).
Qed.

(* ---------------------------------------------------------------- metadata *)

Lemma sublist_NoDup {A} (l1 l2 : list A) : l1 `sublist_of` l2 -> NoDup l2 -> NoDup l1.
Proof.
  induction 1 as [|x l1 l2 S IH|x l1 l2 S IH]; rewrite ?NoDup_cons; [done| |naive_solver].
  intros [Hx Hn]. split; [|auto]. intros H. apply Hx. by eapply elem_of_submseteq, sublist_submseteq.
Qed.

(** Dropping the unique flag cannot break uniqueness. *)
Lemma set_uq_false_unique a ds : datoms_unique ds = true -> datoms_unique (map (set_uq a false) ds) = true.
Proof.
  unfold datoms_unique. rewrite !andb_true_iff, !bool_decide_eq_true. intros [[H1 H2] H3].
  assert (map d_key (map (set_uq a false) ds) = map d_key ds) as E1.
  { rewrite map_map. apply map_ext. intros d. unfold set_uq. by destruct (decide _). }
  assert (map d_vaet_key (filter (fun d => d_vaet d = true) (map (set_uq a false) ds)) = map d_vaet_key (filter (fun d => d_vaet d = true) ds)) as E2.
  { clear. induction ds as [|d ds IH]; [done|]. cbn [map]. rewrite !filter_cons.
    assert (d_vaet (set_uq a false d) = d_vaet d) as -> by (unfold set_uq; by destruct (decide _)).
    destruct (decide (d_vaet d = true)); [|done]. cbn [map]. rewrite IH. f_equal. unfold set_uq. by destruct (decide _). }
  rewrite E1, E2. split; [done|]. clear -H3.
  assert (map d_uq_key (filter (fun d => d_uq d = true) (map (set_uq a false) ds)) `sublist_of` map d_uq_key (filter (fun d => d_uq d = true) ds)) as S.
  { clear. induction ds as [|d ds IH]; [done|]. cbn [map]. rewrite !filter_cons.
    destruct (decide (d_a d = a)) as [E|E].
    - assert (d_uq (set_uq a false d) = false) as -> by (unfold set_uq; by rewrite decide_True).
      rewrite (decide_False (P := false = true)) by done. destruct (decide (d_uq d = true)); [by constructor|done].
    - assert (set_uq a false d = d) as -> by (unfold set_uq; by rewrite decide_False).
      destruct (decide (d_uq d = true)); [by constructor|done]. }
  by eapply sublist_NoDup.
Qed.
Lemma apply_alteration_panic e at_ st alt st' p : datoms_unique (st_datoms st) = true -> apply_alteration e at_ st alt <> (st', Panic p).
Proof.
  intros Hu H. unfold apply_alteration in H. destruct alt; try done.
  - destruct (at_unique at_) as [u|] eqn:E; simpl in H; [revert H; by destruct (datoms_unique (map _ _))|]. by rewrite set_uq_false_unique in H.
  - destruct (at_multival at_); done.
Qed.
Lemma apply_alterations_panic e at_ alts : forall st st' p, datoms_unique (st_datoms st) = true -> apply_alterations e at_ st alts <> (st', Panic p).
Proof.
  induction alts as [|alt alts IH]; intros st st' p Hu; cbn [apply_alterations]; [done|].
  destruct (apply_alteration e at_ st alt) as [st1 [u| |q]] eqn:E; [|done|].
  - apply IH. by apply (apply_alteration_Ok _ _ _ _ _ _ Hu) in E as (_ & _ & _ & _ & ? & _).
  - by apply (apply_alteration_panic _ _ _ _ _ _ Hu) in E.
Qed.
Lemma apply_altered_panic sc l : forall st st' p, datoms_unique (st_datoms st) = true -> apply_altered sc st l <> (st', Panic p).
Proof.
  induction l as [|[e alts] l IH]; intros st st' p Hu; cbn [apply_altered]; [done|].
  unfold require_attribute, ok_or. destruct (_ !! e) as [at_|]; [|done].
  destruct (apply_alterations e at_ st alts) as [st1 [u| |q]] eqn:E; [|done|].
  - apply IH. by apply (apply_alterations_Ok _ _ _ _ _ _ Hu) in E as (_ & _ & _ & _ & ? & _).
  - by apply (apply_alterations_panic _ _ _ _ _ _ Hu) in E.
Qed.

(** The type of a value read from the log is the type of its attribute. *)
Definition quads_typed (quads : list quad) : Prop := forall e v b, (e, DB_IDENT, v, b) ∈ quads -> exists k, v = TVKeyword k.

Lemma kw_new_panic ns n p : kw_new ns n = Panic p -> p = PKeyword.
Proof. unfold kw_new. destruct n; [by injection 1|]. destruct ns as [[|]|]; [by injection 1|done..]. Qed.
Lemma from_sql_panic v tag p : from_sql_value_pair v tag = Panic p -> p = PKeyword.
Proof.
  unfold from_sql_value_pair. destruct v; repeat case_decide; try done. unfold rmap. clear.
  intros [H|(x & _ & H)]%rbind_Panic; [|done]. unfold to_namespaced_keyword in H.
  destruct (split_seps s) as [|[|] [|ns [|n [|]]]]; try done. by eapply kw_new_panic.
Qed.
Lemma committed_panic st tx p : committed_metadata_assertions st tx = Panic p -> p = PKeyword.
Proof.
  intros H. apply rmapM_Panic in H as ([[[[e a] v] tag] b] & _ & H). simpl in H. apply rbind_Panic in H as [H|(x & _ & H)]; [|done].
  by eapply from_sql_panic.
Qed.
Lemma retractions_no_panic m rs ir : no_panic (update_attribute_map_from_schema_retractions m rs ir).
Proof.
  apply rfold_no_panic. intros [m' out] r _ p. simpl. destruct (_ && _)%bool; [|done]. by destruct (is_some _).
Qed.
Lemma retract_one_no_panic m bs r : no_panic (retract_one m bs r).
Proof. intros p. destruct r as [[e a] v]. unfold retract_one. repeat case_decide; destruct v; repeat case_decide; done. Qed.
Lemma assert_one_no_panic bs r : no_panic (assert_one bs r).
Proof.
  intros p. destruct r as [[e a] v]. unfold assert_one. intros [H|(x & _ & H)]%rbind_Panic; [|done]. revert H.
  unfold assert_builder. repeat case_decide; destruct v; repeat case_decide; try done. by destruct (value_type_of_entid _).
Qed.
Lemma apply_builder_no_panic acc q : no_panic (apply_builder acc q).
Proof.
  intros p. destruct acc as [m rep], q as [e b]. unfold apply_builder. destruct (m !! e) as [a|].
  - unfold validate_alter. destruct (b_type b), (b_fulltext b); simpl; try done. by destruct (mutate b a).
  - unfold validate_install. destruct (b_type b); simpl; [|done]. unfold attribute_validate. by repeat destruct (_ && _)%bool.
Qed.
Lemma triples_no_panic m xs ys : no_panic (update_attribute_map_from_entid_triples m xs ys).
Proof.
  intros p H. unfold update_attribute_map_from_entid_triples in H. apply rbind_Panic in H as [H|(bs & _ & H)].
  { eapply rfold_no_panic; [|exact H]. intros; apply retract_one_no_panic. }
  apply rbind_Panic in H as [H|(bs' & _ & H)].
  { eapply rfold_no_panic; [|exact H]. intros; apply assert_one_no_panic. }
  eapply rfold_no_panic; [|exact H]. intros; apply apply_builder_no_panic.
Qed.
Lemma schema_no_panic s quads : quads_typed quads -> no_panic (update_schema_from_entid_quadruples s quads).
Proof.
  intros Hq p H. unfold update_schema_from_entid_quadruples in H. apply rbind_Panic in H as [H|([attrs idents] & _ & H)].
  { eapply rfold_no_panic; [|exact H]. intros [at_ id_] [[[e a] v] b] Hin q. unfold witness_quad. case_decide as Ha; [|done]. subst a.
    destruct (Hq _ _ _ Hin) as (k & ->). done. }
  apply rbind_Panic in H as [H|([m ns] & _ & H)]; [by eapply retractions_no_panic|].
  apply rbind_Panic in H as [H|([m2 rep] & _ & H)]; [by eapply triples_no_panic|].
  by destruct (apply_idents _ _).
Qed.

(* ---------------------------------------------------------------- a transaction *)

Lemma apply_trie_panic mv now st s tx tr st' p :
  store_ok (sc_attribute_map s) st tx -> core_typed (sc_attribute_map s) -> trie_wf s tr ->
  apply_trie mv now MaterializeAndCommit st s s tx tr = (st', Panic p) ->
  p = PKeyword \/ p = PTxInstant /\ card_many_attr s DB_TX_INSTANT \/ p = PTooManyValues /\ (exists n, chunk_ok 6 mv n = false)
  \/ p = PRepeatValues /\ exists a at_, sc_attribute_map s !! a = Some at_ /\ at_fulltext at_ = true.
Proof.
  intros H0 Hcore Hwf H. unfold apply_trie in H. destruct (trie_all entry_typed tr) eqn:Hty; simpl in H; [|done].
  destruct (trie_all entry_no_conflict tr) eqn:Hnc; simpl in H; [|done].
  destruct (get_or_insert_tx_instant s now tx tr) as [[i tr']| |q] eqn:Hi; [|done|].
  2:{ injection H as _ <-. apply tx_instant_panic in Hi as [-> ?]; auto. by apply core_instant. }
  destruct (core_instant _ Hcore) as (at_ & Ha & Ht).
  destruct (tx_instant_checks _ _ _ _ _ _ Hwf ltac:(intros x Hx; congruence) Hty (no_conflict_one_add _ _ Hwf Hnc) Hi) as [Hty' Hone'].
  destruct (tx_instant_Ok _ _ _ _ _ _ Hwf Hi) as (Hwf' & _ & _ & _ & _).
  apply with_st_Panic in H as [H|(st1 & [ex inx] & Hf & H)].
  { apply fill_searches_panic in H as [[-> ?]|[-> (r & Hr & Hft)]]; [by auto|]. right. right. right. split; [done|].
    apply trie_reduced_elem in Hr as (en & Hen & Er & _). apply Hwf' in Hen. rewrite Er in Hft. eauto. }
  apply with_st_Panic in H as [H|(st2 & rs & Hm & H)]; [by apply materialize_no_panic in H|].
  apply with_st_Panic in H as [H|(st3 & sc & _ & H)]; [|done].
  apply fill_searches_Ok in Hf as (f & Hfill).
  destruct (materialize_ok _ s st st1 st2 tx tr' f ex inx rs eq_refl H0 Hwf' Hty' Hone' Hfill Hm)
    as (H2 & Ef & Ep & Ei & Es & Hs & Ed & El).
  destruct (existsb _ _); [|done]. unfold evolve_metadata in H.
  destruct (committed_metadata_assertions st2 tx) as [quads| |q] eqn:Eq; simpl in H; [|done|].
  2:{ injection H as _ <-. left. by eapply committed_panic. }
  assert (quads_typed quads) as Hq.
  { intros e v b Hin. destruct (committed_quads_elem _ _ _ _ _ _ _ Eq Hin) as (r & Hr & _ & Hra & _ & Hrt & Hv & _).
    assert (forall r, r ∈ log_adds tx rs ++ log_retracts tx rs -> t_tx r = tx /\ t_timeline r = TIMELINE_MAIN) as Hnew.
    { clear. intros r [Hr|Hr]%elem_of_app.
      - apply log_adds_elem in Hr as (t & _ & ->). done.
      - unfold log_retracts in Hr. apply distinct_elem, elem_of_list_omap in Hr as (x & _ & Hx).
        destruct (sr_retracts x); [|done]. apply fmap_Some in Hx as (d & _ & ->). done. }
    rewrite El in Hr. apply elem_of_app in Hr as [Hr|Hr]; [apply (so_tx _ _ _ H0) in Hr; lia|].
    destruct (row_stored (sc_attribute_map s) st st2 tx (log_adds tx rs ++ log_retracts tx rs) H0 H2) with (r := r) as (at2 & tv & Ha2 & Hst); try done.
    { rewrite Ef. apply Hfill. }
    rewrite Hra in Ha2. destruct (Hcore DB_IDENT VTKeyword) as (at3 & Ha3 & Ht3); [unfold core_types; set_solver|].
    assert (at3 = at2) as -> by congruence. apply stored_as_tag in Hst. apply codec_type in Hv. rewrite Hst, Ht3 in Hv.
    destruct v; try done. eauto. }
  destruct (update_schema_from_entid_quadruples s quads) as [[ns rep]| |q] eqn:Eu; [|done|by apply schema_no_panic in Eu].
  case_decide; [done|]. apply with_st_Panic in H as [H|(st4 & u & _ & H)]; [|done].
  unfold update_metadata in H. exfalso. eapply apply_altered_panic; [|exact H].
  pose proof (so_uniq _ _ _ H2). repeat destruct (is_nil _); simpl; done.
Qed.

Lemma limit_chunks mv : limit_ok mv -> forall k n, k = 4 \/ k = 6 -> chunk_ok k mv n = true.
Proof. intros (H1 & H2 & H3) k n Hk. apply chunk_ok_iff; [lia..|]. destruct Hk as [-> | ->]; split; try lia; by right. Qed.
Lemma pm_allocate_panic pm k n p q : pm !! k = Some q -> pt_start q <= pt_next q -> 0 <= n -> pm_allocate pm k n = Panic p ->
  p = PPartition /\ pt_end q < pt_next q + n.
Proof.
  intros Hq Hs Hn H. unfold pm_allocate in H. rewrite Hq in H. unfold part_allocate, part_set_next, part_allows in H.
  destruct (pt_start q <=? pt_next q + n) eqn:E1; [|apply Z.leb_gt in E1; lia]. destruct (pt_next q + n <=? pt_end q) eqn:E2; [done|].
  apply Z.leb_gt in E2. simpl in H. by injection H as <-.
Qed.
Lemma conn_transact_Panic mv now c es c' p : conn_transact mv now c es = (c', Panic p) ->
  exists st, transact mv now (cn_disk c) (md_parts (cn_md c)) (md_schema (cn_md c)) (md_schema (cn_md c)) es = (st, Panic p).
Proof.
  unfold conn_transact, ig_transact, ig_transacted.
  destruct (ig_watch_same (conn_begin c) (watch_transact mv now (ig_store (conn_begin c)) (ig_parts (conn_begin c)) (ig_schema (conn_begin c)) es)) as (W1 & W2 & W3 & W4).
  revert W1 W2 W3 W4. generalize (ig_watch (conn_begin c) (watch_transact mv now (ig_store (conn_begin c)) (ig_parts (conn_begin c)) (ig_schema (conn_begin c)) es)). intros w W1 W2 W3 W4.
  destruct (transact _ _ _ _ _ _ _) as [st' [x| |]] eqn:Et; try done.
  - unfold conn_commit. simpl. by destruct (decide _).
  - intros [= <- <-]. eauto.
Qed.

Theorem transact_panics mv now c es c' p : clean mv c -> conn_transact mv now c es = (c', Panic p) -> may_panic mv c es p.
Proof.
  intros Hc%clean_ok H. apply conn_transact_Panic in H as (st' & H). unfold conn_ok in Hc.
  set (st := disk c) in *. set (pm := parts_of c) in *. set (s := schema_of c) in *.
  destruct Hc as [(q & Hq & H0 & Hqs & Hqe & Hnx) Hcore Htl Hrg Hk Hpo].
  unfold transact in H. destruct (pm_allocate pm ":db.part/tx" 1) as [[tx pm1]| |p0] eqn:Ep; [|done|].
  2:{ injection H as _ <-. apply (pm_allocate_panic _ _ _ _ _ Hq) in Ep as [-> ?]; [|lia..]. left. by exists q. }
  pose proof (tx_alloc _ _ _ Ep) as (q0 & Hq0 & Etx & _ & _ & Hoth). assert (q0 = q) as -> by congruence.
  destruct (entities_to_terms mv st pm1 s tx es) as [[ts ids]| |p0] eqn:Ee; [|done|].
  2:{ injection H as _ <-. apply entities_panic in Ee as [-> |[-> (n & Hn)]]; [done|]. intros Hl. by rewrite (limit_chunks _ Hl) in Hn by auto. }
  pose proof (entities_tempids _ _ _ _ _ _ _ _ Ee) as Hids.
  assert (meant c es ts) as Hmeant.
  { destruct (entities_reads _ _ _ _ _ _ _ _ Ee) as (l & Hst & (l' & P & F)). exists tx, l. split; [done|]. exists l'. split; [done|].
    eapply Forall2_impl; [exact F|]. intros y t. apply reads_before.
    intros e He. destruct (pm_allocate_step _ _ _ _ _ (parts_ok_wf _ Hpo) (ltac:(lia) : 0 <= 1) Ep) as (_ & Hall & _).
    apply Hall in He as [He|He]; [by left|right]. unfold in_range in He. simpl in He. lia. }
  unfold transact_simple_terms in H. destruct (resolve_terms mv st pm1 s ts ids) as [rv| |p0] eqn:Er; [|done|].
  2:{ injection H as _ <-. apply resolve_terms_panic in Er as [[-> (n & Hn)]|[(n & Hn & Hp)|[-> (t & x & y & ?)]]]; try done.
      - intros Hl. by rewrite (limit_chunks _ Hl) in Hn by auto.
      - destruct (parts_ok_get pm ":db.part/user" (Part USER0 (TX0 - 1) true USER0)) as (u & Hu & E1 & E2 & E3); [done|unfold V1_PARTS; set_solver|].
        assert (pm1 !! ":db.part/user" = Some u) as Hu1 by by rewrite Hoth.
        apply (pm_allocate_panic _ _ _ _ _ Hu1) in Hp as [-> Hp]; [|lia..]. right. exists ts, ids. split_and!; [done|by intros x Hx%Hids|].
        exists u. split; [done|]. lia.
      - exists ts, t, x, y. naive_solver. }
  destruct (into_aev_trie s (rv_resolved rv) (rv_allocated rv) (rv_inert rv)) as [tr| |p0] eqn:Ei; [|done|].
  2:{ apply into_aev_trie_no_panic in Ei; [done|]. intros t. by apply (resolve_terms_inert _ _ _ _ _ _ _ _ Er). }
  destruct (into_aev_trie_Ok _ _ _ _ _ Ei) as (Hwf & _).
  apply with_st_Panic in H as [H|(st1 & [[i sc] ev] & _ & H)]; [|done].
  apply apply_trie_panic in H as [-> |[[-> ?]|[[-> (n & Hn)]|[-> ?]]]]; try done.
  - intros Hl. by rewrite (limit_chunks _ Hl) in Hn by auto.
  - by rewrite Etx.
Qed.

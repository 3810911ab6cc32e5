(** Queries on the connections that histories lead to. *)
From Verif Require Import M_Query M_Conn Spec_Query Spec_Value Spec_Partition Spec_Tx Spec_Conn Spec_Transact Spec_Cache Spec_Schema
  P_Base P_Value P_Partition P_Store P_Fill P_Step P_Meta P_Inv P_Conn P_CacheInv P_Schema P_SchemaStep
  P_QuerySql P_QuerySat P_QueryPat P_QueryInv P_QueryApply P_QueryClauses P_QueryStep P_QueryPred P_QueryOr P_QueryMain P_QueryProj Spec_Union P_QueryUnion P_QueryBranch P_QueryResult.

(* ---------------------------------------------------------------- the store is not empty *)

(** The log says that an attribute was installed. *)
Definition installed (l : list txrow) : Prop := exists r, r ∈ l /\ t_a r = DB_VALUE_TYPE.
Lemma installed_app l new : installed l -> installed (l ++ new).
Proof. intros (r & Hr & Ha). exists r. split; [apply elem_of_app; by left|done]. Qed.

Lemma create_installed mv now d : create_current_version mv now = Ok d -> installed (st_log (db_store d)).
Proof.
  unfold create_current_version. intros H. apply rbind_Ok in H as (s & Hs & H).
  pose proof (bootstrap_core s Hs) as Hcty. pose proof (core_instant _ Hcty) as Hi. pose proof (bootstrap_core_flat s Hs) as Hcore.
  pose proof (fun tx pm1 ts ids rv tr => bootstrap_asserts mv s tx pm1 ts ids rv tr Hs) as Has. clear Hs.
  change (Store [] [] [] [] [] bootstrap_known_parts) with empty_store in H.
  revert H Has. generalize bootstrap_entities, bootstrap_partition_map. intros bes bpm H Has.
  revert H. generalize schema_default. intros sd H.
  destruct (transact _ _ _ _ _ _ _) as [st' [r| |]] eqn:Et; [|discriminate H..].
  assert (db_store d = st') as ->.
  { destruct (tr_schema r) as [s'|]; [|by injection H as <-]. destruct (decide (s' = s)) as [->|]; [|done]. by injection H as <-. }
  clear H. unfold transact in Et. destruct (pm_allocate _ _ _) as [[tx pm1]| |] eqn:Ep; try done.
  destruct (entities_to_terms _ _ _ _ _ _) as [[ts ids]| |] eqn:Ee; try done.
  apply transact_simple_Ok in Et as (rv & tr & Hrv & Htr & Hwf & Hap & _).
  pose proof (Has _ _ _ _ _ _ eq_refl Ee Hrv Htr) as Hreq. clear Has Ee Hrv Htr.
  assert (store_ok (sc_attribute_map s) empty_store tx) as H0 by apply store_ok_empty.
  apply (applied_trie_ok _ _ _ _ _ _ _ _ _ _ _ H0 Hi Hwf) in Hap as (st2 & rs & tr' & H2 & Happ & _ & _ & Ei & Es & He & _).
  rewrite (evolve_log _ _ _ _ _ _ _ He).
  assert ((DB_IDENT, DB_VALUE_TYPE, ref_value DB_TYPE_KEYWORD) ∈ facts st2) as Hin.
  { destruct (Hcore DB_VALUE_TYPE (schema_meta _ in_type)) as (at_ & Hm & _ & Hmu & _).
    apply (ap_facts _ _ _ _ _ _ _ Happ _ _ _ at_ Hm). rewrite Hmu. right. split; [|apply not_elem_of_nil].
    exists (TVRef DB_TYPE_KEYWORD). split; [|done]. apply (ap_req _ _ _ _ _ _ _ Happ). by left. }
  apply (facts_elem (sc_attribute_map s)) in Hin as (dd & at_ & tv & Hd & _ & Ha & _); [|apply H2].
  destruct (proj1 (so_log _ _ _ H2 (d_key dd) (d_tx dd))) as (r' & Hr & _); [by exists dd|].
  apply last_elem, rows_of_elem in Hr as [Hr Hk]. exists r'. split.
  - unfold transactions in Hr. by apply elem_of_list_filter in Hr as [_ Hr].
  - unfold t_key, d_key in Hk. congruence.
Qed.
Lemma installed_datoms c : conn_ok c -> never_uninstalled (st_log (disk c)) -> installed (st_log (disk c)) -> exists d, d ∈ st_datoms (disk c).
Proof.
  intros Hc Hn (r & Hr & Ha). destruct (ok_tx _ _ _ Hc) as (p & _ & H0 & _).
  assert (r ∈ rows_of (transactions (disk c)) (t_key r)) as Hin.
  { apply elem_of_list_filter. split; [done|]. apply elem_of_list_filter. split; [by apply (so_main _ _ _ H0)|done]. }
  destruct (last (rows_of (transactions (disk c)) (t_key r))) as [r'|] eqn:El.
  - destruct (proj2 (so_log _ _ _ H0 (t_key r) (t_tx r'))) as (d & Hd & _); [|by exists d]. exists r'. split_and!; try done.
    apply last_elem, elem_of_list_filter in El as [Hk Hin']. apply elem_of_list_filter in Hin' as [_ Hin'].
    destruct (t_added r') eqn:E; [done|]. exfalso. apply (Hn r' Hin'). split; [|done]. unfold t_key in Hk. congruence.
  - apply last_None in El. rewrite El in Hin. by apply elem_of_nil in Hin.
Qed.
Lemma clean_installed mv c : clean mv c -> installed (st_log (disk c)).
Proof.
  intros (now & c0 & l & Ho & -> & Hc & Hn). destruct (conn_run_log mv l c0 Hc) as (new & ->). apply installed_app.
  unfold conn_open in Ho. apply rbind_Ok in Ho as (d & Hd & [= <-]). by apply create_installed in Hd.
Qed.

Lemma cc_step_log reverse mv c o : tame reverse mv c o ->
  exists new, st_log (disk (cc_conn (cc_step mv c o).1)) = st_log (disk (cc_conn c)) ++ new.
Proof.
  intros Ht. assert (forall i, (exists new, st_log (ig_store (ci_ig i)) = st_log (disk (cc_conn c)) ++ new) ->
    exists new, st_log (disk (cc_conn (cc_commit c i false).1)) = st_log (disk (cc_conn c)) ++ new) as Hcommit.
  { intros i Hi. unfold cc_commit. destruct (conn_commit (cc_conn c) (ci_ig i)) as [[c1 x]| |] eqn:E; [|exists []; by rewrite app_nil_r..].
    unfold conn_commit in E. case_decide; [|done]. injection E as <- _. destruct (commit_to _ _ _); cbn [fst]; first [exact Hi|exists []; by rewrite app_nil_r]. }
  destruct o as [now es shared|l commit shared|k d register|].
  - destruct Ht as [-> Ht]. revert Ht. cbn [cc_step]. destruct (ci_step mv (cc_begin c) (CiOp (OpTransact now es))) as [i r] eqn:Es.
    destruct r as [u| |]; [|exists []; by rewrite app_nil_r..]. intros Ht. destruct (decide (is_ok (cc_commit c i false).2 = true)) as [Hr|Hr].
    + assert ((cc_commit c i false).2 = Ok tt) as Hok by (by destruct (cc_commit c i false).2 as [[]| |]). apply Hcommit.
      destruct (ci_calls_log _ _ _ _ _ (Ht Hok)) as (new & E). unfold ci_after in E. cbn [fold_left] in E. rewrite Es in E. cbn [fst] in E. by exists new.
    + exists []. rewrite app_nil_r, cc_commit_fail; [done|]. intros E. by rewrite E in Hr.
  - revert Ht. unfold tame. cbn [cc_step]. unfold cc_session. destruct (ci_steps mv (cc_begin c) l) as [[i rs]| |] eqn:Es; [|exists []; by rewrite app_nil_r..].
    destruct commit; [|exists []; by rewrite app_nil_r]. intros Ht. destruct (Ht eq_refl) as [-> Ht']. clear Ht.
    destruct (decide (is_ok (cc_commit c i false).2 = true)) as [Hr|Hr].
    + assert ((cc_commit c i false).2 = Ok tt) as Hok by (by destruct (cc_commit c i false).2 as [[]| |]). apply Hcommit.
      destruct (ci_calls_log _ _ _ _ _ (Ht' Hok)) as (new & E). rewrite <- (ci_steps_after _ _ _ _ _ Es) in E. by exists new.
    + exists []. rewrite app_nil_r, cc_commit_fail; [done|]. intros E. by rewrite E in Hr.
  - exists []. rewrite app_nil_r. cbn [cc_step]. destruct (attribute_for_ident _ _); [|done..]. destruct register; [|done].
    by destruct (cache_register _ _ _ _ _).
  - exists []. rewrite app_nil_r. cbn [cc_step conn_step]. unfold conn_open.
    destruct (rbind (read_db (cn_disk (cc_conn c))) _) as [c1| |] eqn:E; [|done..]. cbn [fst cc_conn].
    apply rbind_Ok in E as ([pm sc] & Hr & [= <-]). done.
Qed.
Lemma caching_installed reverse mv c : caching reverse mv c -> installed (st_log (disk (cc_conn c))) /\ never_uninstalled (st_log (disk (cc_conn c))).
Proof.
  induction 1 as [c Hc|c o Hc [IH1 IH2] Ht Hn].
  - split; [by eapply clean_installed|]. by destruct Hc as (now & c0 & l & _ & _ & _ & Hn).
  - split; [|done]. destruct (cc_step_log _ _ _ _ Ht) as (new & ->). by apply installed_app.
Qed.

(* ---------------------------------------------------------------- the store can be queried *)

Lemma all_datoms_elem st d : d ∈ all_datoms st <-> exists d0, d0 ∈ st_datoms st /\
  if d_ft d0 then exists t, fts_text (st_fts st) (d_v d0) = Some t /\ d = Datom (d_e d0) (d_a d0) (SText t) (d_tag d0) (d_tx d0) (d_avet d0) (d_vaet d0) (d_ft d0) (d_uq d0)
  else d = d0.
Proof.
  unfold all_datoms. rewrite elem_of_list_In, in_flat_map. setoid_rewrite <- elem_of_list_In. split.
  - intros (d0 & Hd & Hin). exists d0. split; [done|]. destruct (d_ft d0).
    + destruct (fts_text _ _) as [t|]; [|by apply elem_of_nil in Hin]. apply elem_of_list_singleton in Hin. by exists t.
    + by apply elem_of_list_singleton in Hin.
  - intros (d0 & Hd & H). exists d0. split; [done|]. destruct (d_ft d0).
    + destruct H as (t & -> & ->). by left.
    + subst. by left.
Qed.
Lemma conn_store_good c : conn_ok c -> all_readable (disk c) -> store_good (sc_attribute_map (schema_of c)) (disk c).
Proof.
  intros Hc Hr. pose proof (db_ok_datoms _ _ _ Hc) as Hok. set (st := disk c) in *. set (m := sc_attribute_map (schema_of c)) in *. split.
  - intros d Hd. assert ((d_e d, d_a d, (d_v d, d_tag d)) ∈ facts st) as Hf by (apply elem_of_list_fmap; by exists d).
    destruct (Hr _ _ _ Hf) as (v & Hv & Hp). apply all_datoms_elem in Hd as (d0 & Hd0 & H).
    destruct (Hok d0 Hd0) as (at_ & Hm & (tv & Hs) & Hfl). destruct Hfl as (_ & _ & Hft & _).
    assert (d_a d = d_a d0 /\ d_tag d = d_tag d0 /\ d_ft d = d_ft d0) as (E1 & E2 & E3).
    { destruct (d_ft d0) eqn:Ef; [destruct H as (t & _ & ->)|subst d]; split_and!; try done; by rewrite Ef. }
    exists at_, v. rewrite E1, E3. split_and!; try done.
    + pose proof (stored_as_tag _ _ _ _ _ Hs) as Ht. rewrite <- E2 in Ht.
      assert (vt_tag (tv_type v) = d_tag d) as Ht' by (rewrite <- codec_tag, <- Hp; done). rewrite Ht in Ht'.
      (* the tags of Long and Double are the same *)
      destruct (at_fulltext at_) eqn:Ef.
      * pose proof Hs as (T & E & N). destruct (enc_fulltext _ _ _ _ _ Ef E N) as (s & i & -> & _). rewrite <- T in Ht' |- *. by destruct v.
      * pose proof Hs as (T & E & N). rewrite enc_plain in E by done. rewrite Hft in H. subst d0.
        assert (to_sql_value_pair v = to_sql_value_pair tv) as Heq by congruence. rewrite <- T. clear - Heq.
        destruct v as [| | |[]| | | |], tv as [| | |[]| | | |]; try done.
    + unfold sql_of. by rewrite <- Hp.
    + rewrite <- codec_tag, <- Hp. done.
  - intros d Hd. destruct (Hok d Hd) as (at_ & Hm & (tv & Hs) & Hfl). destruct Hfl as (_ & _ & Hft & _). pose proof Hs as (T & E & N). destruct (d_ft d) eqn:Ef.
    + right. symmetry in Hft. destruct (enc_fulltext _ _ _ _ _ Hft E N) as (s & i & -> & Hi & Hv & Ht). split_and!; try done; [by exists i|].
      apply fts_rowid_text in Hi. eexists. split; [apply all_datoms_elem; exists d; split; [done|]; rewrite Ef; exists s; split; [by rewrite Hv|done]|]. done.
    + left. split; [done|]. apply all_datoms_elem. exists d. by rewrite Ef.
  - intros d Hd. apply all_datoms_elem in Hd as (d0 & Hd0 & H). destruct (d_ft d0) eqn:Ef.
    + destruct H as (t & Ht & ->). right. cbn [d_ft d_v d_tag d_e d_a d_tx]. split_and!; [done|by exists t| |by exists d0].
      destruct (Hok d0 Hd0) as (at_ & Hm & (tv & Hs) & Hfl). destruct Hfl as (_ & _ & Hft & _). pose proof Hs as (T & E & N). rewrite Ef in Hft. symmetry in Hft.
      by destruct (enc_fulltext _ _ _ _ _ Hft E N) as (s & i & _ & _ & _ & ->).
    + subst d0. by left.
Qed.
Lemma datoms_view m st : store_good m st -> (exists d, d ∈ st_datoms st) -> exists d, d ∈ all_datoms st.
Proof. intros G [d Hd]. destruct (sg_raw _ _ G d Hd) as [[_ H]|(_ & _ & _ & d' & H & _)]; eauto. Qed.

Lemma cache_ok_none s st : cache_ok (Known s no_cache) st.
Proof. by split. Qed.
Lemma cache_ok_conn st s c : forward_agrees st s c -> reverse_agrees st s c ->
  (forall a at_, sc_attribute_map s !! a = Some at_ -> is_cached_forward c a = true -> at_multival at_ = false) -> cache_ok (Known s (conn_cache c s)) st.
Proof.
  intros F R Hone. split; cbn [kn_cache conn_cache cq_forward cq_reverse cq_value cq_entid cq_entids kn_attr kn_schema]; intros a at_ Hat Ha.
  - pose proof (F a at_ Hat Ha) as H. by rewrite (Hone a at_ Hat Ha) in H.
  - intros [u Hu]. pose proof (R a at_ Hat Ha) as H. by rewrite Hu in H.
  - intros Hu e v. pose proof (R a at_ Hat Ha) as H. rewrite Hu in H. rewrite <- (H e v). split.
    + intros (es & Hes & He). destruct (get_entids c a v) as [x|] eqn:E; [|done]. cbn in Hes. injection Hes as <-. exists x. split; [done|]. by apply elem_of_elements in He.
    + intros (x & -> & He). exists (elements x). split; [done|]. by apply elem_of_elements.
Qed.

(* ---------------------------------------------------------------- the clauses are safe *)

Lemma safe_arg_ok q vals a : safe q vals -> a ∈ flat_map clause_compared (q_where q) -> arg_ok (loose q) a.
Proof.
  intros [_ _ Hs] Ha. rewrite Forall_forall in Hs. specialize (Hs a Ha). destruct a as [x| | | |]; try done. intros [[Hn _] (p & Hp & Ho & Hv)]. by apply Hn, (Hs p).
Qed.
Lemma plain_safe k q vals : safe q vals -> Forall plain (q_where q) -> Forall (safe_clause k (loose q) (q_in q) vals) (q_where q).
Proof.
  intros Hs Hp. rewrite Forall_forall in Hp. apply Forall_forall. intros c Hc. specialize (Hp c Hc). destruct c as [p| |nm ar| |]; try done.
  2:{ cbn [safe_clause]. apply Forall_forall. intros a Ha. apply (safe_arg_ok q vals); [done|]. apply elem_of_list_In, in_flat_map. exists (CPred nm ar). split; by apply elem_of_list_In. }
  cbn [safe_clause]. apply psafe_pattern; [done|]. unfold query_patterns. apply elem_of_list_In, in_flat_map. exists (CPattern p). split; [by apply elem_of_list_In|]. by left.
Qed.
Lemma all_regular s ins vals cs : (fix all cs := match cs with [] => True | c :: cs => regular s ins vals c /\ all cs end) cs -> Forall (regular s ins vals) cs.
Proof. induction cs as [|c cs IHc]; intros H; constructor; [apply H|apply IHc, H]. Qed.
Lemma regular_clause s q vals c : safe q vals -> regular s (q_in q) vals c -> (forall p, p ∈ clause_patterns c -> p ∈ query_patterns q) ->
  (forall a, a ∈ clause_compared c -> arg_ok (loose q) a) -> safe_clause (Known s no_cache) (loose q) (q_in q) vals c.
Proof.
  intros Hs. assert (uncached (Known s no_cache)) as NC by done. pose proof (all_regular s (q_in q) vals) as Hall'.
  induction c as [p|x t|nm ar|u cs IH|u arms IH] using clause_induction; intros Hn Hin Hcm.
  - cbn [safe_clause]. apply psafe_pattern; [done|]. apply Hin. by left.
  - done.
  - cbn [safe_clause]. apply Forall_forall. exact Hcm.
  - apply safe_not. destruct Hn as (Ha & Hi & Hall). split_and!; try done. apply Hall' in Hall.
    rewrite Forall_forall in IH, Hall. apply Forall_forall. intros c Hc. apply IH; [done|by apply Hall| |].
    + intros p Hp2. apply Hin. cbn [clause_patterns]. apply elem_of_list_In, in_flat_map. exists c. split; by apply elem_of_list_In.
    + intros a Ha2. apply Hcm. cbn [clause_compared]. apply elem_of_list_In, in_flat_map. exists c. split; by apply elem_of_list_In.
  - destruct Hn as [Hu Ha]. split; [done|]. split; [exact Hu|].
    assert (alternatives s (q_in q) vals arms -> alternatives s (q_in q) vals arms /\ forall p, AClause (CPattern p) ∈ arms -> psafe (loose q) (q_in q) vals p) as Halt.
    { intros H. split; [done|]. intros p Hpa. apply psafe_pattern; [done|]. apply Hin. cbn [clause_patterns]. apply elem_of_list_In, in_flat_map. exists (AClause (CPattern p)). split; [by apply elem_of_list_In|by left]. }
    destruct arms as [|a [|b arms]]; [exact (Halt Ha)| |exact (Halt Ha)]. apply Forall_cons_1 in IH as [IH _].
    assert (forall p, p ∈ arm_patterns a -> p ∈ query_patterns q) as Hin'. { intros p Hp2. apply Hin. cbn. by rewrite app_nil_r. }
    assert (forall b, b ∈ arm_compared a -> arg_ok (loose q) b) as Hcm'. { intros b Hb. apply Hcm. cbn. by rewrite app_nil_r. }
    destruct a as [c|cs]; cbn [regular_arm safe_arm arm_clauses arm_patterns arm_compared] in *.
    + destruct Ha as [H1 H2]. split; [exact H1|]. apply Forall_cons_1 in IH as [IH _]. by apply IH.
    + apply Hall' in Ha. clear Hin Hu Halt Hcm. induction cs as [|c cs IHc]; [done|]. apply Forall_cons_1 in IH as [I1 I2]. apply Forall_cons_1 in Ha as [A1 A2]. split.
      * apply I1; [done| |]; [intros p Hp2; apply Hin'|intros b Hb; apply Hcm']; cbn; apply elem_of_app; by left.
      * apply IHc; try done; [intros p Hp2; apply Hin'|intros b Hb; apply Hcm']; cbn; apply elem_of_app; by right.
Qed.
Lemma regular_safe s q vals : safe q vals -> Forall (regular s (q_in q) vals) (q_where q) ->
  Forall (safe_clause (Known s no_cache) (loose q) (q_in q) vals) (q_where q).
Proof.
  intros Hs Hp. rewrite Forall_forall in Hp. apply Forall_forall. intros c Hc. apply regular_clause; [done|by apply Hp| |].
  - intros p Hp'. unfold query_patterns. apply elem_of_list_In, in_flat_map. exists c. split; by apply elem_of_list_In.
  - intros a Ha. apply (safe_arg_ok q vals); [done|]. apply elem_of_list_In, in_flat_map. exists c. split; by apply elem_of_list_In.
Qed.
Lemma branched_wide s q vals : safe q vals -> Forall (branched s (q_in q) vals) (q_where q) ->
  Forall (wide (Known s no_cache) (loose q) (q_in q) vals) (q_where q).
Proof.
  intros Hs Hp. rewrite Forall_forall in Hp. apply Forall_forall. intros c Hc.
  assert (forall p, p ∈ clause_patterns c -> p ∈ query_patterns q) as Hin. { intros p Hp'. unfold query_patterns. apply elem_of_list_In, in_flat_map. exists c. split; by apply elem_of_list_In. }
  assert (forall a, a ∈ clause_compared c -> arg_ok (loose q) a) as Hcm. { intros a Ha. apply (safe_arg_ok q vals); [done|]. apply elem_of_list_In, in_flat_map. exists c. split; by apply elem_of_list_In. }
  destruct (Hp c Hc) as [H|(u & arms & -> & Hb)]; [left; by apply regular_clause|right]. exists u, arms. split_and!; try done. intros a Ha. destruct Hb as (_ & _ & _ & Hr & _).
  destruct (Hr a Ha) as [_ Hra]. clear Hr.
  assert (forall p, p ∈ arm_patterns a -> p ∈ query_patterns q) as Hin'. { intros p Hpa. apply Hin. cbn [clause_patterns]. apply elem_of_list_In, in_flat_map. exists a. split; by apply elem_of_list_In. }
  assert (forall b, b ∈ arm_compared a -> arg_ok (loose q) b) as Hcm'. { intros b Hb2. apply Hcm. cbn [clause_compared]. apply elem_of_list_In, in_flat_map. exists a. split; by apply elem_of_list_In. }
  clear Ha Hin Hcm Hc. destruct a as [c|cs]; cbn [regular_arm safe_arm arm_clauses arm_patterns arm_compared] in *.
  - destruct Hra as [H1 H2]. split; [exact H1|]. by apply regular_clause.
  - apply all_regular in Hra. induction cs as [|c cs IHc]; [done|]. apply Forall_cons_1 in Hra as [A1 A2]. split.
    + apply regular_clause; try done; [intros p Hp2; apply Hin'|intros b Hb; apply Hcm']; cbn; apply elem_of_app; by left.
    + apply IHc; try done; [intros p Hp2; apply Hin'|intros b Hb; apply Hcm']; cbn; apply elem_of_app; by right.
Qed.

(* ---------------------------------------------------------------- results *)

Lemma listing_gives st s q vals l r : listing st s q vals l ->
  shaped (q_find q) (map (fun σ => map σ (find_vars (q_find q))) l) r -> gives r (answer st s q vals).
Proof.
  intros [L1 L2 L3 _] Hsh. set (vs := find_vars (q_find q)) in *.
  assert (forall row, row ∈ map (fun σ => map σ vs) l <-> answer st s q vals row) as Hrow.
  { intros row. split.
    - intros (σ & -> & Hσ)%elem_of_list_fmap. exists σ. split; [by apply L1|done].
    - intros (σ & Hs & ->). destruct (L2 σ Hs) as (σ' & Hin & Hag). apply elem_of_list_fmap. exists σ'. split; [|done]. fold vs. clear - Hag.
      fold vs in Hag. unfold agree_on in Hag. induction vs as [|x vs IH]; [done|]. cbn [map]. rewrite Hag by (by left). f_equal. apply IH. intros y Hy. apply Hag. by right. }
  set (rows := map (fun σ => map σ vs) l) in *. clearbody rows. clear L1 L2.
  destruct (q_find q), r as [rs|xs|o|o]; cbn [shaped] in Hsh; try done.
  - by subst rs.
  - cbn [gives]. subst rows. split; [by apply NoDup_fmap_1 in L3|]. intros x. rewrite <- Hrow. split.
    + intros H. apply elem_of_list_fmap. by exists x.
    + intros (y & [= ->] & H)%elem_of_list_fmap. done.
  - subst o. cbn [gives]. destruct rows as [|row rows]; cbn [head].
    + intros row Ha. apply Hrow in Ha. by apply elem_of_nil in Ha.
    + apply Hrow. by left.
  - destruct o as [x|]; cbn in Hsh; destruct rows as [|row rows]; try done; cbn [gives].
    + injection Hsh as <-. apply Hrow. by left.
    + intros x Ha. apply Hrow in Ha. by apply elem_of_nil in Ha.
Qed.

Lemma gives_same f r r' A rows rows' : gives r A -> gives r' A -> shaped f rows r -> shaped f rows' r' -> same_results r r'.
Proof.
  intros H1 H2 S1 S2. destruct f, r as [l|l|o|o], r' as [l'|l'|o'|o']; cbn [shaped] in S1, S2; try done; cbn [gives same_results] in *.
  - apply NoDup_Permutation; [apply H1|apply H2|]. intros x. by rewrite (proj2 H1), (proj2 H2).
  - apply NoDup_Permutation; [apply H1|apply H2|]. intros x. by rewrite (proj2 H1), (proj2 H2).
  - destruct o, o'; cbn; try done; exfalso; [by apply (H2 l)|by apply (H1 l)].
  - destruct o, o'; cbn; try done; exfalso; [by apply (H2 t)|by apply (H1 t)].
Qed.

(** What a query needs of a connection's store, whatever the cache *)
Lemma clean_good mv c : clean mv c -> all_readable (disk c) ->
  store_good (sc_attribute_map (schema_of c)) (disk c) /\ exists d, d ∈ all_datoms (disk c).
Proof.
  intros Hc Hr. pose proof (clean_ok _ _ Hc) as Ho. pose proof (conn_store_good c Ho Hr) as G. split; [done|]. apply (datoms_view _ _ G).
  apply installed_datoms; [done| |by eapply clean_installed]. by destruct Hc as (now & c0 & l & _ & _ & _ & Hn).
Qed.
Lemma caching_good reverse mv c : caching reverse mv c -> all_readable (disk (cc_conn c)) ->
  store_good (sc_attribute_map (schema_of (cc_conn c))) (disk (cc_conn c)) /\ exists d, d ∈ all_datoms (disk (cc_conn c)).
Proof.
  intros Hc Hr. destruct (caching_holds _ _ _ Hc) as [Ho _]. pose proof (conn_store_good _ Ho Hr) as G. split; [done|]. apply (datoms_view _ _ G).
  destruct (caching_installed _ _ _ Hc) as [H1 H2]. by apply installed_datoms.
Qed.

Lemma uncached_listing mv c sq q vals r : clean mv c -> sqlite_ok sq -> all_readable (disk c) -> safe q vals -> Forall (regular (schema_of c) (q_in q) vals) (q_where q) ->
  well_ordered q -> well_limited q vals -> twinless (disk c) \/ closed_find q -> q_uncached sq c q vals = Ok r ->
  exists l, listing (disk c) (schema_of c) q vals l /\ shaped (q_find q) (map (fun σ => map σ (find_vars (q_find q))) (up_to (limit_of q vals) l)) r.
Proof.
  intros Hc SQ Hr SF Hn WO WL TW H. destruct (clean_good _ _ Hc Hr) as [G NE].
  apply (q_once_ok sq (Known (schema_of c) no_cache) (disk c) q vals G (cache_ok_none _ _) SQ SF WL); try done. left. by apply regular_safe.
Qed.
Lemma plain_regular s ins vals cs : Forall plain cs -> Forall (regular s ins vals) cs.
Proof. intros H. rewrite Forall_forall in H. apply Forall_forall. intros c Hc. specialize (H c Hc). by destruct c. Qed.
Lemma uncached_gives mv c sq q vals r : clean mv c -> sqlite_ok sq -> all_readable (disk c) -> safe q vals -> Forall (regular (schema_of c) (q_in q) vals) (q_where q) ->
  well_ordered q -> q_limit q = LNone -> twinless (disk c) \/ closed_find q -> q_uncached sq c q vals = Ok r ->
  gives r (answer (disk c) (schema_of c) q vals).
Proof.
  intros Hc SQ Hr SF Hn WO HL TW H. assert (well_limited q vals) as WL by (unfold well_limited; by rewrite HL).
  destruct (uncached_listing mv c sq q vals r Hc SQ Hr SF Hn WO WL TW H) as (l & L & S). unfold limit_of in S. rewrite HL in S. by eapply listing_gives.
Qed.
Lemma branched_listing mv c sq q vals r : clean mv c -> sqlite_ok sq -> all_readable (disk c) -> safe q vals -> Forall (branched (schema_of c) (q_in q) vals) (q_where q) -> open_find q ->
  well_ordered q -> well_limited q vals -> twinless (disk c) \/ closed_find q -> q_uncached sq c q vals = Ok r ->
  exists l, listing (disk c) (schema_of c) q vals l /\ shaped (q_find q) (map (fun σ => map σ (find_vars (q_find q))) (up_to (limit_of q vals) l)) r.
Proof.
  intros Hc SQ Hr SF Hn Hof WO WL TW H. destruct (clean_good _ _ Hc Hr) as [G NE].
  apply (q_once_ok sq (Known (schema_of c) no_cache) (disk c) q vals G (cache_ok_none _ _) SQ SF WL); try done. right. split_and!; try done. by apply branched_wide.
Qed.
Lemma branched_gives mv c sq q vals r : clean mv c -> sqlite_ok sq -> all_readable (disk c) -> safe q vals -> Forall (branched (schema_of c) (q_in q) vals) (q_where q) -> open_find q ->
  well_ordered q -> q_limit q = LNone -> twinless (disk c) \/ closed_find q -> q_uncached sq c q vals = Ok r ->
  gives r (answer (disk c) (schema_of c) q vals).
Proof.
  intros Hc SQ Hr SF Hn Hof WO HL TW H. assert (well_limited q vals) as WL by (unfold well_limited; by rewrite HL).
  destruct (branched_listing mv c sq q vals r Hc SQ Hr SF Hn Hof WO WL TW H) as (l & L & S). unfold limit_of in S. rewrite HL in S. by eapply listing_gives.
Qed.
Lemma cached_listing mv c sq q vals r : caching true mv c -> singly_cached c -> sqlite_ok sq -> all_readable (disk (cc_conn c)) -> safe q vals -> Forall plain (q_where q) ->
  well_ordered q -> well_limited q vals -> twinless (disk (cc_conn c)) \/ closed_find q -> q_cached sq c q vals = Ok r ->
  exists l, listing (disk (cc_conn c)) (schema_of (cc_conn c)) q vals l /\ shaped (q_find q) (map (fun σ => map σ (find_vars (q_find q))) (up_to (limit_of q vals) l)) r.
Proof.
  intros Hc Hone SQ Hr SF Hn WO WL TW H. destruct (caching_good _ _ _ Hc Hr) as [G NE]. unfold q_cached in H. set (k := Known _ _) in H.
  assert (cache_ok k (disk (cc_conn c))) as CO. { apply cache_ok_conn; [by eapply thm_forward|by eapply thm_reverse|done]. }
  apply (q_once_ok sq k (disk (cc_conn c)) q vals G CO SQ SF WL); try done. left. by apply plain_safe.
Qed.
Lemma plain_uncached_listing mv c sq q vals r : caching true mv c -> sqlite_ok sq -> all_readable (disk (cc_conn c)) -> safe q vals -> Forall plain (q_where q) ->
  well_ordered q -> well_limited q vals -> twinless (disk (cc_conn c)) \/ closed_find q -> q_uncached sq (cc_conn c) q vals = Ok r ->
  exists l, listing (disk (cc_conn c)) (schema_of (cc_conn c)) q vals l /\ shaped (q_find q) (map (fun σ => map σ (find_vars (q_find q))) (up_to (limit_of q vals) l)) r.
Proof.
  intros Hc SQ Hr SF Hn WO WL TW H. destruct (caching_good _ _ _ Hc Hr) as [G NE].
  apply (q_once_ok sq (Known (schema_of (cc_conn c)) no_cache) (disk (cc_conn c)) q vals G (cache_ok_none _ _) SQ SF WL); try done. left. by apply plain_safe.
Qed.
Lemma cached_same mv c sq sq' q vals r r' : caching true mv c -> singly_cached c -> sqlite_ok sq -> sqlite_ok sq' -> all_readable (disk (cc_conn c)) -> safe q vals ->
  Forall plain (q_where q) -> well_ordered q -> q_limit q = LNone -> twinless (disk (cc_conn c)) \/ closed_find q ->
  q_cached sq c q vals = Ok r -> q_uncached sq' (cc_conn c) q vals = Ok r' ->
  same_results r r' /\ gives r (answer (disk (cc_conn c)) (schema_of (cc_conn c)) q vals).
Proof.
  intros Hc Hone SQ SQ' Hr SF Hn WO HL TW H H'. assert (well_limited q vals) as WL by (unfold well_limited; by rewrite HL).
  destruct (cached_listing mv c sq q vals r Hc Hone SQ Hr SF Hn WO WL TW H) as (l & L & S).
  destruct (plain_uncached_listing mv c sq' q vals r' Hc SQ' Hr SF Hn WO WL TW H') as (l' & L' & S'). unfold limit_of in S, S'. rewrite HL in S, S'. cbn [up_to] in S, S'.
  pose proof (listing_gives _ _ _ _ _ _ L S) as G1. pose proof (listing_gives _ _ _ _ _ _ L' S') as G2. split; [|done]. by eapply gives_same.
Qed.
Lemma uncached_empty mv c q vals a : clean mv c -> all_readable (disk c) -> safe q vals -> Forall (regular (schema_of c) (q_in q) vals) (q_where q) -> well_limited q vals ->
  algebrize (Known (schema_of c) no_cache) q vals = Ok a -> c_empty (aq_cc a) = true -> forall σ, ~ solution (disk c) (schema_of c) q vals σ.
Proof.
  intros Hc Hr SF Hn WL Ha He. destruct (clean_good _ _ Hc Hr) as [G NE].
  destruct (algebrize_ok (Sqlite (fun l => l) (fun _ _ => false) (fun _ _ => Eq)) (Known (schema_of c) no_cache) (disk c) q vals G (cache_ok_none _ _) SF WL (or_introl (regular_safe _ _ _ SF Hn)) a Ha) as (c1 & A).
  by apply (al_empty _ _ _ _ _ _ _ A).
Qed.
Lemma cached_empty mv c q vals a : caching true mv c -> singly_cached c -> all_readable (disk (cc_conn c)) -> safe q vals -> Forall plain (q_where q) -> well_limited q vals ->
  algebrize (Known (schema_of (cc_conn c)) (conn_cache (cc_cache c) (schema_of (cc_conn c)))) q vals = Ok a -> c_empty (aq_cc a) = true ->
  forall σ, ~ solution (disk (cc_conn c)) (schema_of (cc_conn c)) q vals σ.
Proof.
  intros Hc Hone Hr SF Hn WL Ha He. destruct (caching_good _ _ _ Hc Hr) as [G NE]. set (k := Known _ _) in Ha.
  assert (cache_ok k (disk (cc_conn c))) as CO. { apply cache_ok_conn; [by eapply thm_forward|by eapply thm_reverse|done]. }
  destruct (algebrize_ok (Sqlite (fun l => l) (fun _ _ => false) (fun _ _ => Eq)) k (disk (cc_conn c)) q vals G CO SF WL (or_introl (plain_safe k q vals SF Hn)) a Ha) as (c1 & A).
  by apply (al_empty _ _ _ _ _ _ _ A).
Qed.

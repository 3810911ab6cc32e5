(** One materialization: what a trie does to the datoms and the log. *)
From Verif Require Import M_Store M_Tx Spec_Tx P_Base P_Store P_Fill P_Value.

(* ---------------------------------------------------------------- datoms and facts *)

(** The row holds the encoding of a value of the attribute's type. *)
Definition stored_as (f : list string) (at_ : attribute) (tv : typed_value) (v : sqlval) (tag : Z) : Prop :=
  tv_type tv = at_type at_ /\ (v, tag) = enc f at_ tv /\ v <> SNull.

Definition flags_ok (at_ : attribute) (d : datom) : Prop :=
  d_avet d = at_index at_ /\ d_vaet d = bool_decide (at_type at_ = VTRef)
  /\ d_ft d = at_fulltext at_ /\ d_uq d = is_some (at_unique at_).

Definition datom_ok (m : gmap Z attribute) (f : list string) (d : datom) : Prop :=
  exists at_, m !! d_a d = Some at_ /\ (exists tv, stored_as f at_ tv (d_v d) (d_tag d)) /\ flags_ok at_ d.

Lemma enc_fulltext f at_ tv v tag : at_fulltext at_ = true -> (v, tag) = enc f at_ tv -> v <> SNull ->
  exists s i, tv = TVString s /\ fts_rowid f s = Some i /\ v = SInt i /\ tag = 10.
Proof.
  unfold enc. intros ->. intros [= -> ->] Hn. destruct tv; try done. destruct (fts_rowid f s) as [i|] eqn:E; [|done].
  by exists s, i.
Qed.
Lemma enc_plain f at_ tv : at_fulltext at_ = false -> enc f at_ tv = to_sql_value_pair tv.
Proof. unfold enc. by intros ->. Qed.

Lemma stored_as_extends f g at_ tv v tag : extends f g -> stored_as f at_ tv v tag -> stored_as g at_ tv v tag.
Proof.
  intros Hx (Ht & He & Hn). split_and!; try done. destruct (at_fulltext at_) eqn:Hf.
  - destruct (enc_fulltext _ _ _ _ _ Hf He Hn) as (s & i & -> & Hi & -> & ->).
    unfold enc. rewrite Hf. by rewrite (fts_rowid_extends _ _ _ _ Hx Hi).
  - by rewrite enc_plain in *.
Qed.
Lemma datom_ok_extends m f g d : extends f g -> datom_ok m f d -> datom_ok m g d.
Proof. intros Hx (at_ & Hm & (tv & Hs) & Hf). exists at_. split_and!; try done. exists tv. by eapply stored_as_extends. Qed.

(** The row and the value it stands for determine each other. *)
Lemma stored_as_iff f at_ tv1 v1 t1 tv2 v2 t2 :
  stored_as f at_ tv1 v1 t1 -> stored_as f at_ tv2 v2 t2 ->
  ((v1, t1) = (v2, t2) <-> to_sql_value_pair tv1 = to_sql_value_pair tv2).
Proof.
  intros (T1 & E1 & N1) (T2 & E2 & N2). destruct (at_fulltext at_) eqn:Hf.
  - destruct (enc_fulltext _ _ _ _ _ Hf E1 N1) as (s1 & i1 & -> & Hi1 & -> & ->).
    destruct (enc_fulltext _ _ _ _ _ Hf E2 N2) as (s2 & i2 & -> & Hi2 & -> & ->). simpl. split.
    + intros [= ->]. apply fts_rowid_text in Hi1, Hi2. congruence.
    + intros [= ->]. congruence.
  - rewrite !enc_plain in * by done. split; congruence.
Qed.
Lemma stored_as_tag f at_ tv v tag : stored_as f at_ tv v tag -> tag = vt_tag (at_type at_).
Proof.
  intros (T & E & N). destruct (at_fulltext at_) eqn:Hf.
  - destruct (enc_fulltext _ _ _ _ _ Hf E N) as (s1 & i1 & -> & Hi1 & -> & ->). by rewrite <- T.
  - rewrite enc_plain in E by done. rewrite <- T, <- codec_tag, <- E. done.
Qed.

Definition datoms_ok (m : gmap Z attribute) (st : store) : Prop :=
  forall d, d ∈ st_datoms st -> datom_ok m (st_fts st) d.

(** The row of [d] in the view *)
Definition view_fact (f : list string) (d : datom) (x : fact) : Prop :=
  if d_ft d then exists s, fts_text f (d_v d) = Some s /\ x = (d_e d, d_a d, (SText s, d_tag d))
  else x = (d_e d, d_a d, (d_v d, d_tag d)).
Lemma facts_elem_view st x : x ∈ facts st <-> exists d, d ∈ st_datoms st /\ view_fact (st_fts st) d x.
Proof.
  unfold facts, all_datoms. rewrite elem_of_list_fmap. setoid_rewrite elem_of_list_In. setoid_rewrite in_flat_map.
  setoid_rewrite <- elem_of_list_In. unfold view_fact. split.
  - intros (y & -> & d & Hd & Hy). exists d. split; [done|]. destruct (d_ft d).
    + destruct (fts_text (st_fts st) (d_v d)) as [s|]; [|by apply elem_of_nil in Hy].
      apply elem_of_list_singleton in Hy as ->. eauto.
    + by apply elem_of_list_singleton in Hy as ->.
  - intros (d & Hd & H). destruct (d_ft d) eqn:Hf.
    + destruct H as (s & Hs & ->). eexists. split; [|exists d; split; [done|]; rewrite Hf, Hs; by left]. done.
    + subst x. exists d. split; [done|]. exists d. rewrite Hf. split; [done|]. by left.
Qed.

Lemma view_fact_iff m f d e a p : datom_ok m f d ->
  (view_fact f d (e, a, p) <-> d_e d = e /\ d_a d = a /\
   exists at_ tv, m !! a = Some at_ /\ stored_as f at_ tv (d_v d) (d_tag d) /\ p = to_sql_value_pair tv).
Proof.
  intros (at_ & Hm & (tv & Hs) & Hfl). pose proof Hs as (T & E & N). destruct Hfl as (_ & _ & Hft & _).
  unfold view_fact. rewrite Hft. split.
  - destruct (at_fulltext at_) eqn:Hf.
    + intros (s & Ht & [= -> -> ->]). split_and!; try done. exists at_, tv. split_and!; try done.
      destruct (enc_fulltext _ _ _ _ _ Hf E N) as (s1 & i1 & -> & Hi1 & Hv & Htag). rewrite Hv in Ht.
      apply fts_rowid_text in Hi1. simpl. congruence.
    + intros [= -> -> ->]. split_and!; try done. exists at_, tv. split_and!; try done. by rewrite enc_plain in E.
  - intros (<- & <- & at2 & tv2 & Hm2 & Hs2 & ->). rewrite Hm in Hm2. injection Hm2 as <-.
    pose proof Hs2 as (T2 & E2 & N2). destruct (at_fulltext at_) eqn:Hf.
    + destruct (enc_fulltext _ _ _ _ _ Hf E2 N2) as (s1 & i1 & -> & Hi1 & Hv & Htag). exists s1.
      rewrite Hv, Htag. split; [by apply fts_rowid_text|done].
    + rewrite enc_plain in E2 by done. by rewrite E2.
Qed.

Lemma facts_elem m st e a p : datoms_ok m st ->
  ((e, a, p) ∈ facts st <-> exists d at_ tv, d ∈ st_datoms st /\ d_e d = e /\ d_a d = a
     /\ m !! a = Some at_ /\ stored_as (st_fts st) at_ tv (d_v d) (d_tag d) /\ p = to_sql_value_pair tv).
Proof.
  intros Hok. rewrite facts_elem_view. split.
  - intros (d & Hd & H). apply (view_fact_iff _ _ _ _ _ _ (Hok d Hd)) in H as (He & Ha & at_ & tv & H).
    exists d, at_, tv. naive_solver.
  - intros (d & at_ & tv & Hd & He & Ha & H). exists d. split; [done|].
    apply (view_fact_iff _ _ _ _ _ _ (Hok d Hd)). naive_solver.
Qed.

Lemma datoms_unique_key ds : datoms_unique ds = true -> NoDup (map d_key ds).
Proof. unfold datoms_unique. rewrite !andb_true_iff, !bool_decide_eq_true. naive_solver. Qed.
Lemma datoms_unique_uq ds : datoms_unique ds = true -> NoDup (map d_uq_key (filter (fun d => d_uq d = true) ds)).
Proof. unfold datoms_unique. rewrite !andb_true_iff, !bool_decide_eq_true. naive_solver. Qed.

(* ---------------------------------------------------------------- consequences of conformance *)

Lemma well_typed_of m s st : sc_attribute_map s = m -> datoms_ok m st -> well_typed s st.
Proof.
  intros <- Hok e a p Hp. apply (facts_elem _ _ _ _ _ Hok) in Hp as (d & at_ & tv & _ & _ & _ & Hm & (T & _) & ->).
  by exists at_, tv.
Qed.

Lemma values_unique_of m s st : sc_attribute_map s = m -> datoms_ok m st -> datoms_unique (st_datoms st) = true ->
  values_unique s st.
Proof.
  intros <- Hok Hu e1 e2 a at_ p Hm Huq H1 H2.
  apply (facts_elem _ _ _ _ _ Hok) in H1 as (d1 & at1 & tv1 & Hd1 & <- & <- & Hm1 & S1 & ->).
  apply (facts_elem _ _ _ _ _ Hok) in H2 as (d2 & at2 & tv2 & Hd2 & <- & Ha & Hm2 & S2 & Hp).
  assert (at1 = at_) as -> by congruence. assert (at2 = at_) as -> by congruence.
  pose proof (proj2 (stored_as_iff _ _ _ _ _ _ _ _ S1 S2) Hp) as [= Hv Ht].
  assert (forall d, d ∈ st_datoms st -> d_a d = d_a d1 -> d_uq d = true) as Hflag.
  { intros d Hd Hda. destruct (Hok d Hd) as (at3 & Hm3 & _ & (_ & _ & _ & ->)). rewrite Hda, Hm in Hm3.
    injection Hm3 as <-. by destruct Huq as [? ->]. }
  assert (d1 = d2) as ->; [|done].
  eapply (NoDup_map_inj d_uq_key); [apply datoms_unique_uq, Hu|apply elem_of_list_filter; by eauto..|].
  unfold d_uq_key. congruence.
Qed.

Lemma facts_distinct_of m st : datoms_ok m st -> NoDup (map d_key (st_datoms st)) -> facts_distinct st.
Proof.
  intros Hok Hn. unfold facts_distinct, facts, all_datoms.
  assert (forall ds, (forall d, d ∈ ds -> datom_ok m (st_fts st) d) -> NoDup (map d_key ds) ->
    NoDup (map (fun d => (d_e d, d_a d, (d_v d, d_tag d))) (flat_map (fun d =>
    if d_ft d then
      match fts_text (st_fts st) (d_v d) with
      | Some t => [Datom (d_e d) (d_a d) (SText t) (d_tag d) (d_tx d) (d_avet d) (d_vaet d) (d_ft d) (d_uq d)]
      | None => []
      end
    else [d]) ds))) as K.
  { intros ds Hds Hnd. clear Hn Hok.
    assert (forall x l, x ∈ map (fun d => (d_e d, d_a d, (d_v d, d_tag d))) (flat_map (fun d =>
      if d_ft d then
        match fts_text (st_fts st) (d_v d) with
        | Some t => [Datom (d_e d) (d_a d) (SText t) (d_tag d) (d_tx d) (d_avet d) (d_vaet d) (d_ft d) (d_uq d)]
        | None => []
        end
      else [d]) l) <-> exists d, d ∈ l /\ view_fact (st_fts st) d x) as Helem.
    { intros x l. pose proof (facts_elem_view (Store l [] (st_fts st) [] [] []) x) as H. exact H. }
    induction ds as [|d ds IH]; [constructor|]. apply NoDup_cons in Hnd as [Hd Hnd].
    cbn [flat_map]. rewrite map_app. apply NoDup_app. split_and!.
    - destruct (d_ft d); [destruct (fts_text _ _)|]; cbn [map]; first [by apply NoDup_nil_2 | by apply NoDup_singleton].
    - intros x Hx Hx2. apply Helem in Hx2 as (d2 & Hd2 & V2).
      assert (view_fact (st_fts st) d x) as V1.
      { pose proof (Helem x [d]) as [H _]. cbn [flat_map] in H. rewrite app_nil_r in H.
        destruct (H Hx) as (d' & Hd' & V). by apply elem_of_list_singleton in Hd' as ->. }
      destruct x as [[e a] p].
      apply (view_fact_iff m) in V1 as (He1 & Ha1 & at1 & tv1 & M1 & S1 & P1); [|apply Hds; by left].
      apply (view_fact_iff m) in V2 as (He2 & Ha2 & at2 & tv2 & M2 & S2 & P2); [|apply Hds; by right].
      assert (at1 = at2) as -> by congruence.
      assert (to_sql_value_pair tv1 = to_sql_value_pair tv2) as HP by congruence.
      apply (stored_as_iff _ _ _ _ _ _ _ _ S1 S2) in HP. injection HP as Hv Ht.
      apply Hd. apply elem_of_list_fmap. exists d2. split; [|done]. unfold d_key. congruence.
    - apply IH; [|done]. intros. apply Hds. by right. }
  by apply K.
Qed.

(* ---------------------------------------------------------------- the step *)

Section step.
  Context (m : gmap Z attribute) (s : schema) (Hs : sc_attribute_map s = m).
  Context (st0 st1 : store) (tx : Z) (tr : trie) (f : list string) (exact inexact : list srow) (rs : list sresult).
  Context (Htr : trie_wf s tr) (Hty : trie_all entry_typed tr = true).
  Context (Hfill : filled st0 st1 (trie_reduced tr) exact inexact f).
  Context (Hsearch : search (st_datoms st0) exact inexact = Ok rs).
  Context (Hok : datoms_ok m st0) (Huniq : NoDup (map d_key (st_datoms st0))).
  Let ds := st_datoms st0.
  Let ds' := after_delete ds rs ++ map (datom_of_search tx) (added_rows rs).

  Lemma old_ok d : d ∈ ds -> datom_ok m f d.
  Proof. intros Hd. eapply datom_ok_extends; [apply Hfill|]. by apply Hok. Qed.

  (** Rows of the search tables are requests. *)
  Definition row_req (t : srow) (o : op) (e a : Z) (v : typed_value) (at_ : attribute) : Prop :=
    req tr o e a v /\ m !! a = Some at_ /\ s_e t = e /\ s_a t = a /\ s_attr t = at_
    /\ stored_as f at_ v (s_v t) (s_tag t) /\ s_added t = match o with OAdd => true | ORetract => false end.
  Lemma reduced_req r : r ∈ trie_reduced tr ->
    m !! r_a r = Some (r_attr r) /\ tv_type (r_v r) = at_type (r_attr r)
    /\ req tr (if r_added r then OAdd else ORetract) (r_e r) (r_a r) (r_v r).
  Proof.
    intros Hr. apply trie_reduced_elem in Hr as (en & Hen & Hat & Hv).
    assert (req tr (if r_added r then OAdd else ORetract) (r_e r) (r_a r) (r_v r)) as Hreq.
    { exists en. split; [done|]. by destruct (r_added r). }
    split_and!; try done.
    - rewrite Hat, <- Hs. by eapply Htr.
    - destruct (entry_typed_req _ _ _ _ _ Hty Hreq) as (en' & Hen' & Ht). congruence.
  Qed.
  Lemma row_of_table t (multi : bool) : t ∈ (if multi then exact else inexact) ->
    exists o v at_, row_req t o (s_e t) (s_a t) v at_ /\ at_multival at_ = multi.
  Proof.
    intros Ht.
    assert (exists r, r ∈ trie_reduced tr /\ at_multival (r_attr r) = multi /\ t = srow_of f r) as (r & Hr & Hm & ->).
    { destruct multi; by apply Hfill in Ht. }
    destruct (reduced_req r Hr) as (H1 & H2 & H3).
    exists (if r_added r then OAdd else ORetract), (r_v r), (r_attr r). split; [|done]. split_and!; simpl; try done.
    - split_and!; [done|by destruct (enc _ _ _)|].
      assert (s_v (srow_of f r) <> SNull); [|done]. eapply fi_notnull; [exact Hfill|]. destruct multi; eauto.
    - by destruct (r_added r).
  Qed.
  Lemma table_of_req o e a v at_ : req tr o e a v -> m !! a = Some at_ ->
    exists t, t ∈ (if at_multival at_ then exact else inexact) /\ row_req t o e a v at_.
  Proof.
    intros Hreq Hm. pose proof Hreq as (en & Hen & Hv).
    assert (te_attr en = at_) as Hat.
    { apply Htr in Hen. rewrite Hs in Hen. congruence. }
    set (r := Reduced e a at_ v (match o with OAdd => true | ORetract => false end)).
    assert (r ∈ trie_reduced tr) as Hr.
    { apply trie_reduced_elem. exists en. split_and!; try done. by destruct o. }
    destruct (reduced_req r Hr) as (H1 & H2 & H3).
    assert (srow_of f r ∈ (if at_multival at_ then exact else inexact)) as Ht.
    { destruct (at_multival at_) eqn:Em; apply Hfill; by exists r. }
    exists (srow_of f r). split; [done|]. split_and!; try done.
    split_and!; [done|simpl; by destruct (enc _ _ _)|].
    eapply fi_notnull; [exact Hfill|]. destruct (at_multival at_); eauto.
  Qed.

  Lemma new_ok t : t ∈ added_rows rs -> datom_ok m f (datom_of_search tx t).
  Proof.
    intros Ht. apply (added_rows_spec _ _ _ _ Hsearch) in Ht as [_ Ht].
    assert (exists o v at_, row_req t o (s_e t) (s_a t) v at_) as (o & v & at_ & _ & Hm & _ & _ & Hat & Hst & _).
    { destruct Ht as [[Ht _]|[Ht _]]; [destruct (row_of_table t true Ht) as (o & v & at_ & H & _)|
        destruct (row_of_table t false Ht) as (o & v & at_ & H & _)]; eauto. }
    exists at_. split_and!; try done.
    - by exists v.
    - unfold flags_ok. simpl. by rewrite Hat.
  Qed.

  Lemma step_elem d : d ∈ ds' <->
    (d ∈ ds /\ d_key d ∉ deleted_keys rs) \/ exists t, t ∈ added_rows rs /\ d = datom_of_search tx t.
  Proof using Type.
    unfold ds', after_delete. rewrite elem_of_app, elem_of_list_filter, elem_of_list_fmap. clear. naive_solver.
  Qed.
  Lemma step_ok d : d ∈ ds' -> datom_ok m f d.
  Proof.
    rewrite step_elem. intros [[Hd _]|(t & Ht & ->)]; [by apply old_ok|by apply new_ok].
  Qed.

  (** A row and a datom about the same attribute have the same tag. *)
  Lemma row_tag t o v at_ d : row_req t o (s_e t) (s_a t) v at_ -> d ∈ ds -> d_a d = s_a t -> s_tag t = d_tag d.
  Proof.
    intros (_ & Hm & _ & _ & _ & Hst & _) Hd Ha. destruct (old_ok d Hd) as (at2 & Hm2 & (tv & Hst2) & _).
    assert (at2 = at_) as -> by congruence. apply stored_as_tag in Hst, Hst2. congruence.
  Qed.

  (** No datom is both asserted anew and deleted. *)
  Lemma added_absent t : t ∈ added_rows rs -> row_key t ∉ map d_key ds.
  Proof.
    intros Ht Hin. apply (added_rows_spec _ _ _ _ Hsearch) in Ht as [_ [[Ht Hk]|[Ht Hk]]]; [done|].
    apply elem_of_list_fmap in Hin as (d & Hd & Hin). unfold row_key, d_key in Hd. injection Hd as He Ha _ Hv. by apply (Hk d).
  Qed.

  Lemma deleted_present k : k ∈ deleted_keys rs -> k ∈ map d_key ds.
  Proof.
    intros (r & d & Hr & _ & Hm & <-)%deleted_elem. apply (search_elem _ _ _ _ Hsearch) in Hr.
    unfold match_ok in Hr. rewrite Hm in Hr. apply elem_of_list_fmap. exists d. split; [done|]. unfold ds. naive_solver.
  Qed.

  (** The log rows *)
  Lemma log_adds_elem r : r ∈ log_adds tx rs <-> exists t, t ∈ added_rows rs /\
     r = TxRow (s_e t) (s_a t) (s_v t) (s_tag t) tx true TIMELINE_MAIN.
  Proof using Type.
    unfold log_adds, added_rows. rewrite elem_of_list_fmap. setoid_rewrite elem_of_list_fmap. clear. naive_solver.
  Qed.
  Lemma log_retracts_elem r : r ∈ log_retracts tx rs <->
    t_key r ∈ deleted_keys rs /\ t_tx r = tx /\ t_added r = false /\ t_timeline r = TIMELINE_MAIN.
  Proof.
    unfold log_retracts. rewrite distinct_elem, elem_of_list_omap. rewrite deleted_elem.
    assert (forall x d, x ∈ rs -> sr_match x = Some d -> d_key d = (s_e (sr_row x), s_a (sr_row x), s_tag (sr_row x), d_v d)) as K.
    { intros x d Hx Hmx. apply (search_elem _ _ _ _ Hsearch) in Hx. unfold match_ok in Hx. rewrite Hmx in Hx.
      destruct Hx as [(Ht & _ & Hd & Hma)|(Ht & _ & Hd & Hma)].
      - apply exact_match_key in Hma. unfold row_key, d_key in *. congruence.
      - apply inexact_match_ea in Hma as [He Ha].
        destruct (row_of_table _ false Ht) as (o & v & at_ & Hreq & _).
        pose proof (row_tag _ _ _ _ d Hreq Hd ltac:(done)). unfold d_key. congruence. }
    split.
    - intros (x & Hx & H). destruct (sr_retracts x) eqn:E; [|done]. apply fmap_Some in H as (d & Hd & ->). split; [|done].
      exists x, d. split_and!; try done. by rewrite (K x d).
    - intros ((x & d & Hx & E & Hmx & Hk) & Htx & Had & Htl). exists x. split; [done|]. rewrite E, Hmx. simpl. f_equal.
      rewrite (K x d) in Hk by done. destruct r; unfold t_key in Hk; simpl in *. congruence.
  Qed.
  Lemma log_rows_nodup : NoDup (map t_key (log_adds tx rs ++ log_retracts tx rs)).
  Proof.
    rewrite map_app. apply NoDup_app. split_and!.
    - unfold log_adds. rewrite map_map. pose proof (added_rows_nodup _ _ _ _ Hsearch) as H. unfold added_rows in H.
      rewrite map_map in H. exact H.
    - intros k (r & -> & Hr)%elem_of_list_fmap (r2 & Hk & Hr2)%elem_of_list_fmap.
      apply log_adds_elem in Hr as (t & Ht & ->). apply log_retracts_elem in Hr2 as [Hr2 _].
      rewrite <- Hk in Hr2. apply (added_absent _ Ht). by apply deleted_present in Hr2.
    - assert (forall l : list txrow, NoDup l -> (forall x y, x ∈ l -> y ∈ l -> t_key x = t_key y -> x = y) -> NoDup (map t_key l)) as K.
      { induction l as [|x l IH]; intros Hn Hinj; simpl; [constructor|]. apply NoDup_cons in Hn as [Hx Hn]. constructor.
        - intros (y & Hy & Hin)%elem_of_list_fmap. apply Hinj in Hy; [subst; done|by left|by right].
        - apply IH; [done|]. intros. apply Hinj; [by right|by right|done]. }
      apply K; [apply distinct_NoDup|]. intros x y Hx Hy Hk.
      apply log_retracts_elem in Hx as (_ & X1 & X2 & X3). apply log_retracts_elem in Hy as (_ & Y1 & Y2 & Y3).
      destruct x, y; unfold t_key in Hk; simpl in *; congruence.
  Qed.

  (** The effect on facts. *)
  Definition asked (o : op) (e a : Z) (p : sqlval * Z) : Prop := exists v, req tr o e a v /\ to_sql_value_pair v = p.
  Lemma row_datom t o v at_ d : row_req t o (s_e t) (s_a t) v at_ -> d ∈ ds -> d_e d = s_e t -> d_a d = s_a t ->
    forall p, view_fact f d (s_e t, s_a t, p) -> (row_key t = d_key d <-> to_sql_value_pair v = p).
  Proof.
    intros Hreq Hd He Ha p V. pose proof (row_tag _ _ _ _ _ Hreq Hd Ha) as Htag. destruct Hreq as (_ & Hm & _ & _ & _ & Hst & _).
    apply (view_fact_iff m) in V as (_ & _ & at2 & tv & Hm2 & Hst2 & ->); [|by apply old_ok].
    assert (at2 = at_) as -> by congruence. rewrite <- (stored_as_iff _ _ _ _ _ _ _ _ Hst Hst2).
    unfold row_key, d_key. split; [congruence|]. intros [= ? ?]. congruence.
  Qed.

  Lemma old_view d : d ∈ ds -> forall x, view_fact (st_fts st0) d x <-> view_fact f d x.
  Proof.
    intros Hd [[e a] p].
    rewrite (view_fact_iff m) by by apply Hok. rewrite (view_fact_iff m) by by apply old_ok.
    destruct (Hok d Hd) as (at0 & Hm0 & (tv0 & Hst0) & _).
    assert (stored_as f at0 tv0 (d_v d) (d_tag d)) as Hst0' by (eapply stored_as_extends; [apply Hfill|done]).
    split; intros (<- & <- & at_ & tv & Hm & Hst & ->); split_and!; try done; exists at_, tv; split_and!; try done.
    - eapply stored_as_extends; [apply Hfill|done].
    - assert (at0 = at_) as -> by congruence.
      pose proof (proj1 (stored_as_iff _ _ _ _ _ _ _ _ Hst0' Hst) eq_refl) as Heq.
      destruct Hst0 as (T0 & E0 & N0). destruct Hst as (T1 & E1 & N1). split_and!; try done.
      destruct (at_fulltext at_) eqn:Hf.
      + destruct (enc_fulltext _ _ _ _ _ Hf E0 N0) as (s1 & i1 & -> & Hi1 & Hv1 & Htag1).
        destruct (enc_fulltext _ _ _ _ _ Hf E1 N1) as (s2 & i2 & -> & Hi2 & Hv2 & Htag2). simpl in Heq. congruence.
      + by rewrite enc_plain in *.
  Qed.

  Lemma facts_old e a p : (e, a, p) ∈ facts st0 <-> exists d, d ∈ ds /\ view_fact f d (e, a, p).
  Proof.
    rewrite facts_elem_view. split; intros (d & Hd & V); exists d; (split; [done|]); by apply (old_view d Hd).
  Qed.

  Lemma facts_step st' e a p at_ : st_datoms st' = ds' -> st_fts st' = f -> m !! a = Some at_ ->
    ((e, a, p) ∈ facts st' <->
     if at_multival at_ then
       ((e, a, p) ∈ facts st0 /\ ~ asked ORetract e a p)
       \/ (asked OAdd e a p /\ (e, a, p) ∉ facts st0)
     else
       ((e, a, p) ∈ facts st0 /\ (forall q, ~ asked ORetract e a q) /\ (forall q, asked OAdd e a q -> q = p))
       \/ (asked OAdd e a p /\ (e, a, p) ∉ facts st0)).
  Proof.
    intros Hds Hf Hat. rewrite (facts_elem_view st'), Hds, Hf. pose proof (facts_old e a p) as Hold.
    assert (forall d, d ∈ ds -> view_fact f d (e, a, p) -> d_e d = e /\ d_a d = a) as Hea.
    { intros d Hd V. apply (view_fact_iff m) in V; [naive_solver|by apply old_ok]. }
    assert (forall d, d ∈ ds -> d_e d = e -> d_a d = a -> exists q, view_fact f d (e, a, q)) as Hview.
    { intros d Hd <- <-. destruct (old_ok d Hd) as (at2 & Hm2 & (tv & Hst2) & Hfl2).
      exists (to_sql_value_pair tv). apply (view_fact_iff m); [by apply old_ok|]. split_and!; try done. by exists at2, tv. }
    assert (forall d q, d ∈ ds -> view_fact f d (e, a, p) -> view_fact f d (e, a, q) -> p = q) as Hvuniq.
    { intros d q _. unfold view_fact. destruct (d_ft d); [|congruence].
      intros (x & Hx & [= -> -> ->]) (y & Hy & [= ->]). congruence. }
    assert (forall t, t ∈ added_rows rs ->
       view_fact f (datom_of_search tx t) (e, a, p) <-> exists v, row_req t OAdd e a v at_ /\ to_sql_value_pair v = p) as Hadd.
    { intros t Ht. rewrite (view_fact_iff m) by by apply new_ok.
      assert (s_added t = true) as Hat' by (apply (added_rows_spec _ _ _ _ Hsearch) in Ht; naive_solver).
      assert (exists o v at_, row_req t o (s_e t) (s_a t) v at_) as (o & v & at2 & Hreq).
      { apply (added_rows_spec _ _ _ _ Hsearch) in Ht as [_ Ht].
        destruct Ht as [[Ht _]|[Ht _]]; [destruct (row_of_table t true Ht) as (o & v & at2 & H & _)|
        destruct (row_of_table t false Ht) as (o & v & at2 & H & _)]; eauto. }
      assert (o = OAdd) as ->. { destruct Hreq as (_ & _ & _ & _ & _ & _ & Had). destruct o; congruence. }
      simpl. split.
      - intros (He & Ha & at3 & tv & Hm3 & Hst & ->). subst e a.
        pose proof Hreq as (_ & Hm2 & _ & _ & _ & Hst2 & _).
        assert (at2 = at_) as -> by congruence. assert (at3 = at_) as -> by congruence. exists v. split; [done|].
        by apply (stored_as_iff _ _ _ _ _ _ _ _ Hst2 Hst).
      - intros (v2 & (R & Hm2 & <- & <- & _ & Hst & _) & <-). split_and!; try done. exists at_, v2. done. }
    (* what is deleted *)
    assert (forall d, d ∈ ds -> view_fact f d (e, a, p) ->
      (d_key d ∈ deleted_keys rs <->
       if at_multival at_ then asked ORetract e a p
       else (exists q, asked ORetract e a q) \/ (exists q, asked OAdd e a q /\ q <> p))) as Hdel.
    { intros d Hd V. destruct (Hea d Hd V) as [He Ha]. rewrite (deleted_spec _ _ _ _ Hsearch d Huniq Hd).
      assert (forall t v o, row_req t o e a v at_ -> (row_key t = d_key d <-> to_sql_value_pair v = p)) as Hrd.
      { intros t v o Hreq. pose proof Hreq as (_ & _ & E1 & E2 & _). apply (row_datom t o v at_); [by rewrite E1, E2|done|congruence..|by rewrite E1, E2]. }
      destruct (at_multival at_) eqn:Em.
      - split.
        + intros [(t & Ht & Hadded & Hk)|(t & Ht & He' & Ha' & _)].
          * destruct (row_of_table t true Ht) as (o & v & at2 & Hreq & _).
            assert (s_e t = e /\ s_a t = a) as [E1 E2] by (unfold row_key, d_key in Hk; split; congruence).
            rewrite E1, E2 in Hreq. pose proof Hreq as (R & Hm2 & _ & _ & _ & _ & Hop).
            assert (at2 = at_) as -> by congruence. destruct o; [congruence|]. exists v. split; [done|]. by apply (Hrd _ _ _ Hreq).
          * exfalso. destruct (row_of_table t false Ht) as (o & v & at2 & (_ & Hm2 & _) & Hmu).
            assert (at2 = at_) as -> by congruence. congruence.
        + intros (v & R & Hp). left. destruct (table_of_req _ _ _ _ _ R Hat) as (t & Ht & Hreq). rewrite Em in Ht.
          exists t. split_and!; [done| |by apply (Hrd _ _ _ Hreq)]. by destruct Hreq as (_ & _ & _ & _ & _ & _ & ->).
      - split.
        + intros [(t & Ht & Hadded & Hk)|(t & Ht & He' & Ha' & Hv)].
          * exfalso. destruct (row_of_table t true Ht) as (o & v & at2 & (_ & Hm2 & _) & Hmu).
            assert (s_a t = a) as E2 by (unfold row_key, d_key in Hk; congruence).
            assert (at2 = at_) as -> by congruence. congruence.
          * destruct (row_of_table t false Ht) as (o & v & at2 & Hreq & Hmu).
            rewrite He', Ha', He, Ha in Hreq. pose proof Hreq as (R & Hm2 & _ & _ & _ & _ & Hop).
            assert (at2 = at_) as -> by congruence. destruct o.
            -- right. destruct Hv as [Hv|Hv]; [congruence|]. exists (to_sql_value_pair v). split; [by exists v|].
               intros Hp. apply (Hrd _ _ _ Hreq) in Hp. apply Hv. unfold row_key, d_key in Hp. congruence.
            -- left. exists (to_sql_value_pair v). by exists v.
        + intros [(q & v & R & Hp)|(q & (v & R & Hp) & Hne)]; right;
            destruct (table_of_req _ _ _ _ _ R Hat) as (t & Ht & Hreq); rewrite Em in Ht; exists t;
            pose proof Hreq as (_ & _ & E1 & E2 & _ & _ & Hop); split_and!; try congruence.
          * by left.
          * right. intros Hv. apply Hne. rewrite <- Hp. apply (Hrd _ _ _ Hreq).
            rewrite <- E1, <- E2 in Hreq.
            pose proof (row_tag _ _ _ _ d Hreq Hd ltac:(congruence)). unfold row_key, d_key. congruence. }
    (* what is added *)
    assert ((exists t, t ∈ added_rows rs /\ view_fact f (datom_of_search tx t) (e, a, p)) <->
            asked OAdd e a p /\ ~ exists d, d ∈ ds /\ view_fact f d (e, a, p)) as Hnew.
    { split.
      - intros (t & Ht & V). apply (Hadd t Ht) in V as (v & Hreq & <-). pose proof Hreq as (R & _ & E1 & E2 & _). split; [by exists v|].
        intros (d & Hd & V). destruct (Hea d Hd V) as [He Ha].
        rewrite <- E1, <- E2 in Hreq.
        assert (row_key t = d_key d) as Hk.
        { apply (row_datom _ _ _ _ d Hreq Hd ltac:(congruence) ltac:(congruence) (to_sql_value_pair v)); [|done]. by rewrite E1, E2. }
        apply (added_absent t Ht). rewrite Hk. by apply elem_of_list_fmap_1.
      - intros [(v & R & Hp) Hno]. destruct (table_of_req _ _ _ _ _ R Hat) as (t & Ht & Hreq).
        pose proof Hreq as (_ & _ & E1 & E2 & _ & Hst & Had). exists t.
        assert (t ∈ added_rows rs) as Hin.
        { apply (added_rows_spec _ _ _ _ Hsearch). split; [done|].
          assert (forall d, d ∈ ds -> d_e d = e -> d_a d = a -> row_key t <> d_key d) as Hne.
          { intros d Hd He Ha Hk. destruct (Hview d Hd He Ha) as [q V].
            apply Hno. exists d. split; [done|]. assert (q = p) as <-; [|done].
            rewrite <- Hp. symmetry. rewrite <- E1, <- E2 in Hreq.
            eapply (row_datom _ _ _ _ d Hreq Hd); [congruence..|by rewrite E1, E2|done]. }
          destruct (at_multival at_) eqn:Em; [left|right]; (split; [done|]).
          - intros (d & Hk & Hd)%elem_of_list_fmap. apply (Hne d Hd); [| |done]; unfold row_key, d_key in Hk; congruence.
          - intros d Hd He Ha Hv. apply (Hne d Hd); [congruence..|]. 
            rewrite <- E1, <- E2 in Hreq.
            pose proof (row_tag _ _ _ _ d Hreq Hd ltac:(congruence)). unfold row_key, d_key. congruence. }
        split; [done|]. apply (Hadd t Hin). eauto. }
    setoid_rewrite step_elem.
    assert ((exists d, ((d ∈ ds /\ d_key d ∉ deleted_keys rs) \/ (exists t, t ∈ added_rows rs /\ d = datom_of_search tx t)) /\ view_fact f d (e, a, p))
      <-> (exists d, d ∈ ds /\ d_key d ∉ deleted_keys rs /\ view_fact f d (e, a, p))
          \/ (exists t, t ∈ added_rows rs /\ view_fact f (datom_of_search tx t) (e, a, p))) as -> by naive_solver.
    rewrite Hnew.
    assert ((exists d, d ∈ ds /\ d_key d ∉ deleted_keys rs /\ view_fact f d (e, a, p)) <->
      (exists d, d ∈ ds /\ view_fact f d (e, a, p)) /\
      ~ (if at_multival at_ then asked ORetract e a p
         else (exists q, asked ORetract e a q) \/ (exists q, asked OAdd e a q /\ q <> p))) as ->.
    { split.
      - intros (d & Hd & Hk & V). rewrite (Hdel d Hd V) in Hk. eauto.
      - intros [(d & Hd & V) Hk]. rewrite <- (Hdel d Hd V) in Hk. eauto. }
    destruct (at_multival at_); [by rewrite Hold|]. rewrite Hold.
    assert (forall P Q R : Prop, (P <-> R) -> (P \/ Q <-> R \/ Q)) as L by tauto. apply L.
    split.
    - intros [H1 H2]. split; [done|]. split.
      + intros q Hq. apply H2. left. eauto.
      + intros q Hq. destruct (decide (q = p)); [done|]. exfalso. apply H2. right. eauto.
    - intros (H1 & H2 & H3). split; [done|]. intros [[q Hq]|(q & Hq & Hne)]; [by eapply H2|]. apply Hne. by apply H3.
  Qed.

  Lemma card_one_step st' : st_datoms st' = ds' -> st_fts st' = f -> one_add s tr ->
    card_one s st0 -> card_one s st'.
  Proof.
    intros Hds Hf Hnc Hc e a at_ p q Hat Hmu Hp Hq. rewrite Hs in Hat.
    apply (facts_step _ _ _ _ _ Hds Hf Hat) in Hp. apply (facts_step _ _ _ _ _ Hds Hf Hat) in Hq. rewrite Hmu in Hp, Hq.
    destruct Hp as [(Hp & _ & Hpa)|[Hpa Hpn]]; destruct Hq as [(Hq & _ & Hqa)|[Hqa Hqn]].
    - by eapply Hc; [rewrite Hs|..].
    - symmetry. by apply Hpa.
    - by apply Hqa.
    - destruct Hpa as (v & Hv & <-). destruct Hqa as (w & Hw & <-). f_equal. eapply Hnc; [by rewrite Hs|done..].
  Qed.
End step.

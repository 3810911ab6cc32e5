(** One transaction, and the same transaction replayed from its rows on another store. *)
From Verif Require Import M_Sync Spec_Tx Spec_Conn Spec_Transact Spec_Timelines P_Base P_Partition P_Store P_Fill P_Value P_Step P_Meta P_Inv P_Upsert P_Resolve P_Conn P_TxProps P_Timelines P_SchemaStep P_Sort.

(** The metadata that the rows of a transaction assert and retract, as the transactor reads it *)
Definition quads_of (new : list txrow) : res (list quad) :=
  rmapM quad_of_row (merge_sort mdrow_le (map (fun r => (t_e r, t_a r, t_v r, t_tag r, t_added r)) (filter (fun r => t_a r ∈ METADATA_LIST) new))).

(** The store grows by one transaction whose rows are [new]. *)
Record grows (m : gmap Z attribute) (st : store) (tx : Z) (new : list txrow) (st' : store) : Prop := {
  gr_log : st_log st' = st_log st ++ new;
  gr_new : forall r, r ∈ new -> t_tx r = tx /\ t_timeline r = TIMELINE_MAIN;
  gr_keys : NoDup (map t_key new);
  gr_old : forall r, r ∈ st_log st -> t_tx r < tx;
  gr_rows : forall e a p b,
    (exists r, r ∈ new /\ t_e r = e /\ t_a r = a /\ t_added r = b /\ row_value m st' r p) <-> changed st st' b (e, a, p);
  gr_valued : forall r, r ∈ new -> exists p, row_value m st' r p;
  gr_one : forall e a at_ p q, m !! a = Some at_ -> at_multival at_ = false -> (e, a, p) ∈ facts st -> (e, a, q) ∈ facts st -> p = q;
  gr_one' : forall e a at_ p q, m !! a = Some at_ -> at_multival at_ = false -> (e, a, p) ∈ facts st' -> (e, a, q) ∈ facts st' -> p = q;
  gr_typed : forall r, r ∈ new -> exists f at_ tv, m !! t_a r = Some at_ /\ stored_as f at_ tv (t_v r) (t_tag r);
  gr_md : forall r, r ∈ new -> t_a r ∈ METADATA_LIST -> is_plain (t_v r);
  gr_known : forall e a p, (e, a, p) ∈ facts st \/ (e, a, p) ∈ facts st' -> is_Some (m !! a);
  gr_instant : (forall p, (tx, DB_TX_INSTANT, p) ∉ facts st) -> exists i, (tx, DB_TX_INSTANT, to_sql_value_pair (TVInstant i)) ∈ facts st' }.
Definition step (st : store) (s : schema) (tx : Z) (new : list txrow) (st' : store) (s' : schema) : Prop :=
  grows (sc_attribute_map s) st tx new st'
  /\ exists quads rep, quads_of new = Ok quads /\ update_schema_from_entid_quadruples s quads = Ok (s', rep).

Lemma filter_tx (l new : list txrow) tx : (forall r, r ∈ l -> t_tx r < tx) -> (forall r, r ∈ new -> t_tx r = tx) ->
  filter (fun r => t_tx r = tx /\ t_a r ∈ METADATA_LIST) (l ++ new) = filter (fun r => t_a r ∈ METADATA_LIST) new.
Proof.
  intros Hl Hn. rewrite filter_app.
  rewrite (filter_none_of _ l) by (intros r Hr [E _]; apply Hl in Hr; lia). cbn [app].
  clear Hl. induction new as [|r new IH]; [done|]. rewrite !filter_cons, IH by set_solver.
  assert (t_tx r = tx) by (apply Hn; by left). destruct (decide (t_a r ∈ METADATA_LIST)).
  - by rewrite decide_True.
  - rewrite decide_False; [done|tauto].
Qed.
Lemma committed_quads st l new tx : st_log st = l ++ new -> (forall r, r ∈ st_log st -> t_timeline r = TIMELINE_MAIN) ->
  (forall r, r ∈ l -> t_tx r < tx) -> (forall r, r ∈ new -> t_tx r = tx) -> committed_metadata_assertions st tx = quads_of new.
Proof.
  intros El Hm Hl Hn. unfold committed_metadata_assertions, quads_of. rewrite (transactions_all _ Hm), El.
  by rewrite (filter_tx _ _ _ Hl Hn).
Qed.

(** What is not asked for does not change. *)
Lemma changed_asked m st st' tx i tr tr' b e a p : applied m st st' tx i tr tr' -> (forall e a p, (e, a, p) ∈ facts st -> is_Some (m !! a)) ->
  changed st st' b (e, a, p) -> exists o q, asked tr' o e a q.
Proof.
  intros Hap Hk Hc.
  assert (is_Some (m !! a)) as [at_ Ha].
  { destruct b; destruct Hc as [C1 C2]; [by eapply ap_known|by eapply Hk]. }
  destruct (ap_facts _ _ _ _ _ _ _ Hap e a p at_ Ha) as [F1 F2].
  destruct b; destruct Hc as [C1 C2].
  - specialize (F1 C2). destruct (at_multival at_); destruct F1 as [F1|F1]; [by destruct F1|by eexists _, _; apply F1|by destruct F1|by eexists _, _; apply F1].
  - destruct (asked_dec tr' ORetract e a p) as [D|D]; [by eauto|]. destruct (at_multival at_).
    + exfalso. apply C2, F2. by left.
    + destruct (tr' !! (a, e)) as [en|] eqn:E.
      * destruct (elements (te_add en)) as [|v l] eqn:Ea; [destruct (elements (te_retract en)) as [|v l] eqn:Er|].
        -- exfalso. apply C2, F2. left. split; [done|]. split.
           ++ intros q (v & (en2 & E2 & Hv) & _). assert (en2 = en) as -> by congruence. apply elem_of_elements in Hv. rewrite Er in Hv. by apply elem_of_nil in Hv.
           ++ intros q (v & (en2 & E2 & Hv) & _). assert (en2 = en) as -> by congruence. apply elem_of_elements in Hv. rewrite Ea in Hv. by apply elem_of_nil in Hv.
        -- exists ORetract, (to_sql_value_pair v), v. split; [|done]. exists en. split; [done|]. apply elem_of_elements. rewrite Er. by left.
        -- exists OAdd, (to_sql_value_pair v), v. split; [|done]. exists en. split; [done|]. apply elem_of_elements. rewrite Ea. by left.
      * exfalso. apply C2, F2. left. split; [done|]. split; intros q (v & (en2 & E2 & Hv) & _); congruence.
Qed.

Lemma facts_known m st n e a p : store_ok m st n -> (e, a, p) ∈ facts st -> is_Some (m !! a).
Proof.
  intros H0 Hf. apply (facts_elem m) in Hf as (d & at_ & tv & _ & _ & Ha & Hm & _); [|apply H0]. by eexists.
Qed.

Lemma stored_md_plain m f a at_ tv v tag : core_typed m -> a ∈ METADATA_LIST -> m !! a = Some at_ -> stored_as f at_ tv v tag -> is_plain v.
Proof.
  intros Hc Ha Hat (T & E & N).
  assert (exists vt, (a, vt) ∈ core_types /\ vt ∈ [VTKeyword; VTRef; VTBoolean]) as (vt & Hvt & Hk).
  { unfold METADATA_LIST in Ha. rewrite !elem_of_cons, elem_of_nil in Ha. unfold core_types.
    destruct Ha as [->|[->|[->|[->|[->|[->|[->|[]]]]]]]]; eexists; (split; [rewrite !elem_of_cons; tauto|set_solver]). }
  destruct (Hc a vt Hvt) as (at2 & Ha2 & Ht2). assert (at2 = at_) as -> by congruence.
  destruct (at_fulltext at_) eqn:Hf.
  - destruct (enc_fulltext _ _ _ _ _ Hf E N) as (x & i & -> & _ & -> & _). done.
  - rewrite enc_plain in E by done. rewrite Ht2 in T. rewrite !elem_of_cons, elem_of_nil in Hk.
    destruct tv; simpl in T; try (subst vt; destruct Hk as [?|[?|[?|[]]]]; done); simpl in E; by injection E as -> ->.
Qed.

Lemma transact_grows mv now st pm pm1 s tx ts ids st' r :
  db_ok st pm s -> pm_allocate pm ":db.part/tx" 1 = Ok (tx, pm1) ->
  transact_simple_terms mv now MaterializeAndCommit st pm1 s s tx ts ids = (st', Ok r) ->
  exists rv tr tr' i st2 new, resolve_terms mv st pm1 s ts ids = Ok rv
    /\ into_aev_trie s (rv_resolved rv) (rv_allocated rv) (rv_inert rv) = Ok tr
    /\ get_or_insert_tx_instant s now tx tr = Ok (i, tr') /\ trie_wf s tr
    /\ applied (sc_attribute_map s) st st2 tx i tr tr'
    /\ grows (sc_attribute_map s) st tx new st2 /\ st_log st' = st_log st2
    /\ (never_uninstalled (st_log st') -> (forall x, x ∈ facts st' <-> x ∈ facts st2) /\ st_fts st' = st_fts st2)
    /\ exists quads rep, quads_of new = Ok quads /\ update_schema_from_entid_quadruples s quads = Ok (default s (tr_schema r), rep).
Proof.
  intros [(p & Hp & H0 & Hst & Hend & Hnx) Hcore Htl Hr Hk Hpo] Hal H. pose proof (core_instant _ Hcore) as Hi.
  apply tx_alloc in Hal as (p0 & Hp0 & E0 & _). assert (p0 = p) as -> by congruence. subst tx.
  apply transact_simple_Ok in H as (rv & tr & Hrv & Htr & Hwf & Hap & _ & _ & _).
  pose proof (applied_trie_ok _ _ _ _ _ _ _ _ _ _ _ H0 Hi Hwf Hap) as (st2 & rs & tr' & H2 & Happ & Hins & _ & _ & _ & He & _).
  destruct (ap_log _ _ _ _ _ _ _ Happ) as (new & El & Hnew).
  assert (grows (sc_attribute_map s) st (pt_next p) new st2) as G.
  { split; try done.
    - exact (new_keys _ st st2 (pt_next p) new H2 El Hnew).
    - apply H0.
    - exact (ap_rows _ _ _ _ _ _ _ Happ new El).
    - intros x Hx'. exact (ap_valued _ _ _ _ _ _ _ Happ new x El Hx').
    - intros e a at_ q1 q2 Ha. by apply (so_card _ _ _ H0 s eq_refl).
    - intros e a at_ q1 q2 Ha. by apply (so_card _ _ _ H2 s eq_refl).
    - intros x Hx'. pose proof (proj1 (key_rows _ st st2 (pt_next p) new H0 H2 El Hnew (t_key x) (t_added x)) ltac:(by exists x)) as K.
      assert (exists st0 d, datoms_ok (sc_attribute_map s) st0 /\ d ∈ st_datoms st0 /\ d_key d = t_key x) as (st0 & d & Hd0 & Hd & E).
      { destruct (t_added x); destruct K as [K1 K2].
        - apply elem_of_list_fmap in K2 as (d & E & Hd). exists st2, d. split; [apply H2|done].
        - apply elem_of_list_fmap in K1 as (d & E & Hd). exists st, d. split; [apply H0|done]. }
      destruct (Hd0 d Hd) as (at_ & Ha & (tv & Hs) & _). unfold t_key, d_key in E. injection E as _ <- <- <-. by exists (st_fts st0), at_, tv.
    - intros x Hx' Hmd. pose proof (proj1 (key_rows _ st st2 (pt_next p) new H0 H2 El Hnew (t_key x) (t_added x)) ltac:(by exists x)) as K.
      assert (exists st0 d, datoms_ok (sc_attribute_map s) st0 /\ d ∈ st_datoms st0 /\ d_key d = t_key x) as (st0 & d & Hd0 & Hd & E).
      { destruct (t_added x); destruct K as [K1 K2].
        - apply elem_of_list_fmap in K2 as (d & E & Hd). exists st2, d. split; [apply H2|done].
        - apply elem_of_list_fmap in K1 as (d & E & Hd). exists st, d. split; [apply H0|done]. }
      destruct (Hd0 d Hd) as (at_ & Ha & (tv & Hs) & _). unfold t_key, d_key in E. injection E as _ Ea _ Ev. rewrite Ea in Ha. rewrite Ev in Hs.
      by eapply stored_md_plain.
    - intros e a q [Hq|Hq]; [exact (facts_known _ _ _ _ _ _ H0 Hq)|exact (ap_known _ _ _ _ _ _ _ Happ _ _ _ Hq)].
    - intros Hno. exists (rp_instant (tr_report r)). destruct Hi as (ati & Hai & Hti).
      set (i := rp_instant (tr_report r)) in *. set (w := to_sql_value_pair (TVInstant i)) in *.
      assert (forall q, asked tr' OAdd (pt_next p) DB_TX_INSTANT q <-> q = w) as Hask.
      { intros q. destruct (tx_instant_Ok _ _ _ _ _ _ Hwf Hins) as (_ & _ & _ & _ & Huq). split.
        - intros (v & Hv & <-). apply Huq in Hv as ->. done.
        - intros ->. exists (TVInstant i). split; [by apply Huq|done]. }
      apply (ap_facts _ _ _ _ _ _ _ Happ _ _ _ ati Hai).
      destruct (at_multival ati); right; (split; [by apply Hask|apply Hno]). }
  assert (st_log st' = st_log st2) as Elog.
  { destruct (existsb _ _); [|by injection He as <- _]. unfold evolve_metadata in He. destruct (rbind _ _) as [[n2 rep]| |]; [|done..].
    case_decide; [by injection He as <- _|]. apply with_st_Ok in He as (st3 & u & Hum & [= <- _]).
    pose proof (update_metadata_log st2 n2 rep) as Hl. by rewrite Hum in Hl. }
  exists rv, tr, tr', (rp_instant (tr_report r)), st2, new. split_and!; try done.
  - intros Hn. destruct (existsb _ _); [|by injection He as <- _].
    rewrite Elog in Hn. by destruct (evolve_metadata_ok _ _ _ _ _ _ _ H2 Hn He) as (_ & [_ ? _] & ?).
  - assert (committed_metadata_assertions st2 (pt_next p) = quads_of new) as Eq.
    { eapply committed_quads; [exact El|apply H2|apply H0|]. intros x Hx. by apply Hnew. }
    destruct (existsb _ _) eqn:Eex.
    + unfold evolve_metadata in He. rewrite Eq in He. destruct (quads_of new) as [quads| |]; [|done..]. cbn [rbind] in He.
      destruct (update_schema_from_entid_quadruples s quads) as [[s2 rep]| |] eqn:Eu; [|done..]. exists quads, rep. split; [done|].
      rewrite Eu. case_decide as Hsame; [injection He as <- E; by rewrite <- E, Hsame|].
      apply with_st_Ok in He as (st3 & u & Hum & [= <- E]). by rewrite <- E.
    + injection He as <- E. rewrite <- E. destruct (no_quads s) as (rep & Es). exists [], rep. split; [|done].
      unfold quads_of. rewrite filter_none_of; [done|]. intros x Hx Hmd.
      destruct (gr_valued _ _ _ _ _ G x Hx) as (q & Hq).
      destruct (changed_asked _ _ _ _ _ _ _ (t_added x) (t_e x) (t_a x) q Happ) as (o & q2 & v & (en & Hen & Hv) & _).
      { intros e a p0 Hf. exact (facts_known _ _ _ _ _ _ H0 Hf). }
      { apply (gr_rows _ _ _ _ _ G). by exists x. }
      apply not_true_iff_false in Eex. apply Eex, existsb_elem.
      exists (Reduced (t_e x) (t_a x) (te_attr en) v (match o with OAdd => true | ORetract => false end)). split.
      * apply trie_reduced_elem. exists en. simpl. split_and!; try done. by destruct o.
      * by apply bool_decide_eq_true.
Qed.

(* ---------------------------------------------------------------- what rows say *)

(** The stores hold the same, apart from when they were created. *)
Definition feq (st1 st2 : store) : Prop := forall e a p, ~ (e = TX0 /\ a = DB_TX_INSTANT) -> ((e, a, p) ∈ facts st1 <-> (e, a, p) ∈ facts st2).
Lemma feq_sym st1 st2 : feq st1 st2 -> feq st2 st1.
Proof. intros H e a p N. symmetry. by apply H. Qed.
Lemma feq_trans st1 st2 st3 : feq st1 st2 -> feq st2 st3 -> feq st1 st3.
Proof. intros H1 H2 e a p N. rewrite (H1 e a p N). by apply H2. Qed.

Definition said (new : list txrow) (b : bool) (e a : Z) (p : sqlval * Z) : Prop :=
  exists r, r ∈ new /\ t_e r = e /\ t_a r = a /\ t_added r = b /\ (t_v r, t_tag r) = p.
(** The rows can be sent. *)
Definition plain_rows (m : gmap Z attribute) (new : list txrow) : Prop := forall r, r ∈ new ->
  (exists at_, m !! t_a r = Some at_ /\ at_fulltext at_ = false)
  /\ exists v, from_sql_value_pair (t_v r) (t_tag r) = Ok v /\ to_sql_value_pair v = (t_v r, t_tag r).

Lemma plain_row_value m st new r p : plain_rows m new -> r ∈ new -> row_value m st r p <-> p = (t_v r, t_tag r).
Proof.
  intros H Hr. destruct (H r Hr) as [(at_ & Ha & Hf) _]. unfold row_value. split.
  - intros (at2 & Ha2 & Hp). assert (at2 = at_) as -> by congruence. by rewrite Hf in Hp.
  - intros ->. exists at_. split; [done|]. by rewrite Hf.
Qed.
Lemma grows_said m st tx new st' b e a p : grows m st tx new st' -> plain_rows m new -> said new b e a p <-> changed st st' b (e, a, p).
Proof.
  intros G Hp. rewrite <- (gr_rows _ _ _ _ _ G). split.
  - intros (r & Hr & He & Ha & Hb & Ev). exists r. split_and!; try done. by apply (plain_row_value m st' new r p Hp Hr).
  - intros (r & Hr & He & Ha & Hb & Ev). exists r. split_and!; try done. symmetry. by apply (plain_row_value m st' new r p Hp Hr).
Qed.
Lemma grows_facts m st tx new st' e a p : grows m st tx new st' -> plain_rows m new ->
  (e, a, p) ∈ facts st' <-> ((e, a, p) ∈ facts st /\ ~ said new false e a p) \/ said new true e a p.
Proof.
  intros G Hp. rewrite !(grows_said _ _ _ _ _ _ _ _ _ G Hp). unfold changed.
  destruct (decide ((e, a, p) ∈ facts st)), (decide ((e, a, p) ∈ facts st')); tauto.
Qed.
Lemma said_perm new1 new2 b e a p : new1 ≡ₚ new2 -> said new1 b e a p <-> said new2 b e a p.
Proof. intros H. unfold said. by setoid_rewrite H. Qed.

Lemma grows_det m st1 st2 tx1 tx2 new1 new2 st1' st2' : grows m st1 tx1 new1 st1' -> grows m st2 tx2 new2 st2' -> plain_rows m new1 -> new1 ≡ₚ new2 ->
  feq st1 st2 -> feq st1' st2'.
Proof.
  intros G1 G2 Hp Hn H e a p N. assert (plain_rows m new2) as Hp2 by (intros r; rewrite <- Hn; apply Hp).
  rewrite (grows_facts _ _ _ _ _ _ _ _ G1 Hp), (grows_facts _ _ _ _ _ _ _ _ G2 Hp2), (H e a p N), !(said_perm _ _ _ _ _ _ Hn). done.
Qed.
Lemma quads_perm m st tx new1 new2 st' : grows m st tx new1 st' -> new1 ≡ₚ new2 -> quads_of new1 = quads_of new2.
Proof.
  intros G Hn. unfold quads_of. f_equal. apply sort_mdrows.
  - intros r (x & -> & [Hmd Hx]%elem_of_list_filter)%elem_of_list_fmap. unfold row_plain_v. simpl. by apply (gr_md _ _ _ _ _ G).
  - apply Permutation_map. by rewrite Hn.
Qed.
Lemma step_det st1 st2 s tx1 tx2 new1 new2 st1' st2' s1' s2' : step st1 s tx1 new1 st1' s1' -> step st2 s tx2 new2 st2' s2' ->
  plain_rows (sc_attribute_map s) new1 -> new1 ≡ₚ new2 -> feq st1 st2 -> feq st1' st2' /\ s1' = s2'.
Proof.
  intros [G1 (q1 & r1 & Q1 & U1)] [G2 (q2 & r2 & Q2 & U2)] Hp Hn H. split; [by eapply grows_det|].
  rewrite <- (quads_perm _ _ _ _ _ _ G1 Hn) in Q2. assert (q1 = q2) as -> by congruence. congruence.
Qed.

(** A transaction sent by one store and transacted by another. *)
From Verif Require Import M_Sync Spec_Tx Spec_Conn Spec_Transact P_Base P_Partition P_Store P_Fill P_Value P_Step P_Meta P_Inv P_Upsert P_Resolve P_Conn P_TxProps P_Timelines P_SchemaStep P_Sort P_SyncStep.

(** The part that is sent for a row; the first one of a transaction carries a partition map too. *)
Definition part_of (r : txrow) (p : txpart) : Prop :=
  xp_e p = t_e r /\ xp_a p = t_a r /\ xp_tx p = t_tx r /\ xp_added p = t_added r /\ from_sql_value_pair (t_v r) (t_tag r) = Ok (xp_v p).

(** What a part asks for when the transaction is [tx] *)
Definition part_term (tx : Z) (p : txpart) : term_s :=
  Term (if xp_added p then OAdd else ORetract) (if decide (xp_a p = DB_TX_INSTANT) then tx else xp_e p) (xp_a p) (xp_v p).
Definition lt_of (t : term_s) : term_lt := Term (tm_op t) (inl (tm_e t)) (tm_a t) (inl (tm_v t)).

Lemma stage1_remote pm s tx ps : (forall p at_, p ∈ ps -> sc_attribute_map s !! xp_a p = Some at_ -> at_type at_ = VTRef -> as_tempid (VTyped (xp_v p)) = None) ->
  forall fuel acc ip ts ip', stage1_loop pm s tx fuel (map remote_entity ps) acc ip = Ok (ts, ip') ->
  ts = acc ++ map (fun p => lt_of (part_term tx p)) ps /\ ip' = ip.
Proof.
  intros Hp. induction ps as [|p ps IH]; intros fuel acc ip ts ip' H.
  - destruct fuel; simpl in H; injection H as <- <-; by rewrite app_nil_r.
  - destruct fuel as [|fuel]; [done|]. cbn [map stage1_loop] in H. apply rbind_Ok in H as ([[ts1 pushed] ip1] & H1 & H).
    assert (ts1 = [lt_of (part_term tx p)] /\ pushed = [] /\ ip1 = ip) as (-> & -> & ->).
    { unfold remote_entity in H1. cbn [process_entity eoi_unreversed rbind] in H1.
      cbn [entity_a_into_term_a rbind] in H1. apply rbind_Ok in H1 as (at_ & Ha & H1). apply ok_or_Ok in Ha.
      cbn [forward_value] in H1. apply rbind_Ok in H1 as ([[[tv terms] pu] ip2] & Hf & H1).
      assert (tv = Some (inl (xp_v p)) /\ terms = [] /\ pu = [] /\ ip2 = ip) as (-> & -> & -> & ->).
      { assert ((if decide (at_type at_ = VTRef) then as_tempid (VTyped (xp_v p)) else None) = None) as E.
        { destruct (decide (at_type at_ = VTRef)); [|done]. eapply Hp; [by left|done|done]. }
        rewrite E in Hf. clear E. apply rbind_Ok in Hf as (tv0 & Ht & [= <- <- <- <-]). unfold into_typed_value in Ht.
        destruct (decide (tv_type (xp_v p) = at_type at_)); [|done]. injection Ht as <-. done. }
      apply rbind_Ok in H1 as ([te ip3] & He & [= <- <- <-]). unfold lt_of, part_term. cbn [tm_op tm_e tm_a tm_v].
      destruct (decide (xp_a p = DB_TX_INSTANT)).
      - cbn [entity_e_into_term_e] in He. apply rbind_Ok in He as (e0 & Hfn & [= <- <-]). unfold transaction_fn in Hfn. simpl in Hfn. by injection Hfn as <-.
      - cbn [entity_e_into_term_e] in He. destruct (pm_contains pm (xp_e p)); [|done]. by injection He as <- <-. }
    cbn [app] in H. apply IH in H as [-> ->]; [|intros; eapply Hp; [by right|done|done]]. cbn [map]. by rewrite <- app_assoc.
Qed.

Lemma entities_remote mv st pm s tx ps ts ids : (forall p at_, p ∈ ps -> sc_attribute_map s !! xp_a p = Some at_ -> at_type at_ = VTRef -> as_tempid (VTyped (xp_v p)) = None) ->
  entities_to_terms mv st pm s tx (map remote_entity ps) = Ok (ts, ids) -> ts = map inert_term (map (part_term tx) ps).
Proof.
  intros Hp H. unfold entities_to_terms in H. apply rbind_Ok in H as ([ts0 ip] & H1 & H). apply (stage1_remote pm s tx ps Hp) in H1 as [-> ->].
  cbn [app] in H. apply rbind_Ok in H as (look & _ & H). apply rbind_Ok in H as (ts1 & Hr & [= <- _]).
  unfold resolve_lookup_refs in Hr. apply rmapM_Ok in Hr. rewrite map_map. clear Hp. revert ts1 Hr. induction ps as [|p ps IH]; intros ts1 Hr; inversion Hr; subst; [done|].
  cbn [map]. f_equal; [|by apply IH]. cbn in *. by simplify_eq.
Qed.

Lemma own_ref m st tx new st' r at_ v : grows m st tx new st' -> r ∈ new -> m !! t_a r = Some at_ -> at_fulltext at_ = false -> at_type at_ = VTRef ->
  to_sql_value_pair v = (t_v r, t_tag r) -> as_tempid (VTyped v) = None.
Proof.
  intros G Hr Ha Hf Ht Hv. destruct (gr_typed _ _ _ _ _ G r Hr) as (f & at2 & tv & Ha2 & T & E & N). assert (at2 = at_) as -> by congruence.
  rewrite enc_plain in E by done. rewrite Ht in T. rewrite <- Hv in E. destruct tv; try done. destruct v; simpl in E; done.
Qed.

Section replay.
  Context (mv now : Z) (s : schema) (stA stA' stB stB' : store) (pm : partition_map) (tx : Z) (new : list txrow) (ps : list txpart) (r : txresult).
  Local Notation m := (sc_attribute_map s).
  Hypothesis HA : grows m stA tx new stA'.
  Hypothesis Hplain : plain_rows m new.
  Hypothesis Hown : forall r, r ∈ new -> t_a r = DB_TX_INSTANT -> t_e r = tx.
  Hypothesis Hinst : exists r, r ∈ new /\ t_e r = tx /\ t_a r = DB_TX_INSTANT /\ t_added r = true.
  Hypothesis Htx : TX0 < tx.
  Hypothesis Heq : feq stA stB.
  Hypothesis Hps : Forall2 part_of new ps.
  Hypothesis HB : db_ok stB pm s.
  Hypothesis Hnext : exists p, pm !! ":db.part/tx" = Some p /\ pt_next p = tx.
  Hypothesis Ht : transact mv now stB pm s s (map remote_entity ps) = (stB', Ok r).

  Lemma part_row p : p ∈ ps -> exists r0, r0 ∈ new /\ part_of r0 p.
  Proof using Hps. intros Hp. apply elem_of_list_lookup in Hp as (i & Hi). destruct (Forall2_lookup_r _ _ _ _ _ Hps Hi) as (r0 & Hr & H). exists r0. split; [by eapply elem_of_list_lookup_2|done]. Qed.
  Lemma row_part r0 : r0 ∈ new -> exists p, p ∈ ps /\ part_of r0 p.
  Proof using Hps. intros Hp. apply elem_of_list_lookup in Hp as (i & Hi). destruct (Forall2_lookup_l _ _ _ _ _ Hps Hi) as (p & Hr & H). exists p. split; [by eapply elem_of_list_lookup_2|done]. Qed.

  Lemma replay : rp_tx (tr_report r) = tx /\ exists st2 newB, newB ≡ₚ new /\ grows m stB tx newB st2 /\ st_log stB' = st_log stB ++ newB
    /\ (never_uninstalled (st_log stB') -> forall x, x ∈ facts stB' <-> x ∈ facts st2)
    /\ exists quads rep, quads_of newB = Ok quads /\ update_schema_from_entid_quadruples s quads = Ok (default s (tr_schema r), rep).
  Proof using All.
    unfold transact in Ht. destruct (pm_allocate pm ":db.part/tx" 1) as [[tx0 pm1]| |] eqn:Ep; [|done..].
    destruct (entities_to_terms _ _ _ _ _ _) as [[ts ids]| |] eqn:Ee; [|done..]. rename Ht into H.
    assert (tx0 = tx) as ->. { pose proof (tx_alloc _ _ _ Ep) as (p0 & Hp0 & -> & _). destruct Hnext as (p & Hp & E). congruence. }
    apply entities_remote in Ee.
    2:{ intros p at_ Hp Ha Hr. destruct (part_row p Hp) as (r0 & Hr0 & E1 & E2 & E3 & E4 & E5). destruct (Hplain r0 Hr0) as [(at2 & Ha2 & Hf) (v & Hv & Hb)].
        rewrite E2 in Ha. assert (at2 = at_) as -> by congruence. assert (xp_v p = v) as -> by congruence. by eapply own_ref. }
    split; [by apply transact_simple_Ok in H as (? & ? & ? & ? & ? & ? & ? & ? & ?)|].
    destruct (transact_grows _ _ _ _ _ _ _ _ _ _ _ HB Ep H) as (rv & tr & tr' & i & st2 & newB & Hrv & Htr & Hins & Hwf & Hap & GB & El & Hfacts & Hq).
    rewrite Ee in Hrv. apply resolve_inert in Hrv as (R1 & R2 & R3). rewrite R1, R2, R3 in Htr. clear R1 R2 R3.
    apply into_aev_trie_Ok in Htr as (_ & _ & Hreq).
    assert (forall o e a v, req tr o e a v <-> Term o e a v ∈ map (part_term tx) ps) as Hreq1.
    { intros o e a v. rewrite Hreq, !elem_of_nil. split.
      - intros [[]|[[]|(t & E%inert_term_inj & Hin)%elem_of_list_fmap]]. by subst.
      - intros Hin. right. right. apply elem_of_list_fmap. by eexists. }
    clear Hreq. pose proof (tx_instant_Ok _ _ _ _ _ _ Hwf Hins) as (_ & _ & Hreq & Hi & _).
    assert (forall p r0, r0 ∈ new -> part_of r0 p -> part_term tx p = Term (if t_added r0 then OAdd else ORetract) (t_e r0) (t_a r0) (xp_v p)
            /\ to_sql_value_pair (xp_v p) = (t_v r0, t_tag r0)) as Hpt.
    { intros p r0 Hr0 (E1 & E2 & E3 & E4 & E5). destruct (Hplain r0 Hr0) as [_ (v & Hv & Hb)]. assert (xp_v p = v) as Ev by congruence.
      split; [|by rewrite Ev]. unfold part_term. rewrite E4, E2, E1. case_decide as D; [|done]. by rewrite (Hown r0 Hr0 D). }
    assert (forall o e a v, req tr' o e a v <-> req tr o e a v) as Hreq2.
    { intros o e a v. rewrite Hreq. split; [|by left]. intros [?|(-> & -> & -> & ->)]; [done|]. destruct Hi as [[_ Hno]|?]; [|done]. exfalso.
      destruct Hinst as (r0 & Hr0 & He0 & Ha0 & Hb0). destruct (row_part r0 Hr0) as (p & Hp & Hpo). apply (Hno (xp_v p)), Hreq1, elem_of_list_fmap.
      exists p. split; [|done]. destruct (Hpt p r0 Hr0 Hpo) as [-> _]. by rewrite Hb0, He0, Ha0. }
    assert (forall (b : bool) e a p, asked tr' (if b then OAdd else ORetract) e a p <-> said new b e a p) as Hask.
    { intros b e a q. split.
      - intros (v & Hv & <-). apply Hreq2, Hreq1, elem_of_list_fmap in Hv as (p & E & Hp). destruct (part_row p Hp) as (r0 & Hr0 & Hpo).
        destruct (Hpt p r0 Hr0 Hpo) as [E' Eq]. rewrite E' in E. injection E as Eo -> -> ->. exists r0. split_and!; try done. by destruct b, (t_added r0).
      - intros (r0 & Hr0 & <- & <- & <- & <-). destruct (row_part r0 Hr0) as (p & Hp & Hpo). destruct (Hpt p r0 Hr0 Hpo) as [E' Eq].
        exists (xp_v p). split; [|done]. apply Hreq2, Hreq1, elem_of_list_fmap. exists p. split; [|done]. by rewrite E'. }
    pose proof (Hask true) as HaskA. pose proof (Hask false) as HaskR. cbn beta iota in HaskA, HaskR. clear Hask.
    assert (forall e a p b, changed stB st2 b (e, a, p) <-> said new b e a p) as Hch.
    { intros e a p b.
      pose proof (grows_said _ _ _ _ _ true e a p HA Hplain) as SA. pose proof (grows_said _ _ _ _ _ false e a p HA Hplain) as SR.
      destruct (m !! a) as [at_|] eqn:Ha.
      2:{ split.
          - intros Hc. exfalso. assert ((e, a, p) ∈ facts stB \/ (e, a, p) ∈ facts st2) as Hf by (destruct b; destruct Hc; tauto).
            apply (gr_known _ _ _ _ _ GB) in Hf as [? ?]. congruence.
          - intros (r0 & Hr0 & _ & Ea & _). destruct (Hplain r0 Hr0) as [(at_ & Ha' & _) _]. congruence. }
      assert ((e, a, p) ∈ facts st2 <->
        if at_multival at_ then ((e, a, p) ∈ facts stB /\ ~ said new false e a p) \/ (said new true e a p /\ (e, a, p) ∉ facts stB)
        else ((e, a, p) ∈ facts stB /\ (forall q, ~ said new false e a q) /\ (forall q, said new true e a q -> q = p))
             \/ (said new true e a p /\ (e, a, p) ∉ facts stB)) as Hf.
      { rewrite (ap_facts _ _ _ _ _ _ _ Hap e a p at_ Ha). destruct (at_multival at_).
        - by rewrite HaskA, HaskR.
        - setoid_rewrite HaskA. by setoid_rewrite HaskR. }
      destruct (decide (e = TX0 /\ a = DB_TX_INSTANT)) as [[-> ->]|N].
      - assert (forall b q, ~ said new b TX0 DB_TX_INSTANT q) as Hno.
        { intros b0 q (r0 & Hr0 & He & Ha0 & _). pose proof (Hown r0 Hr0 Ha0). lia. }
        assert ((TX0, DB_TX_INSTANT, p) ∈ facts st2 <-> (TX0, DB_TX_INSTANT, p) ∈ facts stB) as Hf'.
        { rewrite Hf. destruct (at_multival at_); split.
          - intros [[? _]|[Hs _]]; [done|by apply Hno in Hs].
          - intros ?. left. split; [done|apply Hno].
          - intros [[? _]|[Hs _]]; [done|by apply Hno in Hs].
          - intros ?. left. split; [done|]. split; [intros; apply Hno|intros q Hs; by apply Hno in Hs]. }
        split; [|by intros ?%Hno]. unfold changed. destruct b; intros [? ?]; tauto.
      - pose proof (Heq e a p N) as HeqP. unfold changed in SA, SR |- *.
        destruct (at_multival at_) eqn:Emv.
        + destruct b; [rewrite SA in Hf |- *|rewrite SR in Hf |- *];
          destruct (decide ((e, a, p) ∈ facts stA)), (decide ((e, a, p) ∈ facts stA')); tauto.
        + destruct b.
          * destruct (decide ((e, a, p) ∈ facts stA)); tauto.
          * split.
            -- intros [F1 F2]. apply HeqP in F1. apply SR. split; [done|]. intros F'. apply F2, Hf. left. split; [by apply HeqP|]. split.
               ++ intros q Hz. pose proof Hz as Hz0. apply (grows_said _ _ _ _ _ _ _ _ _ HA Hplain) in Hz as [Q1 Q2].
                  assert (p = q) as <- by (by eapply (gr_one _ _ _ _ _ HA)). done.
               ++ intros q Hz. apply (grows_said _ _ _ _ _ _ _ _ _ HA Hplain) in Hz as [Q1 Q2]. by eapply (gr_one' _ _ _ _ _ HA).
            -- intros Hs. pose proof Hs as [F1 F2]%SR. split; [by apply HeqP|]. intros [(_ & Hno & _)|[_ Hno]]%Hf; [by eapply Hno|]. by apply Hno, HeqP. }
    exists st2, newB. split_and!; try done.
    - apply NoDup_Permutation; [eapply NoDup_fmap_1, (gr_keys _ _ _ _ _ GB)|eapply NoDup_fmap_1, (gr_keys _ _ _ _ _ HA)|].
      assert (forall r1 r2, r1 ∈ newB -> r2 ∈ new -> t_e r1 = t_e r2 -> t_a r1 = t_a r2 -> t_added r1 = t_added r2 -> row_value m st2 r1 (t_v r2, t_tag r2) -> r1 = r2) as Hrow.
      { intros r1 r2 H1 H2 E1 E2 E3 Hv. destruct (Hplain r2 H2) as [(at_ & Ha & Hft) _]. destruct Hv as (at2 & Ha2 & Hp).
        assert (at2 = at_) as -> by congruence. rewrite Hft in Hp. destruct (gr_new _ _ _ _ _ GB r1 H1) as [X1 X2]. destruct (gr_new _ _ _ _ _ HA r2 H2) as [Y1 Y2].
        destruct r1, r2. simpl in *. simplify_eq. done. }
      intros x. split.
      + intros Hx. destruct (gr_valued _ _ _ _ _ GB x Hx) as (p & Hp).
        assert (changed stB st2 (t_added x) (t_e x, t_a x, p)) as Hc by (apply (gr_rows _ _ _ _ _ GB); by exists x).
        apply Hch in Hc as (r2 & Hr2 & E1 & E2 & E3 & <-). by rewrite (Hrow x r2).
      + intros Hx. assert (said new (t_added x) (t_e x) (t_a x) (t_v x, t_tag x)) as Hs by by exists x.
        apply Hch, (gr_rows _ _ _ _ _ GB) in Hs as (r1 & Hr1 & E1 & E2 & E3 & Hv). by rewrite <- (Hrow r1 x).
    - rewrite El. apply (gr_log _ _ _ _ _ GB).
    - intros Hn. by apply Hfacts.
  Qed.
End replay.

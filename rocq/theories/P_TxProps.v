(** Consequences of [outcome]. *)
From Verif Require Import M_Conn Spec_Value Spec_Partition Spec_Tx Spec_Conn Spec_Upsert Spec_Entity Spec_Transact.
From Verif Require Import P_Base P_Value P_Partition P_Store P_Fill P_Step P_Meta P_Inv P_Conn P_Upsert P_Resolve P_Entity P_Nested P_Tx.

Lemma conn_store_ok c : conn_ok c -> exists n, store_ok (sc_attribute_map (schema_of c)) (disk c) n.
Proof. intros [(p & _ & H & _) _ _ _ _ _]. by exists (pt_next p). Qed.
Lemma conn_card_one c : conn_ok c -> card_one (schema_of c) (disk c).
Proof. intros (n & H)%conn_store_ok. by apply H. Qed.
Lemma conn_values_unique c : conn_ok c -> values_unique (schema_of c) (disk c).
Proof. intros (n & H)%conn_store_ok. eapply values_unique_of; [done|apply H|apply H]. Qed.
Lemma conn_well_typed c : conn_ok c -> well_typed (schema_of c) (disk c).
Proof. intros (n & H)%conn_store_ok. eapply well_typed_of; [done|apply H]. Qed.
Lemma conn_facts_distinct c : conn_ok c -> facts_distinct (disk c).
Proof. intros (n & H)%conn_store_ok. eapply facts_distinct_of; [apply H|]. apply datoms_unique_key, H. Qed.

Lemma asked_dec tr o e a p : asked tr o e a p \/ ~ asked tr o e a p.
Proof.
  unfold asked, req. destruct (tr !! (a, e)) as [en|] eqn:E; [|right; by intros (v & (en & ? & _) & _)].
  set (X := match o with OAdd => te_add en | ORetract => te_retract en end).
  destruct (decide (Exists (fun v => to_sql_value_pair v = p) (elements X))) as [H|H].
  - apply Exists_exists in H as (v & Hv%elem_of_elements & Hp). left. exists v. split; [|done]. by exists en.
  - right. intros (v & (en' & [= <-] & Hv) & Hp). apply H, Exists_exists. exists v. split; [by apply elem_of_elements|done].
Qed.
Lemma asked_any_dec tr o e a : (exists v, req tr o e a v) \/ forall v, ~ req tr o e a v.
Proof.
  unfold req. destruct (tr !! (a, e)) as [en|] eqn:E; [|right; by intros v (en & ? & _)].
  set (X := match o with OAdd => te_add en | ORetract => te_retract en end).
  destruct (elements X) as [|v l] eqn:Hl.
  - right. intros v (en' & [= <-] & Hv). apply elem_of_elements in Hv. fold X in Hv. rewrite Hl in Hv. by apply elem_of_nil in Hv.
  - left. exists v, en. split; [done|]. apply elem_of_elements. fold X. rewrite Hl. by left.
Qed.

Section outcome.
  Context {now : Z} {c c' : conn} {es : list entity} {r : txreport} {l : list entity} {ts : list term_t} {σ τ : gmap tempid Z}
    {rv : resolved_terms} {tr tr' : trie}.
  Context (Hc : conn_ok c) (O : outcome now c c' es r l ts σ τ rv tr tr').
  Notation m := (sc_attribute_map (schema_of c)).
  Notation enc v := (to_sql_value_pair v).

  Lemma out_tau y e : τ !! y = Some e -> σ !! y = Some e /\ names c ts σ y e.
  Proof using O.
    destruct O.(out_resolution _ _ _ _ _ _ _ _ _ _ _ _) as (pm & ids & _ & R & _). pose proof O.(out_sigma _ _ _ _ _ _ _ _ _ _ _ _) as <-.
    intros H. split; [by eapply lookup_weaken; [exact H|apply R]|].
    destruct (rs_upsert _ _ _ _ _ _ _ R _ _ H) as (t & v & Ht & Hi & Hv & Ha). exists t, v. split_and!; try done.
    by apply resolve_av_holds.
  Qed.
  Lemma req_asks o e a v : req tr o e a v -> asks ts σ o e a v.
  Proof using O.
    intros Hq%(out_final _ _ _ _ _ _ _ _ _ _ _ _ O). destruct (out_resolution _ _ _ _ _ _ _ _ _ _ _ _ O) as (pm & ids & _ & R & _).
    rewrite <- (out_sigma _ _ _ _ _ _ _ _ _ _ _ _ O). by apply (rs_from _ _ _ _ _ _ _ R).
  Qed.
  Lemma asks_req t o e a v : t ∈ ts -> subst σ t = Some (Term o e a v) -> req tr o e a v \/ upserting c ts σ t.
  Proof using O.
    intros Ht Hs. destruct (out_resolution _ _ _ _ _ _ _ _ _ _ _ _ O) as (pm & ids & _ & R & _).
    rewrite <- (out_sigma _ _ _ _ _ _ _ _ _ _ _ _ O) in Hs. destruct (rs_to _ _ _ _ _ _ _ R _ _ Ht Hs) as [H|(x & Hx & e' & He)].
    - left. by apply (out_final _ _ _ _ _ _ _ _ _ _ _ _ O).
    - right. apply out_tau in He as [He Hn]. by exists x, e'.
  Qed.
  Lemma subst_op t o e a v : subst σ t = Some (Term o e a v) -> tm_op t = o /\ tm_a t = a /\ subst_e σ (tm_e t) = Some e /\ subst_v σ (tm_v t) = Some v.
  Proof using Type. unfold subst. destruct (subst_e _ _), (subst_v _ _); try done. by intros [= <- <- <- <-]. Qed.
  Lemma asks_retract e a v : asks ts σ ORetract e a v <-> req tr ORetract e a v.
  Proof using O.
    split; [|apply req_asks]. intros (t & Ht & Hs). destruct (asks_req _ _ _ _ _ Ht Hs) as [?|(y & e' & (Ho & _) & _)]; [done|].
    apply subst_op in Hs as (Ho' & _). congruence.
  Qed.
  Lemma req'_retract e a v : req tr' ORetract e a v <-> req tr ORetract e a v.
  Proof using O. rewrite (ap_req _ _ _ _ _ _ _ (out_applied _ _ _ _ _ _ _ _ _ _ _ _ O)). naive_solver. Qed.
  Lemma req'_add e a v : req tr' OAdd e a v -> asks ts σ OAdd e a v \/ is_instant r e a (enc v).
  Proof using O.
    rewrite (ap_req _ _ _ _ _ _ _ (out_applied _ _ _ _ _ _ _ _ _ _ _ _ O)). intros [H|(_ & -> & -> & ->)]; [left; by apply req_asks|by right].
  Qed.
  Lemma req_known o e a v : req tr o e a v -> exists at_, m !! a = Some at_ /\ tv_type v = at_type at_.
  Proof using O.
    intros H. destruct (entry_typed_req _ _ _ _ _ (out_typed _ _ _ _ _ _ _ _ _ _ _ _ O) H) as (en & Hen & Ht).
    exists (te_attr en). split; [|done]. by apply (out_wf _ _ _ _ _ _ _ _ _ _ _ _ O) in Hen.
  Qed.
  Lemma req_add_retract e a v : req tr OAdd e a v -> req tr ORetract e a v -> False.
  Proof using O. apply (entry_no_conflict_req _ e a (out_conflict _ _ _ _ _ _ _ _ _ _ _ _ O)). Qed.
  Lemma req'_one e a at_ v w : m !! a = Some at_ -> at_multival at_ = false -> req tr' OAdd e a v -> req tr' OAdd e a w -> v = w.
  Proof using O.
    intros Ha Hm Hv Hw. destruct (decide (e = rp_tx r /\ a = DB_TX_INSTANT)) as [[-> ->]|Hne].
    - apply (out_instant _ _ _ _ _ _ _ _ _ _ _ _ O) in Hv as ->. by apply (out_instant _ _ _ _ _ _ _ _ _ _ _ _ O) in Hw as ->.
    - rewrite (ap_req _ _ _ _ _ _ _ (out_applied _ _ _ _ _ _ _ _ _ _ _ _ O)) in Hv, Hw.
      destruct Hv as [Hv|(_ & ? & ? & _)]; [|tauto]. destruct Hw as [Hw|(_ & ? & ? & _)]; [|tauto].
      by eapply (no_conflict_one_add _ _ (out_wf _ _ _ _ _ _ _ _ _ _ _ _ O) (out_conflict _ _ _ _ _ _ _ _ _ _ _ _ O)).
  Qed.

  (** C09 *)
  Lemma outcome_add t e a v : t ∈ ts -> subst σ t = Some (Term OAdd e a v) ->
    holds (disk c') e a v \/ upserting c ts σ t
    \/ holds (disk c) e a v /\ exists w, w <> v /\ asks ts σ ORetract e a w /\ (card_many_attr (schema_of c) a -> enc w = enc v).
  Proof using O.
    intros Ht Hs. destruct (asks_req _ _ _ _ _ Ht Hs) as [Hq|?]; [|by right; left].
    destruct (decide ((e, a, enc v) ∈ facts (disk c'))) as [?|Hn]; [by left|]. right. right.
    destruct (req_known _ _ _ _ Hq) as (at_ & Ha & _). pose proof (out_applied _ _ _ _ _ _ _ _ _ _ _ _ O) as A.
    pose proof (ap_facts _ _ _ _ _ _ _ A e a (enc v) at_ Ha) as F.
    assert (req tr' OAdd e a v) as Hq' by (apply (ap_req _ _ _ _ _ _ _ A); by left).
    assert (asked tr' OAdd e a (enc v)) as Hadd by by exists v.
    destruct (decide ((e, a, enc v) ∈ facts (disk c))) as [Hin|Hin]; [|by destruct (at_multival at_); tauto].
    split; [done|]. destruct (at_multival at_) eqn:Hm.
    - destruct (asked_dec tr' ORetract e a (enc v)) as [(w & Hw & Hww)|?]; [|tauto]. apply req'_retract in Hw. exists w.
      split_and!; [intros ->; by eapply req_add_retract|by apply req_asks|done].
    - destruct (asked_any_dec tr' ORetract e a) as [(w & Hw)|Hno].
      + apply req'_retract in Hw. exists w. split_and!; [intros ->; by eapply req_add_retract|by apply req_asks|].
        intros (at2 & Ha2 & Hm2). congruence.
      + exfalso. apply Hn, F. left. split_and!; [done|by intros q (w & Hw & _); eapply Hno|].
        intros q (w & Hw & <-). by rewrite (req'_one _ _ _ _ _ Ha Hm Hw Hq').
  Qed.
  (** C10 *)
  Lemma outcome_retract e a v : asks ts σ ORetract e a v -> holds (disk c') e a v ->
    ~ holds (disk c) e a v /\ ((exists w, w <> v /\ asks ts σ OAdd e a w /\ enc w = enc v) \/ is_instant r e a (enc v)).
  Proof using O.
    intros Hq%asks_retract Hin. pose proof (out_applied _ _ _ _ _ _ _ _ _ _ _ _ O) as A.
    destruct (req_known _ _ _ _ Hq) as (at_ & Ha & _). apply (ap_facts _ _ _ _ _ _ _ A e a (enc v) at_ Ha) in Hin.
    pose proof Hq as Hq'. apply req'_retract in Hq'.
    assert (asked tr' OAdd e a (enc v) /\ (e, a, enc v) ∉ facts (disk c)) as [(w & Hw & Hwv) Hn].
    { destruct (at_multival at_); destruct Hin as [Hin|?]; try done; exfalso.
      - apply (proj2 Hin). by exists v.
      - apply (proj1 (proj2 Hin) (enc v)). by exists v. }
    split; [done|]. rewrite <- Hwv. rewrite (ap_req _ _ _ _ _ _ _ A) in Hw. destruct Hw as [Hw|(_ & -> & -> & ->)]; [left|by right].
    exists w. split_and!; try done; [intros ->; by eapply req_add_retract|by apply req_asks].
  Qed.
  Lemma outcome_gone e a p : (e, a, p) ∈ facts (disk c) -> (e, a, p) ∉ facts (disk c') ->
    (exists w, asks ts σ ORetract e a w /\ (card_many_attr (schema_of c) a -> enc w = p))
    \/ (card_one_attr (schema_of c) a /\ exists w, enc w <> p /\ holds (disk c') e a w
        /\ (asks ts σ OAdd e a w \/ is_instant r e a (enc w))).
  Proof using O Hc.
    intros Hin Hn. pose proof (out_applied _ _ _ _ _ _ _ _ _ _ _ _ O) as A.
    destruct (conn_well_typed _ Hc _ _ _ Hin) as (at_ & _ & Ha & _ & _). pose proof (ap_facts _ _ _ _ _ _ _ A e a p at_ Ha) as F.
    destruct (at_multival at_) eqn:Hm.
    - destruct (asked_dec tr' ORetract e a p) as [(w & Hw & Hwp)|?]; [|tauto]. left. exists w. split; [by apply asks_retract, req'_retract|done].
    - destruct (asked_any_dec tr' ORetract e a) as [(w & Hw)|Hno].
      { left. exists w. split; [by apply asks_retract, req'_retract|]. intros (at2 & Ha2 & Hm2). congruence. }
      destruct (asked_any_dec tr' OAdd e a) as [(w & Hw)|Hno2].
      2:{ exfalso. apply Hn, F. left. split_and!; [done|by intros q (w & Hw & _); eapply Hno|]. intros q (w & Hw & _). by destruct (Hno2 w). }
      assert (enc w <> p) as Hwp.
      { intros <-. apply Hn, F. left. split_and!; [done|by intros q (u & Hu & _); eapply Hno|].
        intros q (u & Hu & <-). by rewrite (req'_one _ _ _ _ _ Ha Hm Hu Hw). }
      right. split; [by exists at_|]. exists w. split_and!; [done| |by apply req'_add].
      apply (ap_facts _ _ _ _ _ _ _ A e a (enc w) at_ Ha). rewrite Hm. right. split; [by exists w|]. intros Hin2.
      apply Hwp. by eapply (conn_card_one _ Hc).
  Qed.
  Lemma outcome_new e a p : (e, a, p) ∉ facts (disk c) -> (e, a, p) ∈ facts (disk c') ->
    (exists w, asks ts σ OAdd e a w /\ enc w = p) \/ is_instant r e a p.
  Proof using O.
    intros Hn Hin. pose proof (out_applied _ _ _ _ _ _ _ _ _ _ _ _ O) as A. destruct (ap_known _ _ _ _ _ _ _ A _ _ _ Hin) as (at_ & Ha).
    apply (ap_facts _ _ _ _ _ _ _ A e a p at_ Ha) in Hin.
    assert (asked tr' OAdd e a p) as (w & Hw & <-) by (destruct (at_multival at_); tauto).
    apply req'_add in Hw as [?|?]; [left; by exists w|by right].
  Qed.
  (** C08 *)
  Lemma outcome_instant : holds (disk c') (rp_tx r) DB_TX_INSTANT (TVInstant (rp_instant r))
    \/ holds (disk c) (rp_tx r) DB_TX_INSTANT (TVInstant (rp_instant r)) /\ exists w, asks ts σ ORetract (rp_tx r) DB_TX_INSTANT w.
  Proof using O Hc.
    pose proof (out_applied _ _ _ _ _ _ _ _ _ _ _ _ O) as A. destruct (ok_instant _ _ _ Hc) as (at_ & Ha & _).
    pose proof (ap_facts _ _ _ _ _ _ _ A (rp_tx r) DB_TX_INSTANT (enc (TVInstant (rp_instant r))) at_ Ha) as F.
    assert (req tr' OAdd (rp_tx r) DB_TX_INSTANT (TVInstant (rp_instant r))) as Hq by by apply (out_instant _ _ _ _ _ _ _ _ _ _ _ _ O).
    unfold holds. set (i := TVInstant (rp_instant r)) in *. set (t := rp_tx r) in *.
    destruct (decide ((t, DB_TX_INSTANT, enc i) ∈ facts (disk c'))) as [?|Hn]; [by left|right].
    destruct (decide ((t, DB_TX_INSTANT, enc i) ∈ facts (disk c))) as [Hin|Hin].
    - split; [done|]. destruct (asked_any_dec tr' ORetract t DB_TX_INSTANT) as [(w & Hw)|Hno].
      + exists w. by apply req'_retract, req_asks in Hw.
      + exfalso. apply Hn, F. destruct (at_multival at_) eqn:Hm; left; split; try done; [by intros (w & Hw & _); eapply Hno|].
        split; [by intros q (w & Hw & _); eapply Hno|]. intros q (w & Hw & <-). by rewrite (req'_one _ _ _ _ _ Ha Hm Hw Hq).
    - exfalso. apply Hn, F. destruct (at_multival at_); right; split; try done; by exists i.
  Qed.
  (** C05 *)
  Lemma outcome_typed t o e a v : t ∈ ts -> subst σ t = Some (Term o e a v) ->
    (exists at_, m !! a = Some at_ /\ tv_type v = at_type at_) \/ upserting c ts σ t.
  Proof using O. intros Ht Hs. destruct (asks_req _ _ _ _ _ Ht Hs) as [Hq|?]; [left|by right]. by eapply req_known. Qed.
  (** C12 *)
  Lemma outcome_noop :
    (forall t, t ∈ ts -> exists e a v, subst σ t = Some (Term OAdd e a v) /\ holds (disk c) e a v) ->
    (forall e a p, (e, a) <> (rp_tx r, DB_TX_INSTANT) -> (e, a, p) ∈ facts (disk c') <-> (e, a, p) ∈ facts (disk c))
    /\ exists new, st_log (disk c') = st_log (disk c) ++ new /\ forall x, x ∈ new -> t_e x = rp_tx r /\ t_a x = DB_TX_INSTANT.
  Proof using O Hc.
    intros Hall.
    assert (forall o e a v, asks ts σ o e a v -> o = OAdd /\ holds (disk c) e a v) as Hasks.
    { intros o e a v (t & Ht & Hs). destruct (Hall t Ht) as (e2 & a2 & v2 & Hs2 & Hh). rewrite Hs in Hs2. by injection Hs2 as -> -> -> ->. }
    assert (forall b e a p, changed (disk c) (disk c') b (e, a, p) -> e = rp_tx r /\ a = DB_TX_INSTANT) as Hch.
    { intros [] e a p [H1 H2].
      - destruct (outcome_new _ _ _ H1 H2) as [(w & Hw & <-)|(-> & -> & _)]; [|done]. by apply Hasks in Hw as [_ ?].
      - destruct (outcome_gone _ _ _ H1 H2) as [(w & Hw & _)|((at_ & Ha & Hm) & w & Hwp & _ & [Hw|(-> & -> & _)])]; [|exfalso|done].
        + by apply Hasks in Hw as [? _].
        + apply Hasks in Hw as [_ Hw]. apply Hwp. by eapply (conn_card_one _ Hc). }
    split.
    - intros e a p Hne. destruct (decide ((e, a, p) ∈ facts (disk c))) as [H1|H1], (decide ((e, a, p) ∈ facts (disk c'))) as [H2|H2]; try tauto;
        exfalso; apply Hne; [destruct (Hch false e a p) as [-> ->]|destruct (Hch true e a p) as [-> ->]]; done.
    - pose proof (out_applied _ _ _ _ _ _ _ _ _ _ _ _ O) as A. destruct (ap_log _ _ _ _ _ _ _ A) as (new & El & _). exists new.
      split; [done|]. intros x Hx. destruct (ap_valued _ _ _ _ _ _ _ A new x El Hx) as (p & Hp).
      apply (Hch (t_added x) _ _ p). apply (ap_rows _ _ _ _ _ _ _ A new El). by exists x.
  Qed.
  (** C14 *)
  Lemma resolve_av_complete e a at_ v : m !! a = Some at_ -> is_Some (at_unique at_) -> at_index at_ = true -> holds (disk c) e a v ->
    resolve_av (disk c) (a, v) = Some e.
  Proof using Hc.
    intros Ha Hu Hi Hh. destruct (conn_store_ok _ Hc) as (n & Hok). pose proof (so_datoms _ _ _ Hok) as Hd.
    destruct (resolve_av (disk c) (a, v)) as [e'|] eqn:E.
    - apply resolve_av_holds in E. f_equal. by eapply (conn_values_unique _ Hc).
    - exfalso. unfold resolve_av in E. simpl in E. destruct (enc v) as [sv tag] eqn:Ev. apply last_None in E.
      unfold holds in Hh. rewrite Ev in Hh. apply elem_of_list_fmap in Hh as (d & [= -> -> -> ->] & Hin).
      assert (d_avet d = true /\ d_v d <> SNull) as [Hav Hnn].
      { unfold all_datoms in Hin. apply elem_of_list_In, in_flat_map in Hin as (d0 & Hd0%elem_of_list_In & Hin%elem_of_list_In).
        destruct (Hd d0 Hd0) as (at2 & Ha2 & (tv & _ & _ & Hn) & (Hf & _)). destruct (d_ft d0).
        - destruct (fts_text _ _); [|by apply elem_of_nil in Hin]. apply elem_of_list_singleton in Hin as ->. simpl in *. split; [|done].
          congruence.
        - apply elem_of_list_singleton in Hin as ->. split; [congruence|done]. }
      assert (d_e d ∈ map d_e (filter (fun x => d_avet x = true /\ d_a x = d_a d /\ d_tag x = d_tag d /\ d_v x = d_v d /\ d_v d <> SNull)
        (all_datoms (disk c)))) as K; [|rewrite E in K; by apply elem_of_nil in K].
      apply elem_of_list_fmap. exists d. split; [done|]. by apply elem_of_list_filter.
  Qed.
  Lemma outcome_upsert t x v e at_ : t ∈ ts -> identity_add (schema_of c) t x -> tm_v t = inl v ->
    m !! tm_a t = Some at_ -> at_index at_ = true -> holds (disk c) e (tm_a t) v -> σ !! x = Some e.
  Proof using O Hc.
    intros Ht Hi Hv Ha Hx Hh. destruct (out_resolution _ _ _ _ _ _ _ _ _ _ _ _ O) as (pm & ids & _ & R & _).
    assert (resolve_av (disk c) (tm_a t, v) = Some e) as Hr.
    { destruct Hi as (_ & _ & at2 & Ha2 & Hu). apply (resolve_av_complete _ _ at_); try done. assert (at2 = at_) as -> by congruence. by eexists. }
    apply (rs_found _ _ _ _ _ _ _ R t x v e Ht Hi Hv) in Hr. by apply out_tau in Hr as [? _].
  Qed.
  Lemma outcome_upsert_any t x v e e1 : t ∈ ts -> identity_add (schema_of c) t x -> subst_v σ (tm_v t) = Some v -> σ !! x = Some e1 ->
    holds (disk c) e (tm_a t) v -> e1 = e \/ upserting c ts σ t \/ ~ holds (disk c') e (tm_a t) v
    \/ holds (disk c) e1 (tm_a t) v.
  Proof using O.
    intros Ht Hi Hv He1 Hh. assert (subst σ t = Some (Term OAdd e1 (tm_a t) v)) as Hs.
    { destruct Hi as (Ho & He & _). unfold subst. rewrite He, Hv. simpl. by rewrite He1, Ho. }
    destruct (outcome_add _ _ _ _ Ht Hs) as [H|[H|[H _]]]; [|by auto|by auto].
    destruct (decide ((e, tm_a t, enc v) ∈ facts (disk c'))) as [H2|H2]; [|by auto]. left.
    destruct Hi as (_ & _ & at_ & Ha & Hu).
    apply (ap_unique _ _ _ _ _ _ _ (out_applied _ _ _ _ _ _ _ _ _ _ _ _ O) _ eq_refl _ _ _ _ _ Ha (ltac:(by eexists) : is_Some (at_unique at_)) H H2).
  Qed.
  (** C16 *)
  Lemma outcome_fresh x e : σ !! x = Some e -> names c ts σ x e \/ ~ allocated (parts_of c) e /\ allocated (parts_of c') e.
  Proof using O Hc.
    intros He. destruct (out_resolution _ _ _ _ _ _ _ _ _ _ _ _ O) as (pm & ids & Hp & R & _ & Hpm).
    destruct (τ !! x) as [e2|] eqn:E.
    { apply out_tau in E as [E Hn]. left. by rewrite He in E; injection E as ->. }
    right. destruct (rs_fresh _ _ _ _ _ _ _ R) as (p & n & Hu & Hn & Hr & Hpn & Hf).
    rewrite <- (out_sigma _ _ _ _ _ _ _ _ _ _ _ _ O) in He. specialize (Hf _ _ He E).
    destruct Hc as [_ _ _ _ _ Hpo].
    destruct (pm_allocate_step _ _ _ _ _ (parts_ok_wf _ Hpo) (ltac:(lia) : 0 <= 1) Hp) as (Hw & Hall & _).
    assert (exists st, pm_allocate pm ":db.part/user" n = Ok (st, rv_parts rv) /\ st = pt_next p) as (st & Ha & ->).
    { exists (pt_next p). split; [|done]. apply pm_allocate_Ok. by exists p. }
    destruct (pm_allocate_step _ _ _ _ _ Hw Hn Ha) as (_ & Hall2 & Hno). rewrite <- Hpm. split.
    - intros Hal. apply (Hno e); [unfold in_range; simpl; lia|]. apply Hall. by left.
    - apply Hall2. right. unfold in_range. simpl. lia.
  Qed.
  Lemma outcome_same x y e : σ !! x = Some e -> σ !! y = Some e -> names c ts σ x e \/ names c ts σ y e \/ rtsc (shares (schema_of c) ts σ) x y.
  Proof using O.
    intros Hx Hy. destruct (out_resolution _ _ _ _ _ _ _ _ _ _ _ _ O) as (pm & ids & _ & R & _).
    destruct (τ !! x) as [e2|] eqn:Ex; [left; apply out_tau in Ex as [Ex Hn]; congruence|].
    destruct (τ !! y) as [e2|] eqn:Ey; [right; left; apply out_tau in Ey as [Ey Hn]; congruence|].
    right. right. rewrite <- (out_sigma _ _ _ _ _ _ _ _ _ _ _ _ O) in Hx, Hy |- *. by eapply (rs_same _ _ _ _ _ _ _ R).
  Qed.
  Lemma outcome_share t u x y v : t ∈ ts -> u ∈ ts -> identity_add (schema_of c) t x -> identity_add (schema_of c) u y -> tm_a t = tm_a u ->
    tm_v t = inl v -> tm_v u = inl v -> σ !! x = σ !! y \/ exists z e, (z = x \/ z = y) /\ σ !! z = Some e /\ names c ts σ z e.
  Proof using O.
    intros Ht Hu Hx Hy Ha Hv Hw. destruct (out_resolution _ _ _ _ _ _ _ _ _ _ _ _ O) as (pm & ids & _ & R & _).
    destruct (τ !! x) as [e2|] eqn:Ex; [right; exists x, e2; apply out_tau in Ex as [? ?]; auto|].
    destruct (τ !! y) as [e2|] eqn:Ey; [right; exists y, e2; apply out_tau in Ey as [? ?]; auto|].
    left. rewrite <- (out_sigma _ _ _ _ _ _ _ _ _ _ _ _ O). by apply (rs_share _ _ _ _ _ _ _ R t u x y v).
  Qed.
  (** C20 *)
  Lemma outcome_card_conflict t u e a v w : t ∈ ts -> u ∈ ts -> subst σ t = Some (Term OAdd e a v) -> subst σ u = Some (Term OAdd e a w) ->
    card_one_attr (schema_of c) a -> v = w \/ upserting c ts σ t \/ upserting c ts σ u.
  Proof using O.
    intros Ht Hu Hst Hsu (at_ & Ha & Hm). destruct (asks_req _ _ _ _ _ Ht Hst) as [Hq|?]; [|by auto].
    destruct (asks_req _ _ _ _ _ Hu Hsu) as [Hq2|?]; [|by auto]. left.
    by eapply (no_conflict_one_add _ _ (out_wf _ _ _ _ _ _ _ _ _ _ _ _ O) (out_conflict _ _ _ _ _ _ _ _ _ _ _ _ O)).
  Qed.
  Lemma outcome_op_conflict t e a v : t ∈ ts -> subst σ t = Some (Term OAdd e a v) -> asks ts σ ORetract e a v -> upserting c ts σ t.
  Proof using O.
    intros Ht Hs Hr%asks_retract. destruct (asks_req _ _ _ _ _ Ht Hs) as [Hq|?]; [|done]. by destruct (req_add_retract _ _ _ Hq Hr).
  Qed.
End outcome.

(* ---------------------------------------------------------------- entities *)

Lemma flat_kept s es l own x : unfolds s es l own -> flat x -> x ∈ es -> x ∈ l.
Proof.
  intros H Hx. induction H as [|y es l own Hy H IH|o e a n vs es l1 own1 l own Hw Hr H1 IH1 H IH
    |mm d own0 es l1 own1 l own Hd H1 IH1 H IH|e a mm d own0 es l1 own1 l own Hw Hd H1 IH1 H IH]; intros Hin; [done|..];
    apply elem_of_cons in Hin as [->|Hin]; try done; set_solver.
Qed.
Lemma read_as_elem c tx l ts x : read_as c tx l ts -> x ∈ l -> exists t, t ∈ ts /\ reads (disk c) (parts_of c) (schema_of c) tx x t.
Proof.
  intros (l' & P & F) Hx. rewrite P in Hx. clear P l. induction F as [|y t l' ts Hr F IH]; [by apply elem_of_nil in Hx|].
  apply elem_of_cons in Hx as [->|Hx]; [exists t; split; [by left|done]|]. destruct (IH Hx) as (u & Hu & ?). exists u. split; [by right|done].
Qed.
Lemma reads_literal_fun s v vt t1 t2 : reads_literal s v vt t1 -> reads_literal s v vt t2 -> t1 = t2.
Proof.
  destruct v as [x|w]; simpl; [|naive_solver]. destruct (decide (vt = VTRef)); [|naive_solver].
  intros [(n & -> & ->)|(k & e1 & -> & H1 & ->)] [(n2 & [=] & ->)|(k2 & e2 & [=] & H2 & ->)]; congruence.
Qed.
Lemma reads_name_fun s x e1 e2 : reads_name s x e1 -> reads_name s x e2 -> e1 = e2.
Proof. destruct x; simpl; congruence. Qed.
Lemma reads_lookup_fun c a v e1 e2 : conn_ok c -> reads_lookup (disk c) (schema_of c) a v e1 -> reads_lookup (disk c) (schema_of c) a v e2 -> e1 = e2.
Proof.
  intros Hc (n1 & at1 & tv1 & N1 & A1 & U1 & L1 & H1) (n2 & at2 & tv2 & N2 & A2 & U2 & L2 & H2).
  pose proof (reads_name_fun _ _ _ _ N1 N2) as <-. assert (at2 = at1) as -> by congruence.
  pose proof (reads_literal_fun _ _ _ _ _ L1 L2) as <-. by eapply (conn_values_unique _ Hc).
Qed.

(** What a successful transact tells its watchers. *)
From Verif Require Import M_Conn Spec_Value Spec_Partition Spec_Tx Spec_Conn Spec_Upsert Spec_Entity Spec_Transact.
From Verif Require Import P_Base P_Store P_Fill P_Step P_Meta P_Inv P_Conn P_Resolve P_Tx P_TxProps.

Lemma watch_trie_Ok mv now act st smut s tx tr st' i sc ev :
  apply_trie mv now act st smut s tx tr = (st', Ok (i, sc, ev)) -> watch_trie mv now act st s tx tr = Watched ev (Some tx).
Proof.
  intros (tr' & st1 & exact & inexact & st2 & rs & E1 & E2 & E3 & E4 & E5 & _ & ->)%apply_trie_Ok.
  unfold watch_trie. rewrite E1, E2, E3. simpl. rewrite E4. cbn [with_st]. by rewrite E5.
Qed.
Lemma watch_simple_Ok mv now st pm smut s tx ts ids st' r :
  transact_simple_terms mv now MaterializeAndCommit st pm smut s tx ts ids = (st', Ok r) ->
  watch_terms mv now MaterializeAndCommit st pm s tx ts ids = Watched (tr_events r) (Some (rp_tx (tr_report r))).
Proof.
  intros (rv & tr & E1 & E2 & _ & Hap & _ & <- & _)%transact_simple_Ok. unfold watch_terms. rewrite E1. cbn [rbind]. rewrite E2.
  by eapply watch_trie_Ok.
Qed.
Lemma watch_transact_Ok mv now st pm smut s es st' r : transact mv now st pm smut s es = (st', Ok r) ->
  watch_transact mv now st pm s es = Watched (tr_events r) (Some (rp_tx (tr_report r))).
Proof.
  unfold transact, watch_transact. intros H. destruct (pm_allocate _ _ _) as [[tx pm1]| |]; try done.
  destruct (entities_to_terms _ _ _ _ _ _) as [[ts ids]| |]; try done. by eapply watch_simple_Ok.
Qed.
Lemma watch_transact_terms_Ok mv now st pm smut s ts ids st' r :
  transact_terms mv now MaterializeAndCommit st pm smut s ts ids = (st', Ok r) ->
  watch_transact_terms mv now st pm s ts ids = Watched (tr_events r) (Some (rp_tx (tr_report r))).
Proof.
  unfold transact_terms, watch_transact_terms. intros H. destruct (pm_allocate _ _ _) as [[tx pm1]| |]; try done.
  by eapply watch_simple_Ok.
Qed.

(** The watcher was told to [o] a value stored as [p]. *)
Definition said (ev : list event) (o : op) (e a : Z) (p : sqlval * Z) : Prop := exists v, (o, e, a, v) ∈ ev /\ to_sql_value_pair v = p.
Definition ev_attr (x : event) : Z := x.1.2.

Record events_ok (m : gmap Z attribute) (st st' : store) (tx : Z) (ev : list event) : Prop := {
  eo_facts : forall e a p at_, m !! a = Some at_ ->
    ((e, a, p) ∈ facts st' <->
     if at_multival at_ then
       ((e, a, p) ∈ facts st /\ ~ said ev ORetract e a p) \/ (said ev OAdd e a p /\ (e, a, p) ∉ facts st)
     else
       ((e, a, p) ∈ facts st /\ (forall q, ~ said ev ORetract e a q) /\ (forall q, said ev OAdd e a q -> q = p))
       \/ (said ev OAdd e a p /\ (e, a, p) ∉ facts st));
  eo_known : forall o e a v, (o, e, a, v) ∈ ev -> exists at_, m !! a = Some at_ /\ tv_type v = at_type at_;
  eo_attr : forall e a p, (e, a, p) ∈ facts st' -> is_Some (m !! a);
  eo_one : forall e a at_ v w, m !! a = Some at_ -> at_multival at_ = false -> (OAdd, e, a, v) ∈ ev -> (OAdd, e, a, w) ∈ ev -> v = w;
  eo_instant : exists i, (OAdd, tx, DB_TX_INSTANT, TVInstant i) ∈ ev;
  eo_conflict : forall e a v, (OAdd, e, a, v) ∈ ev -> (ORetract, e, a, v) ∈ ev -> e = tx /\ a = DB_TX_INSTANT;
  eo_rows : exists new, st_log st' = st_log st ++ new /\ forall r, r ∈ new -> t_tx r = tx /\ exists x, x ∈ ev /\ ev_attr x = t_a r;
  eo_nodup : NoDup ev }.

Lemma events_req tr o e a v : (o, e, a, v) ∈ map reduced_event (trie_reduced tr) <-> req tr o e a v.
Proof.
  rewrite elem_of_list_fmap. split.
  - intros (r & E & Hr). apply trie_reduced_elem in Hr as (en & Hen & _ & Hv). unfold reduced_event in E.
    injection E as -> -> -> ->. exists en. split; [done|]. by destruct (r_added r).
  - intros (en & Hen & Hv). exists (Reduced e a (te_attr en) v (match o with OAdd => true | ORetract => false end)).
    split; [by destruct o|]. apply trie_reduced_elem. exists en. simpl. split_and!; try done. by destruct o.
Qed.
Lemma events_nodup tr : NoDup (map reduced_event (trie_reduced tr)).
Proof.
  unfold trie_reduced. pose proof (NoDup_map_to_list tr) as Hnd. pose proof (NoDup_fst_map_to_list tr) as Hk. clear Hnd.
  induction (map_to_list tr) as [|[[a e] en] l IH]; simpl; [constructor|].
  rewrite map_app. csimpl in Hk. apply NoDup_cons in Hk as [Hk Hnd]. apply NoDup_app. split; [|split; [|by apply IH]].
  - unfold entry_reduced. simpl. rewrite map_app, !map_map. apply NoDup_app. split; [|split].
    + apply NoDup_fmap_2; [|apply NoDup_elements]. by intros v w [= ->].
    + intros x (v & -> & _)%elem_of_list_fmap (w & [=] & _)%elem_of_list_fmap.
    + apply NoDup_fmap_2; [|apply NoDup_elements]. by intros v w [= ->].
  - intros x (r & -> & Hr)%elem_of_list_fmap (r' & E & Hr')%elem_of_list_fmap.
    apply elem_of_list_In, in_flat_map in Hr' as ([[a' e'] en'] & Hin & Hr'). apply elem_of_list_In in Hr'. simpl in Hr'.
    assert (r_a r = a /\ r_e r = e) as [Ha He].
    { unfold entry_reduced in Hr. apply elem_of_app in Hr as [(v & -> & _)%elem_of_list_fmap|(v & -> & _)%elem_of_list_fmap]; done. }
    assert (r_a r' = a' /\ r_e r' = e') as [Ha' He'].
    { unfold entry_reduced in Hr'. apply elem_of_app in Hr' as [(v & -> & _)%elem_of_list_fmap|(v & -> & _)%elem_of_list_fmap]; done. }
    unfold reduced_event in E. injection E as _ E1 E2 _. apply Hk. apply elem_of_list_In in Hin.
    replace (a, e) with (a', e') by congruence. by apply (elem_of_list_fmap_1 fst _ ((a', e'), en')).
Qed.

Lemma simple_events mv now st pm pm1 s tx ts ids st' r :
  db_ok st pm s -> pm_allocate pm ":db.part/tx" 1 = Ok (tx, pm1) ->
  transact_simple_terms mv now MaterializeAndCommit st pm1 s s tx ts ids = (st', Ok r) ->
  never_uninstalled (st_log st') -> events_ok (sc_attribute_map s) st st' (rp_tx (tr_report r)) (tr_events r).
Proof.
  intros [(p & Hp & H0 & Hst & Hend & Hnx) Hi Htl Hr Hk Hpo] Hal H Hnu.
  apply tx_alloc in Hal as (p0 & Hp0 & -> & Hb & Hp1 & _). assert (p0 = p) as -> by congruence.
  apply transact_simple_Ok in H as (rv & tr & Hrv & _ & Hwf & Hap & Hpm & Etx & _). rewrite Etx.
  pose proof Hap as Hap0. apply apply_trie_Ok in Hap0 as (tr1 & _ & _ & _ & _ & _ & Hty & Hnc & Hins1 & _).
  apply apply_trie_ok in Hap as (tr' & Hins & Hap & Hev & _); try done; [|by apply core_instant]. clear Hins1 tr1.
  destruct (core_instant _ Hi) as (ati & Hati & Htyi).
  destruct (tx_instant_checks _ _ _ _ _ _ Hwf ltac:(intros x Hx; congruence) Hty (no_conflict_one_add _ _ Hwf Hnc) Hins) as [Hty' Hone'].
  destruct (tx_instant_Ok _ _ _ _ _ _ Hwf Hins) as (Hwf' & _ & Hreq & _ & Huq).
  assert (forall o e a q, said (tr_events r) o e a q <-> asked tr' o e a q) as Hsaid.
  { intros o e a q. unfold said, asked. setoid_rewrite Hev. by setoid_rewrite events_req. }
  split.
  - intros e a q at_ Ha. pose proof (ap_facts _ _ _ _ _ _ _ Hap e a q at_ Ha) as Hf. destruct (at_multival at_); rewrite Hf; setoid_rewrite Hsaid; done.
  - intros o e a v. rewrite Hev, events_req. intros Hq. destruct (entry_typed_req _ _ _ _ _ Hty' Hq) as (en & Hen & Ht).
    exists (te_attr en). split; [by eapply Hwf'|done].
  - apply (ap_known _ _ _ _ _ _ _ Hap).
  - intros e a at_ v w Ha Hm. rewrite Hev, !events_req. by apply (Hone' e a at_).
  - exists (rp_instant (tr_report r)). rewrite Hev, events_req. by apply Huq.
  - intros e a v. rewrite Hev, !events_req. intros [H1|(_ & -> & -> & ->)]%Hreq [H2|(? & _)]%Hreq; try done.
    by destruct (proj1 (entry_no_conflict_req tr e a Hnc) v H1 H2).
  - destruct (ap_log _ _ _ _ _ _ _ Hap) as (new & El & Hnew). exists new. split; [done|]. intros row Hrow. split; [by apply Hnew|].
    destruct (ap_valued _ _ _ _ _ _ _ Hap _ _ El Hrow) as (q & Hq).
    assert (changed st st' (t_added row) (t_e row, t_a row, q)) as Hch.
    { apply (ap_rows _ _ _ _ _ _ _ Hap _ El). by exists row. }
    assert (exists at_, sc_attribute_map s !! t_a row = Some at_) as (at_ & Ha).
    { unfold row_value in Hq. destruct Hq as (at_ & Ha & _). eauto. }
    assert (exists o v, req tr' o (t_e row) (t_a row) v) as (o & v & Hv).
    { pose proof (ap_facts _ _ _ _ _ _ _ Hap (t_e row) (t_a row) q at_ Ha) as Hf. unfold changed in Hch. destruct (t_added row).
      - destruct Hch as [Hn Hy]. apply Hf in Hy. destruct (at_multival at_).
        + destruct Hy as [[? _]|[(v & ? & _) _]]; [done|eauto].
        + destruct Hy as [[? _]|[(v & ? & _) _]]; [done|eauto].
      - destruct Hch as [Hy Hn]. destruct (asked_any_dec tr' ORetract (t_e row) (t_a row)) as [(v & ?)|Hnr]; [eauto|].
        destruct (asked_any_dec tr' OAdd (t_e row) (t_a row)) as [(v & ?)|Hna]; [eauto|]. exfalso. apply Hn, Hf. destruct (at_multival at_).
        + left. split; [done|]. intros (v & Hv & _). by apply (Hnr v).
        + left. split; [done|]. split; [intros q' (v & Hv & _); by apply (Hnr v)|intros q' (v & Hv & _); by destruct (Hna v)]. }
    exists (o, t_e row, t_a row, v). split; [|done]. rewrite Hev. by apply events_req.
  - rewrite Hev. apply events_nodup.
Qed.
Lemma transact_events mv now st pm s es st' r : db_ok st pm s ->
  transact mv now st pm s s es = (st', Ok r) -> never_uninstalled (st_log st') ->
  events_ok (sc_attribute_map s) st st' (rp_tx (tr_report r)) (tr_events r).
Proof.
  intros H0 H Hn. unfold transact in H. destruct (pm_allocate pm ":db.part/tx" 1) as [[tx pm1]| |] eqn:Ep; try done.
  destruct (entities_to_terms _ _ _ _ _ _) as [[ts ids]| |] eqn:Ee; try done. by eapply simple_events.
Qed.
Lemma transact_terms_events mv now st pm s ts ids st' r : db_ok st pm s ->
  transact_terms mv now MaterializeAndCommit st pm s s ts ids = (st', Ok r) -> never_uninstalled (st_log st') ->
  events_ok (sc_attribute_map s) st st' (rp_tx (tr_report r)) (tr_events r).
Proof.
  intros H0 H Hn. unfold transact_terms in H. destruct (pm_allocate pm ":db.part/tx" 1) as [[tx pm1]| |] eqn:Ep; try done.
  by eapply simple_events.
Qed.

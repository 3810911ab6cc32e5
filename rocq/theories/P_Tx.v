(** What a successful transaction does. *)
From Verif Require Import M_Conn Spec_Value Spec_Partition Spec_Tx Spec_Conn Spec_Upsert Spec_Entity Spec_Transact.
From Verif Require Import P_Base P_Value P_Partition P_Store P_Fill P_Step P_Meta P_Inv P_Conn P_Upsert P_Resolve P_Entity P_Nested.

Record outcome (now : Z) (c c' : conn) (es : list entity) (r : txreport) (l : list entity) (ts : list term_t) (σ τ : gmap tempid Z)
    (rv : resolved_terms) (tr tr' : trie) : Prop := {
  out_read : understood c es r l ts σ;
  out_some : forall t, t ∈ ts -> is_Some (subst σ t);
  out_next : exists p, parts_of c !! ":db.part/tx" = Some p /\ rp_tx r = pt_next p;
  out_resolution : exists pm ids, pm_allocate (parts_of c) ":db.part/tx" 1 = Ok (rp_tx r, pm)
    /\ resolution (disk c) pm (schema_of c) ts ids rv τ /\ tempids_are ts ids /\ rv_parts rv = parts_of c';
  out_sigma : rv_tempids rv = σ;
  out_final : forall o e a v, req tr o e a v <-> final_term rv (Term o e a v);
  out_wf : trie_wf (schema_of c) tr;
  out_wf' : trie_wf (schema_of c) tr';
  out_typed : trie_all entry_typed tr = true;
  out_conflict : trie_all entry_no_conflict tr = true;
  out_instant : forall v, req tr' OAdd (rp_tx r) DB_TX_INSTANT v <-> v = TVInstant (rp_instant r);
  out_given : (rp_instant r = now /\ forall v, ~ req tr OAdd (rp_tx r) DB_TX_INSTANT v) \/ req tr OAdd (rp_tx r) DB_TX_INSTANT (TVInstant (rp_instant r));
  out_applied : applied (sc_attribute_map (schema_of c)) (disk c) (disk c') (rp_tx r) (rp_instant r) tr tr';
  out_ok : conn_ok c' }.

Lemma report_lookup m n : report_tempids m !! n = m !! TExternal n.
Proof.
  unfold report_tempids. set (l := flat_map _ _).
  assert (forall x e, (x, e) ∈ l <-> m !! TExternal x = Some e) as Hl.
  { intros x e. unfold l. rewrite elem_of_flat_map. split.
    - intros ([t e'] & Hin & H). apply elem_of_map_to_list in Hin. destruct t; simpl in H; [|by apply elem_of_nil in H].
      apply elem_of_list_singleton in H as [= -> ->]. done.
    - intros H. exists (TExternal x, e). split; [by apply elem_of_map_to_list|]. simpl. set_solver. }
  destruct (m !! TExternal n) as [e|] eqn:E.
  - apply elem_of_list_to_map_1'; [|by apply Hl]. intros y Hy%Hl. congruence.
  - apply not_elem_of_list_to_map_1. intros ([x e] & -> & Hin)%elem_of_list_fmap. apply Hl in Hin. simpl in E. congruence.
Qed.

Section before.
  Context (st : store) (pm pm1 : partition_map) (s : schema) (tx : Z).
  Context (Hal : forall e, allocated pm1 e -> allocated pm e \/ e = tx).
  Lemma reads_before x t : reads st pm1 s tx x t -> reads st pm s tx x t.
  Proof using Hal.
    assert (forall y z, reads_entity st pm1 s tx y z -> reads_entity st pm s tx y z) as He.
    { intros [[e|k]| | |] z; simpl; try done. intros [-> [H|H]]; split; auto. }
    destruct x as [o e a v|m]; simpl; [|done]. destruct (written_backward a); [destruct a as [n|k]; [done|]|].
    - intros (k' & at_ & z & H). exists k', at_, z. naive_solver.
    - intros (at_ & H). exists at_. naive_solver.
  Qed.
End before.

Lemma conn_transact_outcome_events mv now c es c' r : clean mv c ->
  conn_transact mv now c es = (c', Ok r) -> never_uninstalled (st_log (disk c')) ->
  exists l ts σ τ rv tr tr', outcome now c c' es r l ts σ τ rv tr tr'
    /\ forall x, transact mv now (disk c) (parts_of c) (schema_of c) (schema_of c) es = (disk c', Ok x) ->
         tr_events x = map reduced_event (trie_reduced tr').
Proof.
  intros Hc%clean_ok H Hn. pose proof (conn_transact_Ok _ _ _ _ _ _ H) as (x & Ht & Er & Em). clear H.
  pose proof Ht as Ht0. unfold conn_ok in Hc. set (st := disk c) in *. set (pm := parts_of c) in *. set (s := schema_of c) in *.
  pose proof (transact_ok _ _ _ _ _ _ _ _ Hc Ht Hn) as Hok.
  assert (conn_ok c') as Hc' by (unfold conn_ok; rewrite Em; exact Hok).
  unfold transact in Ht. destruct (pm_allocate pm ":db.part/tx" 1) as [[tx pm1]| |] eqn:Ep; try done.
  destruct (entities_to_terms _ _ _ _ _ _) as [[ts ids]| |] eqn:Ee; try done.
  apply transact_simple_Ok in Ht as (rv & tr & Hrv & Htr & Hwf & Hap & Hpm & Htx & Hrep).
  destruct (resolve_terms_resolution _ _ _ _ _ _ _ Hrv) as (τ & Hres).
  destruct (entities_reads _ _ _ _ _ _ _ _ Ee) as (l & Hst & Hcov). pose proof (entities_tempids _ _ _ _ _ _ _ _ Ee) as Hids.
  destruct Hc as [(p & Hp & H0 & Hps & Hpe & Hnx) Hi Htl Hrg Hk Hpo].
  pose proof (tx_alloc _ _ _ Ep) as (p0 & Hp0 & Etx & _). assert (p0 = p) as -> by congruence.
  pose proof Hap as Hap0. apply apply_trie_ok in Hap as (tr' & Hins & Hap & Hev & _); try done; [|by rewrite Etx|by apply core_instant].
  apply apply_trie_Ok in Hap0 as (_ & _ & _ & _ & _ & _ & Hty & Hnc & _).
  destruct (tx_instant_Ok _ _ _ _ _ _ Hwf Hins) as (Hwf' & _ & _ & Hgiven & Huq).
  destruct (into_aev_trie_Ok _ _ _ _ _ Htr) as (_ & _ & Hreq).
  subst r tx. exists l, ts, (rv_tempids rv), τ, rv, tr, tr'.
  split; [|intros x' Hx'; rewrite Ht0 in Hx'; by injection Hx' as <-]. split; try done.
  - split; try done.
    + destruct Hcov as (l' & P & F). exists l'. split; [done|]. eapply Forall2_impl; [exact F|]. intros y t. apply reads_before.
      intros e He. destruct (pm_allocate_step _ _ _ _ _ (parts_ok_wf _ Hpo) (ltac:(lia) : 0 <= 1) Ep) as (_ & Hall & _).
      apply Hall in He as [He|He]; [by left|right]. unfold in_range in He. simpl in He. lia.
    + intros y. rewrite <- elem_of_dom, (rs_dom _ _ _ _ _ _ _ Hres). apply Hids.
    + intros n. rewrite Hrep. apply report_lookup.
  - intros t. apply (rs_subst _ _ _ _ _ _ _ Hres).
  - by exists p.
  - exists pm1, ids. split_and!; try done. by rewrite Em.
Qed.
Lemma conn_transact_outcome mv now c es c' r : clean mv c ->
  conn_transact mv now c es = (c', Ok r) -> never_uninstalled (st_log (disk c')) ->
  exists l ts σ τ rv tr tr', outcome now c c' es r l ts σ τ rv tr tr'.
Proof.
  intros Hc H Hn. destruct (conn_transact_outcome_events _ _ _ _ _ _ Hc H Hn) as (l & ts & σ & τ & rv & tr & tr' & O & _). by exists l, ts, σ, τ, rv, tr, tr'.
Qed.

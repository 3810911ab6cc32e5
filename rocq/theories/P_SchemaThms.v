(** How a transaction changes the schema. *)
From Verif Require Import P_TxProps M_Conn Spec_Value Spec_Partition Spec_Tx Spec_Conn Spec_Transact Spec_Schema.
From Verif Require Import P_Base P_Store P_Step P_Meta P_Inv P_Conn P_Tx P_History P_TxThms P_Schema P_SchemaStep P_Reopen.

(* ---------------------------------------------------------------- attributes are kept *)

(** What no transaction changes about installed attributes; new ones are valid. *)
Record attrs_kept (m m' : gmap Z attribute) : Prop := {
  kp_old : forall e at_, m !! e = Some at_ -> exists at', m' !! e = Some at' /\ at_type at' = at_type at_ /\ at_fulltext at' = at_fulltext at_
    /\ (at_multival at_ = true -> at_multival at' = true);
  kp_new : forall e at', m' !! e = Some at' -> m !! e = None -> valid_attribute at' }.

Lemma attrs_kept_refl m : attrs_kept m m.
Proof. split; [eauto|congruence]. Qed.

Lemma evolve_kept m m' rep : attrs_evolve m m' rep ->
  (forall e alts, (e, alts) ∈ mr_altered rep -> AltCardinality ∈ alts -> exists at_, m' !! e = Some at_ /\ at_multival at_ = true) -> attrs_kept m m'.
Proof.
  intros He Hc. split.
  - intros e at_ Hm. destruct (decide (e ∈ (mr_altered rep).*1)) as [Hin|Hin].
    + apply elem_of_list_fmap in Hin as ([e0 muts] & -> & Hin). simpl in *.
      destruct (ae_altered _ _ _ He _ _ Hin) as (a & a' & Ha & Ha' & Hmu). assert (a = at_) as -> by congruence.
      exists a'. split; [done|]. split; [apply Hmu|]. split; [apply Hmu|]. intros Ht.
      destruct (at_multival a') eqn:Em; [done|]. destruct (Hc _ _ Hin) as (x & Hx & Hy); [apply Hmu; congruence|congruence].
    + destruct (decide (e ∈ mr_installed rep)) as [Hi|Hi].
      * apply (ae_installed _ _ _ He) in Hi as [Hi _]. congruence.
      * exists at_. by rewrite (ae_other _ _ _ He).
  - intros e at' Hm' Hm. destruct (decide (e ∈ (mr_altered rep).*1)) as [Hin|Hin].
    + apply elem_of_list_fmap in Hin as ([e0 muts] & -> & Hin). simpl in *.
      destruct (ae_altered _ _ _ He _ _ Hin) as (a & a' & Ha & _). congruence.
    + destruct (decide (e ∈ mr_installed rep)) as [Hi|Hi].
      * apply (ae_installed _ _ _ He) in Hi as (_ & a' & Ha' & Hv). assert (a' = at') as -> by congruence. by apply attribute_validate_valid.
      * rewrite (ae_other _ _ _ He) in Hm' by done. congruence.
Qed.

Lemma evolve_metadata_kept s st st' tx rs sc n :
  store_ok (sc_attribute_map s) st n -> never_uninstalled (st_log st) ->
  evolve_metadata MaterializeAndCommit st s tx rs = (st', Ok sc) ->
  attrs_kept (sc_attribute_map s) (sc_attribute_map (default s sc)).
Proof.
  intros H0 Hn H. unfold evolve_metadata in H.
  destruct (rbind _ _) as [[new rep]| |] eqn:Eq; try done.
  apply rbind_Ok in Eq as (quads & Hq & Hup).
  destruct (decide (new = s)) as [->|Hne].
  - injection H as <- <-. apply attrs_kept_refl.
  - apply with_st_Ok in H as (st1 & u & Hum & [= <- <-]).
    apply update_schema_evolve in Hup as He; [|by eapply committed_no_type_retraction].
    apply update_metadata_Ok in Hum as (T & _ & _ & U & F & C); [|apply He|apply H0].
    simpl in *. by apply (evolve_kept _ _ rep).
Qed.

Lemma transact_simple_kept mv now st pm pm1 s tx ts ids st' r :
  db_ok st pm s -> pm_allocate pm ":db.part/tx" 1 = Ok (tx, pm1) ->
  transact_simple_terms mv now MaterializeAndCommit st pm1 s s tx ts ids = (st', Ok r) ->
  never_uninstalled (st_log st') -> attrs_kept (sc_attribute_map s) (sc_attribute_map (default s (tr_schema r))).
Proof.
  intros [(p & Hp & H0 & Hst & Hend & Hnx) Hi Htl Hr Hk Hpo] Hal H Hti.
  apply tx_alloc in Hal as (p0 & Hp0 & -> & _). assert (p0 = p) as -> by congruence.
  apply transact_simple_Ok in H as (rv & tr & _ & _ & Hwf & Hap & _).
  apply (applied_trie_ok _ _ _ _ _ _ _ _ _ _ _ H0 (core_instant _ Hi) Hwf) in Hap as (st2 & rs & tr' & H2 & Happ & _ & _ & Ei & Es & He & _).
  assert (never_uninstalled (st_log st2)) as Hti2 by (rewrite <- (evolve_log _ _ _ _ _ _ _ He); done).
  destruct (existsb _ _).
  - by eapply evolve_metadata_kept in He.
  - injection He as <- He. rewrite <- He. apply attrs_kept_refl.
Qed.
Lemma transact_kept mv now st pm s es st' r : db_ok st pm s ->
  transact mv now st pm s s es = (st', Ok r) -> never_uninstalled (st_log st') ->
  attrs_kept (sc_attribute_map s) (sc_attribute_map (default s (tr_schema r))).
Proof.
  intros H0 H Hn. unfold transact in H. destruct (pm_allocate pm ":db.part/tx" 1) as [[tx pm1]| |] eqn:Ep; try done.
  destruct (entities_to_terms _ _ _ _ _ _) as [[ts ids]| |] eqn:Ee; try done. by eapply transact_simple_kept.
Qed.
Lemma transact_terms_kept mv now st pm s ts ids st' r : db_ok st pm s ->
  transact_terms mv now MaterializeAndCommit st pm s s ts ids = (st', Ok r) -> never_uninstalled (st_log st') ->
  attrs_kept (sc_attribute_map s) (sc_attribute_map (default s (tr_schema r))).
Proof.
  intros H0 H Hn. unfold transact_terms in H. destruct (pm_allocate pm ":db.part/tx" 1) as [[tx pm1]| |] eqn:Ep; try done.
  by eapply transact_simple_kept.
Qed.

(* ---------------------------------------------------------------- along histories *)

(** The part that composes *)
Definition installed_kept (m m' : gmap Z attribute) : Prop :=
  forall e at_, m !! e = Some at_ -> exists at', m' !! e = Some at' /\ at_type at' = at_type at_ /\ at_fulltext at' = at_fulltext at_
    /\ (at_multival at_ = true -> at_multival at' = true).
Lemma installed_kept_refl m : installed_kept m m.
Proof. intros e at_ H. eauto. Qed.
Lemma installed_kept_trans m1 m2 m3 : installed_kept m1 m2 -> installed_kept m2 m3 -> installed_kept m1 m3.
Proof. intros H1 H2 e at_ (a2 & E2 & T2 & F2 & M2)%H1. destruct (H2 _ _ E2) as (a3 & E3 & T3 & F3 & M3). exists a3. split_and!; auto; congruence. Qed.

Lemma ig_step_kept mv ig o ig' r : db_ok (ig_store ig) (ig_parts ig) (ig_schema ig) -> ig_step mv ig o = (ig', r) ->
  (match o with OpRollbackTo _ => False | _ => True end) ->
  r = Ok tt \/ ig_store ig' = ig_store ig -> never_uninstalled (st_log (ig_store ig')) ->
  installed_kept (sc_attribute_map (ig_schema ig)) (sc_attribute_map (ig_schema ig')).
Proof.
  intros H0 H Ho Hr Hn.
  destruct o as [now es|now ts ids|n|n|n]; simpl in H; try done.
  - unfold ig_transact, ig_transacted in H.
    destruct (ig_watch_same ig (watch_transact mv now (ig_store ig) (ig_parts ig) (ig_schema ig) es)) as (W1 & W2 & W3 & _).
    destruct (transact _ _ _ _ _ _ _) as [st' [x| |]] eqn:Et; simplify_eq/=; rewrite W3; [|apply installed_kept_refl..].
    by eapply transact_kept in Et as [K _].
  - unfold ig_transact_terms, ig_transacted in H.
    destruct (ig_watch_same ig (watch_transact_terms mv now (ig_store ig) (ig_parts ig) (ig_schema ig) ts ids)) as (W1 & W2 & W3 & _).
    destruct (transact_terms _ _ _ _ _ _ _ _ _) as [st' [x| |]] eqn:Et; simplify_eq/=; rewrite W3; [|apply installed_kept_refl..].
    by eapply transact_terms_kept in Et as [K _].
  - unfold ig_savepoint in H. simplify_eq/=. apply installed_kept_refl.
  - unfold ig_release_savepoint in H. destruct (savepoints_from _ _) as [[st l]|]; simplify_eq/=; apply installed_kept_refl.
Qed.

Lemma ig_steps_kept mv l : forall ig ig' rs, db_ok (ig_store ig) (ig_parts ig) (ig_schema ig) -> ig_steps mv ig l = Ok (ig', rs) ->
  clean_calls mv ig l -> never_uninstalled (st_log (ig_store ig')) ->
  installed_kept (sc_attribute_map (ig_schema ig)) (sc_attribute_map (ig_schema ig')).
Proof.
  induction l as [|o l IH]; intros ig ig' rs H0 H Hc Hn; cbn [ig_steps clean_calls] in H, Hc.
  - injection H as <- <-. apply installed_kept_refl.
  - destruct (ig_step mv ig o) as [ig1 r] eqn:Eo. destruct Hc as (Hno & Hr & Hc).
    assert (exists rs', ig_steps mv ig1 l = Ok (ig', rs')) as (rs' & H').
    { destruct r; [| |done]; apply rbind_Ok in H as ([ig2 rs'] & H & [= -> <-]); eauto. }
    assert (never_uninstalled (st_log (ig_store ig1))) as Hn1.
    { destruct (ig_steps_log _ _ _ _ _ H' Hc) as (new & E). rewrite E in Hn. by eapply extends_never_uninstalled. }
    eapply installed_kept_trans; [by apply (ig_step_kept mv ig o ig1 r)|].
    apply (IH ig1 ig' rs'); try done. by apply (ig_step_ok mv ig o ig1 r).
Qed.

Lemma conn_step_kept mv c o : conn_ok c -> clean_step mv c o -> never_uninstalled (st_log (cn_disk (conn_step mv c o).1)) ->
  installed_kept (sc_attribute_map (md_schema (cn_md c))) (sc_attribute_map (md_schema (cn_md (conn_step mv c o).1))).
Proof.
  intros H0 Hc Hn. destruct o as [now es|l commit|].
  - simpl in *. destruct (conn_transact mv now c es) as [c' r] eqn:E. simpl in *. destruct r as [x| |].
    + apply conn_transact_Ok in E as (y & Et & _ & Em). rewrite Em. simpl. by eapply transact_kept in Et as [K _].
    + apply conn_transact_fail in E as ->; [apply installed_kept_refl|done].
    + apply conn_transact_fail in E as ->; [apply installed_kept_refl|done].
  - simpl in *. destruct (ig_steps mv (conn_begin c) l) as [[ig rs]| |] eqn:E; try apply installed_kept_refl.
    destruct commit; [|apply installed_kept_refl]. unfold conn_commit in *. case_decide; [|apply installed_kept_refl]. simpl in *.
    exact (ig_steps_kept mv l (conn_begin c) ig rs H0 E (Hc eq_refl) Hn).
  - unfold clean_step in Hc. rewrite Hc. apply installed_kept_refl.
Qed.
Lemma conn_run_kept mv l : forall c, conn_ok c -> clean_history mv c l -> never_uninstalled (st_log (cn_disk (conn_run mv c l))) ->
  installed_kept (sc_attribute_map (md_schema (cn_md c))) (sc_attribute_map (md_schema (cn_md (conn_run mv c l)))).
Proof.
  induction l as [|o l IH]; intros c H0 Hc Hn; cbn [conn_run fold_left clean_history] in *; [apply installed_kept_refl|].
  destruct Hc as [Ho Hc].
  assert (never_uninstalled (st_log (cn_disk (conn_step mv c o).1))) as Hti.
  { destruct (conn_run_log mv l _ Hc) as (new & E). unfold conn_run in E. rewrite E in Hn. by eapply extends_never_uninstalled. }
  eapply installed_kept_trans; [by apply conn_step_kept|]. apply IH; [by apply conn_step_ok|done|done].
Qed.

(* ---------------------------------------------------------------- invariants of orderly histories *)

Section Invariant.
  Context (I : store -> schema -> Prop).
  Context (Hstep : forall mv now st pm pm1 s tx ts ids st' r, db_ok st pm s -> schema_ok st s -> I st s ->
    pm_allocate pm ":db.part/tx" 1 = Ok (tx, pm1) ->
    transact_simple_terms mv now MaterializeAndCommit st pm1 s s tx ts ids = (st', Ok r) ->
    tidy (st_log st') -> I st' (default s (tr_schema r))).

  Lemma transact_inv mv now st pm s es st' r : whole_ok st pm s -> I st s ->
    transact mv now st pm s s es = (st', Ok r) -> tidy (st_log st') -> I st' (default s (tr_schema r)).
  Proof using Hstep.
    intros [H0 Hs] HI H Hn. unfold transact in H. destruct (pm_allocate pm ":db.part/tx" 1) as [[tx pm1]| |] eqn:Ep; try done.
    destruct (entities_to_terms _ _ _ _ _ _) as [[ts ids]| |] eqn:Ee; try done. by eapply Hstep.
  Qed.
  Lemma transact_terms_inv mv now st pm s ts ids st' r : whole_ok st pm s -> I st s ->
    transact_terms mv now MaterializeAndCommit st pm s s ts ids = (st', Ok r) -> tidy (st_log st') -> I st' (default s (tr_schema r)).
  Proof using Hstep.
    intros [H0 Hs] HI H Hn. unfold transact_terms in H. destruct (pm_allocate pm ":db.part/tx" 1) as [[tx pm1]| |] eqn:Ep; try done.
    by eapply Hstep.
  Qed.
  Lemma ig_step_inv mv ig o ig' r : whole_ok (ig_store ig) (ig_parts ig) (ig_schema ig) -> I (ig_store ig) (ig_schema ig) -> ig_step mv ig o = (ig', r) ->
    (match o with OpRollbackTo _ => False | _ => True end) ->
    r = Ok tt \/ ig_store ig' = ig_store ig -> tidy (st_log (ig_store ig')) -> I (ig_store ig') (ig_schema ig').
  Proof using Hstep.
    intros H0 HI H Ho Hr Hn.
    destruct o as [now es|now ts ids|n|n|n]; simpl in H; try done.
    - unfold ig_transact, ig_transacted in H.
      destruct (ig_watch_same ig (watch_transact mv now (ig_store ig) (ig_parts ig) (ig_schema ig) es)) as (W1 & W2 & W3 & _).
      destruct (transact _ _ _ _ _ _ _) as [st' [x| |]] eqn:Et; simplify_eq/=; rewrite W3;
        [by eapply transact_inv|destruct Hr as [?|Hr]; [done|]; by rewrite Hr..].
    - unfold ig_transact_terms, ig_transacted in H.
      destruct (ig_watch_same ig (watch_transact_terms mv now (ig_store ig) (ig_parts ig) (ig_schema ig) ts ids)) as (W1 & W2 & W3 & _).
      destruct (transact_terms _ _ _ _ _ _ _ _ _) as [st' [x| |]] eqn:Et; simplify_eq/=; rewrite W3;
        [by eapply transact_terms_inv|destruct Hr as [?|Hr]; [done|]; by rewrite Hr..].
    - unfold ig_savepoint in H. simplify_eq/=. done.
    - unfold ig_release_savepoint in H. destruct (savepoints_from _ _) as [[st l]|]; simplify_eq/=; done.
  Qed.
  Lemma ig_steps_inv mv l : forall ig ig' rs, whole_ok (ig_store ig) (ig_parts ig) (ig_schema ig) -> I (ig_store ig) (ig_schema ig) ->
    ig_steps mv ig l = Ok (ig', rs) -> clean_calls mv ig l -> tidy (st_log (ig_store ig')) -> I (ig_store ig') (ig_schema ig').
  Proof using Hstep.
    induction l as [|o l IH]; intros ig ig' rs H0 HI H Hc Hn; cbn [ig_steps clean_calls] in H, Hc.
    - by injection H as <- <-.
    - destruct (ig_step mv ig o) as [ig1 r] eqn:Eo. destruct Hc as (Hno & Hr & Hc).
      assert (exists rs', ig_steps mv ig1 l = Ok (ig', rs')) as (rs' & H').
      { destruct r; [| |done]; apply rbind_Ok in H as ([ig2 rs'] & H & [= -> <-]); eauto. }
      assert (tidy (st_log (ig_store ig1))) as Hn1.
      { destruct (ig_steps_log _ _ _ _ _ H' Hc) as (new & E). rewrite E in Hn. by eapply tidy_app. }
      apply (IH ig1 ig' rs'); try done; [by apply (ig_step_whole mv ig o ig1 r)|by apply (ig_step_inv mv ig o ig1 r)].
  Qed.
  Definition conn_inv (c : conn) : Prop := I (cn_disk c) (md_schema (cn_md c)).
  Lemma conn_step_inv mv c o : conn_whole c -> conn_inv c -> clean_session mv c o -> tidy (st_log (cn_disk (conn_step mv c o).1)) ->
    conn_inv (conn_step mv c o).1.
  Proof using Hstep.
    intros H0 HI Hc Hn. unfold conn_inv in *. destruct o as [now es|l commit|].
    - simpl in *. destruct (conn_transact mv now c es) as [c' r] eqn:E. simpl in *. destruct r as [x| |].
      + apply conn_transact_Ok in E as (y & Et & _ & Em). rewrite Em. simpl. by eapply transact_inv.
      + by apply conn_transact_fail in E as ->.
      + by apply conn_transact_fail in E as ->.
    - simpl in *. destruct (ig_steps mv (conn_begin c) l) as [[ig rs]| |] eqn:E; try done.
      destruct commit; [|done]. unfold conn_commit in *. case_decide; [|done]. simpl in *.
      exact (ig_steps_inv mv l (conn_begin c) ig rs H0 HI E Hc Hn).
    - assert (tidy (st_log (cn_disk c))) as Hti.
      { destruct (conn_step_log2 mv c CReopen Logic.I) as (new & E). rewrite E in Hn. by eapply tidy_app. }
      destruct (reopen_schema mv c H0) as [E1 E2]; [apply Hti|]. by rewrite E1, E2.
  Qed.
  Lemma conn_run_inv mv l : forall c, conn_whole c -> conn_inv c -> clean_sessions mv c l -> tidy (st_log (cn_disk (conn_run mv c l))) ->
    conn_inv (conn_run mv c l).
  Proof using Hstep.
    induction l as [|o l IH]; intros c H0 HI Hc Hn; cbn [conn_run fold_left clean_sessions] in *; [done|].
    destruct Hc as [Ho Hc].
    assert (tidy (st_log (cn_disk (conn_step mv c o).1))) as Hti.
    { destruct (conn_run_log2 mv l _ Hc) as (new & E). unfold conn_run in E. rewrite E in Hn. by eapply tidy_app. }
    apply IH; [by apply conn_step_whole|by apply conn_step_inv|done|done].
  Qed.
  (** Holds after creation, hence always *)
  Lemma orderly_inv mv c : (forall now d, create_current_version mv now = Ok d -> I (db_store d) (db_schema d)) -> orderly mv c -> conn_inv c.
  Proof using Hstep.
    intros Hbase (now & c0 & l & Ho & -> & Hc & Ht).
    assert (tidy (st_log (cn_disk c0))) as Ht0.
    { destruct (conn_run_log2 mv l _ Hc) as (new & E). rewrite E in Ht. exact (tidy_app _ _ Ht). }
    apply (conn_run_inv mv l c0 (opened_whole _ _ _ Ho Ht0)); [|exact Hc|exact Ht].
    unfold conn_open in Ho. apply rbind_Ok in Ho as (d & Hd & E). injection E as <-. exact (Hbase _ _ Hd).
  Qed.
End Invariant.

(* ---------------------------------------------------------------- valid attributes *)

Definition once_valid (st : store) (s : schema) : Prop :=
  forall e at_, sc_attribute_map s !! e = Some at_ -> defined_once (st_log st) e -> valid_attribute at_.

Lemma bootstrap_valid s : bootstrap_schema_res = Ok s -> map_Forall (fun _ at_ => attribute_ok at_ = true) (sc_attribute_map s).
Proof.
  assert (match bootstrap_schema_res with Ok s => forallb (fun x : Z * attribute => attribute_ok x.2) (map_to_list (sc_attribute_map s)) | _ => true end = true) as H
    by (vm_compute; reflexivity).
  intros E. rewrite E in H. clear E. intros e at_ Hm. rewrite forallb_forall in H.
  apply (H (e, at_)). apply elem_of_list_In. by apply elem_of_map_to_list.
Qed.

Lemma once_valid_step mv now st pm pm1 s tx ts ids st' r : db_ok st pm s -> schema_ok st s -> once_valid st s ->
  pm_allocate pm ":db.part/tx" 1 = Ok (tx, pm1) ->
  transact_simple_terms mv now MaterializeAndCommit st pm1 s s tx ts ids = (st', Ok r) ->
  tidy (st_log st') -> once_valid st' (default s (tr_schema r)).
Proof.
  intros H0' Hs Hv Hal H Hti e at' Hm' Honce.
  pose proof (transact_simple_kept _ _ _ _ _ _ _ _ _ _ _ H0' Hal H (proj1 Hti)) as K.
  pose proof (transact_simple_schema _ _ _ _ _ _ _ _ _ _ _ H0' Hs Hal H Hti) as Hs'.
  pose proof (transact_simple_ok _ _ _ _ _ _ _ _ _ _ _ H0' Hal H (proj1 Hti)) as H1'.
  destruct H0' as [(p & Hp & H0 & Hst & Hend & Hnx) Hi Htl Hr Hk Hpo].
  apply tx_alloc in Hal as (p0 & Hp0 & -> & _). assert (p0 = p) as -> by congruence.
  apply transact_simple_Ok in H as (rv & tr & _ & _ & Hwf & Hap & _).
  apply (applied_trie_ok _ _ _ _ _ _ _ _ _ _ _ H0 (core_instant _ Hi) Hwf) in Hap as (st2 & rs & tr' & H2 & Happ & _ & _ & Ei & Es & He & _).
  pose proof (evolve_log _ _ _ _ _ _ _ He) as El2.
  assert (tidy (st_log st2)) as Hti2 by (rewrite <- El2; done).
  destruct Hs as [Hmeta Hcore].
  destruct (evolve_meta _ _ _ _ _ _ _ H0 H2 Happ Hcore Hti2 Ei Es _ _ _ _ Hmeta He) as (M & T & Hf).
  destruct (sc_attribute_map s !! e) as [at_|] eqn:Hm; [|by apply (kp_new _ _ K e)].
  destruct (ap_log _ _ _ _ _ _ _ Happ) as (new & El & Hnew).
  pose proof (proj1 (sa_attributes _ _ (mt_agrees _ _ Hmeta)) _ _ Hm) as Sd.
  assert (forall row, row ∈ new -> t_e row = e -> t_a row ∈ SCHEMA_LIST -> False) as Hno.
  { intros row Hrow Hre Hra. destruct (meta_fact_row _ _ _ H0 Hcore _ _ _ (schema_meta _ in_type) (sd_type _ _ _ Sd)) as (r0 & Hr0 & E0 & A0 & _).
    assert (t_tx r0 = t_tx row) as Et.
    { apply Honce; try done; rewrite ?El2, ?El, ?A0; try (apply elem_of_app; auto); apply in_type. }
    destruct (Hnew _ Hrow) as [Etx _]. pose proof (so_tx _ _ _ H0 _ Hr0). lia. }
  assert (forall a p, a ∈ SCHEMA_LIST -> (e, a, p) ∈ facts st2 <-> (e, a, p) ∈ facts st) as Hsame.
  { intros a q Ha. destruct (facts_dec st (e, a, q)) as [Hx|Hx], (facts_dec st2 (e, a, q)) as [Hy|Hy]; try tauto; exfalso.
    - destruct (proj2 (ap_rows _ _ _ _ _ _ _ Happ new El e a q false)) as (row & Hin & E1 & E2 & _); [done|]. apply (Hno row); congruence.
    - destruct (proj2 (ap_rows _ _ _ _ _ _ _ Happ new El e a q true)) as (row & Hin & E1 & E2 & _); [done|]. apply (Hno row); congruence. }
  assert (at' = at_) as ->.
  { eapply (stated_unique (fun x => x ∈ facts st') e); [| |].
    - destruct (ok_tx _ _ _ H1') as (q & _ & Hst' & _). exact (facts_are_functional _ _ _ Hst' (sk_core _ _ Hs')).
    - exact (proj1 (sa_attributes _ _ (mt_agrees _ _ (sk_meta _ _ Hs'))) _ _ Hm').
    - eapply stated_ext; [|exact Sd]. intros a q Ha. simpl. rewrite Hf. by apply Hsame. }
  apply (Hv e); [done|]. intros r1 r2 R1 R2. apply Honce; rewrite El2, El; apply elem_of_app; by left.
Qed.

Lemma create_schema_is mv now d : create_current_version mv now = Ok d -> bootstrap_schema_res = Ok (db_schema d).
Proof.
  unfold create_current_version. intros H. apply rbind_Ok in H as (s & Hs & H). rewrite Hs. f_equal. clear Hs. revert H.
  generalize bootstrap_entities, bootstrap_partition_map, (Store [] [] [] [] [] bootstrap_known_parts), schema_default. intros bes bpm st0 sd H.
  destruct (transact _ _ _ _ _ _ _) as [st' [r| |]] eqn:Et; [|discriminate H..].
  destruct (tr_schema r) as [s'|]; [|by injection H as <-]. destruct (decide (s' = s)); [|done]. by injection H as <-.
Qed.
Lemma create_valid mv now d : create_current_version mv now = Ok d -> once_valid (db_store d) (db_schema d).
Proof.
  intros Hd e at_ Hm _. apply attribute_validate_valid, attribute_ok_validate. exact (bootstrap_valid _ (create_schema_is _ _ _ Hd) e at_ Hm).
Qed.
Lemma orderly_valid mv c : orderly mv c -> once_valid (disk c) (schema_of c).
Proof. intros H. exact (orderly_inv once_valid once_valid_step mv c (create_valid mv) H). Qed.

(* ---------------------------------------------------------------- what a transaction changes is logged *)

Lemma orderly_step mv now c es c' r : orderly mv c -> conn_transact mv now c es = (c', Ok r) -> tidy (st_log (disk c')) -> orderly mv c'.
Proof.
  intros (nw & c0 & l & Ho & -> & Hc & Ht) H Hti. exists nw, c0, (l ++ [CTransact now es]). split; [exact Ho|].
  split; [unfold conn_run; rewrite fold_left_app; simpl; fold (conn_run mv c0 l); by rewrite H|]. split; [|exact Hti].
  clear Ho Ht H Hti. revert c0 Hc. induction l as [|o l IH]; intros c0 Hc; [done|]. destruct Hc as [H1 H2]. split; [exact H1|exact (IH _ H2)].
Qed.
Lemma orderly_accepted mv now c es c' r : orderly mv c -> conn_transact mv now c es = (c', Ok r) -> tidy (st_log (disk c')) -> accepted mv now c es c' r.
Proof. intros Ho H Hti. split; [exact (proj2 (orderly_whole _ _ Ho))|]. split; [exact H|exact (proj1 Hti)]. Qed.

Section Altered.
  Context (mv now : Z) (c c' : conn) (es : list entity) (r : txreport).
  Context (Ho : orderly mv c) (H : conn_transact mv now c es = (c', Ok r)) (Hti : tidy (st_log (disk c'))).

  Lemma unlogged_facts e a p : ~ touched (st_log (disk c')) (rp_tx r) e a -> (e, a, p) ∈ facts (disk c') <-> (e, a, p) ∈ facts (disk c).
  Proof using All.
    intros Hl. destruct (thm_rows (orderly_accepted _ _ _ _ _ _ Ho H Hti)) as (new & El & Hn & Hr).
    assert (forall b, ~ changed (disk c) (disk c') b (e, a, p)) as Hx.
    { intros b Hb. apply Hr in Hb as (row & Hin & He & Ha & _). apply Hl. exists row. split; [rewrite El; apply elem_of_app; by right|].
      split; [apply (Hn _ Hin)|done]. }
    destruct (facts_dec (disk c) (e, a, p)) as [Hp|Hp], (facts_dec (disk c') (e, a, p)) as [Hq|Hq]; try tauto; exfalso.
    - by apply (Hx false).
    - by apply (Hx true).
  Qed.
  Lemma touched_dec l tx e a : touched l tx e a \/ ~ touched l tx e a.
  Proof using.
    destruct (decide (Exists (fun x => t_tx x = tx /\ t_e x = e /\ t_a x = a) l)) as [Hx|Hx].
    - left. apply Exists_exists in Hx as (x & ? & ?). by exists x.
    - right. intros (x & ? & ?). apply Hx, Exists_exists. by exists x.
  Qed.
  Lemma altered_logged e at_ at' : sc_attribute_map (schema_of c) !! e = Some at_ -> sc_attribute_map (schema_of c') !! e = Some at' ->
    at_type at' = at_type at_ /\ at_fulltext at' = at_fulltext at_ /\ at_no_history at' = at_no_history at_
    /\ (at_multival at' <> at_multival at_ -> touched (st_log (disk c')) (rp_tx r) e DB_CARDINALITY)
    /\ (at_unique at' <> at_unique at_ -> touched (st_log (disk c')) (rp_tx r) e DB_UNIQUE)
    /\ (at_index at' <> at_index at_ -> touched (st_log (disk c')) (rp_tx r) e DB_INDEX)
    /\ (at_component at' <> at_component at_ -> touched (st_log (disk c')) (rp_tx r) e DB_IS_COMPONENT).
  Proof using All.
    intros Hm Hm'. destruct (orderly_whole _ _ Ho) as [[Hok Hs] _].
    destruct (orderly_whole _ _ (orderly_step _ _ _ _ _ _ Ho H Hti)) as [[Hok' Hs'] _].
    destruct (proj1 (sa_attributes _ _ (mt_agrees _ _ (sk_meta _ _ Hs))) _ _ Hm) as [S1 S2 S3 S4 S5 S6 S7].
    destruct (proj1 (sa_attributes _ _ (mt_agrees _ _ (sk_meta _ _ Hs'))) _ _ Hm') as [R1 R2 R3 R4 R5 R6 R7].
    pose proof H as Hx. apply conn_transact_Ok in Hx as (y & Et & _ & Em).
    apply transact_kept in Et as [K _]; [|done|exact (proj1 Hti)]. destruct (K _ _ Hm) as (at2 & Hm2 & T2 & F2 & _).
    unfold schema_of in Hm'. rewrite Em in Hm'. assert (at2 = at') as -> by congruence.
    split_and!; try done; try congruence; intros Hne; match goal with |- ?G => destruct (touched_dec (st_log (disk c')) (rp_tx r) e
      ltac:(lazymatch G with touched _ _ _ ?a => exact a end)) as [|Hl]; [done|exfalso; apply Hne] end.
    - apply eq_bool_prop_intro. rewrite !Is_true_true, S2, R2. apply (unlogged_facts _ _ _ Hl).
    - assert (forall u, at_unique at' = Some u <-> at_unique at_ = Some u) as Hu by (intros u; rewrite S3, R3; apply (unlogged_facts _ _ _ Hl)).
      apply option_eq. intros u. apply Hu.
    - apply eq_bool_prop_intro. rewrite !Is_true_true, S4, R4. apply (unlogged_facts _ _ _ Hl).
    - apply eq_bool_prop_intro. rewrite !Is_true_true, S6, R6. apply (unlogged_facts _ _ _ Hl).
  Qed.
End Altered.

(* ---------------------------------------------------------------- opening the file again *)

Lemma part_of_range e k : part_of bootstrap_known_parts e = Some k ->
  (k = ":db.part/db" /\ e <= USER0 - 1) \/ (k = ":db.part/user" /\ USER0 - 1 < e <= TX0 - 1) \/ (k = ":db.part/tx" /\ TX0 - 1 < e <= I64_MAX).
Proof.
  unfold part_of.
  assert (merge_sort kp_le bootstrap_known_parts = bootstrap_known_parts) as -> by (vm_compute; reflexivity).
  unfold bootstrap_known_parts. cbn [map V1_PARTS fst snd pt_start pt_end pt_allow_excision]. rewrite !filter_cons. simpl kp_end.
  unfold TX0, USER0, I64_MAX.
  repeat case_decide; simpl; intros [= <-]; try (left; split; [done|lia]); try (right; left; split; [done|lia]); right; right; split; [done|lia].
Qed.
Lemma part_of_low e : e <= USER0 - 1 -> part_of bootstrap_known_parts e = Some ":db.part/db".
Proof.
  unfold part_of.
  assert (merge_sort kp_le bootstrap_known_parts = bootstrap_known_parts) as -> by (vm_compute; reflexivity).
  unfold bootstrap_known_parts. cbn [map V1_PARTS fst snd pt_start pt_end pt_allow_excision]. rewrite !filter_cons. simpl kp_end.
  intros H. by rewrite decide_True.
Qed.
Lemma read_parts_total st : st_parts st = bootstrap_known_parts -> room (transactions st) ->
  (exists r, r ∈ transactions st /\ 0 <= t_e r <= USER0 - 1) -> exists pm, read_partition_map st = Ok pm.
Proof.
  intros Hk Hroom (r0 & Hr0 & Hlow). unfold read_partition_map. rewrite Hk. unfold bootstrap_known_parts at 3.
  cbn [map V1_PARTS fst snd pt_start pt_end pt_allow_excision rfold kp_part kp_start kp_end kp_exc].
  set (es k := map t_e (filter (fun r => part_of bootstrap_known_parts (t_e r) = Some k) (transactions st))).
  assert (forall k e, e ∈ es k -> part_of bootstrap_known_parts e = Some k /\ e <> USER0 - 1 /\ e <> TX0 - 1 /\ e <> I64_MAX) as Hes.
  { intros k e (r & -> & Hin)%elem_of_list_fmap. apply elem_of_list_filter in Hin as [Hp Hin]. split; [done|by apply Hroom]. }
  assert (forall k start stop exc, start <= stop -> (forall e, e ∈ es k -> e < stop) -> (es k = [] \/ exists e, e ∈ es k /\ start <= e) ->
    exists p, match list_max (es k) with Some mx => partition_new start stop (mx + 1) exc | None => partition_new start stop start exc end = Ok p) as Hnew.
  { intros k start stop exc Hle Hup Hlo. destruct (list_max (es k)) as [mx|] eqn:E; unfold partition_new.
    - pose proof (list_max_elem _ _ E) as Hin. rewrite decide_True; [eauto|]. specialize (Hup _ Hin).
      destruct Hlo as [En|(e & He & Hse)]; [by rewrite En in Hin; apply elem_of_nil in Hin|].
      apply list_max_ge in He as (mx' & E' & Hle'). assert (mx' = mx) as -> by congruence. lia.
    - rewrite decide_True by lia. eauto. }
  destruct (Hnew ":db.part/db" 0 (USER0 - 1) false) as (p1 & E1).
  { done. } { intros e (Hp & H1 & H2 & H3)%Hes. apply part_of_range in Hp. naive_solver lia. }
  { right. exists (t_e r0). split; [|lia]. apply elem_of_list_fmap. exists r0. split; [done|]. apply elem_of_list_filter. split; [|done].
    apply part_of_low. lia. }
  destruct (Hnew ":db.part/user" USER0 (TX0 - 1) true) as (p2 & E2).
  { done. } { intros e (Hp & H1 & H2 & H3)%Hes. apply part_of_range in Hp. naive_solver lia. }
  { destruct (es ":db.part/user") as [|e l] eqn:El; [by left|]. right. exists e. split; [by left|].
    destruct (Hes ":db.part/user" e) as (Hp & _); [rewrite El; by left|]. apply part_of_range in Hp. naive_solver lia. }
  destruct (Hnew ":db.part/tx" TX0 I64_MAX false) as (p3 & E3).
  { done. } { intros e (Hp & H1 & H2 & H3)%Hes. apply part_of_range in Hp. naive_solver lia. }
  { destruct (es ":db.part/tx") as [|e l] eqn:El; [by left|]. right. exists e. split; [by left|].
    destruct (Hes ":db.part/tx" e) as (Hp & _); [rewrite El; by left|]. apply part_of_range in Hp. naive_solver lia. }
  unfold es in E1, E2, E3. rewrite E1. cbn [rbind]. rewrite E2. cbn [rbind]. rewrite E3. cbn [rbind]. eauto.
Qed.

Section Reopened.
  Context (mv : Z) (c : conn) (Ho : orderly mv c).
  Notation F := (fun x => x ∈ facts (disk c)).

  Lemma orderly_agrees : schema_agrees F (schema_of c).
  Proof using Ho. destruct (orderly_whole _ _ Ho) as [[_ Hs] _]. apply Hs. Qed.
  Lemma thm_agrees : attributes_agree F (sc_attribute_map (schema_of c)) /\ idents_agree F (schema_of c).
  Proof using Ho. split; apply orderly_agrees. Qed.
  Lemma orderly_tidy : tidy (st_log (disk c)).
  Proof using Ho. by destruct Ho as (? & ? & ? & _ & _ & _ & ?). Qed.

  Lemma thm_reopen now c' : conn_open mv now (Some (disk c)) = Ok c' -> disk c' = disk c /\ schema_of c' = schema_of c /\ orderly mv c'.
  Proof using Ho.
    intros H. assert (c' = (conn_step mv c CReopen).1) as ->.
    { unfold conn_step. change (conn_open mv 0 (Some (cn_disk c))) with (conn_open mv now (Some (cn_disk c))). by rewrite H. }
    destruct (orderly_whole _ _ Ho) as [Hw _].
    destruct (reopen_schema mv c Hw) as [E1 E2]; [apply orderly_tidy|]. split; [exact E2|]. split; [exact E1|].
    pose proof orderly_tidy as Hti. destruct Ho as (nw & c0 & l & Hop & Ec & Hc & Ht). exists nw, c0, (l ++ [CReopen]). split; [exact Hop|].
    split; [unfold conn_run; rewrite fold_left_app; simpl; fold (conn_run mv c0 l); by rewrite <- Ec|]. split.
    - clear - Hc. revert c0 Hc. induction l as [|o l IH]; intros c0 Hc; [done|]. destruct Hc as [H1 H2]. split; [exact H1|exact (IH _ H2)].
    - rewrite E2. exact Hti.
  Qed.
  Lemma thm_reopens now : (forall e at_, sc_attribute_map (schema_of c) !! e = Some at_ -> valid_attribute at_) -> room (st_log (disk c)) ->
    exists c', conn_open mv now (Some (disk c)) = Ok c'.
  Proof using Ho.
    intros Hv Hroom. destruct (orderly_whole _ _ Ho) as [[Hok Hs] _]. destruct (ok_tx _ _ _ Hok) as (p & _ & Hst & _).
    unfold conn_open. rewrite (read_db_schema _ _ _ Hst Hs) by apply orderly_tidy.
    destruct (read_parts_total (disk c)) as (pm & Hpm).
    - apply Hok.
    - intros r Hr. apply Hroom. unfold transactions in Hr. by apply elem_of_list_filter in Hr as [_ Hr].
    - destruct (sk_core _ _ Hs DB_IDENT ident_meta) as (at_ & Hm & _).
      pose proof (proj1 (sa_attributes _ _ orderly_agrees) _ _ Hm) as Sd.
      destruct (meta_fact_row _ _ _ Hst (sk_core _ _ Hs) _ _ _ (schema_meta _ in_type) (sd_type _ _ _ Sd)) as (r & Hr & He & _).
      exists r. rewrite He. split; [|done]. apply elem_of_list_filter. split; [|done]. by apply (so_main _ _ _ Hst).
    - rewrite Hpm. cbn [rbind]. rewrite decide_True; [eauto|]. intros e at_ Hm.
      apply attribute_ok_validate, attribute_validate_valid. by apply (Hv e).
  Qed.
  Lemma thm_unreadable now e at_ : sc_attribute_map (schema_of c) !! e = Some at_ -> ~ valid_attribute at_ -> forall c', conn_open mv now (Some (disk c)) <> Ok c'.
  Proof using Ho.
    intros Hm Hv c'. destruct (orderly_whole _ _ Ho) as [[Hok Hs] _]. destruct (ok_tx _ _ _ Hok) as (p & _ & Hst & _).
    unfold conn_open. rewrite (read_db_schema _ _ _ Hst Hs) by apply orderly_tidy.
    destruct (read_partition_map _) as [pm| |]; cbn [rbind]; [|discriminate..].
    rewrite decide_False; [discriminate|]. intros Hall. apply Hv, attribute_validate_valid, attribute_ok_validate. exact (Hall e at_ Hm).
  Qed.
End Reopened.

Lemma orderly_run mv c l : orderly mv c -> clean_sessions mv c l -> tidy (st_log (disk (conn_run mv c l))) -> orderly mv (conn_run mv c l).
Proof.
  intros (nw & c0 & l0 & Hop & -> & Hc & Ht) Hl Hti. exists nw, c0, (l0 ++ l). split; [exact Hop|].
  split; [unfold conn_run; by rewrite fold_left_app|]. split; [|exact Hti]. clear Hop Ht Hti.
  revert c0 Hc Hl. induction l0 as [|o l0 IH]; intros c0 Hc Hl; [exact Hl|]. destruct Hc as [H1 H2]. split; [exact H1|exact (IH _ H2 Hl)].
Qed.

Lemma thm_installed_valid mv now c es c' r : accepted mv now c es c' r ->
  forall e at_, sc_attribute_map (schema_of c) !! e = None -> sc_attribute_map (schema_of c') !! e = Some at_ -> valid_attribute at_.
Proof.
  intros (Hc & H & Hn) e at_ Hm Hm'. apply conn_transact_Ok in H as (y & Et & _ & Em).
  apply transact_kept in Et as [_ K]; [|exact (clean_ok _ _ Hc)|exact Hn]. rewrite Em in Hm'. by apply (K e).
Qed.
Lemma thm_once_reopens mv c now : orderly mv c ->
  (forall e at_, sc_attribute_map (schema_of c) !! e = Some at_ -> defined_once (st_log (disk c)) e) ->
  room (st_log (disk c)) -> exists c', conn_open mv now (Some (disk c)) = Ok c' /\ schema_of c' = schema_of c.
Proof.
  intros Ho Hd Hr. destruct (thm_reopens mv c Ho now) as (c' & Hc'); [|exact Hr|].
  - intros e at_ Hm. exact (orderly_valid mv c Ho e at_ Hm (Hd e at_ Hm)).
  - exists c'. split; [exact Hc'|]. exact (proj1 (proj2 (thm_reopen mv c Ho now c' Hc'))).
Qed.
Lemma thm_unique_after mv c now c' l : orderly mv c -> conn_open mv now (Some (disk c)) = Ok c' ->
  clean_sessions mv c' l -> tidy (st_log (disk (conn_run mv c' l))) -> values_unique (schema_of (conn_run mv c' l)) (disk (conn_run mv c' l)).
Proof.
  intros Ho Hc' Hl Ht. destruct (thm_reopen mv c Ho now c' Hc') as (_ & _ & Ho').
  destruct (orderly_whole _ _ (orderly_run mv c' l Ho' Hl Ht)) as [_ Hcl]. exact (conn_values_unique _ (clean_ok _ _ Hcl)).
Qed.

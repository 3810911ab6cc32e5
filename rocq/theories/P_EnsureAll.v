(** Ensuring several vocabularies. *)
From Verif Require Import M_Vocab Spec_Value Spec_Partition Spec_Tx Spec_Conn Spec_Upsert Spec_Entity Spec_Transact Spec_Schema Spec_Vocab.
From Verif Require Import P_Base P_Value P_Partition P_Inv P_Conn P_Resolve P_Tx P_TxProps P_Nested P_TxThms P_Schema P_SchemaStep P_Reopen P_SchemaThms P_EdnOrd P_SyncTable P_Vocab P_Ensure P_EnsureThms.

(* ---------------------------------------------------------------- one transaction *)

Lemma accepted_parts mv now c es c' r : accepted mv now c es c' r ->
  (forall e, allocated (parts_of c) e -> allocated (parts_of c') e) /\ allocated (parts_of c') (rp_tx r).
Proof.
  intros H. destruct (accepted_outcome _ _ _ _ _ _ H) as (Hc & l & ts & σ & τ & rv & tr & tr' & O).
  destruct (out_resolution _ _ _ _ _ _ _ _ _ _ _ _ O) as (pm & ids & Hp & R & _ & Hpm).
  destruct Hc as [_ _ _ _ _ Hpo]. destruct (pm_allocate_step _ _ _ _ _ (parts_ok_wf _ Hpo) (ltac:(lia) : 0 <= 1) Hp) as (Hw & Hall & _).
  destruct (rs_fresh _ _ _ _ _ _ _ R) as (p & n & Hu & Hn & Hr & Hpn & _).
  assert (exists st, pm_allocate pm ":db.part/user" n = Ok (st, rv_parts rv)) as (st & Ha).
  { exists (pt_next p). apply pm_allocate_Ok. by exists p. }
  destruct (pm_allocate_step _ _ _ _ _ Hw Hn Ha) as (_ & Hall2 & _). rewrite <- Hpm.
  assert (forall e, allocated pm e -> allocated (rv_parts rv) e) as Hm by (intros e He; apply Hall2; by left).
  split; [intros e He; apply Hm, Hall; by left|]. apply Hm, Hall. right. unfold in_range. simpl. lia.
Qed.

Section Step.
  Context {mv now : Z} {c c' : conn} {d : definition} {o : voc_outcome} {l : list (keyword * attribute)} {old : keyword -> option uniq} {r : txreport}.
  Context (Ho : orderly mv c) (Hcore : core_intact (schema_of c)) (Hd : acceptable d) (Hall : all_allocated c) (Hk : uniqueness_known c d).
  Context (E : ensured mv now c c' d o l old r) (Hti : tidy (st_log (disk c'))).
  Notation Ht := (en_transact _ _ _ _ _ _ _ _ _ E).
  Notation Hl := (en_asked _ _ _ _ _ _ _ _ _ E).
  Notation Hu := (unique_known_old Ho Hcore Hd Hk E).

  Lemma step_allocated : all_allocated c'.
  Proof using All.
    destruct (accepted_parts _ _ _ _ _ _ (orderly_accepted _ _ _ _ _ _ Ho Ht Hti)) as [Hm Htx]. intros e a p Hf.
    destruct (decide ((e, a, p) ∈ facts (disk c))) as [Hin|Hno]; [by eapply Hm, Hall|].
    destruct (voc_changed Ho Hcore Hd Hl Hall Ht Hti Hu true e a p (ltac:(by split))) as [[-> _]|(n & k & _ & Hn)]; [exact Htx|].
    destruct (in_fresh (voc_facts Ho Hcore Hd Hl Hall Ht Hti) _ _ Hn) as [(k' & Hh)|?]; [|done]. by eapply Hm, Hall.
  Qed.
  Lemma step_alike k : storable_keyword k -> k ∉ names_of d -> alike k c c'.
  Proof using All.
    intros Hs Hnk. apply not_elem_of_cons in Hnk as [Hn Hna].
    assert (k ∉ l.*1) as Hkl. { intros (x & -> & Hx)%elem_of_list_fmap. apply Hna, elem_of_list_fmap_1. by apply Hl. }
    pose proof (after_orderly Ho Ht Hti) as Ho'. split.
    - destruct (sc_ident_map (schema_of c) !! k) as [e|] eqn:Ek; [exact (proj1 (voc_other_kept Ho Hcore Hd Hl Hall Ht Hti Hu k e Hs Ek Hn Hkl))|].
      destruct (sc_ident_map (schema_of c') !! k) as [e|] eqn:Ek'; [|done]. exfalso.
      destruct (thm_agrees _ _ Ho') as [_ [_ Hi']]. apply Hi' in Ek' as [_ Hf'].
      destruct (decide ((e, DB_IDENT, keyword_value k) ∈ facts (disk c))) as [Hf|Hf].
      { rewrite (named_entid _ Ho k e Hs Hf) in Ek. discriminate Ek. }
      destruct (voc_changed Ho Hcore Hd Hl Hall Ht Hti Hu true e DB_IDENT (keyword_value k) (ltac:(by split))) as [[_ Ea]|(n & k' & Hq & Hn')]; [discriminate Ea|].
      assert (storable_keyword k') as Hk'. { apply (voc_Q3 Hd Hl) in Hq as (_ & k2 & [= <-] & ?). done. }
      assert (holds (disk c') e DB_IDENT (TVKeyword k')) as Hh. { eapply (voc_holds Ho Hcore Hd Hl Hall Ht Hti); [exact Hq|done|exact Hn'|by left]. }
      assert (k = k') as <-. { apply storable_text_inj; [done..|]. exact (orderly_functional _ Ho' _ _ _ _ ident_meta Hf' Hh). }
      apply voc_ident in Hq as [[_ ?]|(x & Hx & _ & ->)]; [done|]. apply Hkl. by apply elem_of_list_fmap_1.
    - intros e Ek. pose proof (voc_other Ho Hcore Hd Hl Hall Ht Hti Hu k e Hs Ek Hn Hkl) as Hsame. split; [exact Hsame|].
      destruct (voc_other_kept Ho Hcore Hd Hl Hall Ht Hti Hu k e Hs Ek Hn Hkl) as [_ Hat].
      destruct (sc_attribute_map (schema_of c) !! e) as [at_|] eqn:Ea; [by apply Hat|].
      destruct (sc_attribute_map (schema_of c') !! e) as [at'|] eqn:Ea'; [|done]. exfalso.
      destruct (thm_agrees _ _ Ho') as [[S' _] _]. destruct (thm_agrees _ _ Ho) as [[_ S] _].
      pose proof (sd_type _ _ _ (S' _ _ Ea')) as Hf. apply Hsame in Hf; [|done].
      destruct (S _ _ _ Hf) as (at_ & Hx); [|congruence]. apply (bool_decide_unpack _). vm_compute. exact I.
  Qed.
End Step.

(* ---------------------------------------------------------------- what the definition says is the same *)

Lemma alike_refl k c : alike k c c.
Proof. by split. Qed.
Lemma alike_trans k c c1 c2 : alike k c c1 -> alike k c1 c2 -> alike k c c2.
Proof.
  intros [A1 A2] [B1 B2]. split; [congruence|]. intros e He. destruct (A2 e He) as [A3 A4]. destruct (B2 e) as [B3 B4]; [congruence|].
  split; [|congruence]. intros a p Ha. rewrite (B3 a p Ha). exact (A3 a p Ha).
Qed.
Section Alike.
  Context {c c' : conn} {d : definition} (H : forall k, k ∈ names_of d -> alike k c c').
  Lemma alike_version e v : has_version c' (df_name d) e v <-> has_version c (df_name d) e v.
  Proof using H.
    destruct (H (df_name d)) as [H1 H2]; [by left|]. unfold has_version. rewrite H1. split; intros [He Hv]; (split; [done|]); destruct (H2 e He) as [H3 _]; by apply H3.
  Qed.
  Lemma alike_ident x : x ∈ df_attributes d -> sc_ident_map (schema_of c') !! x.1 = sc_ident_map (schema_of c) !! x.1.
  Proof using H. intros Hx. apply H. right. by apply elem_of_list_fmap_1. Qed.
  Lemma alike_at x a : x ∈ df_attributes d -> sc_ident_map (schema_of c) !! x.1 = Some a -> sc_attribute_map (schema_of c') !! a = sc_attribute_map (schema_of c) !! a.
  Proof using H. intros Hx Ha. destruct (H x.1) as [_ H2]; [right; by apply elem_of_list_fmap_1|]. exact (proj2 (H2 a Ha)). Qed.
  Lemma alike_link e v a : has_version c (df_name d) e v -> holds (disk c') e DB_SCHEMA_ATTRIBUTE (TVRef a) <-> holds (disk c) e DB_SCHEMA_ATTRIBUTE (TVRef a).
  Proof using H. intros [He _]. destruct (H (df_name d)) as [_ H2]; [by left|]. exact (proj1 (H2 e He) DB_SCHEMA_ATTRIBUTE _ (ltac:(discriminate))). Qed.
  Lemma alike_attribute e v x : has_version c (df_name d) e v -> x ∈ df_attributes d -> has_attribute c' e x <-> has_attribute c e x.
  Proof using H.
    intros Hv Hx. unfold has_attribute. rewrite (alike_ident x Hx). split; intros (a & Ha & Hl & Hat); exists a; (split; [done|]).
    - rewrite (alike_link _ _ _ Hv) in Hl. rewrite (alike_at _ _ Hx Ha) in Hat. done.
    - rewrite (alike_link _ _ _ Hv). rewrite (alike_at _ _ Hx Ha). done.
  Qed.
  Lemma alike_provides : provides c' d <-> provides c d.
  Proof using H.
    split; intros (e & Hv & Hx); exists e.
    - apply alike_version in Hv. split; [done|]. intros x Hin. apply (alike_attribute _ _ _ Hv Hin). by apply Hx.
    - split; [by apply alike_version|]. intros x Hin. apply (alike_attribute _ _ _ Hv Hin). by apply Hx.
  Qed.
  Lemma alike_conflicting : conflicting c' d <-> conflicting c d.
  Proof using H.
    split; intros (e & x & a & other & Hv & Hx & Ha & Hl & Hat & Hne); exists e, x, a, other.
    - apply alike_version in Hv. rewrite (alike_ident _ Hx) in Ha. rewrite (alike_link _ _ _ Hv) in Hl. rewrite (alike_at _ _ Hx Ha) in Hat. done.
    - rewrite alike_version, (alike_ident _ Hx), (alike_link _ _ _ Hv), (alike_at _ _ Hx Ha). done.
  Qed.
  Lemma alike_known : uniqueness_known c d -> uniqueness_known c' d.
  Proof using H.
    intros Hk x a at_ Hx Hu Ha Hat Hne. rewrite (alike_ident _ Hx) in Ha. rewrite (alike_at _ _ Hx Ha) in Hat.
    destruct (Hk x a at_ Hx Hu Ha Hat Hne) as (e & v & Hv & Hlt & Hl). exists e, v. rewrite alike_version, (alike_link _ _ _ Hv). done.
  Qed.
End Alike.

(* ---------------------------------------------------------------- the work on one vocabulary *)

(** What was found when the vocabulary was checked *)
Record planned (c : conn) (d : definition) (o : voc_outcome) (l : list (keyword * attribute)) (old : keyword -> option uniq) : Prop := {
  pl_asked : forall x, x ∈ l -> x ∈ df_attributes d;
  pl_rest : forall x, x ∈ df_attributes d -> x ∈ l \/ exists e, has_version c (df_name d) e (df_version d) /\ has_attribute c e x;
  pl_old : forall e v, has_version c (df_name d) e v -> v < df_version d ->
    forall x a at_, x ∈ df_attributes d -> sc_ident_map (schema_of c) !! x.1 = Some a -> holds (disk c) e DB_SCHEMA_ATTRIBUTE (TVRef a) ->
      sc_attribute_map (schema_of c) !! a = Some at_ -> old x.1 = at_unique at_;
  pl_outcome : o <> Existed /\ needed c d o }.
Lemma planned_alike c c' d o l old : (forall k, k ∈ names_of d -> alike k c c') -> planned c d o l old -> planned c' d o l old.
Proof.
  intros H [P1 P2 P3 [P4 P5]]. split; [done|..].
  - intros x Hx. destruct (P2 x Hx) as [?|(e & Hv & Ha)]; [by left|right]. exists e. split; [by apply (alike_version H)|by apply (alike_attribute H _ _ _ Hv Hx)].
  - intros e v Hv Hlt x a at_ Hx Ha Hl Hat. apply (alike_version H) in Hv. rewrite (alike_ident H _ Hx) in Ha. rewrite (alike_link H _ _ _ Hv) in Hl.
    rewrite (alike_at H _ _ Hx Ha) in Hat. by eapply P3.
  - split; [done|]. destruct o; cbn [needed] in *; [|  |done|].
    + intros e v Hv. apply (alike_version H) in Hv. by eapply P5.
    + rewrite (alike_conflicting H), (alike_provides H). destruct P5 as [(e & Hv) ?]. split; [|done]. exists e. by apply (alike_version H).
    + destruct P5 as (e & v & Hv & ?). exists e, v. split; [by apply (alike_version H)|done].
Qed.

Definition work_check (k : voc_check) : Prop := match k with Present | TooNew _ => False | _ => True end.
Definition at_conn (ig : inprog) (c : conn) : Prop := ig_store ig = disk c /\ ig_parts ig = parts_of c /\ ig_schema ig = schema_of c.
Lemma ig_conn mv now ig es ig' r c : at_conn ig c -> ig_transact mv now ig es = (ig', Ok r) -> exists c', conn_transact mv now c es = (c', Ok r) /\ at_conn ig' c'.
Proof.
  intros (A1 & A2 & A3). unfold conn_transact, ig_transact.
  change (ig_store (conn_begin c)) with (disk c). change (ig_parts (conn_begin c)) with (parts_of c). change (ig_schema (conn_begin c)) with (schema_of c).
  rewrite A1, A2, A3. set (w := watch_transact _ _ _ _ _ _). destruct (ig_watch_same ig w) as (_ & _ & W3 & _).
  destruct (ig_watch_same (conn_begin c) w) as (_ & _ & W3' & W4'). change (ig_schema (conn_begin c)) with (schema_of c) in W3'. change (ig_gen (conn_begin c)) with (md_gen (cn_md c)) in W4'.
  destruct (transact _ _ _ _ _ _ _) as [st [x|x|x]]; cbn [ig_transacted]; [|discriminate..]. intros [= <- <-].
  unfold conn_commit. cbn [ig_gen]. rewrite decide_True by exact W4'. eexists. split; [reflexivity|].
  unfold at_conn. cbn [ig_store ig_parts ig_schema cn_disk cn_md md_parts md_schema]. rewrite W3, W3', A3. done.
Qed.
Lemma finish_ig {A} mv now ig es (a : A) ig' o : ibind (ig_transact mv now ig es) (fun ig _ => (ig, Ok a)) = (ig', Ok o) ->
  exists r, ig_transact mv now ig es = (ig', Ok r) /\ o = a.
Proof. destruct (ig_transact mv now ig es) as [ig1 [r|x|x]]; cbn [ibind]; [|discriminate..]. intros [= <- <-]. by exists r. Qed.

Section Work.
  Context {mv now : Z} {c : conn} {d : definition} (Hc : clean mv c) (Hcore : core_intact (schema_of c)) (Hq : quiet d).
  Lemma work_cases k ig ig' o : check_vocabulary (disk c) (schema_of c) d = Ok k -> work_check k -> core_intact (ig_schema ig) ->
    (forall x, x ∈ df_attributes d -> sc_ident_map (ig_schema ig) !! x.1 = sc_ident_map (schema_of c) !! x.1) ->
    do_work mv now ig (d, k) = (ig', Ok o) ->
    exists l old r, ig_transact mv now ig (map asking_entity (voc_asks d l old)) = (ig', Ok r) /\ planned c d o l old.
  Proof using Hc Hcore Hq.
    intros Ek Hk Hig Hid. pose proof (check_spec Hc Hcore d) as H. pose proof (thm_check Hc Hcore d) as (_ & _ & _ & _ & Hm & _). rewrite Ek in H, Hm.
    destruct k as [| |v|v|l]; [|done| |done|]; cbn [do_work].
    - unfold install_vocabulary, ilift, description. rewrite (description_asks Hig). cbn [ibind].
      intros (r & Ht & ->)%finish_ig. exists (df_attributes d), (fun _ => None), r. split; [done|]. split; [done|by left|by intros e v ?%H|by split].
    - unfold upgrade_vocabulary. rewrite (proj1 (Hq _ _)). unfold ilift, description_diff. cbn [ibind]. rewrite (description_asks Hig). cbn [ibind].
      assert (forall (x : inprog * res txreport), ibind x (fun ig _ => ibind (df_post d ig v) (fun ig _ => (ig, Ok Upgraded))) = ibind x (fun ig _ => (ig, Ok Upgraded))) as ->.
      { intros [ig0 [y| |]]; cbn [ibind]; [|done..]. by rewrite (proj2 (Hq _ _)). }
      intros (r & Ht & ->)%finish_ig.
      do 3 eexists. split; [exact Ht|]. split; [done|by left|..].
      + intros e w Hw Hlt x a at_ Hx Ha Hh Hat. cbn beta. rewrite (Hid x Hx), Ha. destruct H as [(Hv & _ & Hf) _].
        destruct (version_unique Hc Hcore _ _ _ _ _ Hw Hv) as [-> _]. by rewrite (proj2 (Hf a at_) (conj Hh Hat)).
      + split; [done|]. destruct H as [(Hv & _) Hlt]. by exists (vo_entity v), (vo_version v).
    - unfold install_attributes_for, ilift. rewrite (description_asks Hig). cbn [ibind].
      intros (r & Ht & ->)%finish_ig. destruct H as (e & Hv & Hok & _ & Hl & Hr). exists l, (fun _ => None), r. split; [done|]. split; [by intros x [? _]%Hl|..].
      + intros x Hx. destruct (Hr x Hx) as [?|?]; [by left|right; by exists e].
      + intros e' w Hw Hlt. destruct (version_unique Hc Hcore _ _ _ _ _ Hv Hw). lia.
      + destruct (proj1 Hm (ex_intro _ l eq_refl)) as (e' & Hv' & _ & ? & ?). split; [done|]. split; [by exists e'|done].
  Qed.
End Work.

(* ---------------------------------------------------------------- the work on all of them *)

Lemma storable_cmp k l : storable_keyword k -> storable_keyword l -> kw_cmp k l = Eq -> k = l.
Proof.
  intros Hk Hl. apply kw_cmp_eq; intros E.
  - unfold storable_keyword in Hk. rewrite E in Hk. by destruct Hk.
  - unfold storable_keyword in Hl. rewrite E in Hl. by destruct Hl.
Qed.
Lemma work_insert_new k x l : storable_keyword k -> (forall y, y ∈ l -> storable_keyword y.1 /\ y.1 <> k) -> work_insert k x l ≡ₚ (k, x) :: l.
Proof.
  intros Hk. induction l as [|[k' x'] l IH]; intros Hl; [done|]. cbn [work_insert]. destruct (Hl (k', x')) as [Hs Hne]; [by left|]. cbn [fst] in Hs, Hne.
  destruct (kw_cmp k k') eqn:E; [|done|].
  - destruct Hne. symmetry. by apply storable_cmp.
  - rewrite IH; [apply Permutation_swap|]. intros y Hy. apply Hl. by right.
Qed.
Definition work_names (x : keyword * work_item) : list keyword := names_of x.2.1.
Lemma planned_ensured mv now c c' d o l old r : planned c d o l old -> conn_transact mv now c (map asking_entity (voc_asks d l old)) = (c', Ok r) -> ensured mv now c c' d o l old r.
Proof. intros [P1 P2 P3 [P4 P5]] H. split; [done..|]. by destruct o. Qed.

Section All.
  Context {mv : Z} {now : nat -> Z} {c0 : conn} (Hc0 : clean mv c0) (Hcore0 : core_intact (schema_of c0)).
  Notation check d := (check_vocabulary (disk c0) (schema_of c0) d).

  Record item (c : conn) (x : keyword * work_item) : Prop := {
    it_name : x.1 = df_name x.2.1;
    it_acceptable : acceptable x.2.1;
    it_quiet : quiet x.2.1;
    it_known : uniqueness_known c0 x.2.1;
    it_check : check x.2.1 = Ok x.2.2;
    it_work : work_check x.2.2;
    it_alike : forall k, k ∈ names_of x.2.1 -> alike k c0 c }.
  Lemma names_storable d k : acceptable d -> k ∈ names_of d -> storable_keyword k.
  Proof using Type. intros (_ & Hf & _) Hk. rewrite Forall_forall in Hf. by apply Hf. Qed.

  Lemma do_item c x ig ig' n o : item c x -> at_conn ig c -> core_intact (schema_of c) -> do_work mv n ig x.2 = (ig', Ok o) ->
    exists c' l old r, ensured mv n c c' x.2.1 o l old r /\ at_conn ig' c' /\ o <> Existed /\ needed c0 x.2.1 o /\ uniqueness_known c x.2.1.
  Proof using Hc0 Hcore0.
    intros [I1 I2 I3 I4 I5 I6 I7] Hat Hcore. destruct x as [k [d chk]]. cbn [fst snd] in *. intros H.
    destruct (work_cases (now := n) Hc0 Hcore0 I3 chk ig ig' o I5 I6) as (l & old & r & Ht & Hp); [..|exact H|].
    - destruct Hat as (_ & _ & ->). done.
    - destruct Hat as (_ & _ & ->). intros x Hx. apply I7. right. by apply elem_of_list_fmap_1.
    - destruct (ig_conn _ _ _ _ _ _ _ Hat Ht) as (c' & Ht' & Hat'). exists c', l, old, r. split; [|split; [done|]].
      + apply planned_ensured; [|done]. by eapply planned_alike.
      + destruct Hp as [_ _ _ [? ?]]. split; [done|]. split; [done|]. by eapply alike_known.
  Qed.
  Lemma do_all_log l : forall ig out ig' out', (forall x, x ∈ l -> quiet x.2.1) -> do_all mv now ig out l = (ig', Ok out') ->
    exists new, st_log (ig_store ig') = st_log (ig_store ig) ++ new.
  Proof using Type.
    assert (forall {A} n ig es (a : A) ig' o, ibind (ig_transact mv n ig es) (fun ig _ => (ig, Ok a)) = (ig', Ok o) -> exists new, st_log (ig_store ig') = st_log (ig_store ig) ++ new) as Hfin.
    { intros A n ig es a ig' o (r & Ht & _)%finish_ig. by eapply ig_transact_log. }
    induction l as [|[k [d chk]] l IH]; intros ig out ig' out' Hq; cbn [do_all].
    - intros [= <- _]. exists []. by rewrite app_nil_r.
    - destruct (do_work mv _ ig (d, chk)) as [ig1 [o|e|p]] eqn:E; cbn [ibind]; [|discriminate..]. intros H.
      destruct (IH ig1 _ _ _ (fun x Hx => Hq x (elem_of_list_further _ _ _ Hx)) H) as (new2 & ->).
      assert (exists new, st_log (ig_store ig1) = st_log (ig_store ig) ++ new) as (new1 & ->).
      { pose proof (Hq _ (elem_of_list_here _ _)) as Hd. cbn [fst snd] in Hd. destruct chk as [| |v|v|m]; cbn [do_work] in E; [|discriminate| |discriminate|].
        - unfold install_vocabulary, ilift in E. destruct (description _ _); cbn [ibind] in E; [|discriminate..]. by eapply Hfin.
        - unfold upgrade_vocabulary in E. rewrite (proj1 (Hd _ _)) in E. unfold ilift in E. cbn [ibind] in E. destruct (description_diff _ _ _); cbn [ibind] in E; [|discriminate..].
          destruct (ig_transact _ _ _ _) as [ig2 [r|y|y]] eqn:Et; cbn [ibind] in E; [|discriminate..]. rewrite (proj2 (Hd _ _)) in E. cbn [ibind] in E. injection E as <- _. by eapply ig_transact_log.
        - unfold install_attributes_for, ilift in E. destruct (description_for_attributes _ _ _ _); cbn [ibind] in E; [|discriminate..]. by eapply Hfin. }
      exists (new1 ++ new2). by rewrite app_assoc.
  Qed.
  Lemma do_all_ok l : forall c ig out ig' out', at_conn ig c -> orderly mv c -> core_intact (schema_of c) -> all_allocated c ->
    (forall x, x ∈ l -> item c x) -> NoDup (flat_map work_names l) -> do_all mv now ig out l = (ig', Ok out') -> tidy (st_log (ig_store ig')) ->
    exists c', at_conn ig' c' /\ orderly mv c' /\ core_intact (schema_of c')
      /\ (forall k, storable_keyword k -> k ∉ flat_map work_names l -> alike k c c')
      /\ (forall x, x ∈ l -> provides c' x.2.1 /\ exists o, out' !! x.1 = Some o /\ o <> Existed /\ needed c0 x.2.1 o)
      /\ (forall k, k ∉ l.*1 -> out' !! k = out !! k).
  Proof using Hc0 Hcore0.
    induction l as [|x l IH]; intros c ig out ig' out' Hat Ho Hcore Hall Hit Hnd; cbn [do_all flat_map].
    - intros [= <- <-] _. exists c. split; [done|]. split; [done|]. split; [done|]. split; [by intros k _ _; apply alike_refl|]. split; [|done]. by intros x ?%elem_of_nil.
    - destruct x as [k [d chk]]. destruct (do_work mv _ ig (d, chk)) as [ig1 [o|e|p]] eqn:E; cbn [ibind]; [|discriminate..]. intros H Hti.
      cbn [flat_map] in Hnd. apply NoDup_app in Hnd as (_ & Hdis & Hnd).
      assert (item c (k, (d, chk))) as I by (apply Hit; by left). pose proof (it_acceptable _ _ I) as Hd. pose proof (it_name _ _ I) as Hname. cbn [fst snd] in Hd, Hname.
      destruct (do_item _ _ _ _ _ _ I Hat Hcore E) as (c1 & m & old & r & En & Hat1 & Hne & Hneed & Hkn). cbn [fst snd] in *.
      assert (tidy (st_log (disk c1))) as Hti1.
      { destruct (do_all_log l ig1 _ _ _ (fun x Hx => it_quiet _ _ (Hit x (elem_of_list_further _ _ _ Hx))) H) as (new & El). destruct Hat1 as (<- & _).
        rewrite El in Hti. by eapply tidy_app. }
      destruct (ensured_result Ho Hcore Hd Hall Hkn En Hti1) as (Ho1 & Hcore1 & Hp1).
      pose proof (step_allocated Ho Hcore Hd Hall Hkn En Hti1) as Hall1.
      assert (forall k', storable_keyword k' -> k' ∉ names_of d -> alike k' c c1) as Hal by (intros k' Hs Hn; exact (step_alike Ho Hcore Hd Hall Hkn En Hti1 k' Hs Hn)).
      destruct (IH c1 ig1 (<[k:=o]> out) ig' out') as (c' & Hat' & Ho' & Hcore' & Hal' & Hp' & Hout'); try done.
      { intros x Hx. destruct (Hit x) as [J1 J2 J3 J4 J5 J6 J7]; [by right|]. split; try done. intros k' Hk'. apply (alike_trans _ _ c); [by apply J7|].
        apply Hal; [by eapply names_storable|]. intros Hin. apply (Hdis k' Hin). apply elem_of_list_In, in_flat_map. exists x. split; [by apply elem_of_list_In|by apply elem_of_list_In]. }
      assert (forall k', k' ∈ names_of d -> k' ∉ flat_map work_names l) as Hdis' by (intros k' Hin; exact (Hdis k' Hin)).
      exists c'. split; [done|]. split; [done|]. split; [done|]. split; [|split].
      + intros k' Hs Hn. apply not_elem_of_app in Hn as [Hn1 Hn2]. apply (alike_trans _ _ c1); [by apply Hal|by apply Hal'].
      + intros x [->|Hx]%elem_of_cons; [|by apply Hp']. cbn [fst snd]. split.
        * apply (fun G => proj2 (alike_provides (c := c1) (c' := c') (d := d) G) Hp1). intros k' Hk'. apply Hal'; [by eapply names_storable|by apply Hdis'].
        * exists o. split; [|done]. rewrite Hout'; [apply lookup_insert|]. rewrite Hname. intros (x & Ex & Hx)%elem_of_list_fmap.
          apply (Hdis' (df_name d)); [by left|]. apply elem_of_list_In, in_flat_map. exists x. split; [by apply elem_of_list_In|]. apply elem_of_list_In.
          destruct (Hit x) as [J1 _ _ _ _ _ _]; [by right|]. unfold work_names, names_of. rewrite Ex, J1. by left.
      + intros k' Hk'. cbn [fmap list_fmap fst] in Hk'. apply not_elem_of_cons in Hk' as [Hk1 Hk2]. rewrite Hout' by done. by rewrite lookup_insert_ne.
  Qed.

  (* -------------------------------------------------------------- the checks *)

  Lemma names_app_work x y : flat_map work_names (x ++ y) = flat_map work_names x ++ flat_map work_names y.
  Proof using Type. apply flat_map_app. Qed.
  Lemma work_perm x y : x ≡ₚ y -> flat_map work_names x ≡ₚ flat_map work_names y.
  Proof using Type. intros H. by apply Permutation_flat_map. Qed.
  Lemma checks_ok l : forall out work out' work', rfold (step (c := c0)) (out, work) l = Ok (out', work') ->
    (forall d, d ∈ l -> acceptable d) -> (forall x, x ∈ work -> storable_keyword x.1 /\ x.1 = df_name x.2.1) ->
    NoDup (flat_map work_names work ++ flat_map names_of l) ->
    NoDup (flat_map work_names work') /\ (forall x, x ∈ work -> x ∈ work')
    /\ (forall x, x ∈ work' -> x ∈ work \/ exists d, d ∈ l /\ x.1 = df_name d /\ x.2.1 = d /\ check d = Ok x.2.2 /\ work_check x.2.2)
    /\ (forall d, d ∈ l -> (check d = Ok Present /\ out' !! df_name d = Some Existed) \/ exists k, (df_name d, (d, k)) ∈ work')
    /\ (forall k, k ∉ flat_map names_of l -> out' !! k = out !! k).
  Proof using Hc0 Hcore0.
    induction l as [|d l IH]; intros out work out' work' H Hacc Hw Hnd.
    - injection H as <- <-. rewrite app_nil_r in Hnd. split; [done|]. split; [done|]. split; [by left|]. split; [|done]. by intros d ?%elem_of_nil.
    - cbn [rfold] in H. apply rbind_Ok in H as ([out1 work1] & H1 & H2). cbn [flat_map] in Hnd.
      assert (acceptable d) as Hd by (apply Hacc; by left).
      assert (df_name d ∉ flat_map names_of l) as Hfresh.
      { apply NoDup_app in Hnd as (_ & _ & Hnd). apply NoDup_app in Hnd as (_ & Hdis & _). apply Hdis. by left. }
      assert (exists chk, check d = Ok chk /\ ((chk = Present /\ out1 = <[df_name d := Existed]> out /\ work1 = work) \/ (work_check chk /\ out1 = out /\ work1 = work_insert (df_name d) (d, chk) work))) as (chk & Ec & Hcase).
      { unfold step in H1. apply rbind_Ok in H1 as (chk & Ec & H1). exists chk. split; [done|]. destruct chk; try discriminate H1; injection H1 as <- <-; [right|left|right|right]; done. }
      destruct Hcase as [(-> & -> & ->)|(Hwc & -> & ->)].
      + destruct (IH _ _ _ _ H2) as (A1 & A2 & A3 & A4 & A5); [by intros; apply Hacc; right|done|..].
        { rewrite (Permutation_app_comm (names_of d)), app_assoc in Hnd. by apply NoDup_app in Hnd as (? & _ & _). }
        split; [done|]. split; [done|]. split; [|split].
        * intros x [?|(d' & ? & ?)]%A3; [by left|right]. exists d'. split; [by right|done].
        * intros d' [->|?]%elem_of_cons; [|by apply A4]. left. split; [done|]. rewrite A5 by done. apply lookup_insert.
        * intros k Hk. apply not_elem_of_app in Hk as [Hk1 Hk2]. rewrite A5 by done. rewrite lookup_insert_ne; [done|]. intros <-. apply Hk1. by left.
      + assert (work_insert (df_name d) (d, chk) work ≡ₚ (df_name d, (d, chk)) :: work) as Hp.
        { apply work_insert_new; [by apply (acc_name_storable Hd)|]. intros y Hy. destruct (Hw y Hy) as [Hs Ey]. split; [done|]. rewrite Ey. intros E.
          apply NoDup_app in Hnd as (_ & Hdis & _). apply (Hdis (df_name d)).
          - apply elem_of_list_In, in_flat_map. exists y. split; [by apply elem_of_list_In|]. apply elem_of_list_In. unfold work_names, names_of. rewrite E. by left.
          - apply elem_of_app. left. by left. }
        destruct (IH _ _ _ _ H2) as (A1 & A2 & A3 & A4 & A5); [by intros; apply Hacc; right|..].
        { intros x. rewrite Hp. intros [->|Hx]%elem_of_cons; [|by apply Hw]. split; [by apply (acc_name_storable Hd)|done]. }
        { rewrite (work_perm _ _ Hp). cbn [flat_map]. change (work_names (df_name d, (d, chk))) with (names_of d). by rewrite (Permutation_app_comm (names_of d)), <- app_assoc. }
        split; [done|]. split; [|split; [|split]].
        * intros x Hx. apply A2. rewrite Hp. by right.
        * intros x [Hx|(d' & ? & ?)]%A3; [|right; exists d'; split; [by right|done]]. rewrite Hp in Hx. apply elem_of_cons in Hx as [->|?]; [|by left].
          right. exists d. split; [by left|done].
        * intros d' [->|?]%elem_of_cons; [|by apply A4]. right. exists chk. apply A2. rewrite Hp. by left.
        * intros k Hk. apply not_elem_of_app in Hk as [Hk1 Hk2]. by apply A5.
  Qed.
End All.

Lemma filters_perm (work : list (keyword * work_item)) :
  List.filter is_neither work ++ List.filter is_upgrade work ++ List.filter is_missing work ≡ₚ work.
Proof.
  induction work as [|x l IH]; [done|]. cbn [List.filter].
  assert (is_neither x = negb (is_upgrade x || is_missing x)) as -> by done.
  destruct (is_upgrade x) eqn:E1, (is_missing x) eqn:E2; cbn [orb negb].
  - unfold is_upgrade, is_missing in *. destruct (x.2.2); discriminate.
  - cbn [app]. rewrite <- Permutation_middle. by f_equiv.
  - rewrite <- Permutation_middle, <- Permutation_middle. by f_equiv.
  - cbn [app]. by f_equiv.
Qed.
Lemma existed_at mv c c' now vs : clean mv c -> core_intact (schema_of c) -> disk c' = disk c -> schema_of c' = schema_of c ->
  (forall d, d ∈ vs_definitions vs -> provides c d /\ version_ok (df_version d)) ->
  exists c'' out, conn_ensure_all mv now c' vs = (c'', Ok out) /\ unchanged c' c'' /\ forall d, d ∈ vs_definitions vs -> out !! df_name d = Some Existed.
Proof.
  intros Hc Hcore E1 E2 Hp. destruct (all_present Hc Hcore _ Hp ∅) as (out & E & _ & Hl). unfold conn_ensure_all, ensure_vocabularies, ilift.
  change (ig_store (conn_begin c')) with (disk c'). change (ig_schema (conn_begin c')) with (schema_of c'). rewrite E1, E2, (check_all_eq (c := c)), E. cbn [ibind is_nil conn_finish].
  unfold conn_commit. rewrite decide_True by done. by eexists _, out.
Qed.
Lemma thm_all_ensured mv now c c' vs out : orderly mv c -> core_intact (schema_of c) -> all_allocated c -> quiet_source vs ->
  (forall d, d ∈ vs_definitions vs -> acceptable d /\ uniqueness_known c d) -> NoDup (flat_map names_of (vs_definitions vs)) ->
  conn_ensure_all mv now c vs = (c', Ok out) -> tidy (st_log (disk c')) ->
  (forall d, d ∈ vs_definitions vs -> provides c' d /\ exists o, out !! df_name d = Some o /\ needed c d o)
  /\ core_intact (schema_of c')
  /\ (forall k, storable_keyword k -> k ∉ flat_map names_of (vs_definitions vs) -> alike k c c')
  /\ forall now', exists c'' out', conn_ensure_all mv now' c' vs = (c'', Ok out') /\ unchanged c' c''
       /\ forall d, d ∈ vs_definitions vs -> out' !! df_name d = Some Existed.
Proof.
  intros Ho Hcore Hall (Hpre & Hpost & Hq) Hacc Hnd H Hti. pose proof (proj2 (orderly_whole _ _ Ho)) as Hc.
  unfold conn_ensure_all, ensure_vocabularies, ilift in H. change (ig_store (conn_begin c)) with (disk c) in H. change (ig_schema (conn_begin c)) with (schema_of c) in H.
  rewrite (check_all_eq (c := c)) in H. destruct (rfold _ _ _) as [[out1 work]|x|x] eqn:E; cbn [ibind conn_finish] in H; [|discriminate..].
  destruct (checks_ok (mv := mv) Hc Hcore _ _ _ _ _ E) as (A1 & _ & A3 & A4 & A5); [by intros d [? _]%Hacc|by intros x ?%elem_of_nil|done|].
  assert (forall d, d ∈ vs_definitions vs -> check_vocabulary (disk c) (schema_of c) d = Ok Present -> provides c d /\ version_ok (df_version d)) as Hpres.
  { intros d _ Hx. by apply (thm_check Hc Hcore d) in Hx. }
  assert (forall d, d ∈ vs_definitions vs -> version_ok (df_version d)) as Hvok by (intros d Hd; by destruct (Hacc d Hd) as [(_ & _ & ? & _) _]).
  destruct (is_nil work) eqn:En.
  - destruct work; [|discriminate En]. cbn [conn_finish] in H. unfold conn_commit in H. rewrite decide_True in H by done. injection H as <- <-.
    assert (forall d, d ∈ vs_definitions vs -> provides c d /\ version_ok (df_version d) /\ out1 !! df_name d = Some Existed) as Hex.
    { intros d Hd. destruct (A4 d Hd) as [[Hx Ho1]|(k & []%elem_of_nil)]. by destruct (Hpres d Hd Hx). }
    split; [|split; [done|split]].
    + intros d Hd. destruct (Hex d Hd) as (Hp & _ & Hout). split; [done|]. by exists Existed.
    + intros k _ _. by split.
    + intros now'. eapply existed_at; [exact Hc|exact Hcore|done|done|]. intros d Hd. by destruct (Hex d Hd) as (? & ? & _).
  - rewrite Hpre in H. cbn [ibind] in H. pose proof (filters_perm work) as Hp. set (w := _ ++ _ ++ _) in *.
    destruct (do_all mv now (conn_begin c) out1 w) as [ig1 [out2|x|x]] eqn:Ed; cbn [ibind conn_finish] in H; [|discriminate..].
    rewrite Hpost in H. cbn [ibind conn_finish] in H. unfold conn_commit in H. destruct (decide (ig_gen ig1 = md_gen (cn_md c))); [|discriminate H]. injection H as <- <-.
    cbn [cn_disk] in Hti. cbn [cn_disk cn_md md_schema].
    assert (forall x, x ∈ w -> item (c0 := c) c x) as Hit.
    { intros x Hx. rewrite Hp in Hx. destruct (A3 x Hx) as [[]%elem_of_nil|(d & Hd & E1 & E2 & E3 & E4)]. destruct (Hacc d Hd). split; rewrite ?E2; try done. by apply Hq. }
    assert (NoDup (flat_map work_names w)) as Hndw by (by rewrite (work_perm _ _ Hp)).
    destruct (do_all_ok (now := now) Hc Hcore w c (conn_begin c) out1 ig1 out2) as (c2 & (B1 & B2 & B3) & Ho2 & Hcore2 & Hal & Hpr & Hout); try done.
    assert (forall d, d ∈ vs_definitions vs -> (provides c d /\ (forall k, (df_name d, (d, k)) ∉ w)) \/ exists k, (df_name d, (d, k)) ∈ w) as Hdec.
    { intros d Hd. destruct (A4 d Hd) as [[Hx _]|(k & Hk)]; [left|right; exists k; by rewrite Hp]. split; [by apply Hpres|].
      intros k Hk. destruct (Hit _ Hk) as [_ _ _ _ I5 I6 _]. cbn [fst snd] in *. rewrite Hx in I5. injection I5 as <-. done. }
    assert (forall d d' k, d ∈ vs_definitions vs -> d' ∈ vs_definitions vs -> k ∈ names_of d -> k ∈ names_of d' -> d = d') as Hone.
    { clear -Hnd. induction (vs_definitions vs) as [|y l IH]; intros d d' k; [by intros ?%elem_of_nil|]. cbn [flat_map] in Hnd. apply NoDup_app in Hnd as (_ & Hdis & Hnd).
      assert (forall z, z ∈ l -> k ∈ names_of y -> k ∈ names_of z -> False) as Hno.
      { intros z Hz H1 H2. apply (Hdis k H1). apply elem_of_list_In, in_flat_map. exists z. split; by apply elem_of_list_In. }
      intros [->|H1]%elem_of_cons [->|H2]%elem_of_cons K1 K2; [done|by destruct (Hno d')|by destruct (Hno d)|by eapply IH]. }
    assert (forall k, k ∈ flat_map work_names w -> exists d, d ∈ vs_definitions vs /\ k ∈ names_of d /\ exists chk, (df_name d, (d, chk)) ∈ w) as Hinw.
    { intros k Hk. apply elem_of_list_In, in_flat_map in Hk as (x & Hx%elem_of_list_In & Hk%elem_of_list_In). pose proof Hx as Hx'. rewrite Hp in Hx'.
      destruct (A3 x Hx') as [[]%elem_of_nil|(d & Hd & E1 & E2 & _)]. exists d. split; [done|]. destruct x as [k' [d' chk]]. cbn [fst snd] in *. subst. split; [done|]. by exists chk. }
    assert (forall d, d ∈ vs_definitions vs -> provides c2 d) as Hall2.
    { intros d Hd. destruct (Hdec d Hd) as [[Hx Hno]|(k & Hk)]; [|by destruct (Hpr _ Hk)].
      apply (fun G => proj2 (alike_provides (c := c) (c' := c2) (d := d) G) Hx). intros k Hk. apply Hal; [destruct (Hacc d Hd); by eapply names_storable|].
      intros (d' & Hd' & Hk' & chk & Hin)%Hinw. rewrite <- (Hone d d' k Hd Hd' Hk Hk') in Hin. by apply Hno in Hin. }
    split; [|split; [by rewrite B3|split]].
    + intros d Hd. split; [pose proof (Hall2 d Hd) as Hx; unfold provides, has_version, has_attribute in *; cbn [cn_disk cn_md md_schema]; by rewrite B1, B3|].
      destruct (Hdec d Hd) as [[Hx Hno]|(k & Hk)].
      * exists Existed. split; [|done]. destruct (A4 d Hd) as [[_ Hx1]|(k & Hk)]; [|rewrite <- Hp in Hk; by apply Hno in Hk]. rewrite Hout; [done|].
        intros (x & Ex & Hx2)%elem_of_list_fmap. pose proof Hx2 as Hx3. rewrite Hp in Hx3. destruct (A3 x Hx3) as [[]%elem_of_nil|(d' & Hd' & E1 & E2 & _)].
        destruct x as [k' [d2 chk]]. cbn [fst snd] in *. subst k' d2. assert (d = d') as <-. { apply (Hone d d' (df_name d)); [done..|by left|]. replace (df_name d) with (df_name d') by congruence. by left. } by apply Hno in Hx2.
      * destruct (Hpr _ Hk) as [_ (o & Ho1 & _ & Ho2')]. by exists o.
    + intros k Hs Hn. destruct (Hal k Hs) as [C1 C2].
      { intros (d & Hd & Hk & _)%Hinw. apply Hn. apply elem_of_list_In, in_flat_map. exists d. split; by apply elem_of_list_In. }
      unfold alike. cbn [cn_disk cn_md md_schema]. rewrite B1, B3. by split.
    + intros now'. eapply existed_at; [exact (proj2 (orderly_whole _ _ Ho2))|exact Hcore2|done|done|]. intros d Hd. split; [by apply Hall2|by apply Hvok].
Qed.

(** Upsert resolution: the loop, the allocation of entids, and the result. *)
From Verif Require Import M_Upsert M_Tx Spec_Upsert P_Base P_Partition P_Fill P_Upsert.

(* ---------------------------------------------------------------- lookups *)

Lemma resolve_temp_id_avs_Ok mv st l m : resolve_temp_id_avs mv st l = Ok m ->
  forall x e, m !! x = Some e <-> exists av, (x, av) ∈ l /\ resolve_av st av = Some e.
Proof.
  unfold resolve_temp_id_avs. intros H. apply rbind_Ok in H as (look & Hl & H).
  assert (look = resolve_av st) as ->.
  { unfold resolve_avs in Hl. repeat (match type of Hl with context [if ?b then _ else _] => destruct b | context [match ?b with _ => _ end] => destruct b end; try done); by injection Hl. }
  clear Hl. revert H.
  match goal with |- rfold ?F _ _ = _ -> _ => set (f := F) end.
  assert (forall l m0 m, rfold f m0 l = Ok m ->
    forall x e, m !! x = Some e <-> m0 !! x = Some e \/ exists av, (x, av) ∈ l /\ resolve_av st av = Some e) as K.
  { clear. induction l as [|[y av] l IH]; intros m0 m H x e; cbn [rfold] in H.
    - injection H as <-. setoid_rewrite elem_of_nil. naive_solver.
    - apply rbind_Ok in H as (m1 & H1 & H). rewrite (IH _ _ H). setoid_rewrite elem_of_cons. unfold f in H1.
      destruct (resolve_av st av) as [e1|] eqn:E.
      + destruct (m0 !! y) as [p|] eqn:Ey.
        * destruct (decide (p = e1)) as [->|]; [|done]. injection H1 as <-. naive_solver.
        * injection H1 as <-. destruct (decide (x = y)) as [->|Hn].
          -- rewrite lookup_insert, Ey. naive_solver.
          -- rewrite lookup_insert_ne by done. naive_solver.
      + injection H1 as <-. naive_solver. }
  intros H x e. rewrite (K _ _ _ H), lookup_empty. naive_solver.
Qed.

Lemma merge_tempids_Ok τ m τ' : merge_tempids τ m = Ok τ' -> τ' = m ∪ τ /\ τ ⊆ τ' /\ m ⊆ τ'.
Proof.
  unfold merge_tempids. case_bool_decide as H; [|done]. intros [= <-]. split_and!; [done| |apply map_union_subseteq_l].
  apply map_subseteq_spec. intros x e Hx. apply lookup_union_Some_raw. destruct (m !! x) as [n|] eqn:E; [|by right].
  left. apply H in E. rewrite Hx in E. simpl in E. by rewrite E.
Qed.

(* ---------------------------------------------------------------- the loop *)

Record loop_inv (st : store) (s : schema) (ts : list term_t) (g : generation) (τ : gmap tempid Z) : Prop := {
  li_wf : gen_wf s g;
  li_from : forall t1, t1 ∈ pend g -> exists t, t ∈ ts /\ refines τ t t1;
  li_to : forall t, t ∈ ts -> (exists t1, t1 ∈ pend g /\ refines τ t t1) \/ exists x, identity_add s t x /\ is_Some (subst τ t);
  li_known : forall x e, τ !! x = Some e -> upserts_to st s ts τ x e }.

Lemma upserts_to_mono st s ts τ τ' x e : τ ⊆ τ' -> upserts_to st s ts τ x e -> upserts_to st s ts τ' x e.
Proof. intros H (t & v & H1 & H2 & H3 & H4). exists t, v. split_and!; try done. by eapply subst_v_mono. Qed.

Lemma loop_step mv st s ts g τ m g' τ' :
  loop_inv st s ts g τ -> resolve_temp_id_avs mv st (temp_id_avs g) = Ok m -> evolve_one_step g m = Ok g' ->
  merge_tempids τ m = Ok τ' -> loop_inv st s ts g' τ'.
Proof.
  intros [W F T K] Hm Hg Hτ. pose proof (resolve_temp_id_avs_Ok _ _ _ _ Hm) as Lm. apply merge_tempids_Ok in Hτ as (-> & S1 & S2).
  destruct (evolve_step_spec s g m (m ∪ τ) g' W S2 Hg) as (W' & F' & T' & _).
  split; [done|..].
  - intros t1 Ht1. destruct (F' _ Ht1) as (t0 & H0 & R0). destruct (F _ H0) as (t & Ht & R). exists t. split; [done|].
    eapply refines_trans; [|eassumption]. eapply refines_mono; [exact S1|eassumption].
  - intros t Ht. destruct (T _ Ht) as [(t0 & H0 & R0)|(x & Hx & Hs)].
    + destruct (T' _ H0) as [(t1 & H1 & R1)|(u & e & Hu & -> & He)].
      * left. exists t1. split; [done|]. eapply refines_trans; [|eassumption]. eapply refines_mono; [exact S1|eassumption].
      * right. exists u.1.1.
        assert (identity_add s t u.1.1) as Hid by (eapply refines_identity; [exact R0|]; by apply (gw_e _ _ W)).
        split; [done|]. destruct R0 as (_ & _ & _ & V0). unfold subst. rewrite (rf_v_subst _ _ _ _ V0 S1). destruct Hid as (_ & -> & _).
        simpl. assert ((m ∪ τ) !! u.1.1 = Some e) as -> by (eapply lookup_weaken; [exact He|exact S2]). eauto.
    + right. exists x. split; [done|]. destruct Hs as (t' & (Ho & Ha & He & Hv)%subst_Some). exists t'. apply subst_Some.
      split_and!; try done; [by eapply (subst_e_mono τ)|by eapply (subst_v_mono τ)].
  - intros x e. rewrite lookup_union_Some_raw. intros [Hx|[_ Hx]].
    + apply Lm in Hx as (av & Hin & Hav). unfold temp_id_avs in Hin. apply elem_of_list_fmap in Hin as ([[x' a] v] & Heq & Hu).
      injection Heq as <- ->. destruct (F (pe (x, a, v))) as (t & Ht & R); [apply pend_elem; naive_solver|].
      exists t, v. split_and!; try done.
      * eapply refines_identity; [exact R|]. by apply (gw_e _ _ W (x, a, v)).
      * destruct R as (_ & _ & _ & R). by rewrite (rf_v_subst _ _ _ _ R S1).
      * destruct R as (_ & R & _). simpl in R. by rewrite <- R.
    + eapply upserts_to_mono; [exact S1|]. by apply K.
Qed.

Lemma evolve_loop_Ok mv st s ts fuel : forall g τ g' τ', loop_inv st s ts g τ -> evolve_loop fuel mv st g τ = Ok (g', τ') ->
  loop_inv st s ts g' τ' /\ τ ⊆ τ' /\ g_upserts_e g' = [].
Proof.
  induction fuel as [|fuel IH]; intros g τ g' τ' Hi H; cbn [evolve_loop] in H.
  - destruct (can_evolve g) eqn:E; [done|]. injection H as <- <-. split_and!; try done.
    unfold can_evolve in E. apply negb_false_iff, is_nil_true in E. done.
  - destruct (can_evolve g) eqn:E.
    + apply rbind_Ok in H as (m & Hm & H). apply rbind_Ok in H as (g1 & Hg & H). apply rbind_Ok in H as (τ1 & Hτ & H).
      pose proof (loop_step _ _ _ _ _ _ _ _ _ Hi Hm Hg Hτ) as Hi1. destruct (IH _ _ _ _ Hi1 H) as (H1 & H2 & H3). split_and!; try done.
      apply merge_tempids_Ok in Hτ as (_ & ? & _). by etrans.
    + injection H as <- <-. split_and!; try done. unfold can_evolve in E. apply negb_false_iff, is_nil_true in E. done.
Qed.
(** A concrete value is looked up in the first step. *)
Lemma evolve_loop_first mv st s ts fuel g τ g' τ' u e : loop_inv st s ts g τ -> evolve_loop fuel mv st g τ = Ok (g', τ') ->
  u ∈ g_upserts_e g -> resolve_av st (u.1.2, u.2) = Some e -> τ' !! u.1.1 = Some e.
Proof.
  intros Hi H Hu He. assert (can_evolve g = true) as E.
  { unfold can_evolve. destruct (g_upserts_e g); [by apply elem_of_nil in Hu|done]. }
  destruct fuel as [|fuel]; cbn [evolve_loop] in H; rewrite E in H; [done|].
  apply rbind_Ok in H as (m & Hm & H). apply rbind_Ok in H as (g1 & Hg & H). apply rbind_Ok in H as (τ1 & Hτ & H).
  pose proof (loop_step _ _ _ _ _ _ _ _ _ Hi Hm Hg Hτ) as Hi1. destruct (evolve_loop_Ok _ _ _ _ _ _ _ _ _ Hi1 H) as (_ & S & _).
  apply merge_tempids_Ok in Hτ as (_ & _ & S2). eapply lookup_weaken; [|exact S]. eapply lookup_weaken; [|exact S2].
  apply (resolve_temp_id_avs_Ok _ _ _ _ Hm). exists (u.1.2, u.2). split; [|done]. unfold temp_id_avs. apply elem_of_list_fmap.
  exists u. by destruct u as [[]].
Qed.

(** The loop does not run out of fuel. *)
Lemma resolve_temp_id_avs_not_panic mv st l p : resolve_temp_id_avs mv st l = Panic p ->
  p = PTooManyValues /\ exists n, chunk_ok 4 mv n = false.
Proof.
  unfold resolve_temp_id_avs, resolve_avs. destruct (_ || _)%bool eqn:E; simpl; [|intros [= <-]; apply orb_false_iff in E as [_ E]; eauto]. clear E. intros H. exfalso. revert H.
  match goal with |- rfold ?F _ _ = _ -> _ => set (f := F) end. generalize (∅ : gmap tempid Z).
  induction l as [|[x av] l IH]; intros m0 H; cbn [rfold] in H; [done|]. unfold f in H at 1. simpl in H.
  destruct (resolve_av st av); [|by eapply IH]. destruct (m0 !! x); [|by eapply IH]. destruct (decide _); [by eapply IH|done].
Qed.
Lemma evolve_loop_panic mv st s p fuel : forall g τ, gen_wf s g ->
  (length (g_upserts_ev g) + (if is_nil (g_upserts_e g) then 0 else 1) <= fuel)%nat ->
  evolve_loop fuel mv st g τ = Panic p -> p = PTooManyValues /\ exists n, chunk_ok 4 mv n = false.
Proof.
  induction fuel as [|fuel IH]; intros g τ W Hf H; cbn [evolve_loop] in H; unfold can_evolve in H.
  - destruct (is_nil (g_upserts_e g)); [done|lia].
  - destruct (is_nil (g_upserts_e g)) eqn:E; [done|]. simpl in H.
    destruct (resolve_temp_id_avs _ _ _) as [m| |q] eqn:Em; simpl in H; [|done|].
    2:{ injection H as <-. by eapply resolve_temp_id_avs_not_panic. }
    destruct (evolve_one_step_Ok s g m W) as (up & Hg). rewrite Hg in H. simpl in H.
    destruct (merge_tempids τ m) as [τ1| |q] eqn:Eτ; simpl in H; [|done|].
    2:{ unfold merge_tempids in Eτ. destruct (bool_decide _); done. }
    apply IH in H; [done| |].
    + by eapply evolve_step_spec.
    + destruct (evolve_step_spec s g m m _ W (reflexivity m) Hg) as (_ & _ & _ & Hlen). simpl in *.
      destruct (flat_map (st_ev_e m) (g_upserts_ev g)); simpl in *; lia.
Qed.

(* ---------------------------------------------------------------- labels *)

Lemma index_of_Some {A} `{EqDecision A} (l : list A) x i : index_of l x = Some i -> l !! i = Some x.
Proof. unfold index_of. rewrite fmap_Some. intros ([j y] & (H1 & H2 & _)%list_find_Some & ->). simpl. by subst. Qed.
Lemma index_of_elem {A} `{EqDecision A} (l : list A) x : x ∈ l -> exists i, index_of l x = Some i.
Proof.
  intros H. unfold index_of. destruct (list_find_elem_of (fun y => y = x) l x H eq_refl) as (z & Hz). exists z.1. by rewrite Hz.
Qed.
Lemma index_of_NoDup {A} `{EqDecision A} (l : list A) x i : NoDup l -> l !! i = Some x -> index_of l x = Some i.
Proof.
  intros Hn Hi. destruct (index_of_elem l x) as (j & Hj); [by eapply elem_of_list_lookup_2|].
  pose proof (index_of_Some _ _ _ Hj). rewrite Hj. f_equal. by eapply NoDup_lookup.
Qed.

Lemma dense_spec ls : forall reps, NoDup reps -> exists reps',
  NoDup (reps ++ reps') /\ (length reps' <= length ls)%nat /\ Forall2 (fun l d => (reps ++ reps') !! d = Some l) ls (dense reps ls).
Proof.
  induction ls as [|l ls IH]; intros reps Hn; cbn [dense].
  - exists []. rewrite app_nil_r. by split_and!.
  - destruct (index_of reps l) as [d|] eqn:E.
    + destruct (IH reps Hn) as (r & H1 & H2 & H3). exists r. split_and!; try done; [simpl; lia|]. constructor; [|done].
      apply index_of_Some in E. by apply lookup_app_l_Some.
    + destruct (IH (reps ++ [l])) as (r & H1 & H2 & H3).
      { apply NoDup_app. split_and!; [done| |apply NoDup_singleton]. intros x Hx ->%elem_of_list_singleton.
        apply index_of_elem in Hx as (i & Hi). congruence. }
      exists (l :: r). rewrite <- app_assoc in *. simpl in *. split_and!; try done; [lia|]. constructor; [|done].
      rewrite lookup_app_r by lia. by rewrite Nat.sub_diag.
Qed.

(** Connected by pairs with the same key *)
Definition linked {K A} (xs : list (K * A)) (x y : A) : Prop := exists k, (k, x) ∈ xs /\ (k, y) ∈ xs.
Definition uf_inv (ids : list tempid) (xs : list (Z * (typed_value + tempid) * tempid))
    (acc : list (Z * (typed_value + tempid) * tempid) * list nat) : Prop :=
  length acc.2 = length ids
  /\ (forall i j x y l, ids !! i = Some x -> ids !! j = Some y -> acc.2 !! i = Some l -> acc.2 !! j = Some l -> rtsc (linked xs) x y)
  /\ (forall y, y ∈ acc.1 -> y ∈ xs)
  /\ (forall x, x ∈ xs -> exists y, y ∈ acc.1 /\ y.1 = x.1
       /\ forall i j, ids !! i = Some x.2 -> ids !! j = Some y.2 -> acc.2 !! i = acc.2 !! j)
  /\ NoDup (map fst acc.1).

Lemma linked_mono {K A} (xs : list (K * A)) z x y : rtsc (linked xs) x y -> rtsc (linked (xs ++ [z])) x y.
Proof.
  apply rtc_subrel. intros a b H. unfold sc, linked in *.
  destruct H as [(k & H1 & H2)|(k & H1 & H2)]; [left|right]; exists k; rewrite !elem_of_app; auto.
Qed.

Lemma union_av_inv ids xs acc x : NoDup ids -> x.2 ∈ ids -> (forall y, y ∈ xs -> y.2 ∈ ids) ->
  uf_inv ids xs acc -> uf_inv ids (xs ++ [x]) (union_av ids acc x).
Proof.
  intros Hids Hx Hxs (L & S & Sub & C & N). destruct acc as [seen labels]. simpl in *. unfold union_av.
  destruct (list_find (fun y => y.1 = x.1) seen) as [[k y]|] eqn:Ef.
  - apply list_find_Some in Ef as (Hk & Hy & _). assert (y ∈ seen) as Hin by (by eapply elem_of_list_lookup_2).
    destruct (index_of_elem ids y.2) as (i & Hi); [auto|]. destruct (index_of_elem ids x.2 Hx) as (j & Hj). rewrite Hi, Hj.
    apply index_of_Some in Hi, Hj.
    destruct (lookup_lt_is_Some_2 labels i) as (li & Hli). { rewrite L. by eapply lookup_lt_Some. }
    destruct (lookup_lt_is_Some_2 labels j) as (lj & Hlj). { rewrite L. by eapply lookup_lt_Some. }
    unfold uf_union. rewrite Hli, Hlj. set (f := fun l => if decide (l = lj) then li else l).
    assert (rtsc (linked (xs ++ [x])) y.2 x.2) as Hlink.
    { apply rtc_once. left. exists x.1. rewrite !elem_of_app. split; [left|right; apply elem_of_list_singleton; by destruct x].
      rewrite <- Hy. apply Sub. by destruct y. }
    assert (Symmetric (rtsc (linked (xs ++ [x])))) as Hsym by apply _.
    unfold uf_inv. simpl. split_and!.
    + by rewrite map_length.
    + intros i1 j1 x1 y1 l Hi1 Hj1 Hl1 Hl2. rewrite list_lookup_fmap in Hl1, Hl2.
      apply fmap_Some in Hl1 as (l1 & Hl1 & ->). apply fmap_Some in Hl2 as (l2 & Hl2 & Heq). unfold f in Heq.
      destruct (decide (l1 = lj)) as [->|], (decide (l2 = lj)) as [->|].
      * apply linked_mono. by apply (S i1 j1 _ _ lj).
      * etrans; [apply linked_mono, (S i1 j _ _ lj); done|]. etrans; [by symmetry|]. apply linked_mono. apply (S i j1 _ _ li); congruence.
      * etrans; [apply linked_mono, (S i1 i _ y.2 l1); congruence|]. etrans; [done|]. apply linked_mono. by apply (S j j1 _ _ lj).
      * apply linked_mono. apply (S i1 j1 _ _ l2); congruence.
    + intros z Hz. apply elem_of_app. left. auto.
    + intros z [Hz| ->%elem_of_list_singleton]%elem_of_app.
      * destruct (C z Hz) as (y' & H1 & H2 & H3). exists y'. split_and!; try done. intros i1 j1 Hi1 Hj1.
        rewrite !list_lookup_fmap. f_equal. by apply H3.
      * exists y. split_and!; try done. intros i1 j1 Hi1 Hj1.
        assert (i1 = j) as -> by (by eapply (NoDup_lookup ids)). assert (j1 = i) as -> by (by eapply (NoDup_lookup ids)).
        rewrite !list_lookup_fmap, Hli, Hlj. simpl. f_equal. unfold f. rewrite decide_True by done. by destruct (decide _).
    + done.
  - unfold uf_inv. simpl. split_and!.
    + done.
    + intros. apply linked_mono. eauto.
    + intros z [Hz| ->%elem_of_list_singleton]%elem_of_app; apply elem_of_app; [left; auto|right; by left].
    + intros z [Hz| ->%elem_of_list_singleton]%elem_of_app.
      * destruct (C z Hz) as (y & H1 & H2 & H3). exists y. split_and!; try done. apply elem_of_app. by left.
      * exists x. split_and!; [apply elem_of_app; right; by left|done|]. intros i1 j1 Hi1 Hj1.
        assert (i1 = j1) as -> by (by eapply (NoDup_lookup ids)). done.
    + rewrite map_app. apply NoDup_app. split_and!; [done| |apply NoDup_singleton]. intros k Hk ->%elem_of_list_singleton.
      apply elem_of_list_fmap in Hk as (y & Hy & Hin). apply list_find_None in Ef. rewrite Forall_forall in Ef. by apply (Ef y).
Qed.

Lemma fold_union_av ids l : forall xs acc, NoDup ids -> (forall y, y ∈ l -> y.2 ∈ ids) -> (forall y, y ∈ xs -> y.2 ∈ ids) ->
  uf_inv ids xs acc -> uf_inv ids (xs ++ l) (fold_left (union_av ids) l acc).
Proof.
  induction l as [|x l IH]; intros xs acc Hn Hl Hxs Hi; cbn [fold_left].
  - by rewrite app_nil_r.
  - replace (xs ++ x :: l) with ((xs ++ [x]) ++ l) by (by rewrite <- app_assoc). apply IH; try done.
    + intros; apply Hl; by right.
    + intros y [Hy| ->%elem_of_list_singleton]%elem_of_app; [auto|]. apply Hl. by left.
    + apply union_av_inv; try done. apply Hl. by left.
Qed.

Definition keyed (s : schema) (g : generation) (xs : list (Z * (typed_value + tempid) * tempid)) : Prop :=
  forall a v x, (a, v, x) ∈ xs <-> exists t, t ∈ g_allocations g /\ identity_add s t x /\ tm_a t = a /\ tm_v t = v.

Lemma temp_ids_in_allocations_Ok s g labels : temp_ids_in_allocations s g = Ok labels ->
  exists ids xs, map fst labels = ids /\ NoDup ids /\ keyed s g xs
  /\ (forall x, x ∈ ids <-> exists t, t ∈ g_allocations g /\ x ∈ alloc_tempids t)
  /\ (forall x d, (x, d) ∈ labels -> (d < length labels)%nat)
  /\ (forall x y d, (x, d) ∈ labels -> (y, d) ∈ labels -> rtsc (linked xs) x y)
  /\ (forall k x y d d', (k, x) ∈ xs -> (k, y) ∈ xs -> (x, d) ∈ labels -> (y, d') ∈ labels -> d = d').
Proof.
  unfold temp_ids_in_allocations. destruct (_ || _)%bool; [done|]. intros H. apply rbind_Ok in H as (avs & Hav & H).
  set (ids := merge_sort tempid_le (remove_dups (flat_map alloc_tempids (g_allocations g)))) in *.
  set (xs := omap id avs) in *.
  assert (NoDup ids) as Hn. { unfold ids. rewrite merge_sort_Permutation. apply NoDup_remove_dups. }
  assert (forall x, x ∈ ids <-> exists t, t ∈ g_allocations g /\ x ∈ alloc_tempids t) as Hids.
  { intros x. unfold ids. rewrite merge_sort_Permutation, elem_of_remove_dups, elem_of_flat_map. done. }
  assert (keyed s g xs) as Hk.
  { intros a v x. unfold xs. rewrite elem_of_list_omap. apply rmapM_Ok in Hav. split.
    - intros (o & Ho & Hid). simpl in Hid. unfold id in Hid. subst o.
      apply elem_of_list_lookup in Ho as (i & Hi). destruct (Forall2_lookup_r _ _ _ _ _ Hav Hi) as (t & Ht & Hf).
      exists t. split; [by eapply elem_of_list_lookup_2|]. unfold alloc_av in Hf.
      destruct (tm_op t) eqn:Eo; [|done]. destruct (tm_e t) as [|x'] eqn:Ee; [by destruct (tm_v t)|].
      apply rbind_Ok in Hf as (b & (at_ & Hat & Hb)%is_identity_Ok & Hf). destruct b; [|done]. injection Hf as <- <- <-.
      split_and!; try done. split_and!; try done. exists at_. split; [done|]. by apply Hb.
    - intros (t & Ht & (Ho & He & at_ & Hat & Hu) & <- & <-). exists (Some (tm_a t, tm_v t, x)). split; [|done].
      apply elem_of_list_lookup in Ht as (i & Hi). destruct (Forall2_lookup_l _ _ _ _ _ Hav Hi) as (o & Hoi & Hf).
      unfold alloc_av in Hf. rewrite Ho, He in Hf. apply rbind_Ok in Hf as (b & (at2 & Hat2 & Hb)%is_identity_Ok & Hf).
      assert (at2 = at_) as -> by congruence. apply Hb in Hu as ->. injection Hf as <-. by eapply elem_of_list_lookup_2. }
  assert (forall y, y ∈ xs -> y.2 ∈ ids) as Hxs.
  { intros [[a v] x] (t & Ht & (Ho & He & _) & _)%Hk. simpl. apply Hids. exists t. split; [done|]. unfold alloc_tempids. rewrite Ho, He.
    destruct (tm_v t); by left. }
  assert (uf_inv ids ([] ++ xs) (fold_left (union_av ids) xs ([], seq 0 (length ids)))) as Hi.
  { apply fold_union_av; try done.
    - by intros y ?%elem_of_nil.
    - unfold uf_inv. simpl. split_and!.
      + by rewrite seq_length.
      + intros i j x y l Hi Hj H1 H2. apply lookup_seq in H1 as [-> _], H2 as [H2 _]. simpl in H2. subst j. assert (x = y) as -> by congruence.
        apply rtc_refl.
      + done.
      + by intros ? ?%elem_of_nil.
      + constructor. }
  change ([] ++ xs) with xs in Hi. destruct (fold_left (union_av ids) xs ([], seq 0 (length ids))) as [seen ls]. injection H as <-.
  destruct Hi as (L & S & Sub & C & N). simpl in *.
  destruct (dense_spec ls [] (NoDup_nil_2)) as (reps & Hr & Hrl & Hd). simpl in Hr, Hd.
  set (ds := dense [] ls) in *. pose proof (Forall2_length _ _ _ Hd) as Hlen.
  assert (forall x d, (x, d) ∈ zip ids ds -> exists i l, ids !! i = Some x /\ ls !! i = Some l /\ reps !! d = Some l) as Hz.
  { intros x d (i & Hi)%elem_of_list_lookup. apply lookup_zip_with_Some in Hi as (x' & d' & [= <- <-] & H1 & H2).
    destruct (Forall2_lookup_r _ _ _ _ _ Hd H2) as (l & H3 & H4). exists i, l. done. }
  exists ids, xs. split_and!; try done.
  - fold (zip ids ds). change (map fst (zip ids ds)) with ((zip ids ds).*1). apply fst_zip. lia.
  - intros x d H. assert (length (zip ids ds) = length ids) as ->. { rewrite zip_with_length. lia. }
    apply Hz in H as (i & l & _ & _ & Hd'). apply lookup_lt_Some in Hd'. lia.
  - intros x y d H1 H2. apply Hz in H1 as (i & l & A1 & A2 & A3), H2 as (j & l' & B1 & B2 & B3).
    assert (l' = l) as -> by congruence. by eapply S.
  - intros k x y d d' K1 K2 H1 H2. apply Hz in H1 as (i & l & A1 & A2 & A3), H2 as (j & l' & B1 & B2 & B3).
    destruct (C _ K1) as (y1 & I1 & E1 & F1), (C _ K2) as (y2 & I2 & E2 & F2). simpl in *.
    assert (y2 = y1) as -> by (eapply (NoDup_map_inj fst); try done; congruence).
    destruct (elem_of_list_lookup_1 ids y1.2) as (i1 & Hi1). { by apply Hxs, Sub. }
    rewrite (F1 _ _ A1 Hi1) in A2. rewrite (F2 _ _ B1 Hi1) in B2. assert (l' = l) as -> by congruence.
    by eapply NoDup_lookup.
Qed.

(* ---------------------------------------------------------------- the result *)

(** The terms that are written *)
Definition final_term (r : resolved_terms) (t : term_s) : Prop :=
  t ∈ rv_resolved r \/ t ∈ rv_allocated r \/ inert_term t ∈ rv_inert r.

Record resolution (st : store) (pm : partition_map) (s : schema) (ts : list term_t) (ids : gset tempid)
    (r : resolved_terms) (τ : gmap tempid Z) : Prop := {
  rs_dom : dom (rv_tempids r) = ids;
  rs_sub : τ ⊆ rv_tempids r;
  rs_upsert : forall x e, τ !! x = Some e -> upserts_to st s ts (rv_tempids r) x e;
  rs_found : forall t x v e, t ∈ ts -> identity_add s t x -> tm_v t = inl v -> resolve_av st (tm_a t, v) = Some e -> τ !! x = Some e;
  rs_fresh : exists p n, pm !! ":db.part/user" = Some p /\ 0 <= n /\ pt_start p <= pt_next p + n <= pt_end p
    /\ rv_parts r = <[":db.part/user" := Part (pt_start p) (pt_end p) (pt_allow_excision p) (pt_next p + n)]> pm
    /\ forall x e, rv_tempids r !! x = Some e -> τ !! x = None -> pt_next p <= e < pt_next p + n;
  rs_subst : forall t, t ∈ ts -> is_Some (subst (rv_tempids r) t);
  rs_from : forall t', final_term r t' -> exists t, t ∈ ts /\ subst (rv_tempids r) t = Some t';
  rs_to : forall t t', t ∈ ts -> subst (rv_tempids r) t = Some t' ->
    final_term r t' \/ exists x, identity_add s t x /\ is_Some (τ !! x);
  rs_same : forall x y e, rv_tempids r !! x = Some e -> rv_tempids r !! y = Some e -> τ !! x = None -> τ !! y = None ->
    rtsc (shares s ts (rv_tempids r)) x y;
  rs_share : forall t u x y v, t ∈ ts -> u ∈ ts -> identity_add s t x -> identity_add s u y -> tm_a t = tm_a u ->
    tm_v t = inl v -> tm_v u = inl v -> τ !! x = None -> τ !! y = None -> rv_tempids r !! x = rv_tempids r !! y }.

Lemma finalize_term_Ok m t t' : finalize_term m t = Ok t' -> subst m t = Some t'.
Proof.
  unfold finalize_term, subst. destruct t as [o [e|x] a [v|y]]; simpl; [done|..].
  - destruct (m !! y); simpl; [by intros [= ->]|by destruct o].
  - destruct (m !! x); simpl; [by intros [= ->]|by destruct o].
  - destruct (m !! x), (m !! y); simpl; first [by intros [= ->]|by destruct o].
Qed.
Lemma alloc_tempids_of t x : x ∈ alloc_tempids t -> x ∈ tempids_of t.
Proof. unfold alloc_tempids, tempids_of. destruct (tm_op t), (tm_e t), (tm_v t); simpl; try done; by intros ?%elem_of_nil. Qed.

(** The loop invariant holds at first. *)
Lemma loop_inv_start st s ts g inert : gen_from s ts = Ok (g, inert) -> loop_inv st s (pend g) g ∅.
Proof.
  intros (W & R & U & E & I & N)%gen_from_Ok. split; [done|..].
  - intros t1 Ht1. exists t1. split; [done|apply refines_refl].
  - intros t Ht. left. exists t. split; [done|apply refines_refl].
  - intros x e. by rewrite lookup_empty.
Qed.

Lemma pend_unresolved g : pend (allocate_unresolved_upserts g) = map pe (g_upserts_e g) ++ (g_allocations g ++ map pev (g_upserts_ev g)) ++ map inert_term (g_resolved g).
Proof. unfold pend, allocate_unresolved_upserts. simpl. f_equal. f_equal. f_equal. apply map_ext. by intros [[]]. Qed.
Lemma loop_inv_end st s ts g τ : loop_inv st s ts g τ -> g_upserts_e g = [] -> loop_inv st s ts (allocate_unresolved_upserts g) τ.
Proof.
  intros [W F T K] He.
  assert (forall t, t ∈ pend (allocate_unresolved_upserts g) <-> t ∈ pend g) as Hp.
  { intros t. rewrite pend_unresolved. unfold pend. rewrite !elem_of_app. tauto. }
  split.
  - destruct W as [W1 W2 W3]. split; simpl; try done; [by intros ? ?%elem_of_nil|].
    intros t [?|([[x a] y] & -> & _)%elem_of_list_fmap]%elem_of_app; [by apply W3|done].
  - intros t1. rewrite Hp. apply F.
  - intros t Ht. setoid_rewrite Hp. by apply T.
  - done.
Qed.

Lemma allocs_lookup (labels : list (tempid * nat)) start x e : NoDup (map fst labels) ->
  (list_to_map (map (fun '(t, i) => (t, start + Z.of_nat i)) labels) : gmap tempid Z) !! x = Some e <->
  exists d, (x, d) ∈ labels /\ e = start + Z.of_nat d.
Proof.
  intros Hn. rewrite <- elem_of_list_to_map.
  - rewrite elem_of_list_fmap. split; [intros ([x' d] & [= -> ->] & H); eauto|]. intros (d & H & ->). by exists (x, d).
  - match goal with |- NoDup ?l => replace l with (map fst labels) end; [done|].
    rewrite <- list_fmap_compose. apply map_ext. by intros [].
Qed.

Lemma inert_no_tempids t : tempids_of t = [] <-> exists t', t = inert_term t'.
Proof.
  split; [|by intros (t' & ->)]. destruct t as [o [e|] a [v|]]; try done. intros _. by exists (Term o e a v).
Qed.
Lemma subst_inert σ t : subst σ (inert_term t) = Some t.
Proof. by destruct t. Qed.

Lemma resolve_terms_resolution mv st pm s ts ids r : resolve_terms mv st pm s ts ids = Ok r ->
  exists τ, resolution st pm s ts ids r τ.
Proof.
  unfold resolve_terms. intros H.
  apply rbind_Ok in H as ([g0 inert] & Hg0 & H). apply rbind_Ok in H as ([g1 τ] & Hl & H).
  apply rbind_Ok in H as (labels & Hlab & H). apply rbind_Ok in H as ([start pm'] & Hpm & H).
  set (allocs := list_to_map _ : gmap tempid Z) in H. apply rbind_Ok in H as ([[up rs] al] & Hfin & H).
  destruct (bool_decide (map_Forall (fun t _ => τ !! t = None) allocs)) eqn:E8; [|done]. apply bool_decide_eq_true in E8. simpl in H.
  destruct (bool_decide (dom (allocs ∪ τ) = ids)) eqn:E13; [|done]. apply bool_decide_eq_true in E13. simpl in H.
  injection H as <-.
  pose proof (loop_inv_start st _ _ _ _ Hg0) as I0. pose proof (gen_from_Ok _ _ _ _ Hg0) as (W0 & R0 & U0 & Ets & Hinert & Nid).
  destruct (evolve_loop_Ok _ _ _ _ _ _ _ _ _ I0 Hl) as (I1 & _ & Hnil).
  pose proof (loop_inv_end _ _ _ _ _ I1 Hnil) as I2. set (g := allocate_unresolved_upserts g1) in *.
  assert (g_upserts_e g = []) as Hge by done. assert (g_upserts_ev g = []) as Hgev by done.
  destruct I2 as [W F T K].
  destruct (temp_ids_in_allocations_Ok _ _ _ Hlab) as (ids' & xs & Hfst & Hnd & Hk & Hids & Hlt & Hsame & Hsh). subst ids'.
  apply pm_allocate_Ok in Hpm as (p & Hp & -> & Hpr & ->).
  assert (forall x e, allocs !! x = Some e <-> exists d, (x, d) ∈ labels /\ e = pt_next p + Z.of_nat d) as Hal by (intros; by apply allocs_lookup).
  assert (τ ⊆ allocs ∪ τ) as Sτ.
  { apply map_union_subseteq_r. apply map_disjoint_spec. intros x e e' H1 H2. specialize (E8 _ _ H1). simpl in E8. congruence. }
  assert (allocs ⊆ allocs ∪ τ) as Sal by apply map_union_subseteq_l.
  set (σ := allocs ∪ τ) in *.
  unfold into_final_populations in Hfin. rewrite Hge, Hgev in Hfin. simpl in Hfin. apply rbind_Ok in Hfin as (al' & Hfin & [= <- <- <-]).
  apply rmapM_Ok in Hfin.
  assert (forall t', final_term (Resolved (<[":db.part/user" := Part (pt_start p) (pt_end p) (pt_allow_excision p) (pt_next p + Z.of_nat (length labels))]> pm) σ (g_upserted g) (g_resolved g) al' inert) t'
    <-> (exists t, t ∈ pend g /\ subst σ t = Some t') \/ inert_term t' ∈ inert) as Hft.
  { intros t'. unfold final_term. cbn [rv_resolved rv_allocated rv_inert]. unfold pend. rewrite Hge, Hgev. cbn [map]. rewrite !app_nil_l.
    setoid_rewrite elem_of_app. split.
    - intros [H|[H|H]]; [left|left|by right].
      + exists (inert_term t'). split; [right; by apply elem_of_list_fmap_1|apply subst_inert].
      + apply elem_of_list_lookup in H as (i & Hi). destruct (Forall2_lookup_r _ _ _ _ _ Hfin Hi) as (t & Ht & Hf).
        exists t. split; [left; by eapply elem_of_list_lookup_2|]. apply finalize_term_Ok in Hf.
        apply subst_Some in Hf as (? & ? & ? & ?). apply subst_Some. split_and!; try done; [by eapply (subst_e_mono allocs)|by eapply (subst_v_mono allocs)].
    - intros [(t & [Ht|Ht] & Hs)|H]; [right; left|left|by right; right].
      + apply elem_of_list_lookup in Ht as (i & Hi). destruct (Forall2_lookup_l _ _ _ _ _ Hfin Hi) as (t2 & Ht2 & Hf).
        assert (t2 = t') as ->; [|by eapply elem_of_list_lookup_2]. apply finalize_term_Ok in Hf.
        apply subst_Some in Hf as (? & ? & He & Hv). assert (subst σ t = Some t2); [|congruence].
        apply subst_Some. split_and!; try done; [by eapply (subst_e_mono allocs)|by eapply (subst_v_mono allocs)].
      + apply elem_of_list_fmap in Ht as (u & -> & Hu). rewrite subst_inert in Hs. congruence. }
  assert (forall t, t ∈ pend g -> is_Some (subst σ t)) as Hps.
  { intros t. unfold pend. rewrite Hge, Hgev. cbn [map]. rewrite !app_nil_l, elem_of_app. intros [Ht|(u & -> & Hu)%elem_of_list_fmap]; [|rewrite subst_inert; eauto].
    apply elem_of_list_lookup in Ht as (i & Hi). destruct (Forall2_lookup_l _ _ _ _ _ Hfin Hi) as (t2 & Ht2 & Hf).
    exists t2. apply finalize_term_Ok in Hf. apply subst_Some in Hf as (? & ? & He & Hv).
    apply subst_Some. split_and!; try done; [by eapply (subst_e_mono allocs)|by eapply (subst_v_mono allocs)]. }
  assert (forall x t v, t ∈ pend g0 -> identity_add s t x -> tm_v t = inl v -> τ !! x = None -> (tm_a t, inl v, x) ∈ xs) as Hin_xs.
  { intros x t v Ht Hid Hv Hx. destruct (T t Ht) as [(t1 & Ht1 & R)|(x' & Hid' & (t' & Hs))].
    - apply Hk. exists t1. destruct R as (Ro & Ra & Re & Rv). destruct Hid as (Ho & He & Hat).
      rewrite He in Re. rewrite Hv in Rv.
      destruct Re as [Re|(z & n & [= <-] & Hz & _)]; [|congruence]. destruct Rv as [Rv|(z & n & ? & _)]; [|done].
      split; [|split; [split; [congruence|split; [congruence|by rewrite Ra]]|by rewrite Ra, Rv]].
      unfold pend in Ht1. rewrite Hge, Hgev in Ht1. cbn [map] in Ht1. rewrite !app_nil_l, elem_of_app in Ht1.
      destruct Ht1 as [|(u & -> & _)%elem_of_list_fmap]; done.
    - exfalso. destruct Hid as (_ & He & _), Hid' as (_ & He' & _). apply subst_Some in Hs as (_ & _ & Hs & _). rewrite He in Hs. simpl in Hs. congruence. }
  assert (forall t, t ∈ ts -> t ∈ pend g0 \/ t ∈ inert) as Hts by (intros; by apply Ets).
  assert (forall t, t ∈ pend g0 -> t ∈ ts) as Hpt by (intros; apply Ets; by left).
  assert (forall t x, t ∈ inert -> identity_add s t x -> False) as Hni.
  { intros t x Ht (_ & He & _). apply Hinert in Ht. unfold tempids_of in Ht. by rewrite He in Ht. }
  exists τ. split; cbn [rv_tempids rv_parts].
  - done.
  - done.
  - intros x e Hx. apply K in Hx as (t & v & H1 & H2 & H3 & H4). exists t, v. split_and!; try done; [by apply Hpt|by eapply (subst_v_mono τ)].
  - intros t x v e Ht Hid Hv He. destruct (Hts _ Ht) as [Ht0|Ht0]; [|by destruct (Hni _ _ Ht0 Hid)].
    apply pend_elem in Ht0 as [(u & Hu & ->)|[(u & Hu & ->)|[Ht0|(u & Hu & ->)]]].
    + destruct Hid as (_ & Hx & _). simpl in *. injection Hx as <-. injection Hv as <-.
      exact (evolve_loop_first mv st s _ _ g0 ∅ _ _ u e I0 Hl Hu He).
    + done.
    + by destruct (Nid _ Ht0 x).
    + by destruct Hid as (_ & ? & _).
  - exists p, (Z.of_nat (length labels)). split_and!; try done; try lia. intros x e Hx Hτ. unfold σ in Hx.
    apply lookup_union_Some_raw in Hx as [Hx|[_ Hx]]; [|congruence]. apply Hal in Hx as (d & Hd & ->). apply Hlt in Hd. lia.
  - intros t Ht. destruct (Hts _ Ht) as [Ht0|Ht0].
    + destruct (T t Ht0) as [(t1 & Ht1 & R)|(x & _ & (t' & Hs))].
      * rewrite (refines_subst _ _ _ _ R Sτ). by apply Hps.
      * exists t'. apply subst_Some in Hs as (? & ? & ? & ?). apply subst_Some.
        split_and!; try done; [by eapply (subst_e_mono τ)|by eapply (subst_v_mono τ)].
    + apply Hinert, inert_no_tempids in Ht0 as (t' & ->). rewrite subst_inert. eauto.
  - intros t' [(t1 & Ht1 & Hs)|Hi]%Hft.
    + destruct (F _ Ht1) as (t & Ht & R). exists t. split; [by apply Hpt|]. by rewrite (refines_subst _ _ _ _ R Sτ).
    + exists (inert_term t'). split; [apply Ets; by right|apply subst_inert].
  - intros t t' Ht Hs. destruct (Hts _ Ht) as [Ht0|Ht0].
    + destruct (T t Ht0) as [(t1 & Ht1 & R)|(x & Hid & (t2 & Hs2))].
      * left. apply Hft. left. exists t1. split; [done|]. by rewrite <- (refines_subst _ _ _ _ R Sτ).
      * right. exists x. split; [done|]. apply subst_Some in Hs2 as (_ & _ & Hx & _). destruct Hid as (_ & He & _). rewrite He in Hx. simpl in Hx. eauto.
    + left. apply Hft. right. destruct (proj1 (inert_no_tempids t) (Hinert _ Ht0)) as (t2 & ->). rewrite subst_inert in Hs. by injection Hs as ->.
  - intros x y e Hx Hy Hτx Hτy. unfold σ in Hx, Hy.
    apply lookup_union_Some_raw in Hx as [Hx|[_ Hx]]; [|congruence]. apply lookup_union_Some_raw in Hy as [Hy|[_ Hy]]; [|congruence].
    apply Hal in Hx as (d & Hd & ->). apply Hal in Hy as (d' & Hd' & Heq). assert (d' = d) as -> by lia.
    pose proof (Hsame _ _ _ Hd Hd') as Hl'. revert Hl'. apply (rtsc_congruence id). clear -Hk F Hps Sτ Hpt.
    intros x y ([a v] & (t1 & Ht1 & Hid1 & Ha1 & Hv1)%Hk & (u1 & Hu1 & Hid2 & Ha2 & Hv2)%Hk).
    assert (t1 ∈ pend g) as Pt by (apply pend_elem; auto). assert (u1 ∈ pend g) as Pu by (apply pend_elem; auto).
    destruct (F _ Pt) as (t & Ht & Rt), (F _ Pu) as (u & Hu & Ru). exists t, u. split_and!; [auto|auto| | | |].
    + by eapply refines_identity.
    + by eapply refines_identity.
    + destruct Rt as (_ & Rt & _), Ru as (_ & Ru & _). congruence.
    + destruct (Hps _ Pt) as (t' & (_ & _ & _ & Hv)%subst_Some). exists (tm_v t').
      destruct Rt as (_ & _ & _ & Rt), Ru as (_ & _ & _ & Ru). rewrite (rf_v_subst _ _ _ _ Rt Sτ), (rf_v_subst _ _ _ _ Ru Sτ).
      split; [done|]. congruence.
  - intros t u x y v Ht Hu Hit Hiu Ha Hvt Hvu Hx Hy.
    destruct (Hts _ Ht) as [Ht0|Ht0]; [|by destruct (Hni _ _ Ht0 Hit)]. destruct (Hts _ Hu) as [Hu0|Hu0]; [|by destruct (Hni _ _ Hu0 Hiu)].
    pose proof (Hin_xs _ _ _ Ht0 Hit Hvt Hx) as X1. pose proof (Hin_xs _ _ _ Hu0 Hiu Hvu Hy) as X2. rewrite <- Ha in X2.
    assert (forall z k, (k, z) ∈ xs -> exists d, (z, d) ∈ labels) as Hd.
    { intros z [a w] (t1 & Ht1 & (Ho & He & _) & _)%Hk. assert (z ∈ map fst labels) as Hz.
      { apply Hids. exists t1. split; [done|]. unfold alloc_tempids. rewrite Ho, He. destruct (tm_v t1); by left. }
      apply elem_of_list_fmap in Hz as ([z' d] & -> & Hz). eauto. }
    destruct (Hd _ _ X1) as (d & D1), (Hd _ _ X2) as (d' & D2). assert (d' = d) as -> by (symmetry; exact (Hsh _ _ _ _ _ X1 X2 D1 D2)).
    transitivity (Some (pt_next p + Z.of_nat d)); [|symmetry]; apply (lookup_weaken allocs σ); try done; apply Hal; eauto.
Qed.

(* ---------------------------------------------------------------- panics *)

Lemma rmapM_Panic {A B} (f : A -> res B) l p : rmapM f l = Panic p -> exists x, x ∈ l /\ f x = Panic p.
Proof.
  induction l as [|x l IH]; cbn [rmapM]; [done|]. destruct (f x) as [y| |q] eqn:E; simpl; [|done|].
  - destruct (rmapM f l) as [ys| |q]; simpl; [done|done|]. intros [= ->]. destruct IH as (z & ? & ?); [done|].
    exists z. split; [by right|done].
  - intros [= ->]. exists x. split; [by left|done].
Qed.
Lemma is_identity_not_panic s a p : is_identity s a <> Panic p.
Proof. unfold is_identity, require_attribute, ok_or. by destruct (sc_attribute_map s !! a). Qed.
Lemma gen_from_not_panic s ts p : gen_from s ts <> Panic p.
Proof.
  unfold gen_from. generalize (gen_empty, @nil term_t). induction ts as [|t ts IH]; intros acc; cbn [rfold]; [done|].
  assert (forall q, gen_from_one s acc t <> Panic q) as H.
  { intros q. unfold gen_from_one. destruct acc as [g inert]. pose proof (is_identity_not_panic s (tm_a t)) as Hi.
    destruct (tm_e t), (tm_v t), (tm_op t); try done; destruct (is_identity s (tm_a t)) as [| |q']; simpl; try done; by destruct (Hi q'). }
  destruct (gen_from_one s acc t) as [acc1| |q]; simpl; [apply IH|done|]. by destruct (H q).
Qed.

(** Every tempid of the terms is asked for. *)
Definition tempids_are (ts : list term_t) (ids : gset tempid) : Prop :=
  forall x, x ∈ ids <-> exists t, t ∈ ts /\ x ∈ tempids_of t.

Lemma rf_tempids τ t t1 x : refines τ t t1 -> x ∈ tempids_of t1 -> x ∈ tempids_of t.
Proof.
  intros (_ & _ & E & V). unfold tempids_of. rewrite !elem_of_app. intros [H|H].
  - left. destruct E as [E'|(z & n & _ & _ & E')]; rewrite E' in H; [done|by apply elem_of_nil in H].
  - right. destruct V as [E'|(z & n & _ & _ & E')]; rewrite E' in H; [done|by apply elem_of_nil in H].
Qed.
Lemma subst_tempids σ t x : is_Some (subst σ t) -> x ∈ tempids_of t -> is_Some (σ !! x).
Proof.
  intros (t' & (_ & _ & He & Hv)%subst_Some). unfold tempids_of. rewrite elem_of_app. intros [H|H].
  - destruct (tm_e t) as [|y]; [by apply elem_of_nil in H|]. apply elem_of_list_singleton in H as ->. simpl in He. eauto.
  - destruct (tm_v t) as [|y]; [by apply elem_of_nil in H|]. apply elem_of_list_singleton in H as ->. simpl in Hv.
    apply fmap_Some in Hv as (? & ? & _). eauto.
Qed.

Lemma resolve_terms_panic mv st pm s ts ids p : tempids_are ts ids -> resolve_terms mv st pm s ts ids = Panic p ->
  p = PTooManyValues /\ (exists n, chunk_ok 4 mv n = false)
  \/ (exists n, (n <= size ids)%nat /\ pm_allocate pm ":db.part/user" (Z.of_nat n) = Panic p)
  \/ p = PTx808 /\ exists t x y, t ∈ ts /\ identity_add s t x /\ tm_v t = inr y.
Proof.
  intros Hids H. unfold resolve_terms in H.
  destruct (gen_from s ts) as [[g0 inert]| |q] eqn:Hg0; simpl in H; [|done|by apply gen_from_not_panic in Hg0].
  pose proof (loop_inv_start st _ _ _ _ Hg0) as I0. pose proof (gen_from_Ok _ _ _ _ Hg0) as (W0 & R0 & U0 & Ets & Hinert & Nid).
  destruct (evolve_loop (evolve_fuel g0) mv st g0 ∅) as [[g1 τ]| |q] eqn:Hl; simpl in H; [|done|].
  2:{ injection H as <-. left. eapply (evolve_loop_panic mv st s q); [exact W0| |exact Hl]. unfold evolve_fuel. destruct (is_nil _); lia. }
  destruct (evolve_loop_Ok _ _ _ _ _ _ _ _ _ I0 Hl) as (I1 & _ & Hnil).
  pose proof (loop_inv_end _ _ _ _ _ I1 Hnil) as I2.
  assert ((forall u, u ∈ g_upserts_ev g0 -> False) -> forall t x, t ∈ g_allocations g1 -> x ∈ tempids_of t -> τ !! x = None) as Hno808.
  { intros Hnoev. assert (g_upserts_ev g0 = []) as Hev.
    { destruct (g_upserts_ev g0) as [|u l]; [done|]. destruct (Hnoev u). by left. }
    unfold evolve_fuel in Hl. rewrite Hev in Hl. change (length [] + 2)%nat with 2%nat in Hl. cbn [evolve_loop] in Hl.
    destruct (can_evolve g0); [|injection Hl as <- <-; intros; apply lookup_empty].
    apply rbind_Ok in Hl as (m & Hm & Hl). apply rbind_Ok in Hl as (g1' & Hg & Hl). apply rbind_Ok in Hl as (τ1 & Hτ & Hl).
    destruct (evolve_one_step_Ok s g0 m W0) as (up & Hg'). rewrite Hg' in Hg. injection Hg as <-. rewrite Hev in Hl. simpl in Hl.
    injection Hl as <- <-. apply merge_tempids_Ok in Hτ as (-> & _ & _). intros t x Ht Hx. rewrite map_union_empty. simpl in Ht.
    apply elem_of_app in Ht as [Ht|Ht]; apply elem_of_flat_map in Ht as (u & Hu & Ht).
    - unfold st_e_alloc in Ht. destruct (m !! u.1.1) eqn:E; [by apply elem_of_nil in Ht|]. apply elem_of_list_singleton in Ht as ->.
      unfold tempids_of in Hx. simpl in Hx. apply elem_of_list_singleton in Hx as ->. done.
    - unfold st_al_alloc in Ht. destruct (tempids_of (psub m u)) eqn:E; [by apply elem_of_nil in Ht|]. apply elem_of_list_singleton in Ht as ->.
      unfold tempids_of in Hx. simpl in Hx. apply elem_of_app in Hx as [Hx|Hx].
      + destruct (tm_e u) as [|z]; simpl in Hx; [by apply elem_of_nil in Hx|]. destruct (m !! z) eqn:Ez; [by apply elem_of_nil in Hx|].
        by apply elem_of_list_singleton in Hx as ->.
      + destruct (tm_v u) as [|z]; simpl in Hx; [by apply elem_of_nil in Hx|]. destruct (m !! z) eqn:Ez; [by apply elem_of_nil in Hx|].
        by apply elem_of_list_singleton in Hx as ->. }
  assert (g_upserts_ev g0 = [] -> g_upserts_ev g1 = []) as Hev01.
  { intros Hev. unfold evolve_fuel in Hl. rewrite Hev in Hl. change (length [] + 2)%nat with 2%nat in Hl. cbn [evolve_loop] in Hl.
    destruct (can_evolve g0); [|injection Hl as <- <-; done].
    apply rbind_Ok in Hl as (m & Hm & Hl). apply rbind_Ok in Hl as (g1' & Hg & Hl). apply rbind_Ok in Hl as (τ1 & Hτ & Hl).
    destruct (evolve_one_step_Ok s g0 m W0) as (up & Hg'). rewrite Hg' in Hg. injection Hg as <-. rewrite Hev in Hl. simpl in Hl.
    by injection Hl as <- <-. }
  set (g := allocate_unresolved_upserts g1) in *.
  assert (g_upserts_e g = []) as Hge by done. assert (g_upserts_ev g = []) as Hgev by done.
  destruct I2 as [W F T K].
  destruct (temp_ids_in_allocations s g) as [labels| |q] eqn:Hlab; simpl in H; [|done|].
  2:{ exfalso. unfold temp_ids_in_allocations in Hlab. rewrite Hge, Hgev in Hlab. cbn [is_nil negb orb] in Hlab.
      destruct (rmapM (alloc_av s) (g_allocations g)) as [avs| |q'] eqn:Hav; simpl in Hlab; [|done|].
      - by destruct (fold_left _ _ _).
      - apply rmapM_Panic in Hav as (t & Ht & Hav). apply (gw_alloc _ _ W) in Ht. unfold alloc_av in Hav. unfold tempids_of in Ht.
        destruct (tm_op t), (tm_e t), (tm_v t); try done;
          pose proof (is_identity_not_panic s (tm_a t)) as Hi; destruct (is_identity s (tm_a t)) as [b| |q2]; simpl in Hav; try done; by destruct (Hi q2). }
  destruct (pm_allocate pm ":db.part/user" (Z.of_nat (length labels))) as [[start pm']| |q] eqn:Hpm; simpl in H; [|done|].
  2:{ injection H as <-. right. left. exists (length labels). split; [|done].
      destruct (temp_ids_in_allocations_Ok _ _ _ Hlab) as (ids' & xs & Hfst & Hnd & _ & Hidl & _). subst ids'.
      rewrite <- (map_length fst), <- (size_list_to_set (C := gset tempid)) by done. apply subseteq_size. intros x Hx%elem_of_list_to_set.
      apply Hidl in Hx as (t1 & Ht1 & Hx1). apply alloc_tempids_of in Hx1. apply Hids.
      destruct (F t1) as (t & Ht & R); [apply pend_elem; auto|]. exists t. split; [apply Ets; by left|]. by eapply rf_tempids. }
  set (allocs := list_to_map _ : gmap tempid Z) in H.
  destruct (temp_ids_in_allocations_Ok _ _ _ Hlab) as (ids' & xs & Hfst & Hnd & Hk & Hidl & Hlt & Hsame & Hsh). subst ids'.
  assert (forall x, is_Some (allocs !! x) <-> exists t, t ∈ g_allocations g /\ x ∈ alloc_tempids t) as Hal.
  { intros x. rewrite <- Hidl. unfold allocs, is_Some. setoid_rewrite allocs_lookup; [|done]. rewrite elem_of_list_fmap. split.
    - intros (e & d & Hd & _). by exists (x, d).
    - intros ([x' d] & -> & Hd). eauto. }
  unfold into_final_populations in H. rewrite Hge, Hgev in H. cbn [is_nil negb orb] in H.
  destruct (rmapM (finalize_term allocs) (g_allocations g)) as [al| |q] eqn:Hfin; simpl in H.
  2:{ done. }
  2:{ exfalso. apply rmapM_Panic in Hfin as (t & Ht & Hf). pose proof (gw_alloc _ _ W _ Ht) as Hne. unfold finalize_term in Hf.
      assert (forall x, x ∈ alloc_tempids t -> allocs !! x <> None) as Hx.
      { intros x Hx Hn. assert (is_Some (allocs !! x)) as (? & ?) by (apply Hal; eauto). congruence. }
      unfold tempids_of in Hne. unfold alloc_tempids in Hx. destruct (tm_op t), (tm_e t) as [e|x], (tm_v t) as [v|y]; try done; simpl in *.
      - destruct (allocs !! y) eqn:E; [done|]. apply (Hx y); [by left|done].
      - destruct (allocs !! x) eqn:E; [done|]. apply (Hx x); [by left|done].
      - destruct (allocs !! x) eqn:E; [|apply (Hx x); [by left|done]]. destruct (allocs !! y) eqn:E'; [done|]. apply (Hx y); [by right; left|done].
      - by destruct (allocs !! y).
      - by destruct (allocs !! x).
      - by destruct (allocs !! x), (allocs !! y). }
  apply rmapM_Ok in Hfin.
  destruct (bool_decide (map_Forall (fun t _ => τ !! t = None) allocs)) eqn:E8; simpl in H.
  - destruct (bool_decide (dom (allocs ∪ τ) = ids)) eqn:E13; [done|]. simpl in H. exfalso. apply bool_decide_eq_false in E13. apply E13.
    apply bool_decide_eq_true in E8.
    assert (τ ⊆ allocs ∪ τ) as Sτ.
    { apply map_union_subseteq_r. apply map_disjoint_spec. intros x e e' H1 H2. specialize (E8 _ _ H1). simpl in E8. congruence. }
    assert (allocs ⊆ allocs ∪ τ) as Sal by apply map_union_subseteq_l.
    assert (forall t, t ∈ pend g -> is_Some (subst (allocs ∪ τ) t)) as Hps.
    { intros t. unfold pend. rewrite Hge, Hgev. cbn [map]. rewrite !app_nil_l, elem_of_app. intros [Ht|(u & -> & Hu)%elem_of_list_fmap]; [|rewrite subst_inert; eauto].
      apply elem_of_list_lookup in Ht as (i & Hi). destruct (Forall2_lookup_l _ _ _ _ _ Hfin Hi) as (t2 & Ht2 & Hf).
      exists t2. apply finalize_term_Ok in Hf. apply subst_Some in Hf as (? & ? & He & Hv).
      apply subst_Some. split_and!; try done; [by eapply (subst_e_mono allocs)|by eapply (subst_v_mono allocs)]. }
    apply set_eq. intros x. rewrite elem_of_dom, (Hids x). split.
    + intros (e & [Hx|[_ Hx]]%lookup_union_Some_raw).
      * assert (is_Some (allocs !! x)) as (t1 & Ht1 & Hx1)%Hal by eauto. apply alloc_tempids_of in Hx1.
        destruct (F t1) as (t & Ht & R); [apply pend_elem; auto|]. exists t. split; [apply Ets; by left|]. by eapply rf_tempids.
      * apply K in Hx as (t & v & Ht & (_ & He & _) & _). exists t. split; [apply Ets; by left|]. unfold tempids_of. rewrite He. by left.
    + intros (t & [Ht|Ht]%Ets & Hx).
      * apply (subst_tempids _ t); [|done]. destruct (T t Ht) as [(t1 & Ht1 & R)|(z & _ & (t' & Hs))].
        -- rewrite (refines_subst _ _ _ _ R Sτ). by apply Hps.
        -- exists t'. apply subst_Some in Hs as (? & ? & ? & ?). apply subst_Some.
           split_and!; try done; [by eapply (subst_e_mono τ)|by eapply (subst_v_mono τ)].
      * apply Hinert in Ht. rewrite Ht in Hx. by apply elem_of_nil in Hx.
  - injection H as <-. right. right. split; [done|]. apply bool_decide_eq_false in E8.
    destruct (g_upserts_ev g0) as [|u l] eqn:Eev.
    + exfalso. apply E8. intros x e Hx. assert (is_Some (allocs !! x)) as (t1 & Ht1 & Hx1)%Hal by eauto. apply alloc_tempids_of in Hx1.
      apply (Hno808 ltac:(by intros ? ?%elem_of_nil) t1); [|done]. unfold g, allocate_unresolved_upserts in Ht1. simpl in Ht1.
      rewrite (Hev01 eq_refl) in Ht1. simpl in Ht1. by rewrite app_nil_r in Ht1.
    + exists (pev u), u.1.1, u.2. split_and!; [|by apply W0; rewrite Eev; left|done].
      apply Ets. left. apply pend_elem. right. left. exists u. rewrite Eev. split; [by left|done].
Qed.

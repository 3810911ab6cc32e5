(** The result of a transaction depends only on the set of its entities. *)
From Verif Require Import M_Conn Spec_Tx Spec_Conn Spec_Upsert Spec_Entity Spec_Transact Spec_Perm P_Base P_Fill P_Upsert P_Resolve P_Entity P_Panic.

Definition same {A} (l l' : list A) : Prop := forall x, x ∈ l <-> x ∈ l'.
Lemma same_sym {A} (l l' : list A) : same l l' -> same l' l.
Proof. intros H x. by rewrite (H x). Qed.
Lemma same_flat_map {A B} (f : A -> list B) l l' : same l l' -> same (flat_map f l) (flat_map f l').
Proof. intros H x. rewrite !elem_of_flat_map. by setoid_rewrite (H _). Qed.
Lemma same_map {A B} (f : A -> B) l l' : same l l' -> same (map f l) (map f l').
Proof. intros H x. rewrite !elem_of_list_fmap. by setoid_rewrite (H _). Qed.
Lemma same_app {A} (l1 l2 k1 k2 : list A) : same l1 k1 -> same l2 k2 -> same (l1 ++ l2) (k1 ++ k2).
Proof. intros H1 H2 x. by rewrite !elem_of_app, (H1 x), (H2 x). Qed.
Lemma same_nil {A} (l l' : list A) : same l l' -> is_nil l = is_nil l'.
Proof.
  intros H. destruct l as [|x l], l' as [|y l']; try done; exfalso.
  - eapply elem_of_nil. apply H. by left.
  - eapply elem_of_nil. apply H. by left.
Qed.
Lemma rmapM_same {A B} (f : A -> res B) l l' ys : same l l' -> rmapM f l = Ok ys -> exists ys', rmapM f l' = Ok ys' /\ same ys ys'.
Proof.
  intros Hs H. apply rmapM_Ok in H.
  assert (forall x, x ∈ l' -> exists y, f x = Ok y) as K.
  { intros x Hx. apply Hs in Hx. apply elem_of_list_lookup in Hx as (i & Hi). destruct (Forall2_lookup_l _ _ _ _ _ H Hi) as (y & _ & Hy). eauto. }
  assert (exists ys', rmapM f l' = Ok ys') as (ys' & H').
  { clear H Hs. induction l' as [|x l' IH]; [by eexists|]. simpl. destruct (K x) as (y & ->); [by left|]. simpl.
    destruct IH as (ys' & ->); [intros; apply K; by right|]. by eexists. }
  exists ys'. split; [done|]. apply rmapM_Ok in H'.
  assert (forall l l' ys ys', Forall2 (fun x y => f x = Ok y) l ys -> Forall2 (fun x y => f x = Ok y) l' ys' -> same l l' ->
    forall y, y ∈ ys -> y ∈ ys') as G.
  { clear. intros l l' ys ys' H H' Hs y Hy. apply elem_of_list_lookup in Hy as (i & Hi).
    destruct (Forall2_lookup_r _ _ _ _ _ H Hi) as (x & Hx & Hf). apply elem_of_list_lookup_2, Hs, elem_of_list_lookup in Hx as (j & Hj).
    destruct (Forall2_lookup_l _ _ _ _ _ H' Hj) as (y' & Hy' & Hf'). assert (y' = y) as -> by congruence. by eapply elem_of_list_lookup_2. }
  intros y. split; eapply G; eauto. by apply same_sym.
Qed.

(* ---------------------------------------------------------------- the order of tempids *)

Lemma string_cmp_opp s : forall t, string_cmp t s = CompOpp (string_cmp s t).
Proof.
  induction s as [|c s IH]; intros [|d t]; simpl; try done. rewrite (N.compare_antisym (N_of_ascii c) (N_of_ascii d)).
  destruct (N.compare (N_of_ascii c) (N_of_ascii d)); simpl; auto.
Qed.
Lemma string_cmp_eq s : forall t, string_cmp s t = Eq -> s = t.
Proof.
  induction s as [|c s IH]; intros [|d t]; simpl; try done. destruct (N.compare_spec (N_of_ascii c) (N_of_ascii d)) as [E| |]; try done.
  intros H. f_equal; [|auto]. rewrite <- (ascii_N_embedding c), <- (ascii_N_embedding d). by f_equal.
Qed.
Lemma string_cmp_trans s : forall t u, string_cmp s t <> Gt -> string_cmp t u <> Gt -> string_cmp s u <> Gt.
Proof.
  induction s as [|c s IH]; intros [|d t] [|e u]; simpl; try done.
  destruct (N.compare_spec (N_of_ascii c) (N_of_ascii d)), (N.compare_spec (N_of_ascii d) (N_of_ascii e)),
    (N.compare_spec (N_of_ascii c) (N_of_ascii e)); try done; try lia. apply IH.
Qed.
Global Instance tempid_le_trans : Transitive tempid_le.
Proof.
  intros [s|i] [t|j] [u|k]; unfold tempid_le; simpl; try done; [apply string_cmp_trans|]. intros H1 H2 H3.
  destruct (Z.compare_spec i j), (Z.compare_spec j k), (Z.compare_spec i k); try done; lia.
Qed.
Global Instance tempid_le_total : Total tempid_le.
Proof.
  intros [s|i] [t|j]; unfold tempid_le; simpl; [|by left|by right|].
  - rewrite (string_cmp_opp s t). destruct (string_cmp s t); simpl; auto.
  - rewrite (Z.compare_antisym i j). destruct (i ?= j); simpl; auto.
Qed.
Global Instance tempid_le_anti : AntiSymm eq tempid_le.
Proof.
  intros [s|i] [t|j]; unfold tempid_le; simpl; try done.
  - rewrite (string_cmp_opp s t). destruct (string_cmp s t) eqn:E; simpl; try done. apply string_cmp_eq in E. by subst.
  - rewrite (Z.compare_antisym i j). destruct (Z.compare_spec i j); simpl; try done. by subst.
Qed.
Lemma sorted_ids (l l' : list tempid) : same l l' -> merge_sort tempid_le (remove_dups l) = merge_sort tempid_le (remove_dups l').
Proof.
  intros H. apply (Sorted_unique tempid_le); [apply Sorted_merge_sort, _|apply Sorted_merge_sort, _|].
  rewrite !merge_sort_Permutation. apply NoDup_Permutation; [apply NoDup_remove_dups..|]. intros x. rewrite !elem_of_remove_dups. apply H.
Qed.

(* ---------------------------------------------------------------- generations *)

Definition gf_e (s : schema) (t : term_t) : list (tempid * Z * typed_value) :=
  match tm_op t, tm_e t, tm_v t with OAdd, inr x, inl v => match is_identity s (tm_a t) with Ok true => [(x, tm_a t, v)] | _ => [] end | _, _, _ => [] end.
Definition gf_ev (s : schema) (t : term_t) : list (tempid * Z * tempid) :=
  match tm_op t, tm_e t, tm_v t with OAdd, inr x, inr v => match is_identity s (tm_a t) with Ok true => [(x, tm_a t, v)] | _ => [] end | _, _, _ => [] end.
Definition gf_alloc (s : schema) (t : term_t) : list term_t :=
  match tm_op t, tm_e t, tm_v t with
  | OAdd, inr x, _ => match is_identity s (tm_a t) with Ok true => [] | _ => [t] end
  | _, inl _, inl _ => []
  | _, _, _ => [t]
  end.
Definition gf_inert (t : term_t) : list term_t := match tm_e t, tm_v t with inl _, inl _ => [t] | _, _ => [] end.
Definition gf_ok (s : schema) (t : term_t) : Prop :=
  match tm_op t, tm_e t with OAdd, inr _ => exists b, is_identity s (tm_a t) = Ok b | _, _ => True end.

Lemma gen_from_eq s ts g inert : gen_from s ts = Ok (g, inert) <->
  Forall (gf_ok s) ts /\ g = Gen (flat_map (gf_e s) ts) (flat_map (gf_ev s) ts) (flat_map (gf_alloc s) ts) [] [] /\ inert = flat_map gf_inert ts.
Proof.
  unfold gen_from.
  assert (forall ts g0 i0, rfold (gen_from_one s) (g0, i0) ts = Ok (g, inert) <->
    Forall (gf_ok s) ts /\ g = Gen (g_upserts_e g0 ++ flat_map (gf_e s) ts) (g_upserts_ev g0 ++ flat_map (gf_ev s) ts)
       (g_allocations g0 ++ flat_map (gf_alloc s) ts) (g_upserted g0) (g_resolved g0) /\ inert = i0 ++ flat_map gf_inert ts) as K.
  { clear ts. induction ts as [|t ts IH]; intros g0 i0; cbn [rfold flat_map].
    - rewrite !app_nil_r. destruct g0; simpl. split; [intros [= -> ->]; split_and!; try done; constructor|].
      intros (_ & -> & ->). done.
    - rewrite rbind_Ok, Forall_cons.
      assert (forall acc, gen_from_one s (g0, i0) t = Ok acc <-> gf_ok s t /\
        acc = (Gen (g_upserts_e g0 ++ gf_e s t) (g_upserts_ev g0 ++ gf_ev s t) (g_allocations g0 ++ gf_alloc s t) (g_upserted g0) (g_resolved g0), i0 ++ gf_inert t)) as H1.
      { intros acc. unfold gen_from_one, gf_ok, gf_e, gf_ev, gf_alloc, gf_inert. destruct t as [o [e|x] a [v|y]], o; simpl;
          try (destruct (is_identity s a) as [[]| |] eqn:E; simpl);
          rewrite ?app_nil_r; destruct g0; simpl; (split; [intros H; try done; injection H as <-; split; eauto|intros [H ->]; try done; destruct H as (? & ?); done]). }
      split.
      + intros ([g1 i1] & (Hok & [= -> ->])%H1 & H). apply IH in H as (Hf & -> & ->). simpl. rewrite <- !app_assoc. done.
      + intros ((Hok & Hf) & -> & ->). eexists. split; [apply H1; split; [done|reflexivity]|]. apply IH. simpl. rewrite <- !app_assoc. done. }
  rewrite K. done.
Qed.

Record gsim (g g' : generation) : Prop := {
  gs_e : same (g_upserts_e g) (g_upserts_e g');
  gs_ev : same (g_upserts_ev g) (g_upserts_ev g');
  gs_al : same (g_allocations g) (g_allocations g');
  gs_re : same (g_resolved g) (g_resolved g') }.

Lemma gen_from_sim s ts ts' g inert : same ts ts' -> gen_from s ts = Ok (g, inert) ->
  exists g' inert', gen_from s ts' = Ok (g', inert') /\ gsim g g' /\ same inert inert'.
Proof.
  intros Hs (Hf & -> & ->)%gen_from_eq. eexists _, _. split; [apply gen_from_eq; split_and!; [|reflexivity..]|].
  - rewrite Forall_forall in *. intros t Ht. by apply Hf, Hs.
  - split; [split; simpl; try by apply same_flat_map|by apply same_flat_map]. done.
Qed.

Lemma evolve_sim s g g' m h : gen_wf s g -> gen_wf s g' -> gsim g g' -> evolve_one_step g m = Ok h ->
  exists h', evolve_one_step g' m = Ok h' /\ gsim h h'.
Proof.
  intros W W' [E V A R] H. destruct (evolve_one_step_Ok s g m W) as (up & H1). destruct (evolve_one_step_Ok s g' m W') as (up' & H1').
  rewrite H1 in H. injection H as <-. eexists. split; [exact H1'|]. split; simpl.
  - by apply same_flat_map.
  - by apply same_flat_map.
  - repeat apply same_app; by apply same_flat_map.
  - apply same_app; [done|by apply same_flat_map].
Qed.

Section limit.
  Context (mv : Z) (Hmv : limit_ok mv).

  Lemma resolve_avs_limit st l : resolve_avs mv st l = Ok (resolve_av st).
  Proof using Hmv. unfold resolve_avs. rewrite (limit_chunks mv Hmv 4 (length l)) by auto. by rewrite orb_true_r. Qed.

  Lemma resolve_sim st l l' m : same l l' -> resolve_temp_id_avs mv st l = Ok m -> resolve_temp_id_avs mv st l' = Ok m.
  Proof using Hmv.
    intros Hs H. pose proof (resolve_temp_id_avs_Ok _ _ _ _ H) as L.
    assert (exists m', resolve_temp_id_avs mv st l' = Ok m') as (m' & H').
    { unfold resolve_temp_id_avs. rewrite resolve_avs_limit. simpl.
      match goal with |- exists m', rfold ?F _ _ = _ => set (f := F) end.
      assert (forall l0 m0, m0 ⊆ m -> (forall y, y ∈ l0 -> y ∈ l') -> exists m', rfold f m0 l0 = Ok m') as K.
      { induction l0 as [|[x av] l0 IH]; intros m0 Hm Hl; cbn [rfold]; [by eexists|]. unfold f at 1.
        destruct (resolve_av st av) as [e|] eqn:E; simpl; [|apply IH; [done|intros; apply Hl; by right]].
        assert (m !! x = Some e) as Hx. { apply L. exists av. split; [|done]. apply Hs, Hl. by left. }
        destruct (m0 !! x) as [p|] eqn:E0.
        - assert (p = e) as ->. { pose proof (lookup_weaken _ _ _ _ E0 Hm). congruence. }
          rewrite decide_True by done. simpl. apply IH; [done|intros; apply Hl; by right].
        - simpl. apply IH; [|intros; apply Hl; by right]. by apply insert_subseteq_l. }
      apply K; [apply map_empty_subseteq|done]. }
    rewrite H'. f_equal. apply map_eq. intros x. apply option_eq. intros e. rewrite (resolve_temp_id_avs_Ok _ _ _ _ H' x e), L.
    setoid_rewrite (Hs _). done.
  Qed.

  Lemma loop_sim s st fuel : forall fuel' g g' τ h τ', gen_wf s g -> gen_wf s g' -> gsim g g' ->
    (length (g_upserts_ev g') + (if is_nil (g_upserts_e g') then 0 else 1) <= fuel')%nat ->
    evolve_loop fuel mv st g τ = Ok (h, τ') -> exists h', evolve_loop fuel' mv st g' τ = Ok (h', τ') /\ gsim h h'.
  Proof using Hmv.
    induction fuel as [|fuel IH]; intros fuel' g g' τ h τ' W W' G Hf H; cbn [evolve_loop] in H; unfold can_evolve in H;
      rewrite (same_nil _ _ (gs_e _ _ G)) in H.
    - destruct (is_nil (g_upserts_e g')) eqn:E; [|done]. injection H as <- <-. exists g'. split; [|done].
      destruct fuel'; cbn [evolve_loop]; unfold can_evolve; by rewrite E.
    - destruct (is_nil (g_upserts_e g')) eqn:E; simpl in H.
      { injection H as <- <-. exists g'. split; [|done]. destruct fuel'; cbn [evolve_loop]; unfold can_evolve; by rewrite E. }
      apply rbind_Ok in H as (m & Hm & H). apply rbind_Ok in H as (g1 & Hg & H). apply rbind_Ok in H as (τ1 & Hτ & H).
      destruct (evolve_sim s g g' m g1 W W' G Hg) as (g1' & Hg' & G1).
      destruct (evolve_step_spec s g m m _ W (reflexivity m) Hg) as (W1 & _).
      destruct (evolve_step_spec s g' m m _ W' (reflexivity m) Hg') as (W1' & _ & _ & Hlen).
      destruct fuel' as [|fuel']; [lia|].
      destruct (IH fuel' g1 g1' τ1 h τ' W1 W1' G1) as (h' & H' & G'); [|done|].
      { destruct (g_upserts_e g1'); simpl in *; lia. }
      exists h'. split; [|done]. cbn [evolve_loop]. unfold can_evolve. rewrite E. simpl.
      rewrite (resolve_sim st (temp_id_avs g) (temp_id_avs g') m); [|by apply same_map, G|done]. simpl. rewrite Hg'. simpl. rewrite Hτ. done.
  Qed.
End limit.

(* ---------------------------------------------------------------- labels *)

Definition pattern {A} (l : list A) (i j : nat) : Prop := l !! i = l !! j.
Lemma dense_pattern ls : forall ls' reps reps', NoDup reps -> NoDup reps' -> length reps = length reps' -> length ls = length ls' ->
  (forall i j, pattern (reps ++ ls) i j <-> pattern (reps' ++ ls') i j) -> dense reps ls = dense reps' ls'.
Proof.
  induction ls as [|l ls IH]; intros [|l' ls'] reps reps' N N' Hr Hl P; try done. injection Hl as Hl. cbn [dense].
  assert (forall d, (d < length reps)%nat -> reps !! d = Some l <-> reps' !! d = Some l') as K.
  { intros d Hd. specialize (P d (length reps)). unfold pattern in P.
    rewrite (lookup_app_l reps) in P by done. rewrite (list_lookup_middle reps ls l) in P by done.
    rewrite (lookup_app_l reps') in P by lia. rewrite (list_lookup_middle reps' ls' l') in P by done. done. }
  assert (forall d, index_of reps l = Some d -> index_of reps' l' = Some d) as K1.
  { intros d Hd%index_of_Some. apply index_of_NoDup; [done|]. apply K; [by eapply lookup_lt_Some|done]. }
  assert (forall d, index_of reps' l' = Some d -> index_of reps l = Some d) as K2.
  { intros d Hd%index_of_Some. apply index_of_NoDup; [done|]. apply K; [|done]. rewrite Hr. by eapply lookup_lt_Some. }
  assert (forall (reps : list nat) l, NoDup reps -> index_of reps l = None -> NoDup (reps ++ [l])) as ND.
  { clear. intros reps l N E. apply NoDup_app. split_and!; [done| |apply NoDup_singleton]. intros x Hx ->%elem_of_list_singleton.
    apply index_of_elem in Hx as (i & Hi). congruence. }
  destruct (index_of reps l) as [d|] eqn:E.
  - rewrite (K1 d eq_refl). f_equal. apply IH; try done. intros i j.
    set (up := fun i => if decide (i < length reps)%nat then i else S i).
    assert (forall i, (reps ++ ls) !! i = (reps ++ l :: ls) !! up i) as U.
    { intros k. unfold up. destruct (decide _); [by rewrite !lookup_app_l|]. rewrite !lookup_app_r by lia. by replace (S k - length reps)%nat with (S (k - length reps)) by lia. }
    assert (forall i, (reps' ++ ls') !! i = (reps' ++ l' :: ls') !! up i) as U'.
    { intros k. unfold up. rewrite Hr. destruct (decide _); [by rewrite !lookup_app_l|]. rewrite !lookup_app_r by lia. by replace (S k - length reps')%nat with (S (k - length reps')) by lia. }
    unfold pattern. rewrite !U, !U'. apply P.
  - destruct (index_of reps' l') as [d|] eqn:E'; [specialize (K2 d eq_refl); done|]. rewrite Hr. f_equal.
    apply IH; try done; [by apply ND..| |].
    + rewrite !app_length. simpl. lia.
    + intros i j. rewrite <- !app_assoc. apply P.
Qed.

Lemma labels_form s g labels : temp_ids_in_allocations s g = Ok labels ->
  exists ls, labels = zip (merge_sort tempid_le (remove_dups (flat_map alloc_tempids (g_allocations g)))) (dense [] ls)
    /\ length ls = length (merge_sort tempid_le (remove_dups (flat_map alloc_tempids (g_allocations g)))).
Proof.
  unfold temp_ids_in_allocations. destruct (_ || _)%bool; [done|]. intros H. apply rbind_Ok in H as (avs & Hav & H).
  set (ids := merge_sort _ _) in *.
  assert (forall xs acc, length (fold_left (union_av ids) xs acc).2 = length acc.2) as K.
  { induction xs as [|x xs IH]; intros acc; cbn [fold_left]; [done|]. rewrite IH. destruct acc as [seen labs]. unfold union_av, uf_union.
    destruct (list_find _ _) as [[k y]|]; [|done]. destruct (index_of ids y.2) as [i|], (index_of ids x.2) as [j|]; try done. simpl.
    destruct (labs !! i), (labs !! j); try done. by rewrite map_length. }
  pose proof (K (omap id avs) ([], seq 0 (length ids))) as L. destruct (fold_left _ _ _) as [seen ls]. injection H as <-.
  exists ls. split; [done|]. simpl in L. by rewrite L, seq_length.
Qed.

Lemma rtsc_label (labels : list (tempid * nat)) (xs : list (Z * (typed_value + tempid) * tempid)) :
  (forall k x y d d', (k, x) ∈ xs -> (k, y) ∈ xs -> (x, d) ∈ labels -> (y, d') ∈ labels -> d = d') ->
  (forall y, y ∈ xs -> exists d, (y.2, d) ∈ labels) ->
  forall x y, rtsc (linked xs) x y -> forall d d', NoDup (map fst labels) -> (x, d) ∈ labels -> (y, d') ∈ labels -> d = d'.
Proof.
  intros C I x y H d d' N. revert d. induction H as [x|x z y H1 H2 IH]; intros d Hx Hy.
  - assert ((x, d) = (x, d')) as [=]; [|done]. by eapply (NoDup_map_inj fst).
  - assert (exists k, (k, x) ∈ xs /\ (k, z) ∈ xs) as (k & K1 & K2). { destruct H1 as [(k & ? & ?)|(k & ? & ?)]; eauto. }
    destruct (I _ K2) as (dz & Hz). simpl in Hz. rewrite (C k x z d dz K1 K2 Hx Hz). by apply IH.
Qed.

Lemma labels_sim s g g' labels : gsim g g' -> (forall t, t ∈ g_allocations g -> tempids_of t <> []) -> temp_ids_in_allocations s g = Ok labels ->
  temp_ids_in_allocations s g' = Ok labels.
Proof.
  intros G Wa H.
  assert (exists labels', temp_ids_in_allocations s g' = Ok labels') as (labels' & H').
  { unfold temp_ids_in_allocations in *. rewrite <- (same_nil _ _ (gs_e _ _ G)), <- (same_nil _ _ (gs_ev _ _ G)).
    revert H. destruct (_ || _)%bool; [done|]. intros H. apply rbind_Ok in H as (avs & Hav & H).
    destruct (rmapM_same _ _ _ _ (gs_al _ _ G) Hav) as (avs' & -> & _). clear H. simpl. destruct (fold_left _ _ _) as [se lz]. exists (zip (merge_sort tempid_le (remove_dups (flat_map alloc_tempids (g_allocations g')))) (dense [] lz)). reflexivity. }
  rewrite H'. f_equal.
  destruct (labels_form _ _ _ H) as (ls & El & Hl). destruct (labels_form _ _ _ H') as (ls' & El' & Hl').
  assert (same (flat_map alloc_tempids (g_allocations g)) (flat_map alloc_tempids (g_allocations g'))) as Sids by (by apply same_flat_map, G).
  rewrite <- (sorted_ids _ _ Sids) in El', Hl'. set (ids := merge_sort _ _) in *.
  destruct (temp_ids_in_allocations_Ok _ _ _ H) as (i1 & xs & E1 & N1 & K1 & I1 & _ & A1 & B1).
  destruct (temp_ids_in_allocations_Ok _ _ _ H') as (i2 & xs' & E2 & N2 & K2 & I2 & _ & A2 & B2).
  assert (same xs xs') as Sxs. { intros [[a v] x]. rewrite (K1 a v x), (K2 a v x). by setoid_rewrite (gs_al _ _ G _). }
  assert (forall x, x ∈ i1 <-> x ∈ i2) as Si. { intros x. rewrite I1, I2. by setoid_rewrite (gs_al _ _ G _). }
  assert (forall y, y ∈ xs -> y.2 ∈ i1) as Hxs.
  { intros [[a v] x] (t & Ht & (Ho & He & _) & _)%K1. simpl. apply I1. exists t. split; [done|]. unfold alloc_tempids. rewrite Ho, He.
    destruct (tm_v t); by left. }
  assert (forall x y, rtsc (linked xs) x y <-> rtsc (linked xs') x y) as Sl.
  { intros x y. split; apply rtc_subrel; intros a b Hab; (destruct Hab as [(k & ? & ?)|(k & ? & ?)]; [left|right]; exists k; split; by apply Sxs). }
  assert (forall x, x ∈ i1 -> exists d, (x, d) ∈ labels) as D1.
  { intros x Hx. rewrite <- E1 in Hx. apply elem_of_list_fmap in Hx as ([x' d] & -> & Hx). eauto. }
  assert (forall x, x ∈ i1 -> exists d, (x, d) ∈ labels') as D2.
  { intros x Hx. apply Si in Hx. rewrite <- E2 in Hx. apply elem_of_list_fmap in Hx as ([x' d] & -> & Hx). eauto. }
  assert (forall x y d d', (x, d) ∈ labels -> (y, d') ∈ labels -> d = d' <-> rtsc (linked xs) x y) as L1.
  { intros x y d d' Hx Hy. split; [intros <-; by eapply A1|]. intros Hr. eapply (rtsc_label labels xs); eauto. by rewrite E1. }
  assert (forall x y d d', (x, d) ∈ labels' -> (y, d') ∈ labels' -> d = d' <-> rtsc (linked xs) x y) as L2.
  { intros x y d d' Hx Hy. rewrite Sl. split; [intros <-; by eapply A2|]. intros Hr. eapply (rtsc_label labels' xs'); eauto; [|by rewrite E2].
    intros z Hz. apply D2, Hxs. by apply Sxs. }
  assert (length (dense [] ls) = length ids) as Ld.
  { destruct (dense_spec ls [] NoDup_nil_2) as (? & _ & _ & F). apply Forall2_length in F. lia. }
  assert (length (dense [] ls') = length ids) as Ld'.
  { destruct (dense_spec ls' [] NoDup_nil_2) as (? & _ & _ & F). apply Forall2_length in F. lia. }
  subst labels labels'. f_equal. symmetry. apply dense_pattern; [constructor|constructor|done|by rewrite Hl, Hl'|].
  cbn [app].
  assert (forall (ls : list nat) i j, length ls = length ids -> (i < length ids)%nat -> (j < length ids)%nat ->
    pattern ls i j <-> dense [] ls !! i = dense [] ls !! j) as PD.
  1: (clear; intros ls i j Hl Hi Hj; destruct (dense_spec ls [] NoDup_nil_2) as (reps & Hr & _ & F); cbn [app] in *;
    destruct (lookup_lt_is_Some_2 ls i) as (x & Hx); [lia|]; destruct (lookup_lt_is_Some_2 ls j) as (y & Hy); [lia|];
    destruct (Forall2_lookup_l _ _ _ _ _ F Hx) as (d & Hd & Rd), (Forall2_lookup_l _ _ _ _ _ F Hy) as (e & He & Re);
    unfold pattern; rewrite Hx, Hy, Hd, He; split; [intros [= <-]; f_equal; by eapply NoDup_lookup|intros [= <-]; congruence]).
  assert (forall i j, (i < length ids)%nat -> (j < length ids)%nat -> pattern ls i j <-> pattern ls' i j) as PP.
  1: (intros i j Hi Hj; rewrite (PD ls), (PD ls') by lia;
    destruct (lookup_lt_is_Some_2 ids i Hi) as (x & Hx), (lookup_lt_is_Some_2 ids j Hj) as (y & Hy);
    destruct (lookup_lt_is_Some_2 (dense [] ls) i) as (d & Hd); [lia|]; destruct (lookup_lt_is_Some_2 (dense [] ls) j) as (e & He); [lia|];
    destruct (lookup_lt_is_Some_2 (dense [] ls') i) as (d' & Hd'); [lia|]; destruct (lookup_lt_is_Some_2 (dense [] ls') j) as (e' & He'); [lia|];
    rewrite Hd, He, Hd', He';
    assert (forall k x (d : nat) ds, ids !! k = Some x -> ds !! k = Some d -> (x, d) ∈ zip ids ds) as Zp
      by (intros; eapply elem_of_list_lookup_2; apply lookup_zip_with_Some; eauto);
    specialize (L1 x y d e (Zp _ _ _ _ Hx Hd) (Zp _ _ _ _ Hy He)); specialize (L2 x y d' e' (Zp _ _ _ _ Hx Hd') (Zp _ _ _ _ Hy He'));
    split; intros [= HH]; f_equal; tauto).
  intros i j; destruct (decide (i < length ids)%nat) as [Hi|Hi], (decide (j < length ids)%nat) as [Hj|Hj]; [by apply PP|..];
    unfold pattern; rewrite ?(lookup_ge_None_2 ls i), ?(lookup_ge_None_2 ls' i), ?(lookup_ge_None_2 ls j), ?(lookup_ge_None_2 ls' j) by lia; try done;
    [destruct (lookup_lt_is_Some_2 ls i) as (? & ->); [lia|]; destruct (lookup_lt_is_Some_2 ls' i) as (? & ->); [lia|]; done
    |destruct (lookup_lt_is_Some_2 ls j) as (? & ->); [lia|]; destruct (lookup_lt_is_Some_2 ls' j) as (? & ->); [lia|]; done].
Qed.

(* ---------------------------------------------------------------- terms *)

Lemma extend_entries s ts : forall tr tr', rfold (extend_trie s) tr ts = Ok tr' ->
  forall a e, is_Some (tr' !! (a, e)) <-> is_Some (tr !! (a, e)) \/ exists t, t ∈ ts /\ tm_a t = a /\ tm_e t = e.
Proof.
  induction ts as [|t ts IH]; intros tr tr' H a e; simpl in H.
  - injection H as <-. setoid_rewrite elem_of_nil. naive_solver.
  - apply rbind_Ok in H as (tr1 & H1 & H). rewrite (IH _ _ H). setoid_rewrite elem_of_cons.
    unfold extend_trie in H1. apply rbind_Ok in H1 as (at_ & _ & [= <-]).
    destruct (decide ((tm_a t, tm_e t) = (a, e))) as [E|E].
    + rewrite E, lookup_insert. injection E as <- <-. split; [|by left; eauto]. intros _. right. exists t. auto.
    + rewrite lookup_insert_ne by done. split; [naive_solver|]. intros [?|(u & [-> |Hu] & <- & <-)]; [by left|done|]. right. eauto.
Qed.
Lemma trie_sim s ts ts' tr : same ts ts' -> rfold (extend_trie s) ∅ ts = Ok tr -> rfold (extend_trie s) ∅ ts' = Ok tr.
Proof.
  intros Hs H. destruct (rfold_extend_Ok s ts ∅ tr (trie_wf_empty s) H) as (W & A & R).
  assert (exists tr', rfold (extend_trie s) ∅ ts' = Ok tr') as (tr' & H').
  { assert (forall t, t ∈ ts' -> is_Some (sc_attribute_map s !! tm_a t)) as A' by (intros; by apply A, Hs).
    clear -A'. generalize (∅ : gmap (Z * Z) trie_entry). induction ts' as [|t ts' IH]; intros tr0; simpl; [by eexists|].
    unfold extend_trie at 1, require_attribute. destruct (A' t) as (at_ & ->); [by left|]. simpl. apply IH. intros; apply A'; by right. }
  rewrite H'. f_equal. destruct (rfold_extend_Ok s ts' ∅ tr' (trie_wf_empty s) H') as (W' & A' & R').
  apply map_eq. intros [a e].
  assert (is_Some (tr' !! (a, e)) <-> is_Some (tr !! (a, e))) as E.
  { rewrite (extend_entries _ _ _ _ H), (extend_entries _ _ _ _ H'). by setoid_rewrite (Hs _). }
  assert (forall o v, req tr' o e a v <-> req tr o e a v) as Rq. { intros o v. rewrite R, R', (Hs _). done. }
  destruct (tr' !! (a, e)) as [[at1 ad1 re1]|] eqn:E1, (tr !! (a, e)) as [[at2 ad2 re2]|] eqn:E2; try done.
  2:{ destruct E as [E _]. destruct E as (? & ?); [by eexists|done]. }
  2:{ destruct E as [_ E]. destruct E as (? & ?); [by eexists|done]. }
  pose proof (W _ _ _ E2) as T2. pose proof (W' _ _ _ E1) as T1. simpl in T1, T2. do 2 f_equal.
  - congruence.
  - apply set_eq. intros v. specialize (Rq OAdd v). unfold req in Rq. rewrite E1, E2 in Rq. naive_solver.
  - apply set_eq. intros v. specialize (Rq ORetract v). unfold req in Rq. rewrite E1, E2 in Rq. naive_solver.
Qed.
Lemma aev_sim s re re' al al' inert inert' tr : same re re' -> same al al' -> same inert inert' ->
  into_aev_trie s re al inert = Ok tr -> into_aev_trie s re' al' inert' = Ok tr.
Proof.
  assert (forall re al inert tr, into_aev_trie s re al inert = Ok tr <-> exists ts, rmapM unwrap_term inert = Ok ts /\ rfold (extend_trie s) ∅ (re ++ al ++ ts) = Ok tr) as K.
  { clear. intros re al inert tr. unfold into_aev_trie. split.
    - intros H. apply rbind_Ok in H as (t1 & H1 & H). apply rbind_Ok in H as (t2 & H2 & H). apply rbind_Ok in H as (ts & H3 & H).
      exists ts. split; [done|]. rewrite rfold_app, H1. simpl. by rewrite rfold_app, H2.
    - intros (ts & Hu & H). rewrite rfold_app in H. apply rbind_Ok in H as (t1 & H1 & H). rewrite rfold_app in H.
      apply rbind_Ok in H as (t2 & H2 & H). by rewrite H1; simpl; rewrite H2; simpl; rewrite Hu. }
  intros S1 S2 S3 (ts & Hu & H)%K. destruct (rmapM_same _ _ _ _ S3 Hu) as (ts' & Hu' & S4). apply K. exists ts'. split; [done|].
  eapply trie_sim; [|exact H]. by repeat apply same_app.
Qed.

Section limit.
  Context (mv : Z) (Hmv : limit_ok mv).

  Lemma resolve_terms_sim st pm s ts ts' ids r : same ts ts' -> resolve_terms mv st pm s ts ids = Ok r ->
    exists r', resolve_terms mv st pm s ts' ids = Ok r' /\ rv_parts r' = rv_parts r /\ rv_tempids r' = rv_tempids r
      /\ same (rv_resolved r) (rv_resolved r') /\ same (rv_allocated r) (rv_allocated r') /\ same (rv_inert r) (rv_inert r').
  Proof using Hmv.
    intros Hs H. unfold resolve_terms in *. apply rbind_Ok in H as ([g inert] & Hg & H).
    destruct (gen_from_sim _ _ _ _ _ Hs Hg) as (g' & inert' & Hg' & G & Si). rewrite Hg'. simpl.
    destruct (gen_from_Ok _ _ _ _ Hg) as (W & _). destruct (gen_from_Ok _ _ _ _ Hg') as (W' & _).
    apply rbind_Ok in H as ([h τ] & Hl & H).
    destruct (loop_sim mv Hmv s st (evolve_fuel g) (evolve_fuel g') g g' ∅ h τ W W' G) as (h' & Hl' & G'); [unfold evolve_fuel; destruct (is_nil _); lia|done|].
    rewrite Hl'. simpl. apply rbind_Ok in H as (labels & Hla & H).
    assert (gsim (allocate_unresolved_upserts h) (allocate_unresolved_upserts h')) as G2.
    { destruct G' as [E V A R]. split; simpl; try done. apply same_app; [done|by apply same_map]. }
    assert (forall t, t ∈ g_allocations (allocate_unresolved_upserts h) -> tempids_of t <> []) as Wa.
    { destruct (evolve_loop_Ok _ _ _ _ _ _ _ _ _ (loop_inv_start st s ts g inert Hg) Hl) as (I & _ & En).
      apply (gw_alloc s). eapply li_wf. by eapply loop_inv_end. }
    rewrite (labels_sim _ _ _ _ G2 Wa Hla). simpl. apply rbind_Ok in H as ([start pm1] & Hp & H). rewrite Hp. simpl.
    apply rbind_Ok in H as ([[up re] al] & Hf & H).
    assert (exists up' re' al', into_final_populations (allocate_unresolved_upserts h')
        (list_to_map (map (fun '(t, i) => (t, start + Z.of_nat i)) labels)) = Ok (up', re', al') /\ same re re' /\ same al al') as (up' & re' & al' & -> & S1 & S2).
    { unfold into_final_populations in *. rewrite <- (same_nil _ _ (gs_e _ _ G2)), <- (same_nil _ _ (gs_ev _ _ G2)).
      revert Hf. destruct (_ || _)%bool; [done|]. intros Hf. apply rbind_Ok in Hf as (al0 & Ha & [= <- <- <-]).
      destruct (rmapM_same _ _ _ _ (gs_al _ _ G2) Ha) as (al' & -> & S). simpl. eexists _, _, _. split; [done|]. split; [apply G2|done]. }
    simpl. destruct (negb _); [done|]. destruct (negb _); [done|]. injection H as <-. simpl. eexists. split; [done|]. done.
  Qed.

  Lemma simple_terms_sim now act st pm sm s tx ts ts' ids st' r : same ts ts' ->
    transact_simple_terms mv now act st pm sm s tx ts ids = (st', Ok r) -> transact_simple_terms mv now act st pm sm s tx ts' ids = (st', Ok r).
  Proof using Hmv.
    intros Hs H. unfold transact_simple_terms in *. destruct (resolve_terms mv st pm s ts ids) as [rv| |] eqn:Er; try done.
    destruct (resolve_terms_sim _ _ _ _ _ _ _ Hs Er) as (rv' & -> & -> & -> & S1 & S2 & S3).
    destruct (into_aev_trie s (rv_resolved rv) (rv_allocated rv) (rv_inert rv)) as [tr| |] eqn:Et; try done.
    by rewrite (aev_sim _ _ _ _ _ _ _ _ S1 S2 S3 Et).
  Qed.
End limit.

(* ---------------------------------------------------------------- entities *)

Section stage1.
  Context (pm : partition_map) (s : schema) (tx : Z).

  Definition stable {A} (f : inproc -> res (A * inproc)) : Prop :=
    forall ip r ip', f ip = Ok (r, ip') -> forall ip2, exists ip2', f ip2 = Ok (r, ip2').
  Lemma stable_lookup a v : stable (fun ip => intern_lookup_ref s ip a v).
  Proof using Type.
    intros ip r ip' H ip2. unfold intern_lookup_ref in *. apply rbind_Ok in H as (n & -> & H). simpl.
    apply rbind_Ok in H as (at_ & -> & H). simpl. apply rbind_Ok in H as (tv & -> & H). simpl. destruct (at_unique at_); [|done].
    injection H as <- <-. by eexists.
  Qed.
  Lemma stable_e x : stable (fun ip => entity_e_into_term_e pm s tx ip x).
  Proof using Type.
    intros ip r ip' H ip2. destruct x as [[e|k]|t|a v|f]; simpl in *.
    - destruct (pm_contains pm e); [|done]. injection H as <- <-. by eexists.
    - apply rbind_Ok in H as (e & -> & [= <- <-]). by eexists.
    - injection H as <- <-. by eexists.
    - apply rbind_Ok in H as ([av ip1] & H & [= <- <-]). destruct (stable_lookup a v _ _ _ H ip2) as (ip3 & ->). by eexists.
    - apply rbind_Ok in H as (e & -> & [= <- <-]). by eexists.
  Qed.
  Lemma stable_e_v x : stable (fun ip => entity_e_into_term_v pm s tx ip x).
  Proof using Type.
    intros ip r ip' H ip2. unfold entity_e_into_term_v in *. apply rbind_Ok in H as ([r0 ip1] & H & [= <- <-]).
    destruct (stable_e x _ _ _ H ip2) as (ip3 & ->). by eexists.
  Qed.
  Lemma stable_v_e x fa : stable (fun ip => entity_v_into_term_e s tx ip x fa).
  Proof using Type.
    intros ip r ip' H ip2. unfold entity_v_into_term_e in *. apply rbind_Ok in H as (n & -> & H). simpl.
    apply rbind_Ok in H as (at_ & -> & H). simpl. destruct (decide _); [|done]. destruct x as [n'|t|la lv|f|vs|x|m]; try done.
    - apply rbind_Ok in H as (e0 & -> & [= <- <-]). by eexists.
    - injection H as <- <-. by eexists.
    - apply rbind_Ok in H as ([av ip1] & H & [= <- <-]). destruct (stable_lookup la lv _ _ _ H ip2) as (ip3 & ->). by eexists.
    - apply rbind_Ok in H as (e0 & -> & [= <- <-]). by eexists.
    - destruct (as_tempid x); [injection H as <- <-; by eexists|]. apply rbind_Ok in H as (tv & -> & H). simpl. destruct tv; try done.
      injection H as <- <-. by eexists.
  Qed.
  Lemma stable_reversed v fa e : stable (fun ip => reversed_term pm s tx ip v fa e).
  Proof using Type.
    intros ip r ip' H ip2. unfold reversed_term in *. apply rbind_Ok in H as ([re ip1] & H1 & H).
    destruct (stable_v_e v fa _ _ _ H1 ip2) as (ip3 & ->). simpl. apply rbind_Ok in H as (ra & -> & H). simpl.
    apply rbind_Ok in H as ([rv ip4] & H2 & [= <- <-]). destruct (stable_e_v e _ _ _ H2 ip3) as (ip5 & ->). by eexists.
  Qed.
  Lemma stable_nested db_id rest : forall d ts pu, stable (fun ip => rfold (nested_entry pm s tx db_id) (d, ts, pu, ip) rest).
  Proof using Type.
    induction rest as [|p rest IH]; intros d ts pu ip r ip' H ip2; cbn [rfold] in *.
    - injection H as <- <-. by eexists.
    - apply rbind_Ok in H as ([[[d1 ts1] pu1] ip1] & H1 & H).
      assert (exists ip3, nested_entry pm s tx db_id (d, ts, pu, ip2) p = Ok (d1, ts1, pu1, ip3)) as (ip3 & ->).
      { unfold nested_entry in *. apply rbind_Ok in H1 as (fa & -> & H1). simpl. destruct fa as [fa|].
        - apply rbind_Ok in H1 as ([t ip3] & H1 & [= <- <- <- <-]). destruct (stable_reversed _ _ _ _ _ _ H1 ip2) as (ip4 & ->). by eexists.
        - apply rbind_Ok in H1 as (a & -> & H1). simpl. apply rbind_Ok in H1 as (at_ & -> & [= <- <- <- <-]). by eexists. }
      simpl. by eapply IH.
  Qed.
  Lemma nested_named db_id rest : forallb (fun p => vp_named p.2) rest = true -> forall acc acc', rfold (nested_entry pm s tx db_id) acc rest = Ok acc' ->
    Forall (fun x => ent_named x = true) acc.1.2 -> Forall (fun x => ent_named x = true) acc'.1.2.
  Proof using Type.
    induction rest as [|p rest IH]; intros Hr acc acc' H Ha; cbn [rfold] in H; [by injection H as <-|].
    simpl in Hr. apply andb_true_iff in Hr as [Hp Hr]. apply rbind_Ok in H as (acc1 & H1 & H). apply (IH Hr _ _ H).
    unfold nested_entry in H1. destruct acc as [[[d ts] pu] ip]. simpl in *. apply rbind_Ok in H1 as ([fa|] & _ & H1).
    - apply rbind_Ok in H1 as ([t ip1] & _ & [= <-]). done.
    - apply rbind_Ok in H1 as (a & _ & H1). apply rbind_Ok in H1 as (at_ & _ & [= <-]). simpl. by constructor.
  Qed.

  Lemma remove_named m id rest : existsb (fun p => bool_decide (p.1 = db_id_key)) m = true -> forallb (fun p => vp_named p.2) m = true ->
    remove_db_id m = Ok (id, rest) -> (exists d, id = Some d) /\ forallb (fun p => vp_named p.2) rest = true.
  Proof using Type.
    intros Hd Hn H. pose proof (remove_db_id_Ok _ _ _ H) as ->. split.
    - unfold remove_db_id in H. apply existsb_elem in Hd as (p & Hp & Hk). apply bool_decide_eq_true in Hk.
      destruct (list_find _ m) as [[i [k v]]|] eqn:E; [|apply list_find_None in E; rewrite Forall_forall in E; exfalso; by apply (E p)].
      apply rbind_Ok in H as (e & _ & [= <-]). eauto.
    - apply forallb_forall. intros p Hp%elem_of_list_In. apply elem_of_list_filter in Hp as [_ Hp].
      rewrite forallb_forall in Hn. apply Hn. by apply elem_of_list_In.
  Qed.

  Lemma process_named ip x ts pushed ip' : ent_named x = true -> process_entity pm s tx ip x = Ok (ts, pushed, ip') ->
    Forall (fun x => ent_named x = true) pushed /\ forall ip2, exists ip2', process_entity pm s tx ip2 x = Ok (ts, pushed, ip2').
  Proof using Type.
    intros Hn H. destruct x as [o e a v|m]; simpl in Hn; cbn [process_entity] in *.
    - apply rbind_Ok in H as ([fa|] & Ha & H).
      + apply rbind_Ok in H as ([t ip1] & H & [= <- <- <-]). split; [constructor|]. intros ip2. rewrite Ha. simpl.
        destruct (stable_reversed _ _ _ _ _ _ H ip2) as (ip3 & ->). by eexists.
      + apply rbind_Ok in H as (n & Hna & H). apply rbind_Ok in H as (at_ & Hat & H).
        apply rbind_Ok in H as ([[[tv terms] pu] ip1] & Hf & H).
        assert (Forall (fun x => ent_named x = true) pu /\ forall ip2, exists ip3, forward_value pm s tx ip2 o e n at_ v = Ok (tv, terms, pu, ip3)) as [Hpu Hst].
        { clear H. destruct v as [n'|t|la lv|f|vs|x|m]; cbn [forward_value vp_named] in *.
          * apply rbind_Ok in Hf as (e0 & He & [= <- <- <- _]). split; [constructor|]. intros ip2. rewrite He. by eexists.
          * injection Hf as <- <- <- _. split; [constructor|]. by eexists.
          * destruct (decide _); [|done]. apply rbind_Ok in Hf as ([av ip3] & Hl & [= <- <- <- _]). split; [constructor|]. intros ip2.
            destruct (stable_lookup _ _ _ _ _ Hl ip2) as (ip4 & ->). by eexists.
          * apply rbind_Ok in Hf as (e0 & He & Hf). destruct (decide _); [|done]. injection Hf as <- <- <- _. split; [constructor|]. intros ip2. rewrite He. by eexists.
          * destruct (at_multival at_); [|done]. injection Hf as <- <- <- _. split; [|by eexists].
            apply Forall_forall. intros x Hx. rewrite <- elem_of_list_In, <- in_rev, elem_of_list_In in Hx || apply elem_of_list_In, in_rev, elem_of_list_In in Hx.
            apply elem_of_list_fmap in Hx as (w & -> & Hw). simpl. rewrite forallb_forall in Hn. apply Hn. by apply elem_of_list_In.
          * destruct (if decide _ then _ else _); [injection Hf as <- <- <- _; split; [constructor|by eexists]|].
            apply rbind_Ok in Hf as (w & Hw & [= <- <- <- _]). split; [constructor|]. intros ip2. rewrite Hw. by eexists.
          * destruct o; [|done]. destruct (decide _); [|done]. apply rbind_Ok in Hf as ([id rest] & Hr & Hf).
            apply andb_true_iff in Hn as [Hn1 Hn2]. destruct (remove_named _ _ _ Hn1 Hn2 Hr) as ((d & ->) & Hn3).
            apply rbind_Ok in Hf as ([[[dg ts2] pu2] ip3] & Hne & Hf). destruct dg; [done|].
            apply rbind_Ok in Hf as ([tv2 ip4] & He & [= <- <- <- _]). split.
            { apply nested_named in Hne; [done|done|]. simpl. constructor. }
            intros ip2. rewrite Hr. cbn [rbind]. destruct (stable_nested _ _ _ _ _ _ _ _ Hne ip2) as (ip5 & E5). rewrite E5. cbn [rbind].
            destruct (stable_e_v _ _ _ _ He ip5) as (ip6 & E6). rewrite E6. by eexists. }
        destruct tv as [tv|].
        * apply rbind_Ok in H as ([te ip2] & He & [= <- <- _]). split; [done|]. intros ip3. rewrite Ha. cbn [rbind]. rewrite Hna. cbn [rbind]. rewrite Hat. cbn [rbind].
          destruct (Hst ip3) as (ip4 & ->). cbn [rbind]. destruct (stable_e _ _ _ _ He ip4) as (ip5 & ->). by eexists.
        * injection H as <- <- _. split; [done|]. intros ip3. rewrite Ha. cbn [rbind]. rewrite Hna. cbn [rbind]. rewrite Hat. cbn [rbind].
          destruct (Hst ip3) as (ip4 & ->). by eexists.
    - apply andb_true_iff in Hn as [Hn1 Hn2]. apply rbind_Ok in H as ([id rest] & Hr & H).
      destruct (remove_named _ _ _ Hn1 Hn2 Hr) as ((d & ->) & Hn3). injection H as <- <- _. split.
      + apply Forall_forall. intros x Hx. apply elem_of_list_In, in_rev, elem_of_list_In in Hx.
        apply elem_of_list_fmap in Hx as (w & -> & Hw). simpl. rewrite forallb_forall in Hn3. apply Hn3. by apply elem_of_list_In.
      + intros ip2. rewrite Hr. by eexists.
  Qed.

  Inductive yields : list entity -> list term_lt -> Prop :=
    | y_nil : yields [] []
    | y_cons x es ip ts pushed ip' l1 l2 : process_entity pm s tx ip x = Ok (ts, pushed, ip') -> yields pushed l1 -> yields es l2 ->
        yields (x :: es) (ts ++ l1 ++ l2).
  Lemma yields_app_inv es1 : forall es2 l, yields (es1 ++ es2) l -> exists l1 l2, l = l1 ++ l2 /\ yields es1 l1 /\ yields es2 l2.
  Proof using Type.
    induction es1 as [|x es1 IH]; intros es2 l H; cbn [app] in H.
    - exists [], l. split_and!; try done. constructor.
    - inversion H as [|? ? ip ts pushed ip' l1 l2 Hp H1 H2]; subst. destruct (IH _ _ H2) as (k1 & k2 & -> & Y1 & Y2).
      exists (ts ++ l1 ++ k1), k2. split_and!; [by rewrite <- !app_assoc|by econstructor|done].
  Qed.
  Lemma yields_app es1 l1 es2 l2 : yields es1 l1 -> yields es2 l2 -> yields (es1 ++ es2) (l1 ++ l2).
  Proof using Type.
    intros H H2. induction H as [|x es ip ts pushed ip' k1 k2 Hp H1 _ Hes IH]; cbn [app]; [done|].
    rewrite <- !app_assoc. by econstructor.
  Qed.
  Lemma loop_yields fuel : forall deque terms ip ts ip', stage1_loop pm s tx fuel deque terms ip = Ok (ts, ip') ->
    exists l, yields deque l /\ ts = terms ++ l.
  Proof using Type.
    induction fuel as [|fuel IH]; intros [|x deque] terms ip ts ip' H; cbn [stage1_loop] in H; try done;
      try (injection H as <- _; exists []; rewrite app_nil_r; split; [constructor|done]).
    apply rbind_Ok in H as ([[ts1 pushed] ip1] & Hp & H). apply IH in H as (l & Hl & ->).
    apply yields_app_inv in Hl as (l1 & l2 & -> & Y1 & Y2). exists (ts1 ++ l1 ++ l2). split; [by econstructor|by rewrite <- !app_assoc].
  Qed.
  Lemma yields_loop fuel : forall deque l terms ip, Forall (fun x => ent_named x = true) deque -> yields deque l ->
    (list_sum (map ent_size deque) <= fuel)%nat -> exists ip', stage1_loop pm s tx fuel deque terms ip = Ok (terms ++ l, ip').
  Proof using Type.
    induction fuel as [|fuel IH]; intros [|x deque] l terms ip Hn Hy Hf; cbn [stage1_loop]; inversion Hy as [|? ? ip0 ts pushed ip' l1 l2 Hp H1 H2]; subst;
      try (rewrite app_nil_r; by eexists); cbn [map] in Hf; rewrite list_sum_cons in Hf.
    - pose proof (ent_size_pos x). lia.
    - apply Forall_cons in Hn as [Hx Hn]. destruct (process_named _ _ _ _ _ Hx Hp) as (Hpu & Hst). destruct (Hst ip) as (ip1 & Hp1). rewrite Hp1. cbn [rbind].
      apply process_entity_size in Hp. rewrite !app_assoc. rewrite <- (app_assoc _ l1 l2). apply IH.
      + by apply Forall_app.
      + by apply yields_app.
      + rewrite map_app, list_sum_app. lia.
  Qed.
  Lemma yields_det es : Forall (fun x => ent_named x = true) es -> forall l, yields es l -> forall l', yields es l' -> l = l'.
  Proof using Type.
    intros Hn l H l' H'. destruct (yields_loop (list_sum (map ent_size es)) es l [] inproc_new Hn H (le_n _)) as (ip1 & E1).
    destruct (yields_loop (list_sum (map ent_size es)) es l' [] inproc_new Hn H' (le_n _)) as (ip2 & E2). rewrite E1 in E2. by injection E2.
  Qed.
  Lemma yields_same es l : yields es l -> Forall (fun x => ent_named x = true) es -> forall es', same es es' -> exists l', yields es' l' /\ same l l'.
  Proof using Type.
    intros H Hn.
    assert (forall x, x ∈ es -> exists k, yields [x] k) as K.
    { intros x Hx. apply elem_of_list_split in Hx as (e1 & e2 & ->). apply yields_app_inv in H as (k1 & k2 & _ & _ & H).
      change (x :: e2) with ([x] ++ e2) in H. apply yields_app_inv in H as (k3 & k4 & _ & H & _). eauto. }
    assert (forall es l, Forall (fun x => ent_named x = true) es -> yields es l -> forall t, t ∈ l <-> exists x k, x ∈ es /\ yields [x] k /\ t ∈ k) as E.
    { clear. intros es. induction es as [|x es IH]; intros l Hn H t.
      - inversion H. setoid_rewrite elem_of_nil. naive_solver.
      - apply Forall_cons in Hn as [Hx Hn].
        change (x :: es) with ([x] ++ es) in H. apply yields_app_inv in H as (k1 & k2 & -> & H1 & H2). rewrite elem_of_app, (IH _ Hn H2).
        setoid_rewrite elem_of_cons. split.
        + intros [Ht|(y & k & Hy & Hk & Ht)]; [exists x, k1; auto|exists y, k; auto].
        + intros (y & k & [-> |Hy] & Hk & Ht); [|right; eauto]. left. assert (k1 = k) as ->; [|done]. eapply (yields_det [x]); try done. by constructor. }
    intros es' Hs. assert (Forall (fun x => ent_named x = true) es') as Hn'. { rewrite Forall_forall in *. intros x Hx. by apply Hn, Hs. }
    assert (exists l', yields es' l') as (l' & H').
    { assert (forall x, x ∈ es' -> exists k, yields [x] k) as K' by (intros; by apply K, Hs). clear -K'.
      induction es' as [|x es' IH]; [exists []; constructor|]. destruct (K' x) as (k & Hk); [by left|].
      destruct IH as (l' & Hl'); [intros; apply K'; by right|]. exists (k ++ l'). by apply (yields_app [x]). }
    exists l'. split; [done|]. intros t. rewrite (E _ _ Hn H t), (E _ _ Hn' H' t). by setoid_rewrite (Hs _).
  Qed.
End stage1.

Lemma terms_ids_same ts ts' : same ts ts' -> terms_ids ts = terms_ids ts'.
Proof.
  intros H. apply set_eq. intros x. unfold terms_ids. rewrite !elem_of_union_list. setoid_rewrite elem_of_list_fmap. by setoid_rewrite (H _).
Qed.

Lemma refs_same look l l' ts : same l l' -> resolve_lookup_refs look l = Ok ts -> exists ts', resolve_lookup_refs look l' = Ok ts' /\ same ts ts'.
Proof. unfold resolve_lookup_refs. apply rmapM_same. Qed.

Section limit.
  Context (mv : Z) (Hmv : limit_ok mv).

  Lemma entities_sim st pm s tx es es' ts ids : Forall (fun x => ent_named x = true) es -> same es es' ->
    entities_to_terms mv st pm s tx es = Ok (ts, ids) -> exists ts', entities_to_terms mv st pm s tx es' = Ok (ts', ids) /\ same ts ts'.
  Proof using Hmv.
    intros Hn Hs H. unfold entities_to_terms in *. apply rbind_Ok in H as ([l ip] & H1 & H). cbn beta iota in H.
    rewrite (resolve_avs_limit mv Hmv) in H. cbn [rbind] in H. apply rbind_Ok in H as (ts0 & H2 & [= <- <-]).
    pose proof H1 as Hid. unfold stage1 in Hid. apply stage1_loop_ids in Hid; [|done].
    apply loop_yields in H1 as (l0 & Hy & ->). cbn [app] in *. destruct (yields_same _ _ _ _ _ Hy Hn es' Hs) as (l' & Hy' & Sl).
    assert (Forall (fun x => ent_named x = true) es') as Hn'. { rewrite Forall_forall in *. intros x Hx. by apply Hn, Hs. }
    destruct (yields_loop _ _ _ (list_sum (map ent_size es')) es' l' [] inproc_new Hn' Hy' (le_n _)) as (ip' & H1').
    unfold stage1. rewrite H1'. cbn [rbind]. pose proof H1' as Hid'. apply stage1_loop_ids in Hid'; [|done]. cbn [app] in *.
    rewrite (resolve_avs_limit mv Hmv). cbn [rbind].
    destruct (refs_same _ _ _ _ Sl H2) as (ts' & -> & S2). cbn [rbind]. exists ts'. split; [|done].
    do 2 f_equal. rewrite Hid, Hid'. symmetry. by apply terms_ids_same.
  Qed.

  Lemma transact_sim now st pm sm s es es' st' r : Forall (fun x => ent_named x = true) es -> same es es' ->
    transact mv now st pm sm s es = (st', Ok r) -> transact mv now st pm sm s es' = (st', Ok r).
  Proof using Hmv.
    intros Hn Hs H. unfold transact in *. destruct (pm_allocate pm ":db.part/tx" 1) as [[tx pm1]| |]; try done.
    destruct (entities_to_terms mv st pm1 s tx es) as [[ts ids]| |] eqn:E; try done.
    destruct (entities_sim _ _ _ _ _ _ _ _ Hn Hs E) as (ts' & -> & St). by apply (simple_terms_sim mv Hmv now MaterializeAndCommit st pm1 sm s tx ts ts').
  Qed.

  Lemma conn_sim now c es es' c' r : Forall (fun x => ent_named x = true) es -> same es es' ->
    conn_transact mv now c es = (c', Ok r) -> conn_transact mv now c es' = (c', Ok r).
  Proof using Hmv.
    intros Hn Hs. unfold conn_transact, ig_transact.
    destruct (transact mv now (ig_store (conn_begin c)) (ig_parts (conn_begin c)) (ig_schema (conn_begin c)) (ig_schema (conn_begin c)) es) as [st' [r0| |]] eqn:E; [|done..].
    rewrite (transact_sim _ _ _ _ _ _ _ _ _ Hn Hs E). cbn [ig_transacted]. unfold conn_commit.
    assert (forall w w', ig_gen (ig_watch (conn_begin c) w) = ig_gen (ig_watch (conn_begin c) w') /\ ig_schema (ig_watch (conn_begin c) w) = ig_schema (ig_watch (conn_begin c) w')) as W.
    { intros w w'. unfold ig_watch. repeat case_match; done. }
    cbn [ig_gen ig_store ig_parts ig_schema].
    destruct (W (watch_transact mv now (ig_store (conn_begin c)) (ig_parts (conn_begin c)) (ig_schema (conn_begin c)) es)
                (watch_transact mv now (ig_store (conn_begin c)) (ig_parts (conn_begin c)) (ig_schema (conn_begin c)) es')) as [-> ->].
    destruct (decide _); done.
  Qed.
End limit.

Lemma set_of_entities mv now c es es' : limit_ok mv -> Forall (fun x => ent_named x = true) es -> (forall x, x ∈ es <-> x ∈ es') ->
  forall c' r, conn_transact mv now c es = (c', Ok r) <-> conn_transact mv now c es' = (c', Ok r).
Proof.
  intros Hmv Hn Hs c' r. split; apply (conn_sim mv Hmv); try done; [|by apply same_sym]. rewrite Forall_forall in *. intros x Hx. by apply Hn, Hs.
Qed.

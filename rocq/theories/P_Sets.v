(** Proofs about value type sets, interning, AddRetractAlterSet and chunking. *)
From Verif Require Import M_Sets M_Meta Spec_Sets.

(* value type sets *)
Lemma vts_contains_testbit s t : vts_contains s t = N.testbit s (vt_bit t).
Proof.
  unfold vts_contains. destruct (N.testbit s (vt_bit t)) eqn:E.
  - apply negb_true_iff, N.eqb_neq. intros H.
    assert (N.testbit (N.land s (N.shiftl 1 (vt_bit t))) (vt_bit t) = true) as K.
    { rewrite N.land_spec, E. rewrite N.shiftl_spec_high' by lia. by rewrite N.sub_diag. }
    rewrite H in K. by rewrite N.bits_0 in K.
  - apply negb_false_iff, N.eqb_eq, N.bits_inj. intros i. rewrite N.land_spec, N.bits_0.
    destruct (decide (i = vt_bit t)) as [->|Hne]; [by rewrite E|].
    rewrite N.shiftl_1_l, N.pow2_bits_false by done. by rewrite andb_false_r.
Qed.
Lemma vt_bit_inj t u : vt_bit t = vt_bit u -> t = u.
Proof. by destruct t, u. Qed.
Lemma vts_contains_insert s t u : vts_contains (vts_insert t s) u = bool_decide (t = u) || vts_contains s u.
Proof.
  rewrite !vts_contains_testbit. unfold vts_insert. rewrite N.lor_spec, N.shiftl_1_l.
  case_bool_decide as H.
  - subst. rewrite N.pow2_bits_true. apply orb_true_r.
  - rewrite N.pow2_bits_false by (intros E; apply H; by apply vt_bit_inj). by rewrite orb_false_r.
Qed.
Lemma vts_contains_none t : vts_contains vts_none t = false.
Proof. rewrite vts_contains_testbit. apply N.bits_0. Qed.
Lemma vts_contains_fold l : forall s t,
  vts_contains (fold_left (fun s t => vts_insert t s) l s) t = bool_decide (t ∈ l) || vts_contains s t.
Proof.
  induction l as [|x l IH]; intros s t; simpl.
  - done.
  - rewrite IH, vts_contains_insert. rewrite orb_assoc. f_equal.
    repeat case_bool_decide; try done; set_solver.
Qed.
Lemma vts_contains_list l t : vts_contains (vts_from_list l) t = bool_decide (t ∈ l).
Proof. unfold vts_from_list. rewrite vts_contains_fold, vts_contains_none. apply orb_false_r. Qed.
Lemma all_value_types_complete t : t ∈ all_value_types.
Proof. destruct t; unfold all_value_types; set_solver. Qed.
Lemma vts_any_contains t : vts_contains vts_any t = true.
Proof. unfold vts_any. rewrite vts_contains_list. apply bool_decide_eq_true, all_value_types_complete. Qed.
Lemma vts_union_contains s1 s2 t : vts_contains (vts_union s1 s2) t = vts_contains s1 t || vts_contains s2 t.
Proof. rewrite !vts_contains_testbit. apply N.lor_spec. Qed.
Lemma vts_inter_contains s1 s2 t : vts_contains (vts_intersection s1 s2) t = vts_contains s1 t && vts_contains s2 t.
Proof. rewrite !vts_contains_testbit. apply N.land_spec. Qed.
Lemma vts_diff_contains s1 s2 t : vts_contains (vts_difference s1 s2) t = vts_contains s1 t && negb (vts_contains s2 t).
Proof. rewrite !vts_contains_testbit. apply N.ldiff_spec. Qed.

Definition vts_valid (s : vts) : Prop := forall i, N.testbit s i = true -> (i < 8)%N.
Lemma vts_valid_bit s i : vts_valid s -> N.testbit s i = true -> exists t, vt_bit t = i.
Proof.
  intros Hv Hi. specialize (Hv _ Hi).
  assert (i = 0 \/ i = 1 \/ i = 2 \/ i = 3 \/ i = 4 \/ i = 5 \/ i = 6 \/ i = 7)%N as H by lia.
  destruct H as [->|[->|[->|[->|[->|[->|[->| ->]]]]]]];
    [exists VTRef|exists VTBoolean|exists VTInstant|exists VTLong|exists VTDouble|exists VTString|exists VTKeyword|exists VTUuid]; done.
Qed.
Lemma vts_ext s1 s2 : vts_valid s1 -> vts_valid s2 ->
  (forall t, vts_contains s1 t = vts_contains s2 t) -> s1 = s2.
Proof.
  intros H1 H2 H. apply N.bits_inj. intros i.
  destruct (N.testbit s1 i) eqn:E1.
  - destruct (vts_valid_bit _ _ H1 E1) as [t <-]. rewrite <- E1. rewrite <- !vts_contains_testbit. done.
  - destruct (N.testbit s2 i) eqn:E2; [|done].
    destruct (vts_valid_bit _ _ H2 E2) as [t <-]. rewrite <- E1, <- E2. rewrite <- !vts_contains_testbit. done.
Qed.
Lemma vts_valid_none : vts_valid vts_none.
Proof. intros i. by rewrite N.bits_0. Qed.
Lemma vts_valid_insert t s : vts_valid s -> vts_valid (vts_insert t s).
Proof.
  intros Hv i. unfold vts_insert. rewrite N.lor_spec. intros [H|H]%orb_true_iff; [by apply Hv|].
  rewrite N.shiftl_1_l in H. destruct (decide (vt_bit t = i)) as [<-|Hne].
  - by destruct t.
  - by rewrite N.pow2_bits_false in H.
Qed.
Lemma vts_built_valid s : vts_built s -> vts_valid s.
Proof.
  induction 1; [apply vts_valid_none|by apply vts_valid_insert| | |]; intros i Hi.
  - unfold vts_union in Hi. rewrite N.lor_spec in Hi. apply orb_true_iff in Hi as [|]; eauto.
  - unfold vts_intersection in Hi. rewrite N.land_spec in Hi. apply andb_true_iff in Hi as [? ?]; eauto.
  - unfold vts_difference in Hi. rewrite N.ldiff_spec in Hi. apply andb_true_iff in Hi as [? ?]; eauto.
Qed.

Lemma vts_subset_spec s1 s2 : vts_built s1 -> vts_built s2 ->
  vts_is_subset s1 s2 = true <-> (forall t, vts_den s1 t -> vts_den s2 t).
Proof.
  intros B1 B2. unfold vts_is_subset, vts_den. rewrite N.eqb_eq. split.
  - intros E t H. rewrite <- E in H. change (N.land s1 s2) with (vts_intersection s1 s2) in H.
    rewrite vts_inter_contains in H. by apply andb_true_iff in H as [_ H].
  - intros H. apply vts_ext; [|by apply vts_built_valid|].
    + apply vts_built_valid. by apply (built_inter s1 s2).
    + intros t. change (N.land s1 s2) with (vts_intersection s1 s2). rewrite vts_inter_contains.
      specialize (H t). destruct (vts_contains s1 t); simpl; [by apply H|done].
Qed.
Lemma vts_disjoint_spec s1 s2 : vts_built s1 -> vts_built s2 ->
  vts_is_disjoint s1 s2 = true <-> (forall t, vts_den s1 t -> vts_den s2 t -> False).
Proof.
  intros B1 B2. unfold vts_is_disjoint, vts_den. rewrite N.eqb_eq. split.
  - intros E t H1 H2. assert (vts_contains (vts_intersection s1 s2) t = true) as K.
    { by rewrite vts_inter_contains, H1, H2. }
    unfold vts_intersection in K. rewrite E in K. by rewrite vts_contains_none in K.
  - intros H. change 0%N with vts_none. apply vts_ext.
    + apply vts_built_valid. by apply (built_inter s1 s2).
    + apply vts_valid_none.
    + intros t. change (N.land s1 s2) with (vts_intersection s1 s2). rewrite vts_inter_contains, vts_contains_none.
      specialize (H t). destruct (vts_contains s1 t), (vts_contains s2 t); simpl; try done. exfalso; by apply H.
Qed.
Lemma vts_empty_spec s : vts_built s -> vts_is_empty s = true <-> (forall t, ~ vts_den s t).
Proof.
  intros B. unfold vts_is_empty, vts_den. rewrite N.eqb_eq. split.
  - intros -> t. by rewrite vts_contains_none.
  - intros H. change 0%N with vts_none. apply vts_ext; [by apply vts_built_valid|apply vts_valid_none|].
    intros t. rewrite vts_contains_none. apply not_true_is_false, H.
Qed.
Lemma vts_iter_spec s t : t ∈ vts_iter s <-> vts_den s t.
Proof.
  unfold vts_iter, vts_den. rewrite elem_of_list_filter. split; [by intros [? _]|].
  split; [done|apply all_value_types_complete].
Qed.
Lemma all_value_types_nodup : NoDup all_value_types.
Proof. apply (bool_decide_unpack _). vm_compute. exact I. Qed.
Lemma vts_iter_nodup s : NoDup (vts_iter s).
Proof. apply NoDup_filter, all_value_types_nodup. Qed.
Lemma vts_len_spec s (X : list value_type) : NoDup X -> (forall t, t ∈ X <-> vts_den s t) -> vts_len s = length X.
Proof.
  intros HX H. unfold vts_len. apply Permutation_length, NoDup_Permutation; [apply vts_iter_nodup|done|].
  intros t. by rewrite vts_iter_spec, H.
Qed.
Lemma vts_only_numeric_spec s : vts_built s ->
  vts_is_only_numeric s = true <-> (forall t, vts_den s t -> t = VTLong \/ t = VTDouble).
Proof.
  intros B. unfold vts_is_only_numeric.
  rewrite vts_subset_spec by first [done | repeat constructor].
  assert (forall t, vts_den vts_numeric t <-> t = VTLong \/ t = VTDouble) as E.
  { intros t. unfold vts_den, vts_numeric, vts_of_both. rewrite !vts_contains_insert, vts_contains_none.
    destruct t; vm_compute; split; intros; naive_solver. }
  split; intros H t Ht; apply E; auto.
Qed.

Lemma unique_loop1 a l : unique_tag_loop [a] l = true <-> Forall (fun t => vt_tag t = a) l.
Proof.
  induction l as [|t l IH]; simpl.
  - by rewrite Forall_nil.
  - rewrite Forall_cons. destruct (decide (vt_tag t ∈ [a])) as [H|H].
    + rewrite IH. apply elem_of_list_singleton in H. naive_solver.
    + destruct (decide (1 < 2)%nat); [|lia]. split; [done|]. intros [E _]. exfalso. apply H. rewrite E. set_solver.
Qed.
Lemma vts_unique_tag_spec s g :
  vts_unique_tag s = Some g <-> (exists t, vts_den s t) /\ (forall t, vts_den s t -> vt_tag t = g).
Proof.
  assert ((exists t, vts_den s t) /\ (forall t, vts_den s t -> vt_tag t = g)
    <-> (exists t, t ∈ vts_iter s) /\ (forall t, t ∈ vts_iter s -> vt_tag t = g)) as ->.
  { split; intros [[t Ht] H]; (split; [exists t; by apply vts_iter_spec|]); intros u Hu; by apply H, vts_iter_spec. }
  unfold vts_unique_tag, vts_has_unique_tag, vts_is_unit, vts_len, vts_exemplar.
  destruct (vts_iter s) as [|t l]; simpl.
  - split; [done|]. intros [[t Ht] _]. by apply elem_of_nil in Ht.
  - destruct (unique_tag_loop [vt_tag t] l) eqn:U.
    + rewrite !orb_true_r. simpl. apply unique_loop1 in U. split.
      * intros [= <-]. split; [exists t; set_solver|]. intros u [->|Hu]%elem_of_cons; [done|].
        by eapply Forall_forall in U.
      * intros [_ H]. f_equal. apply H. set_solver.
    + rewrite !orb_false_r. destruct (Nat.eqb (length l) 0) eqn:L; simpl.
      * apply Nat.eqb_eq in L. destruct l; [|done]. simpl in U. done.
      * split; [done|]. intros [_ H]. exfalso. apply not_true_iff_false in U. apply U, unique_loop1, Forall_forall.
        intros u Hu. rewrite (H u), (H t); set_solver.
Qed.

(* interning *)
Section intern.
  Context {A : Type} `{EqDecision A}.
  Implicit Types s : list (handle A).

  Definition vals_nodup s : Prop := NoDup (map h_val s).

  Lemma intern_spec s h s' o : vals_nodup s -> intern s h = (s', o) ->
    vals_nodup s' /\ h_val o = h_val h /\ o ∈ s' /\ (forall x, x ∈ s -> x ∈ s')
    /\ (forall x, x ∈ s' -> x ∈ s \/ x = h)
    /\ (forall v, v ∈ map h_val s' <-> v ∈ map h_val s \/ v = h_val h).
  Proof.
    unfold intern. intros Hn H. destruct (list_find _ s) as [[i x]|] eqn:F.
    - injection H as <- <-. apply list_find_Some in F as (Hx & Hv & _).
      assert (x ∈ s) by (by eapply elem_of_list_lookup_2).
      split_and!; try done; [by left|]. intros v. split; [by left|]. intros [?| ->]; [done|].
      rewrite <- Hv. by apply elem_of_list_fmap_1.
    - injection H as <- <-. apply list_find_None in F. rewrite Forall_forall in F.
      split_and!.
      + unfold vals_nodup. rewrite map_app. apply NoDup_app. split_and!; [done| |apply NoDup_singleton].
        intros v (x & -> & Hx)%elem_of_list_fmap. simpl. intros Hv%elem_of_list_singleton. by apply (F x).
      + done.
      + set_solver.
      + set_solver.
      + intros x. set_solver.
      + intros v. rewrite map_app. set_solver.
  Qed.

  Lemma vals_nodup_inj s x y : vals_nodup s -> x ∈ s -> y ∈ s -> h_val x = h_val y -> x = y.
  Proof.
    unfold vals_nodup. intros Hn [i Hi]%elem_of_list_lookup [j Hj]%elem_of_list_lookup Hv.
    assert (i = j) as ->; [|congruence].
    eapply NoDup_lookup; [exact Hn| |]; rewrite list_lookup_fmap; [by rewrite Hi|]. rewrite Hj. simpl. by rewrite Hv.
  Qed.

  Lemma intern_all_spec l : forall s s' os, vals_nodup s -> intern_all s l = (s', os) ->
    vals_nodup s' /\ map h_val os = map h_val l /\ (forall o, o ∈ os -> o ∈ s')
    /\ (forall x, x ∈ s -> x ∈ s') /\ (forall x, x ∈ s' -> x ∈ s \/ x ∈ l)
    /\ (forall v, v ∈ map h_val s' <-> v ∈ map h_val s \/ v ∈ map h_val l).
  Proof.
    induction l as [|h l IH]; intros s s' os Hn H; simpl in H.
    - injection H as <- <-. split_and!; try done; try set_solver.
    - destruct (intern s h) as [s1 o] eqn:E1. destruct (intern_all s1 l) as [s2 os'] eqn:E2.
      injection H as <- <-.
      destruct (intern_spec _ _ _ _ Hn E1) as (Hn1 & Hv1 & Ho & Hsub & Hsup & Hvs).
      destruct (IH _ _ _ Hn1 E2) as (Hn2 & Hv2 & Hos & Hsub2 & Hsup2 & Hvs2).
      split_and!.
      + done.
      + simpl. by rewrite Hv1, Hv2.
      + intros x [->|Hx]%elem_of_cons; auto.
      + auto.
      + intros x Hx. destruct (Hsup2 _ Hx) as [Hx1|Hx1]; [destruct (Hsup _ Hx1)|]; set_solver.
      + intros v. rewrite Hvs2, Hvs. simpl. rewrite elem_of_cons. tauto.
  Qed.

  Lemma intern_all_canonical l s os : intern_all [] l = (s, os) ->
    (forall i h o, l !! i = Some h -> os !! i = Some o -> h_val o = h_val h)
    /\ length os = length l
    /\ (forall o p, o ∈ os -> p ∈ os -> h_val o = h_val p -> o = p)
    /\ (forall o, o ∈ os -> o ∈ l)
    /\ length s = length (remove_dups (map h_val l)).
  Proof.
    intros H. destruct (intern_all_spec l [] s os) as (Hn & Hv & Hos & _ & Hsup & Hvs); [apply NoDup_nil_2|done|].
    split_and!.
    - intros i h o Hi Ho. assert (map h_val os !! i = map h_val l !! i) as K by by rewrite Hv.
      rewrite !list_lookup_fmap, Hi, Ho in K. by injection K.
    - by rewrite <- (map_length h_val os), Hv, map_length.
    - intros o p Ho Hp E. eapply vals_nodup_inj; eauto.
    - intros o Ho. destruct (Hsup _ (Hos _ Ho)) as [Hx|Hx]; [by apply elem_of_nil in Hx|done].
    - rewrite <- (map_length h_val s). apply Permutation_length, NoDup_Permutation; [done|apply NoDup_remove_dups|].
      intros v. rewrite Hvs, elem_of_remove_dups. simpl. rewrite elem_of_nil. tauto.
  Qed.
End intern.

(* AddRetractAlterSet *)
Section aras.
  Context {K : Type} `{Countable K} {V : Type}.
  Implicit Types l : list (K * V * bool).

  Definition aras_state (s : aras K V) (k : K) : option V * option V * option (V * V) :=
    (ar_asserted s !! k, ar_retracted s !! k, ar_altered s !! k).
  Definition aras_expected (adds rets : list V) : option V * option V * option (V * V) :=
    match adds, rets with
    | [], [] => (None, None, None)
    | [x], [] => (Some x, None, None)
    | [], [r] => (None, Some r, None)
    | x :: _, r :: _ => (None, None, Some (r, x))
    | _, _ => (None, None, None)
    end.

  Lemma added_of_app l1 l2 k : added_of (l1 ++ l2) k = added_of l1 k ++ added_of l2 k.
  Proof. unfold added_of. by rewrite flat_map_app. Qed.
  Lemma retracted_of_app l1 l2 k : retracted_of (l1 ++ l2) k = retracted_of l1 k ++ retracted_of l2 k.
  Proof. unfold retracted_of. by rewrite flat_map_app. Qed.

  Lemma witness_state_ne (s : aras K V) k k' v b : k <> k' -> aras_state (witness s k v b) k' = aras_state s k'.
  Proof.
    intros Hne. unfold aras_state, witness.
    destruct b; [destruct (ar_retracted s !! k)|destruct (ar_asserted s !! k)]; simpl;
      rewrite ?lookup_insert_ne, ?lookup_delete_ne by done; done.
  Qed.

  Lemma witness_all_spec l k :
    (length (added_of l k) <= 1)%nat -> (length (retracted_of l k) <= 1)%nat ->
    aras_state (witness_all l) k = aras_expected (added_of l k) (retracted_of l k).
  Proof.
    unfold witness_all. induction l as [|[[k1 v] b] l IH] using rev_ind; intros Ha Hr.
    - unfold aras_state. simpl. by rewrite !lookup_empty.
    - rewrite added_of_app in Ha |- *. rewrite retracted_of_app in Hr |- *.
      rewrite app_length in Ha, Hr. rewrite fold_left_app. cbn [fold_left fst snd].
      specialize (IH ltac:(lia) ltac:(lia)).
      set (s := fold_left _ l aras_empty) in *. clearbody s.
      destruct (decide (k1 = k)) as [->|Hne].
      + assert (forall x : V, added_of [(k, x, b)] k = if b then [x] else []) as Ea.
        { intros x. unfold added_of. simpl. rewrite decide_True by done. apply app_nil_r. }
        assert (forall x : V, retracted_of [(k, x, b)] k = if b then [] else [x]) as Er.
        { intros x. unfold retracted_of. simpl. rewrite decide_True by done. apply app_nil_r. }
        rewrite Ea in Ha |- *. rewrite Er in Hr |- *.
        unfold aras_state in *. destruct b; simpl in Ha, Hr |- *.
        * assert (added_of l k = []) as Hnil by (destruct (added_of l k); [done|simpl in Ha; lia]).
          rewrite Hnil in *. rewrite app_nil_r. simpl. unfold witness.
          destruct (retracted_of l k) as [|r [|]]; simpl in *; try lia.
          -- injection IH as IH1 IH2 IH3. rewrite IH2. simpl. by rewrite lookup_insert, IH2, IH3.
          -- injection IH as IH1 IH2 IH3. rewrite IH2. simpl. by rewrite lookup_insert, lookup_delete, IH1.
        * assert (retracted_of l k = []) as Hnil by (destruct (retracted_of l k); [done|simpl in Hr; lia]).
          rewrite Hnil in *. rewrite app_nil_r. simpl. unfold witness.
          destruct (added_of l k) as [|r [|]]; simpl in *; try lia.
          -- injection IH as IH1 IH2 IH3. rewrite IH1. simpl. by rewrite lookup_insert, IH1, IH3.
          -- injection IH as IH1 IH2 IH3. rewrite IH1. simpl. by rewrite lookup_insert, lookup_delete, IH2.
      + rewrite witness_state_ne by done. rewrite IH.
        assert (added_of [(k1, v, b)] k = []) as ->.
        { unfold added_of. simpl. by rewrite decide_False by done. }
        assert (retracted_of [(k1, v, b)] k = []) as ->.
        { unfold retracted_of. simpl. by rewrite decide_False by done. }
        by rewrite !app_nil_r.
  Qed.
End aras.

(* chunking *)
Lemma chunks_aux_spec {A} (size : nat) (l : list A) : forall cur room,
  (0 < size)%nat -> (length cur + room = size)%nat ->
  concat (chunks_aux size cur room l) = rev cur ++ l
  /\ Forall (fun c => (0 < length c <= size)%nat) (chunks_aux size cur room l).
Proof.
  induction l as [|x l IH]; intros cur room Hs Hc; simpl.
  - destruct cur as [|y cur]; simpl; [done|]. rewrite app_nil_r. split; [done|].
    constructor; [|constructor]. rewrite app_length, rev_length. simpl in *. lia.
  - destruct room as [|r].
    + destruct (IH [x] (size - 1)%nat) as [E F]; [done|simpl; lia|]. simpl. rewrite E. split; [done|].
      constructor; [|done]. rewrite rev_length. lia.
    + destruct (IH (x :: cur) r) as [E F]; [done|simpl; lia|]. rewrite E. simpl. rewrite <- app_assoc. done.
Qed.
Lemma chunks_spec {A} (size : nat) (l : list A) : (0 < size)%nat ->
  concat (chunks size l) = l /\ Forall (fun c => (0 < length c <= size)%nat) (chunks size l).
Proof. intros H. apply (chunks_aux_spec size l [] size H). done. Qed.

Lemma chunk_ok_iff k mv n : 0 < k -> 0 < mv ->
  chunk_ok k mv n = true <-> k <= mv /\ (Z.of_nat n < mv / k \/ mv mod k <> 0).
Proof.
  intros Hk Hmv. unfold chunk_ok. rewrite andb_true_iff, negb_true_iff, Z.eqb_neq, Z.ltb_lt.
  pose proof (Z.div_mod mv k ltac:(lia)) as E. pose proof (Z.mod_pos_bound mv k Hk) as B.
  assert (mv / k <> 0 <-> k <= mv) as ->.
  { split.
    - intros H. destruct (decide (k <= mv)); [done|]. exfalso. apply H, Z.div_small. lia.
    - intros H H0. rewrite H0 in E. lia. }
  split.
  - intros [H1 H2]. split; [done|]. destruct (decide (Z.of_nat n < mv / k)); [by left|right].
    rewrite Z.min_r in H2 by lia. lia.
  - intros [H1 [H2|H2]]; split; try done.
    + rewrite Z.min_l by lia. nia.
    + pose proof (Z.le_min_r (Z.of_nat n) (mv / k)). nia.
Qed.

Lemma aras_classifies (K V : Type) (ED : EqDecision K) (C : Countable K) (l : list (K * V * bool)) (k : K) :
  (length (added_of l k) <= 1)%nat -> (length (retracted_of l k) <= 1)%nat ->
  let s := witness_all l in
  ar_asserted s !! k = match added_of l k, retracted_of l k with [x], [] => Some x | _, _ => None end
  /\ ar_retracted s !! k = match added_of l k, retracted_of l k with [], [r] => Some r | _, _ => None end
  /\ ar_altered s !! k = match added_of l k, retracted_of l k with [x], [r] => Some (r, x) | _, _ => None end.
Proof.
  intros Ha Hr s. pose proof (witness_all_spec l k Ha Hr) as E. fold s in E. unfold aras_state, aras_expected in E.
  destruct (added_of l k) as [|x [|]]; simpl in Ha; try lia;
    destruct (retracted_of l k) as [|r [|]]; simpl in Hr; try lia; injection E as E1 E2 E3; done.
Qed.

Lemma chunk_refuted :
  (exists n, chunk_ok 6 32766 n = false /\ Z.of_nat n = 5461)
  /\ (exists n, chunk_ok 4 250000 n = false /\ Z.of_nat n = 62500).
Proof.
  split; [exists (Z.to_nat 5461)|exists (Z.to_nat 62500)];
    (split; [unfold chunk_ok; by rewrite Z2Nat.id by lia|by rewrite Z2Nat.id by lia]).
Qed.

Lemma vts_algebra s t :
  (forall x, vts_den (vts_union s t) x <-> vts_den s x \/ vts_den t x)
  /\ (forall x, vts_den (vts_intersection s t) x <-> vts_den s x /\ vts_den t x)
  /\ (forall x, vts_den (vts_difference s t) x <-> vts_den s x /\ ~ vts_den t x)
  /\ (forall x y, vts_den (vts_insert x s) y <-> x = y \/ vts_den s y)
  /\ (forall x, vts_den vts_any x) /\ (forall x, ~ vts_den vts_none x).
Proof.
  unfold vts_den. split_and!.
  - intros x. by rewrite vts_union_contains, orb_true_iff.
  - intros x. by rewrite vts_inter_contains, andb_true_iff.
  - intros x. by rewrite vts_diff_contains, andb_true_iff, negb_true_iff, not_true_iff_false.
  - intros x y. by rewrite vts_contains_insert, orb_true_iff, bool_decide_eq_true.
  - apply vts_any_contains.
  - intros x. by rewrite vts_contains_none.
Qed.
Lemma vts_predicates s t : vts_built s -> vts_built t ->
  (s = t <-> forall x, vts_den s x <-> vts_den t x)
  /\ (vts_is_subset s t = true <-> forall x, vts_den s x -> vts_den t x)
  /\ (vts_is_disjoint s t = true <-> forall x, vts_den s x -> vts_den t x -> False)
  /\ (vts_is_empty s = true <-> forall x, ~ vts_den s x)
  /\ (vts_is_only_numeric s = true <-> forall x, vts_den s x -> x = VTLong \/ x = VTDouble).
Proof.
  intros Hs Ht. split_and!.
  - split; [by intros ->|]. intros H. apply vts_ext; try by apply vts_built_valid.
    intros x. apply eq_bool_prop_intro. rewrite !Is_true_true. apply H.
  - by apply vts_subset_spec.
  - by apply vts_disjoint_spec.
  - by apply vts_empty_spec.
  - by apply vts_only_numeric_spec.
Qed.
Lemma vts_enumeration s :
  (forall x, x ∈ vts_iter s <-> vts_den s x) /\ NoDup (vts_iter s)
  /\ (forall X, NoDup X -> (forall x, x ∈ X <-> vts_den s x) -> vts_len s = length X).
Proof. split_and!; [apply vts_iter_spec|apply vts_iter_nodup|apply vts_len_spec]. Qed.

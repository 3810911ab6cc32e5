(** Values as SQL sees them. *)
From Verif Require Import M_Query Spec_Query Spec_Value Spec_Sets P_Value P_Sets P_Perm.

(* ---------------------------------------------------------------- doubles *)

Definition dv (m : Z) : Z := if decide (m < 2 ^ 52) then m else (2 ^ 52 + m mod 2 ^ 52) * 2 ^ (m / 2 ^ 52 - 1).
Lemma double_value_dv k : double_value k = Z.sgn k * dv (Z.abs k).
Proof. reflexivity. Qed.
Lemma dv_mono m n : 0 <= m -> m < n -> dv m < dv n.
Proof.
  intros H0 H. unfold dv. assert (0 < 2 ^ 52) as HB by lia. revert HB. generalize (2 ^ 52). intros B HB.
  assert (forall x, B <= x -> 1 <= x / B) as Hq. { intros x Hx. apply Z.div_le_lower_bound; lia. }
  pose proof (Z.mod_pos_bound m B HB) as Hm. pose proof (Z.mod_pos_bound n B HB) as Hn.
  pose proof (Z.div_mod m B ltac:(lia)) as Em. pose proof (Z.div_mod n B ltac:(lia)) as En.
  destruct (decide (m < B)) as [Hmb|Hmb]; destruct (decide (n < B)) as [Hnb|Hnb]; try lia.
  - assert (1 <= n / B) by (apply Hq; lia). assert (1 <= 2 ^ (n / B - 1)) as Hp by (apply (Z.pow_le_mono_r 2 0); lia).
    revert Hn Hp. generalize (2 ^ (n / B - 1)), (n mod B). intros P r Hr Hp. apply Z.lt_le_trans with (B * 1); [lia|]. apply Z.mul_le_mono_nonneg; lia.
  - assert (1 <= m / B) as Hqm by (apply Hq; lia). assert (1 <= n / B) as Hqn by (apply Hq; lia).
    assert (m / B <= n / B) as Hle by (apply Z.div_le_mono; lia).
    assert (1 <= 2 ^ (m / B - 1)) as Hp by (apply (Z.pow_le_mono_r 2 0); lia).
    destruct (decide (m / B = n / B)) as [E|E].
    + rewrite <- E. apply Z.mul_lt_mono_pos_r; [lia|]. rewrite <- E in En. lia.
    + assert (2 * 2 ^ (m / B - 1) <= 2 ^ (n / B - 1)) as H2.
      { rewrite <- (Z.pow_succ_r 2) by lia. apply Z.pow_le_mono_r; lia. }
      revert Hp H2 Hm Hn. generalize (2 ^ (m / B - 1)), (2 ^ (n / B - 1)), (m mod B), (n mod B). intros P Q r r' Hp H2 Hr Hr'.
      apply Z.lt_le_trans with ((B + B) * P); [apply Z.mul_lt_mono_pos_r; lia|]. apply Z.le_trans with (B * Q); [|apply Z.mul_le_mono_nonneg_r; lia].
      replace ((B + B) * P) with (B * (2 * P)) by lia. apply Z.mul_le_mono_nonneg_l; lia.
Qed.
Lemma dv_nonneg m : 0 <= m -> 0 <= dv m.
Proof.
  intros H. destruct (decide (m = 0)) as [->|Hne]; [vm_compute; congruence|].
  pose proof (dv_mono 0 m ltac:(lia) ltac:(lia)) as K. change (dv 0) with 0 in K. lia.
Qed.
Lemma dv_pos m : 0 < m -> 0 < dv m.
Proof. intros H. pose proof (dv_mono 0 m ltac:(lia) H) as K. change (dv 0) with 0 in K. lia. Qed.
Lemma double_value_mono a b : a < b -> double_value a < double_value b.
Proof.
  intros H. rewrite !double_value_dv.
  destruct (Z.lt_trichotomy a 0) as [Ha|[->|Ha]]; destruct (Z.lt_trichotomy b 0) as [Hb|[->|Hb]]; try lia.
  - rewrite (Z.sgn_neg a), (Z.sgn_neg b), !Z.abs_neq by lia. pose proof (dv_mono (- b) (- a) ltac:(lia) ltac:(lia)). lia.
  - rewrite (Z.sgn_neg a) by lia. pose proof (dv_pos (Z.abs a) ltac:(lia)). change (Z.sgn 0) with 0. lia.
  - rewrite (Z.sgn_neg a), (Z.sgn_pos b) by lia. pose proof (dv_pos (Z.abs a) ltac:(lia)). pose proof (dv_pos (Z.abs b) ltac:(lia)). lia.
  - rewrite (Z.sgn_pos b) by lia. pose proof (dv_pos (Z.abs b) ltac:(lia)). change (Z.sgn 0) with 0. lia.
  - rewrite (Z.sgn_pos a), (Z.sgn_pos b), !Z.abs_eq by lia. pose proof (dv_mono a b ltac:(lia) ltac:(lia)). lia.
Qed.
Lemma double_value_cmp a b : Z.compare (double_value a) (double_value b) = Z.compare a b.
Proof.
  destruct (Z.compare_spec a b) as [->|H|H].
  - apply Z.compare_refl.
  - apply Z.compare_lt_iff. by apply double_value_mono.
  - apply Z.compare_gt_iff. by apply double_value_mono.
Qed.
Lemma double_value_inj a b : double_value a = double_value b -> a = b.
Proof. intros H. apply Z.compare_eq. rewrite <- double_value_cmp, H. apply Z.compare_refl. Qed.
Lemma long_value_cmp a b : Z.compare (long_value a) (long_value b) = Z.compare a b.
Proof. unfold long_value. rewrite !(Z.mul_comm _ (2 ^ 1074)). symmetry. apply Zmult_compare_compat_l. lia. Qed.

(* ---------------------------------------------------------------- equality *)

Lemma tag_of v : (to_sql_value_pair v).2 = vt_tag (tv_type v).
Proof. by destruct v as [| | |[|]| | | |]. Qed.
Lemma to_sql_eta v : to_sql_value_pair v = (sql_of v, vt_tag (tv_type v)).
Proof. rewrite <- tag_of. unfold sql_of. by destruct (to_sql_value_pair v). Qed.
Lemma decode_sql v : storable v -> from_sql_value_pair (sql_of v) (vt_tag (tv_type v)) = Ok v.
Proof. intros H. rewrite <- tag_of. unfold sql_of. by apply codec_roundtrip_iff. Qed.
Lemma sql_of_inj v w : storable v -> storable w -> sql_of v = sql_of w -> vt_tag (tv_type v) = vt_tag (tv_type w) -> v = w.
Proof. intros Hv Hw E1 E2. pose proof (decode_sql v Hv) as D1. rewrite E1, E2, decode_sql in D1 by done. by injection D1. Qed.
Lemma vt_tag_own t u : vt_tag t = vt_tag u -> t <> VTLong -> t <> VTDouble -> t = u.
Proof. by destruct t, u. Qed.
Lemma vt_tag_ref t : vt_tag t = 0 -> t = VTRef.
Proof. by destruct t. Qed.

(** Of the same type: equal to SQL if and only if equal *)
Lemma sql_same_typed v w : storable v -> storable w -> tv_type v = tv_type w -> sql_same (sql_of v) (sql_of w) = true <-> v = w.
Proof.
  intros Hv Hw T. split.
  - intros H. apply sql_of_inj; [done|done| |by rewrite T].
    destruct v as [| | |[|]| | | |], w as [| | |[|]| | | |]; try done; cbn in H |- *; try done.
    all: try (apply Z.eqb_eq in H; by rewrite H). all: try (apply bool_decide_eq_true in H; by rewrite H).
    + apply Z.eqb_eq, double_value_inj in H. by rewrite H.
    + apply N.eqb_eq in H. by rewrite H.
  - intros <-. destruct v as [| | |[|]| | | |]; cbn; try done; try apply Z.eqb_refl; try by apply bool_decide_eq_true. apply N.eqb_refl.
Qed.
Lemma sql_eq_typed sq v w : storable v -> storable w -> tv_type v = tv_type w -> sql_eq sq (sql_of v) (sql_of w) = true <-> v = w.
Proof.
  intros Hv Hw T. rewrite <- sql_same_typed by done.
  by destruct v as [| | |[|]| | | |], w as [| | |[|]| | | |].
Qed.
Lemma sql_eq_refl sq v : storable v -> sql_eq sq (sql_of v) (sql_of v) = true.
Proof. intros H. by apply sql_eq_typed. Qed.
Lemma sql_eq_int sq a b : sql_eq sq (SInt a) (SInt b) = true <-> a = b.
Proof. cbn. apply Z.eqb_eq. Qed.
Lemma sql_same_refl v : sql_same v v = true.
Proof.
  destruct v as [| |[|]| |]; cbn; try done; [apply Z.eqb_refl|apply Z.eqb_refl|by apply bool_decide_eq_true|apply N.eqb_refl].
Qed.
Lemma long_value_eqb a b : Z.eqb (long_value a) (long_value b) = Z.eqb a b.
Proof.
  destruct (Z.eqb_spec a b) as [->|H]; [apply Z.eqb_refl|]. apply Z.eqb_neq. intros E. apply H, Z.compare_eq.
  rewrite <- long_value_cmp, E. apply Z.compare_refl.
Qed.
(** [sql_same] is an equivalence: what it compares *)
Definition sql_key (v : sqlval) : Z + (string + N) + unit :=
  match v with
  | SNull | SReal DNaN => inr tt
  | SInt z => inl (inl (long_value z))
  | SReal (DKey k) => inl (inl (double_value k))
  | SText s => inl (inr (inl s))
  | SBlob b => inl (inr (inr b))
  end.
Lemma sql_same_key v w : sql_same v w = true <-> sql_key v = sql_key w.
Proof.
  destruct v as [|a|[|a]|a|a], w as [|b|[|b]|b|b]; cbn; try (split; congruence).
  - rewrite <- long_value_eqb. rewrite Z.eqb_eq. split; [by intros ->|by intros [= ->]].
  - rewrite Z.eqb_eq. split; [by intros ->|by intros [= ->]].
  - rewrite Z.eqb_eq. split; [by intros ->|by intros [= ->]].
  - rewrite Z.eqb_eq. split; [by intros ->|by intros [= ->]].
  - rewrite bool_decide_eq_true. split; [by intros ->|by intros [= ->]].
  - rewrite N.eqb_eq. split; [by intros ->|by intros [= ->]].
Qed.
Lemma row_same_keys r1 r2 : row_same r1 r2 = true <-> map sql_key r1 = map sql_key r2.
Proof.
  unfold row_same. revert r2. induction r1 as [|x r1 IH]; intros [|y r2]; cbn [length zip map zip_with forallb fst snd Nat.eqb]; try (split; done).
  specialize (IH r2). rewrite andb_true_iff in IH. rewrite !andb_true_iff, sql_same_key. split.
  - intros (H1 & H2 & H3). f_equal; [done|]. by apply IH.
  - intros [= H1 H2]. apply IH in H2 as [??]. done.
Qed.

(* ---------------------------------------------------------------- order *)

Lemma to_micros_exact ns : ns mod 1000 = 0 -> 1000 * to_micros ns = ns.
Proof. unfold to_micros. intros H. Z.to_euclidean_division_equations. lia. Qed.
Lemma sql_cmp_typed v w : storable v -> storable w -> vt_tag (tv_type v) = vt_tag (tv_type w) -> sql_cmp (sql_of v) (sql_of w) = value_cmp v w.
Proof.
  intros Hv Hw T. unfold value_cmp. rewrite T, Z.compare_refl.
  destruct v as [|[]| |[|]| | | |], w as [|[]| |[|]| | | |]; try done; cbn; try apply long_value_cmp; try apply double_value_cmp; try done.
  rewrite long_value_cmp. cbn in Hv, Hw. rewrite <- (to_micros_exact ns) at 2 by tauto. rewrite <- (to_micros_exact ns0) at 2 by tauto.
  apply Zmult_compare_compat_l. lia.
Qed.
Lemma sql_cmp_opp v w : sql_cmp w v = CompOpp (sql_cmp v w).
Proof.
  unfold sql_cmp. rewrite (Z.compare_antisym (sql_rank v)). destruct (Z.compare (sql_rank v) (sql_rank w)) eqn:E; try done. cbn [CompOpp].
  destruct v as [|a|[|a]|a|a], w as [|b|[|b]|b|b]; cbn [number]; try done; try apply Z.compare_antisym; try apply string_cmp_opp. apply N.compare_antisym.
Qed.
(** The order as a lexicographic one *)
Lemma sql_cmp_trans u v w : sql_cmp u v <> Gt -> sql_cmp v w <> Gt -> sql_cmp u w <> Gt.
Proof.
  unfold sql_cmp. intros H1 H2.
  destruct (Z.compare_spec (sql_rank u) (sql_rank v)) as [E1|E1|E1]; [| |done];
  destruct (Z.compare_spec (sql_rank v) (sql_rank w)) as [E2|E2|E2]; try done.
  - assert (sql_rank u = sql_rank w) as E3 by congruence. rewrite E3, Z.compare_refl.
    destruct u as [|a|[|a]|a|a], v as [|b|[|b]|b|b], w as [|c|[|c]|c|c]; cbn in E1, E2, E3; try done; cbn [number] in *;
      try (rewrite Z.compare_le_iff in *; etrans; eassumption); try (by eapply string_cmp_trans).
    rewrite N.compare_le_iff in *. etrans; eassumption.
  - assert (Z.compare (sql_rank u) (sql_rank w) = Lt) as ->; [apply Z.compare_lt_iff; lia|done].
  - assert (Z.compare (sql_rank u) (sql_rank w) = Lt) as ->; [apply Z.compare_lt_iff; lia|done].
  - assert (Z.compare (sql_rank u) (sql_rank w) = Lt) as ->; [apply Z.compare_lt_iff; lia|done].
Qed.
Lemma sql_cmp_tags a b : sql_cmp (SInt a) (SInt b) = Z.compare a b.
Proof. cbn. apply long_value_cmp. Qed.

(* ---------------------------------------------------------------- sets of types *)

Lemma one_contains t u : vts_contains (vts_of_one t) u = bool_decide (t = u).
Proof. unfold vts_of_one. rewrite vts_contains_insert, vts_contains_none. by rewrite orb_false_r. Qed.
Lemma one_contains_iff t u : vts_contains (vts_of_one t) u = true <-> u = t.
Proof. rewrite one_contains, bool_decide_eq_true. naive_solver. Qed.
Lemma empty_contains s t : vts_is_empty s = true -> vts_contains s t = false.
Proof. unfold vts_is_empty. rewrite N.eqb_eq. intros ->. apply vts_contains_none. Qed.
Lemma one_is_unit t : vts_is_unit (vts_of_one t) = true.
Proof. by destruct t. Qed.
Lemma one_exemplar t : vts_exemplar (vts_of_one t) = Some t.
Proof. by destruct t. Qed.
Lemma disjoint_contains s t u : vts_is_disjoint s t = true -> vts_contains s u = true -> vts_contains t u = true -> False.
Proof.
  unfold vts_is_disjoint. rewrite N.eqb_eq. intros E H1 H2.
  assert (vts_contains (vts_intersection s t) u = true) as H by (by rewrite vts_inter_contains, H1, H2).
  unfold vts_intersection in H. by rewrite E in H.
Qed.
Lemma subset_contains s t u : vts_is_subset s t = true -> vts_contains s u = true -> vts_contains t u = true.
Proof.
  unfold vts_is_subset. rewrite N.eqb_eq. intros E H1.
  assert (vts_contains (vts_intersection s t) u = true) as H by (unfold vts_intersection; by rewrite E).
  rewrite vts_inter_contains in H. by apply andb_true_iff in H as [_ H].
Qed.

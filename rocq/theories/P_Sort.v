(** Sorting metadata rows depends only on which rows there are. *)
From Verif Require Import M_Store.

Record good {A} (c : A -> A -> comparison) : Prop := {
  gd_eq : forall x y, c x y = Eq <-> x = y;
  gd_opp : forall x y, c y x = CompOpp (c x y);
  gd_lt : forall x y z, c x y = Lt -> c y z = Lt -> c x z = Lt }.
Definition lex {A B} (c : A -> A -> comparison) (d : B -> B -> comparison) (x y : A * B) : comparison :=
  match c x.1 y.1 with Eq => d x.2 y.2 | o => o end.

Lemma good_Z : good Z.compare.
Proof.
  split.
  - apply Z.compare_eq_iff.
  - intros. apply Z.compare_antisym.
  - intros x y z. rewrite !Z.compare_lt_iff. lia.
Qed.
Lemma good_N : good N.compare.
Proof.
  split.
  - apply N.compare_eq_iff.
  - intros. apply N.compare_antisym.
  - intros x y z. rewrite !N.compare_lt_iff. lia.
Qed.
Lemma good_lex {A B} (c : A -> A -> comparison) (d : B -> B -> comparison) : good c -> good d -> good (lex c d).
Proof.
  intros [C1 C2 C3] [D1 D2 D3]. split.
  - intros [x1 x2] [y1 y2]. unfold lex. simpl. destruct (c x1 y1) eqn:E.
    + apply C1 in E as ->. rewrite D1. naive_solver.
    + split; [done|]. intros [= -> ->]. by rewrite (proj2 (C1 y1 y1)) in E.
    + split; [done|]. intros [= -> ->]. by rewrite (proj2 (C1 y1 y1)) in E.
  - intros [x1 x2] [y1 y2]. unfold lex. simpl. rewrite (C2 x1 y1). by destruct (c x1 y1); simpl.
  - intros [x1 x2] [y1 y2] [z1 z2]. unfold lex. simpl.
    destruct (c x1 y1) eqn:E1, (c y1 z1) eqn:E2; try done.
    + apply C1 in E1 as ->, E2 as ->. rewrite (proj2 (C1 z1 z1)) by done. apply D3.
    + apply C1 in E1 as ->. by rewrite E2.
    + apply C1 in E2 as ->. by rewrite E1.
    + by rewrite (C3 _ _ _ E1 E2).
Qed.
Lemma good_inj {A B} (f : A -> B) (c : B -> B -> comparison) : Inj (=) (=) f -> good c -> good (fun x y => c (f x) (f y)).
Proof.
  intros Hf [C1 C2 C3]. split.
  - intros x y. rewrite C1. split; [apply Hf|congruence].
  - intros. apply C2.
  - intros x y z. apply C3.
Qed.
Lemma good_string : good string_cmp.
Proof.
  split.
  - induction x as [|a s IH]; intros [|b t]; simpl; try done. destruct (N.compare_spec (N_of_ascii a) (N_of_ascii b)) as [E|E|E].
    + rewrite IH. apply (f_equal ascii_of_N) in E. rewrite !ascii_N_embedding in E. subst. naive_solver.
    + split; [done|]. intros [= -> ->]. lia.
    + split; [done|]. intros [= -> ->]. lia.
  - induction x as [|a s IH]; intros [|b t]; simpl; try done. rewrite (N.compare_antisym (N_of_ascii a)), IH.
    by destruct (N.compare (N_of_ascii a) (N_of_ascii b)).
  - induction x as [|a s IH]; intros [|b t] [|d u]; simpl; try done.
    destruct (N.compare_spec (N_of_ascii a) (N_of_ascii b)) as [E1|E1|E1], (N.compare_spec (N_of_ascii b) (N_of_ascii d)) as [E2|E2|E2]; try done.
    + rewrite E1, E2, N.compare_refl. apply IH.
    + intros _ _. by rewrite (proj2 (N.compare_lt_iff _ _)) by lia.
    + intros _ _. by rewrite (proj2 (N.compare_lt_iff _ _)) by lia.
    + intros _ _. by rewrite (proj2 (N.compare_lt_iff _ _)) by lia.
Qed.

Definition is_plain (v : sqlval) : Prop := match v with SInt _ | SText _ => True | _ => False end.
(** On integers and texts *)
Definition plain_cmp (x y : Z + string) : comparison :=
  match x, y with inl x, inl y => Z.compare x y | inl _, inr _ => Lt | inr _, inl _ => Gt | inr s, inr t => string_cmp s t end.
Lemma good_plain : good plain_cmp.
Proof.
  destruct good_Z as [Z1 Z2 Z3], good_string as [S1 S2 S3]. split.
  - intros [x|s] [y|t]; simpl; try done.
    + rewrite Z1. naive_solver.
    + rewrite S1. naive_solver.
  - intros [x|s] [y|t]; simpl; try done.
  - intros [x|s] [y|t] [z|u]; simpl; try done; [apply Z3|apply S3].
Qed.
Definition plain_of (v : sqlval) : Z + string := match v with SInt z => inl z | SText s => inr s | _ => inl 0 end.
Lemma plain_cmp_of v w : is_plain v -> is_plain w -> sqlval_cmp v w = plain_cmp (plain_of v) (plain_of w).
Proof. by destruct v, w. Qed.
Lemma plain_of_inj v w : is_plain v -> is_plain w -> plain_of v = plain_of w -> v = w.
Proof. destruct v, w; simpl; try done; congruence. Qed.

Definition bool_z (b : bool) : Z := if b then 1 else 0.
Definition row_key_of (r : mdrow) : Z * (Z * ((Z + string) * (Z * Z))) :=
  let '(e, a, v, t, b) := r in (e, (a, (plain_of v, (t, bool_z b)))).
Definition key_cmp := lex Z.compare (lex Z.compare (lex plain_cmp (lex Z.compare Z.compare))).
Lemma good_key : good key_cmp.
Proof. repeat apply good_lex; (apply good_Z || apply good_plain). Qed.
Definition row_plain_v (r : mdrow) : Prop := is_plain (r.1.1.2).
Lemma mdrow_cmp_key x y : row_plain_v x -> row_plain_v y -> mdrow_cmp x y = key_cmp (row_key_of x) (row_key_of y).
Proof.
  destruct x as [[[[e1 a1] v1] t1] b1], y as [[[[e2 a2] v2] t2] b2]. unfold row_plain_v. simpl. intros H1 H2.
  unfold key_cmp, lex. simpl. rewrite (plain_cmp_of _ _ H1 H2). by destruct b1, b2.
Qed.
Lemma row_key_inj x y : row_plain_v x -> row_plain_v y -> row_key_of x = row_key_of y -> x = y.
Proof.
  destruct x as [[[[e1 a1] v1] t1] b1], y as [[[[e2 a2] v2] t2] b2]. unfold row_plain_v. simpl. intros H1 H2 [= -> -> E -> Eb].
  rewrite (plain_of_inj _ _ H1 H2 E). by destruct b1, b2.
Qed.

Lemma opp_le (o : comparison) : o <> Gt \/ CompOpp o <> Gt.
Proof. destruct o; simpl; [left|left|right]; done. Qed.
Lemma sqlval_cmp_opp v w : sqlval_cmp w v = CompOpp (sqlval_cmp v w).
Proof.
  destruct v as [|x|[|x]|s|u], w as [|y|[|y]|t|u']; simpl; try done; try apply Z.compare_antisym; try apply good_string; apply N.compare_antisym.
Qed.
Lemma mdrow_cmp_opp x y : mdrow_cmp y x = CompOpp (mdrow_cmp x y).
Proof.
  destruct x as [[[[e1 a1] v1] t1] b1], y as [[[[e2 a2] v2] t2] b2]. simpl.
  rewrite (Z.compare_antisym e1 e2), (Z.compare_antisym a1 a2), (Z.compare_antisym t1 t2), (sqlval_cmp_opp v1 v2).
  by destruct (Z.compare e1 e2), (Z.compare a1 a2), (sqlval_cmp v1 v2), (Z.compare t1 t2), b1, b2.
Qed.
Global Instance mdrow_le_total : Total mdrow_le.
Proof. intros x y. unfold mdrow_le. rewrite (mdrow_cmp_opp x y). apply opp_le. Qed.

Lemma Sorted_members {A} (R R' : relation A) (l : list A) : (forall x y, x ∈ l -> y ∈ l -> R x y -> R' x y) -> Sorted R l -> Sorted R' l.
Proof.
  induction l as [|x l IH]; intros H Hs; [constructor|]. apply Sorted_inv in Hs as [Hs Hh]. constructor.
  - apply IH; [|done]. intros. apply H; [set_solver|set_solver|done].
  - destruct l as [|y l]; [constructor|]. constructor. apply HdRel_inv in Hh. apply H; [set_solver|set_solver|done].
Qed.

Definition key_le (x y : Z * (Z * ((Z + string) * (Z * Z)))) : Prop := key_cmp x y <> Gt.
Global Instance key_le_trans : Transitive key_le.
Proof.
  destruct good_key as [K1 K2 K3]. intros x y z. unfold key_le. intros H1 H2.
  destruct (key_cmp x y) eqn:E1; [| |done].
  - apply K1 in E1 as ->. done.
  - destruct (key_cmp y z) eqn:E2; [| |done].
    + apply K1 in E2 as ->. by rewrite E1.
    + by rewrite (K3 _ _ _ E1 E2).
Qed.
Global Instance key_le_anti : AntiSymm (=) key_le.
Proof.
  destruct good_key as [K1 K2 K3]. intros x y. unfold key_le. rewrite (K2 x y). intros H1 H2. apply K1. by destruct (key_cmp x y).
Qed.

Lemma map_inj_on {A B} (f : A -> B) (P : A -> Prop) (l1 l2 : list A) : (forall x y, P x -> P y -> f x = f y -> x = y) ->
  (forall x, x ∈ l1 -> P x) -> (forall x, x ∈ l2 -> P x) -> map f l1 = map f l2 -> l1 = l2.
Proof.
  intros Hf. revert l2. induction l1 as [|x l1 IH]; intros [|y l2] H1 H2; try done. cbn [map]. intros [= E1 E2]. f_equal.
  - apply Hf; [apply H1|apply H2|done]; set_solver.
  - apply IH; [| |done]; intros; [apply H1|apply H2]; set_solver.
Qed.

Lemma sort_mdrows (l1 l2 : list mdrow) : (forall r, r ∈ l1 -> row_plain_v r) -> l1 ≡ₚ l2 -> merge_sort mdrow_le l1 = merge_sort mdrow_le l2.
Proof.
  intros Hp P. assert (forall r, r ∈ l2 -> row_plain_v r) as Hp2 by (intros r; rewrite <- P; apply Hp).
  pose proof (merge_sort_Permutation mdrow_le l1) as P1. pose proof (merge_sort_Permutation mdrow_le l2) as P2.
  assert (forall r, r ∈ merge_sort mdrow_le l1 -> row_plain_v r) as M1 by (intros r; rewrite P1; apply Hp).
  assert (forall r, r ∈ merge_sort mdrow_le l2 -> row_plain_v r) as M2 by (intros r; rewrite P2; apply Hp2).
  apply (map_inj_on row_key_of row_plain_v); [apply row_key_inj|done|done|].
  apply (Sorted_unique key_le).
  - apply (Sorted_fmap row_key_of (fun x y => key_le (row_key_of x) (row_key_of y))); [done|].
    eapply Sorted_members; [|apply (Sorted_merge_sort mdrow_le)]. intros x y Hx Hy. unfold mdrow_le, key_le. by rewrite mdrow_cmp_key by auto.
  - apply (Sorted_fmap row_key_of (fun x y => key_le (row_key_of x) (row_key_of y))); [done|].
    eapply Sorted_members; [|apply (Sorted_merge_sort mdrow_le)]. intros x y Hx Hy. unfold mdrow_le, key_le. by rewrite mdrow_cmp_key by auto.
  - rewrite P1, P2, P. done.
Qed.

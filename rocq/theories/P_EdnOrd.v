(** The order of EDN values is a total preorder, and BTreeSet and BTreeMap keep their elements in it. *)
From Coq Require Import Sorted.
From Verif Require Import Spec_Edn P_Perm.
Open Scope Z_scope.

(* ------------------------------------------------------------- induction on values *)

Section edn_ind.
Context (P : edn -> Prop).
Context (Hatom : forall v, match v with EVec _ | EList _ | ESet _ | EMapV _ => False | _ => True end -> P v).
Context (Hvec : forall l, Forall P l -> P (EVec l)).
Context (Hlist : forall l, Forall P l -> P (EList l)).
Context (Hset : forall l, Forall P l -> P (ESet l)).
Context (Hmap : forall l, Forall (fun kx => P kx.1 /\ P kx.2) l -> P (EMapV l)).
Fixpoint edn_nested (v : edn) : P v.
Proof using All.
  destruct v as [|b|z|z|d|ns|u|s|s|ns n|k|l|l|l|l]; try (by apply Hatom).
  - apply Hvec. induction l as [|x l IH]; constructor; [apply edn_nested|exact IH].
  - apply Hlist. induction l as [|x l IH]; constructor; [apply edn_nested|exact IH].
  - apply Hset. induction l as [|x l IH]; constructor; [apply edn_nested|exact IH].
  - apply Hmap. induction l as [|[k x] l IH]; constructor; [split; apply edn_nested|exact IH].
Defined.
End edn_ind.

(* ------------------------------------------------------------- preorders *)

(** a comparison that is a total preorder on a class of things *)
Definition preorder {A} (D : A -> Prop) (c : A -> A -> comparison) : Prop :=
  (forall x y, D x -> D y -> c y x = CompOpp (c x y))
  /\ (forall x y z, D x -> D y -> D z -> c x y <> Gt -> c y z <> Gt -> c x z <> Gt).

Section pre.
Context {A : Type} (D : A -> Prop) (c : A -> A -> comparison) (O : preorder D c).
Lemma pre_eq x y z : D x -> D y -> D z -> c x y = Eq -> c y z = Eq -> c x z = Eq.
Proof using O.
  destruct O as [Op Tr]. intros X Y Z E1 E2.
  assert (A1 : c x z <> Gt) by (apply (Tr x y z); congruence).
  assert (A2 : c z x <> Gt) by (apply (Tr z y x); rewrite ?(Op y z), ?(Op x y), ?E1, ?E2; try done).
  rewrite (Op x z) in A2 by done. by destruct (c x z).
Qed.
Lemma pre_lt_l x y z : D x -> D y -> D z -> c x y = Lt -> c y z <> Gt -> c x z = Lt.
Proof using O.
  destruct O as [Op Tr]. intros X Y Z E1 E2.
  assert (A1 : c x z <> Gt) by (apply (Tr x y z); congruence).
  destruct (c x z) eqn:E; [|done|done]. exfalso.
  assert (A2 : c y x <> Gt) by (apply (Tr y z x); [done..|rewrite (Op x z) by done; by rewrite E]).
  rewrite (Op x y), E1 in A2 by done. done.
Qed.
Lemma pre_lt_r x y z : D x -> D y -> D z -> c x y <> Gt -> c y z = Lt -> c x z = Lt.
Proof using O.
  destruct O as [Op Tr]. intros X Y Z E1 E2.
  assert (A1 : c x z <> Gt) by (apply (Tr x y z); congruence).
  destruct (c x z) eqn:E; [|done|done]. exfalso.
  assert (A2 : c z y <> Gt) by (apply (Tr z x y); [done..|rewrite (Op x z) by done; by rewrite E|done]).
  rewrite (Op y z), E2 in A2 by done. done.
Qed.
Lemma pre_flip : preorder D (fun x y => c y x).
Proof using O. destruct O as [Op Tr]. split; [by intros; apply Op|]. intros x y z X Y Z H1 H2. by apply (Tr z y x). Qed.
End pre.

Lemma pre_impl {A} (D E : A -> Prop) c : (forall x, E x -> D x) -> preorder D c -> preorder E c.
Proof. intros H [O T]. split; [auto|]. intros x y z ? ? ?. apply T; auto. Qed.

(** lexicographic: [sh] is what the shorter list is *)
Fixpoint lexg {A} (c : A -> A -> comparison) (sh : comparison) (a b : list A) : comparison :=
  match a, b with
  | [], [] => Eq
  | [], _ => sh
  | _, [] => CompOpp sh
  | u :: a, w :: b => match c u w with Eq => lexg c sh a b | r => r end
  end.
Lemma pre_lexg {A} (D : A -> Prop) c sh : sh <> Eq -> preorder D c -> preorder (Forall D) (lexg c sh).
Proof.
  intros Nsh O. split.
  - induction x as [|u a IH]; intros [|w b] Ha Hb; cbn; try done; try (by destruct sh).
    apply Forall_cons in Ha as [Hu Ha], Hb as [Hw Hb]. rewrite (proj1 O u w) by done. destruct (c u w); cbn; auto.
  - induction x as [|u a IH]; intros [|w b] [|v d] Ha Hb Hd; cbn; try done; try (by destruct sh).
    apply Forall_cons in Ha as [Hu Ha], Hb as [Hw Hb], Hd as [Hv Hd].
    destruct (c u w) eqn:E1; [| |done]; destruct (c w v) eqn:E2; try done.
    + rewrite (pre_eq D c O u w v) by done. by apply IH.
    + rewrite (pre_lt_r D c O u w v) by (try done; congruence). done.
    + rewrite (pre_lt_l D c O u w v) by (try done; congruence). done.
    + rewrite (pre_lt_l D c O u w v) by (try done; congruence). done.
Qed.
Definition lex2 {A} (c : A -> A -> comparison) (p q : A * A) : comparison :=
  match c p.1 q.1 with Eq => c p.2 q.2 | r => r end.
Lemma pre_lex2 {A} (D : A -> Prop) c : preorder D c -> preorder (fun p => D p.1 /\ D p.2) (lex2 c).
Proof.
  intros O. split.
  - intros [a b] [u w] [Ha Hb] [Hu Hw]. unfold lex2. cbn in *. rewrite (proj1 O a u) by done. destruct (c a u); cbn; [|done..]. by apply O.
  - intros [a b] [u w] [m n] [Ha Hb] [Hu Hw] [Hm Hn]. unfold lex2. cbn in *.
    destruct (c a u) eqn:E1; [| |done]; destruct (c u m) eqn:E2; try done.
    + rewrite (pre_eq D c O a u m) by done. by apply O.
    + by rewrite (pre_lt_r D c O a u m) by (try done; congruence).
    + by rewrite (pre_lt_l D c O a u m) by (try done; congruence).
    + by rewrite (pre_lt_l D c O a u m) by (try done; congruence).
Qed.

(* ------------------------------------------------------------- the order of values *)

Lemma pre_Z : preorder (fun _ => True) Z.compare.
Proof. split; [intros; apply Z.compare_antisym|]. intros x y z _ _ _. rewrite !Z.compare_le_iff. lia. Qed.
Lemma pre_N : preorder (fun _ => True) N.compare.
Proof. split; [intros; apply N.compare_antisym|]. intros x y z _ _ _. rewrite !N.compare_le_iff. lia. Qed.
Lemma pre_bool : preorder (fun _ => True) bool_cmp.
Proof. split; [by intros [] []|by intros [] [] []]. Qed.
Lemma pre_dbl : preorder (fun _ => True) dbl_cmp.
Proof.
  split; [intros [|x] [|y]; cbn; try done; intros; apply Z.compare_antisym|].
  intros [|x] [|y] [|z]; cbn; try done. intros _ _ _. rewrite !Z.compare_le_iff. lia.
Qed.
Lemma pre_string : preorder (fun _ => True) string_cmp.
Proof. split; [intros; apply string_cmp_opp|]. intros x y z _ _ _. apply string_cmp_trans. Qed.
Lemma pre_kw : preorder (fun _ => True) kw_cmp.
Proof.
  pose proof (pre_lex2 _ _ pre_string) as [O T]. split.
  - intros x y _ _. exact (O (default "" (kw_ns x), kw_name x) (default "" (kw_ns y), kw_name y) (conj I I) (conj I I)).
  - intros x y z _ _ _. exact (T (default "" (kw_ns x), kw_name x) (default "" (kw_ns y), kw_name y) (default "" (kw_ns z), kw_name z) (conj I I) (conj I I) (conj I I)).
Qed.

(** how deep a value is nested *)
Fixpoint height (v : edn) : nat :=
  match v with
  | EVec l | EList l | ESet l => S (foldr (fun x n => Nat.max (height x) n) O l)
  | EMapV l => S (foldr (fun kx n => Nat.max (Nat.max (height kx.1) (height kx.2)) n) O l)
  | _ => O
  end.
Lemma height_list l n : (foldr (fun x n => Nat.max (height x) n) O l <= n)%nat -> Forall (fun x => (height x <= n)%nat) l.
Proof. induction l as [|x l IH]; cbn; intros H; constructor; [lia|]. apply IH. lia. Qed.
Lemma height_map l n : (foldr (fun kx n => Nat.max (Nat.max (height kx.1) (height kx.2)) n) O l <= n)%nat ->
  Forall (fun kx => (height kx.1 <= n)%nat /\ (height kx.2 <= n)%nat) l.
Proof. induction l as [|x l IH]; cbn; intros H; constructor; [lia|]. apply IH. lia. Qed.

Definition shorter (flip : bool) : comparison := if flip then Lt else Gt.
Lemma ecmp_vec flip a b : ecmp flip (EVec a) (EVec b) = lexg (ecmp (negb flip)) (shorter flip) a b.
Proof. revert b. induction a as [|x a IH]; intros [|y b]; try done. cbn. destruct (ecmp (negb flip) x y); try done. apply (IH b). Qed.
Lemma ecmp_list flip a b : ecmp flip (EList a) (EList b) = lexg (ecmp (negb flip)) (shorter flip) a b.
Proof. apply ecmp_vec. Qed.
Lemma ecmp_set flip a b : ecmp flip (ESet a) (ESet b) = lexg (ecmp (negb flip)) (shorter flip) a b.
Proof. apply ecmp_vec. Qed.
Lemma ecmp_map flip a b : ecmp flip (EMapV a) (EMapV b) = lexg (lex2 (ecmp (negb flip))) (shorter flip) a b.
Proof.
  revert b. induction a as [|[k x] a IH]; intros [|[j y] b]; try done. cbn [lexg]. unfold lex2 at 1. cbn [fst snd].
  rewrite <- IH. cbn. destruct (ecmp (negb flip) k j); try done.
Qed.

(** the kind of a value; keywords have two precedences but are one kind *)
Definition kind (v : edn) : Z := match v with EKw _ => 10 | _ => if precedence v <=? 9 then precedence v else precedence v - 1 end.
Definition in_kind (flip : bool) (x y : edn) : comparison := if kind x =? kind y then ecmp flip x y else ord_if flip Z.compare (kind y) (kind x).
Lemma ecmp_kinds flip x y : kind x <> kind y -> ecmp flip x y = ord_if flip Z.compare (kind y) (kind x).
Proof.
  destruct x as [|xb|xz|xz|xd|xi|xu|xs|xs|xs xn|[[xs|] xk]|xl|xl|xl|xl], y as [|yb|yz|yz|yd|yi|yu|ys|ys|ys yn|[[ys|] yk]|yl|yl|yl|yl]; intros N; try done; by destruct flip.
Qed.

Lemma ecmp_pre flip n : preorder (fun v => (height v <= n)%nat) (ecmp flip).
Proof.
  revert flip. induction n as [n IH] using lt_wf_ind. intros flip.
  assert (L : forall m, (m < n)%nat -> preorder (Forall (fun v => (height v <= m)%nat)) (lexg (ecmp (negb flip)) (shorter flip))) by (intros; apply pre_lexg; [by destruct flip|by apply IH]).
  assert (M : forall m, (m < n)%nat -> preorder (Forall (fun kx => (height kx.1 <= m)%nat /\ (height kx.2 <= m)%nat)) (lexg (lex2 (ecmp (negb flip))) (shorter flip)))
    by (intros m Hm; apply pre_lexg; [by destruct flip|]; apply (pre_lex2 (fun v => (height v <= m)%nat)), IH, Hm).
  assert (OI : forall A (c : A -> A -> comparison), preorder (fun _ => True) c -> preorder (fun _ => True) (ord_if flip c)).
  { intros A c P. destruct flip; [done|]. by apply pre_flip in P. }
  split.
  - intros x y Hx Hy. destruct (decide (kind x = kind y)) as [K|K].
    2: { rewrite !ecmp_kinds by congruence. unfold ord_if. destruct flip; apply Z.compare_antisym. }
    destruct x as [|xb|xz|xz|xd|xi|xu|xs|xs|xs xn|[[xs|] xk]|xl|xl|xl|xl], y as [|yb|yz|yz|yd|yi|yu|ys|ys|ys yn|[[ys|] yk]|yl|yl|yl|yl]; try discriminate K; try done;
      try (by apply (OI _ _ pre_bool)); try (by apply (OI _ _ pre_Z)); try (by apply (OI _ _ pre_N)); try (by apply (OI _ _ pre_dbl));
      try (by apply (OI _ _ pre_string)); try (by apply (OI _ _ pre_kw)).
    all: destruct n as [|n]; cbn [height] in *; [lia|].
    all: try (rewrite ?ecmp_vec, ?ecmp_list, ?ecmp_set; apply (L n); [lia|apply height_list; lia|apply height_list; lia]).
    rewrite !ecmp_map. apply (M n); [lia|apply height_map; lia|apply height_map; lia].
  - intros x y z Hx Hy Hz.
    destruct (decide (kind x = kind y)) as [K|K].
    + destruct (decide (kind y = kind z)) as [K'|K'].
      * destruct x as [|xb|xz|xz|xd|xi|xu|xs|xs|xs xn|[[xs|] xk]|xl|xl|xl|xl], y as [|yb|yz|yz|yd|yi|yu|ys|ys|ys yn|[[ys|] yk]|yl|yl|yl|yl]; try discriminate K;
        destruct z as [|zb|zz|zz|zd|zi|zu|zs|zs|zs zn|[[zs|] zk]|zl|zl|zl|zl]; try discriminate K'; try done;
          try (by apply (OI _ _ pre_bool)); try (by apply (OI _ _ pre_Z)); try (by apply (OI _ _ pre_N)); try (by apply (OI _ _ pre_dbl));
          try (by apply (OI _ _ pre_string)); try (by apply (OI _ _ pre_kw)).
        all: destruct n as [|n]; cbn [height] in *; [lia|].
        all: try (rewrite ?ecmp_vec, ?ecmp_list, ?ecmp_set; apply (L n); [lia|apply height_list; lia|apply height_list; lia|apply height_list; lia]).
        rewrite !ecmp_map. apply (M n); [lia|apply height_map; lia|apply height_map; lia|apply height_map; lia].
      * intros _. rewrite !ecmp_kinds by congruence. by rewrite K.
    + destruct (decide (kind y = kind z)) as [K'|K'].
      * intros H _. rewrite ecmp_kinds in H by done. rewrite ecmp_kinds by congruence. by rewrite <- K'.
      * rewrite (ecmp_kinds flip x y), (ecmp_kinds flip y z) by done. intros H1 H2.
        assert (H3 : ord_if flip Z.compare (kind z) (kind x) <> Gt).
        { unfold ord_if in *. destruct flip; rewrite Z.compare_le_iff in *; lia. }
        destruct (decide (kind x = kind z)) as [E|E].
        { exfalso. rewrite E in *. unfold ord_if in *. destruct flip; rewrite Z.compare_le_iff in *; lia. }
        by rewrite ecmp_kinds.
Qed.
Lemma edn_pre : preorder (fun _ => True) edn_cmp.
Proof.
  split.
  - intros x y _ _. apply (ecmp_pre false (Nat.max (height x) (height y))); lia.
  - intros x y z _ _ _. apply (ecmp_pre false (Nat.max (height x) (Nat.max (height y) (height z)))); lia.
Qed.
Lemma edn_cmp_opp x y : edn_cmp y x = CompOpp (edn_cmp x y).
Proof. by apply edn_pre. Qed.
Lemma edn_lt_trans x y z : edn_cmp x y = Lt -> edn_cmp y z = Lt -> edn_cmp x z = Lt.
Proof. intros H1 H2. apply (pre_lt_l _ _ edn_pre x y z); try done. congruence. Qed.

(* ------------------------------------------------------------- collections *)

Definition edn_lt (x y : edn) : Prop := edn_cmp x y = Lt.
Lemma set_insert_last l x : Forall (fun y => edn_lt y x) l -> set_insert x l = (l ++ [x])%list.
Proof.
  induction l as [|y l IH]; intros H; [done|]. apply Forall_cons in H as [Hy H]. cbn.
  rewrite (edn_cmp_opp y x), Hy. cbn. f_equal. by apply IH.
Qed.
Lemma sorted_app_inv l x r : StronglySorted edn_lt (l ++ x :: r) -> Forall (fun y => edn_lt y x) l.
Proof.
  induction l as [|y l IH]; intros S; [constructor|]. cbn in S. inversion S as [|? ? S' F]; subst. constructor; [|by apply IH].
  apply Forall_app in F as [_ F]. by apply Forall_cons in F as [F _].
Qed.
(** a set built from its elements in order is the set *)
Lemma set_from_sorted l : StronglySorted edn_lt l -> set_from l = l.
Proof.
  unfold set_from. assert (K : forall l acc, StronglySorted edn_lt (acc ++ l) -> foldl (fun s x => set_insert x s) acc l = (acc ++ l)%list).
  { clear. induction l as [|x l IH]; intros acc S; cbn; [by rewrite app_nil_r|].
    rewrite set_insert_last by (by eapply sorted_app_inv). rewrite IH; by rewrite <- app_assoc. }
  apply (K l []).
Qed.
Lemma map_insert_last l k v : Forall (fun y => edn_lt y k) (map fst l) -> map_insert k v l = (l ++ [(k, v)])%list.
Proof.
  induction l as [|[y w] l IH]; intros H; [done|]. apply Forall_cons in H as [Hy H]. cbn.
  rewrite (edn_cmp_opp y k). cbn in Hy. rewrite Hy. cbn. f_equal. by apply IH.
Qed.
Lemma map_from_sorted l : StronglySorted edn_lt (map fst l) -> map_from l = l.
Proof.
  unfold map_from. assert (K : forall l acc, StronglySorted edn_lt (map fst (acc ++ l)) -> foldl (fun s x => map_insert x.1 x.2 s) acc l = (acc ++ l)%list).
  { clear. induction l as [|[x w] l IH]; intros acc S; cbn; [by rewrite app_nil_r|].
    rewrite map_insert_last by (rewrite map_app in S; by eapply sorted_app_inv). rewrite IH; by rewrite <- app_assoc. }
  apply (K l []).
Qed.
(** and a set built from any elements is in order *)
Lemma set_insert_sorted x l : StronglySorted edn_lt l -> StronglySorted edn_lt (set_insert x l).
Proof.
  assert (F : forall (y : edn) l, edn_lt y x -> Forall (edn_lt y) l -> Forall (edn_lt y) (set_insert x l)).
  { clear. intros y l Hx. induction l as [|z l IH]; intros H; cbn; [by constructor|].
    apply Forall_cons in H as [Hz H]. destruct (edn_cmp x z); repeat constructor; auto. }
  induction l as [|y l IH]; intros S; cbn; [by repeat constructor|].
  inversion S as [|? ? S' H]; subst. destruct (edn_cmp x y) eqn:E; [done| |].
  - constructor; [done|]. constructor; [done|]. eapply Forall_impl; [exact H|]. intros z. by apply edn_lt_trans.
  - constructor; [by apply IH|]. apply F; [|done]. unfold edn_lt. by rewrite edn_cmp_opp, E.
Qed.
Lemma set_from_is_sorted l : StronglySorted edn_lt (set_from l).
Proof.
  unfold set_from. assert (K : forall l acc, StronglySorted edn_lt acc -> StronglySorted edn_lt (foldl (fun s x => set_insert x s) acc l)).
  { clear. induction l as [|x l IH]; intros acc S; cbn; [done|]. by apply IH, set_insert_sorted. }
  apply K. constructor.
Qed.
Lemma map_insert_keys k v l : map fst (map_insert k v l) = set_insert k (map fst l).
Proof. induction l as [|[y w] l IH]; cbn; [done|]. destruct (edn_cmp k y); cbn; by rewrite ?IH. Qed.
Lemma map_from_is_sorted l : StronglySorted edn_lt (map fst (map_from l)).
Proof.
  unfold map_from. assert (K : forall l acc, StronglySorted edn_lt (map fst acc) -> StronglySorted edn_lt (map fst (foldl (fun s x => map_insert x.1 x.2 s) acc l))).
  { clear. induction l as [|x l IH]; intros acc S; cbn; [done|]. apply IH. rewrite map_insert_keys. by apply set_insert_sorted. }
  apply K. constructor.
Qed.
Lemma set_insert_elem x l y : y ∈ set_insert x l -> y = x \/ y ∈ l.
Proof.
  induction l as [|z l IH]; cbn; [rewrite elem_of_list_singleton; auto|].
  destruct (edn_cmp x z); [auto|rewrite elem_of_cons; auto|]. rewrite !elem_of_cons. intuition.
Qed.
Lemma set_from_elem l y : y ∈ set_from l -> y ∈ l.
Proof.
  unfold set_from. assert (K : forall l acc, y ∈ foldl (fun s x => set_insert x s) acc l -> y ∈ acc \/ y ∈ l).
  { clear. induction l as [|x l IH]; intros acc H; cbn in H; [auto|]. apply IH in H as [H|H].
    - apply set_insert_elem in H as [-> |H]; [right; left|auto].
    - right. by right. }
  intros H. apply K in H as [H|H]; [by apply elem_of_nil in H|done].
Qed.
Lemma map_insert_elem k v l p : p ∈ map_insert k v l -> (p.1 = k \/ p.1 ∈ map fst l) /\ (p.2 = v \/ p.2 ∈ map snd l).
Proof.
  induction l as [|[z w] l IH]; cbn; [rewrite elem_of_list_singleton; intros ->; cbn; auto|].
  destruct (edn_cmp k z); rewrite !elem_of_cons; cbn.
  - intros [-> | H]; cbn; [auto|]. split; right; right; apply elem_of_list_In, in_map, elem_of_list_In, H.
  - intros [-> | H]; cbn; [auto|]. destruct H as [-> | H]; cbn; [auto|]. split; right; right; apply elem_of_list_In, in_map, elem_of_list_In, H.
  - intros [-> | H]; cbn; [auto|]. destruct (IH H) as [A B]. intuition.
Qed.
Lemma map_from_elem l p : p ∈ map_from l -> p.1 ∈ map fst l /\ p.2 ∈ map snd l.
Proof.
  unfold map_from. assert (K : forall l acc p, p ∈ foldl (fun s x => map_insert x.1 x.2 s) acc l ->
    (p.1 ∈ map fst acc \/ p.1 ∈ map fst l) /\ (p.2 ∈ map snd acc \/ p.2 ∈ map snd l)).
  { clear. induction l as [|[k v] l IH]; intros acc p H; cbn in H.
    - split; left; apply elem_of_list_In, in_map, elem_of_list_In, H.
    - assert (G : forall acc, (forall q, q ∈ map fst (map_insert k v acc) -> q = k \/ q ∈ map fst acc) /\ (forall q, q ∈ map snd (map_insert k v acc) -> q = v \/ q ∈ map snd acc)).
      { clear. intros acc. split; intros q Hq; apply elem_of_list_In, in_map_iff in Hq as (p & <- & Hp%elem_of_list_In); apply map_insert_elem in Hp; tauto. }
      destruct (G acc) as [G1 G2]. apply IH in H as [[H1|H1] [H2|H2]]; cbn; rewrite !elem_of_cons.
      all: try (apply G1 in H1); try (apply G2 in H2); intuition. }
  intros H. apply K in H as [[H1|H1] [H2|H2]]; try (by apply elem_of_nil in H1); try (by apply elem_of_nil in H2). done.
Qed.

(* ------------------------------------------------------------- equal only if the same *)

Lemma lexg_eq {A} (c : A -> A -> comparison) sh (P : A -> Prop) a b : sh <> Eq -> Forall (fun x => forall y, P y -> c x y = Eq -> x = y) a -> Forall P b ->
  lexg c sh a b = Eq -> a = b.
Proof.
  intros N F. revert b. induction F as [|x a Hx F IH]; intros [|y b] Pb H; cbn in H; try done.
  - by destruct sh.
  - apply Forall_cons in Pb as [Py Pb]. destruct (c x y) eqn:E; try done. rewrite (Hx y Py E). f_equal. by apply IH.
Qed.
Lemma lex2_eq {A} (c : A -> A -> comparison) p q : lex2 c p q = Eq -> c p.1 q.1 = Eq /\ c p.2 q.2 = Eq.
Proof. unfold lex2. destruct (c p.1 q.1); done. Qed.
Lemma proper_list l : Forall (fun p => match p with EKw k => kw_ns k <> Some "" | _ => True end) (concat (map parts l)) -> Forall proper l.
Proof. induction l as [|x l IH]; cbn; intros H; [constructor|]. apply Forall_app in H as [H1 H2]. constructor; auto. Qed.
Lemma proper_pairs l : Forall (fun p => match p with EKw k => kw_ns k <> Some "" | _ => True end) (concat (map (fun kx => parts kx.1 ++ parts kx.2)%list l)) ->
  Forall (fun kx => proper kx.1 /\ proper kx.2) l.
Proof. induction l as [|x l IH]; cbn; intros H; [constructor|]. rewrite !Forall_app in H. destruct H as [[H1 H2] H3]. constructor; auto. Qed.
Lemma ord_if_eq {A} flip (c : A -> A -> comparison) x y : (forall x y, c x y = Eq -> x = y) -> ord_if flip c x y = Eq -> x = y.
Proof. intros H. destruct flip; intros E; apply H in E; congruence. Qed.
Lemma kw_cmp_eq k l : kw_ns k <> Some "" -> kw_ns l <> Some "" -> kw_cmp k l = Eq -> k = l.
Proof.
  destruct k as [a m], l as [b n]. unfold kw_cmp. cbn [kw_ns kw_name]. intros A B.
  destruct (string_cmp (default "" a) (default "" b)) eqn:E; try done. intros F. apply string_cmp_eq in E, F. subst n. f_equal.
  destruct a, b; cbn [default id] in E; congruence.
Qed.
Lemma ecmp_eq x : forall flip y, proper x -> proper y -> ecmp flip x y = Eq -> x = y.
Proof.
  induction x as [x Ax|l IH|l IH|l IH|l IH] using edn_nested; intros flip y Px Py H.
  1: destruct (decide (kind x = kind y)) as [K|K].
  2: { rewrite ecmp_kinds in H by done. exfalso. unfold ord_if in H. destruct flip; apply Z.compare_eq_iff in H; congruence. }
  { destruct x as [|xb|xz|xz|xd|xi|xu|xs|xs|xs xn|xk|xl|xl|xl|xl], y as [|yb|yz|yz|yd|yi|yu|ys|ys|ys yn|yk|yl|yl|yl|yl]; try done; cbn [ecmp] in H.
    all: try (destruct xk as [[?|] ?]; done).
    all: try (destruct yk as [[?|] ?]; done).
    all: try (apply ord_if_eq in H; [congruence|]; clear; intros a b; first [apply Z.compare_eq | apply N.compare_eq | apply string_cmp_eq]).
    - apply ord_if_eq in H; [congruence|]. by intros [] [].
    - apply ord_if_eq in H; [congruence|]. intros [|a] [|b]; try done. cbn. intros E. apply Z.compare_eq in E. congruence.
    - assert (E : Kw (Some xs) xn = Kw (Some ys) yn); [|congruence]. unfold ord_if, kw_cmp in H. cbn [kw_ns kw_name default id] in H. destruct flip.
      + destruct (string_cmp xs ys) eqn:E; try done. apply string_cmp_eq in E, H. congruence.
      + destruct (string_cmp ys xs) eqn:E; try done. apply string_cmp_eq in E, H. congruence.
    - f_equal. apply Forall_cons in Px as [Px _]. apply Forall_cons in Py as [Py _]. unfold ord_if in H. destruct flip; apply kw_cmp_eq in H; auto. }
  all: assert (K : shorter flip <> Eq) by (by destruct flip).
  all: unfold proper in Px, Py; cbn [parts] in Px; apply Forall_cons in Px as [_ Px].
  - destruct y; try (by rewrite ecmp_kinds in H by done; unfold ord_if in H; destruct flip).
    all: try (exfalso; rewrite ecmp_kinds in H by (by destruct k as [[?|] ?]); unfold ord_if in H; by destruct k as [[?|] ?], flip).
    cbn [parts] in Py. apply Forall_cons in Py as [_ Py]. f_equal. rewrite ecmp_vec in H. apply proper_list in Px, Py.
    eapply (lexg_eq _ _ proper); [exact K| |exact Py|exact H]. rewrite Forall_forall in *. intros a Ha b Pb E. eapply IH; eauto.
  - destruct y; try (by rewrite ecmp_kinds in H by done; unfold ord_if in H; destruct flip).
    all: try (exfalso; rewrite ecmp_kinds in H by (by destruct k as [[?|] ?]); unfold ord_if in H; by destruct k as [[?|] ?], flip).
    cbn [parts] in Py. apply Forall_cons in Py as [_ Py]. f_equal. rewrite ecmp_list in H. apply proper_list in Px, Py.
    eapply (lexg_eq _ _ proper); [exact K| |exact Py|exact H]. rewrite Forall_forall in *. intros a Ha b Pb E. eapply IH; eauto.
  - destruct y; try (by rewrite ecmp_kinds in H by done; unfold ord_if in H; destruct flip).
    all: try (exfalso; rewrite ecmp_kinds in H by (by destruct k as [[?|] ?]); unfold ord_if in H; by destruct k as [[?|] ?], flip).
    cbn [parts] in Py. apply Forall_cons in Py as [_ Py]. f_equal. rewrite ecmp_set in H. apply proper_list in Px, Py.
    eapply (lexg_eq _ _ proper); [exact K| |exact Py|exact H]. rewrite Forall_forall in *. intros a Ha b Pb E. eapply IH; eauto.
  - destruct y; try (by rewrite ecmp_kinds in H by done; unfold ord_if in H; destruct flip).
    all: try (exfalso; rewrite ecmp_kinds in H by (by destruct k as [[?|] ?]); unfold ord_if in H; by destruct k as [[?|] ?], flip).
    cbn [parts] in Py. apply Forall_cons in Py as [_ Py]. f_equal. rewrite ecmp_map in H. apply proper_pairs in Px, Py.
    eapply (lexg_eq _ _ (fun kx => proper kx.1 /\ proper kx.2)); [exact K| |exact Py|exact H]. rewrite Forall_forall in *. intros [a a'] Ha [b b'] [Pb Pb'] E.
    apply lex2_eq in E as [E1 E2]. destruct (IH _ Ha) as [I1 I2], (Px _ Ha) as [P1 P2]. cbn in *. f_equal; eauto.
Qed.
Lemma ecmp_refl x : edn_cmp x x = Eq.
Proof. pose proof (edn_cmp_opp x x) as H. by destruct (edn_cmp x x). Qed.
Lemma edn_cmp_eq x y : proper x -> proper y -> (edn_cmp x y = Eq <-> x = y).
Proof. intros Px Py. split; [by apply ecmp_eq|]. intros ->. apply ecmp_refl. Qed.

(** a set keeps one of each, and nothing else *)
Lemma set_insert_all x l y : proper x -> Forall proper l -> y ∈ set_insert x l <-> y = x \/ y ∈ l.
Proof.
  intros Px F. split; [apply set_insert_elem|]. induction F as [|z l Pz F IH]; cbn.
  - intros [-> | H]; [constructor|by inversion H].
  - destruct (edn_cmp x z) eqn:E.
    + apply edn_cmp_eq in E; [|done|done]. subst z. intros [-> | H]; [constructor|done].
    + intros [-> | H]; [constructor|by constructor].
    + intros [-> | H]; [constructor; auto|]. apply elem_of_cons in H as [-> | H]; constructor; auto.
Qed.
Lemma set_from_all l y : Forall proper l -> y ∈ set_from l <-> y ∈ l.
Proof.
  intros F. unfold set_from. assert (K : forall acc, Forall proper acc -> y ∈ foldl (fun s x => set_insert x s) acc l <-> y ∈ acc \/ y ∈ l).
  { induction F as [|x l Px F IH]; intros acc Fa; cbn.
    - split; [auto|]. intros [H|H]; [done|by inversion H].
    - rewrite IH, set_insert_all, elem_of_cons by done || (rewrite Forall_forall in *; intros z [-> | Hz]%set_insert_elem; auto). tauto. }
  rewrite K by constructor. split; [|auto]. intros [H|H]; [by inversion H|done].
Qed.

(** Inversion lemmas for the result monad. *)
From Verif Require Import M_Tx.

Lemma rbind_Ok {A B} (m : res A) (f : A -> res B) b : rbind m f = Ok b <-> exists a, m = Ok a /\ f a = Ok b.
Proof.
  destruct m as [a|e|p]; simpl; split; intros H; try done.
  - by exists a.
  - destruct H as (a' & [= <-] & H). done.
  - by destruct H as (? & ? & ?).
  - by destruct H as (? & ? & ?).
Qed.
Lemma ok_or_Ok {A} (o : option A) e a : ok_or o e = Ok a <-> o = Some a.
Proof. destruct o; simpl; split; intros H; congruence. Qed.
Lemma rmap_Ok {A B} (f : A -> B) m b : rmap f m = Ok b <-> exists a, m = Ok a /\ b = f a.
Proof. unfold rmap. rewrite rbind_Ok. split; intros (a & H1 & H2); exists a; split; congruence. Qed.

Lemma rmapM_Ok {A B} (f : A -> res B) l : forall ys, rmapM f l = Ok ys <-> Forall2 (fun x y => f x = Ok y) l ys.
Proof.
  induction l as [|x l IH]; intros ys; simpl.
  - split; [intros [= <-]; constructor|]. intros H. by inversion H.
  - rewrite rbind_Ok. split.
    + intros (y & Hy & H). apply rbind_Ok in H as (ys' & Hys & [= <-]). constructor; [done|by apply IH].
    + intros H. inversion H as [|? y ? ys' Hy Hys]; subst. exists y. split; [done|].
      apply rbind_Ok. exists ys'. split; [by apply IH|done].
Qed.

Lemma rfold_app {A S} (f : S -> A -> res S) l1 l2 s :
  rfold f s (l1 ++ l2) = let! s' := rfold f s l1 in rfold f s' l2.
Proof. revert s. induction l1 as [|x l1 IH]; intros s; simpl; [done|]. destruct (f s x); simpl; auto. Qed.

(** Invariants of loops. *)
Lemma rfold_inv {A S} (P : S -> Prop) (f : S -> A -> res S) l : forall s s',
  (forall s x s', x ∈ l -> P s -> f s x = Ok s' -> P s') -> P s -> rfold f s l = Ok s' -> P s'.
Proof.
  induction l as [|x l IH]; intros s s' Hf Hs H; simpl in H.
  - by injection H as <-.
  - apply rbind_Ok in H as (s1 & H1 & H). eapply IH; [| |exact H].
    + intros. eapply Hf; eauto. by right.
    + eapply Hf; eauto. by left.
Qed.

Lemma with_st_Ok {A B} (x : store * res A) (k : store -> A -> store * res B) st b :
  with_st x k = (st, Ok b) <-> exists st1 a, x = (st1, Ok a) /\ k st1 a = (st, Ok b).
Proof.
  destruct x as [st1 [a|e|p]]; simpl; split; intros H; try done.
  - by exists st1, a.
  - destruct H as (? & ? & [= <- <-] & H). done.
  - by destruct H as (? & ? & ? & ?).
  - by destruct H as (? & ? & ? & ?).
Qed.

(** Lists. *)
Lemma NoDup_map_inj {A B} (f : A -> B) l x y : NoDup (map f l) -> x ∈ l -> y ∈ l -> f x = f y -> x = y.
Proof.
  intros Hn [i Hi]%elem_of_list_lookup [j Hj]%elem_of_list_lookup Hf.
  assert (i = j) as ->; [|congruence].
  eapply NoDup_lookup; [exact Hn| |]; rewrite list_lookup_fmap; [by rewrite Hi|]. rewrite Hj. simpl. by rewrite Hf.
Qed.
Lemma distinct_elem {A} `{EqDecision A} (l : list A) x : x ∈ distinct l <-> x ∈ l.
Proof.
  induction l as [|y l IH]; simpl; [done|]. rewrite !elem_of_cons, elem_of_list_filter, IH.
  destruct (decide (x = y)); naive_solver.
Qed.
Lemma distinct_NoDup {A} `{EqDecision A} (l : list A) : NoDup (distinct l).
Proof.
  induction l as [|y l IH]; simpl; constructor.
  - rewrite elem_of_list_filter. naive_solver.
  - by apply NoDup_filter.
Qed.
Lemma existsb_elem {A} (f : A -> bool) l : existsb f l = true <-> exists x, x ∈ l /\ f x = true.
Proof. rewrite existsb_exists. by setoid_rewrite elem_of_list_In. Qed.
Lemma is_nil_true {A} (l : list A) : is_nil l = true <-> l = [].
Proof. by destruct l. Qed.
Lemma merge_sort_elem {A} (R : A -> A -> Prop) `{forall x y, Decision (R x y)} l x : x ∈ merge_sort R l <-> x ∈ l.
Proof. by rewrite merge_sort_Permutation. Qed.

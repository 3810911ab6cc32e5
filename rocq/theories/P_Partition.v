(** Proofs about partitions. *)
From Verif Require Import M_Partition Spec_Partition.

Lemma pm_contains_spec pm e : pm_contains pm e = true <-> allocated pm e.
Proof.
  unfold pm_contains, allocated. rewrite existsb_exists. split.
  - intros ([x p] & Hin & H). exists x, p. apply elem_of_list_In, elem_of_map_to_list in Hin.
    split; [done|]. unfold part_contains in H. simpl in H. lia.
  - intros (x & p & Hx & H). exists (x, p). split.
    + by apply elem_of_list_In, elem_of_map_to_list.
    + unfold part_contains. simpl. lia.
Qed.

Lemma part_allocate_Ok p n x p' : part_allocate p n = Ok (x, p') <->
  x = pt_next p /\ pt_start p <= pt_next p + n <= pt_end p
  /\ p' = Part (pt_start p) (pt_end p) (pt_allow_excision p) (pt_next p + n).
Proof.
  unfold part_allocate, part_set_next, part_allows. split.
  - destruct (pt_start p <=? pt_next p + n) eqn:E1; [|done].
    destruct (pt_next p + n <=? pt_end p) eqn:E2; [|done]. simpl.
    intros [= <- <-]. split_and!; try done; lia.
  - intros (-> & H & ->).
    rewrite (proj2 (Z.leb_le _ _)), (proj2 (Z.leb_le _ _)) by lia. done.
Qed.

Lemma pm_allocate_Ok pm part n x pm' : pm_allocate pm part n = Ok (x, pm') <->
  exists p, pm !! part = Some p /\ x = pt_next p /\ pt_start p <= pt_next p + n <= pt_end p
  /\ pm' = <[part := Part (pt_start p) (pt_end p) (pt_allow_excision p) (pt_next p + n)]> pm.
Proof.
  unfold pm_allocate. destruct (pm !! part) as [p|] eqn:E.
  - split.
    + intros H. destruct (part_allocate p n) as [[y p']| |] eqn:Ha; try done. simpl in H.
      injection H as -> <-. apply part_allocate_Ok in Ha as (-> & H & ->). eauto 10.
    + intros (q & [= <-] & -> & H & ->).
      erewrite (proj2 (part_allocate_Ok p n (pt_next p) (Part (pt_start p) (pt_end p) (pt_allow_excision p) (pt_next p + n)))); [done|]. eauto.
  - split; [done|]. by intros (? & ? & _).
Qed.

Lemma pm_allocate_not_err pm part n e : pm_allocate pm part n <> Err e.
Proof.
  unfold pm_allocate, part_allocate, part_set_next. destruct (pm !! part); [|done].
  destruct (part_allows _ _); done.
Qed.

Lemma pm_allocate_panic pm part n p : wf_parts pm -> 0 <= n -> pm !! part = Some p ->
  (is_panic (pm_allocate pm part n) = true <-> pt_end p < pt_next p + n).
Proof.
  intros [Hwf _] Hn Hp. specialize (Hwf _ _ Hp).
  destruct (pm_allocate pm part n) as [[x pm']|e|q] eqn:E.
  - apply pm_allocate_Ok in E as (p' & Hp' & _ & H & _). assert (p' = p) by congruence. subst.
    split; [done|lia].
  - by apply pm_allocate_not_err in E.
  - split; [intros _|done]. destruct (decide (pt_end p < pt_next p + n)) as [|H]; [done|].
    exfalso. assert (exists y, pm_allocate pm part n = Ok y) as [y Hy]; [|congruence].
    eexists (_, _). apply pm_allocate_Ok. exists p. split_and!; try done; lia.
Qed.

(** one allocation *)
Lemma pm_allocate_step pm part n x pm' :
  wf_parts pm -> 0 <= n -> pm_allocate pm part n = Ok (x, pm') ->
  wf_parts pm'
  /\ (forall e, allocated pm' e <-> allocated pm e \/ in_range e (part, x, n))
  /\ (forall e, in_range e (part, x, n) -> ~ allocated pm e).
Proof.
  intros [Hw1 Hw2] Hn H. apply pm_allocate_Ok in H as (p & Hp & -> & Hr & ->).
  set (p' := Part _ _ _ _).
  pose proof (Hw1 _ _ Hp) as Hwp.
  split; [split|split].
  - intros y q Hq. destruct (decide (y = part)) as [->|Hne].
    + rewrite lookup_insert in Hq. injection Hq as <-. simpl. lia.
    + rewrite lookup_insert_ne in Hq by done. eauto.
  - intros y z q r Hq Hr' Hyz.
    assert (forall w t, (<[part:=p']> pm) !! w = Some t -> exists t', pm !! w = Some t' /\ pt_start t = pt_start t' /\ pt_end t = pt_end t') as K.
    { intros w t Ht. destruct (decide (w = part)) as [->|Hne].
      - rewrite lookup_insert in Ht. injection Ht as <-. eauto.
      - rewrite lookup_insert_ne in Ht by done. eauto. }
    destruct (K _ _ Hq) as (q' & ? & -> & ->). destruct (K _ _ Hr') as (r' & ? & -> & ->). eauto.
  - intros e. unfold allocated, in_range. simpl. split.
    + intros (y & q & Hq & He). destruct (decide (y = part)) as [->|Hne].
      * rewrite lookup_insert in Hq. injection Hq as <-. simpl in He.
        destruct (decide (e < pt_next p)); [left|right; lia]. exists part, p. split; [done|lia].
      * rewrite lookup_insert_ne in Hq by done. left. eauto.
    + intros [(y & q & Hq & He)|He].
      * destruct (decide (y = part)) as [->|Hne].
        -- assert (q = p) by congruence. subst. exists part, p'. rewrite lookup_insert. split; [done|]. simpl. lia.
        -- exists y, q. rewrite lookup_insert_ne by done. done.
      * exists part, p'. rewrite lookup_insert. split; [done|]. simpl. lia.
  - intros e. unfold in_range. simpl. intros He (y & q & Hq & He').
    destruct (decide (y = part)) as [->|Hne].
    + assert (q = p) by congruence. subst. lia.
    + pose proof (Hw1 _ _ Hq). destruct (Hw2 _ _ _ _ Hq Hp Hne); lia.
Qed.

Lemma alloc_seq_spec ops : forall pm rs pm',
  wf_parts pm -> Forall (fun o => 0 <= o.2) ops -> alloc_seq pm ops = Ok (rs, pm') ->
  wf_parts pm'
  /\ map (fun r : range => (r.1.1, r.2)) rs = ops
  /\ (forall e, allocated pm' e <-> allocated pm e \/ Exists (in_range e) rs)
  /\ (forall e, Exists (in_range e) rs -> ~ allocated pm e)
  /\ (forall i j r q e, rs !! i = Some r -> rs !! j = Some q -> in_range e r -> in_range e q -> i = j).
Proof.
  induction ops as [|[part n] ops IH]; intros pm rs pm' Hwf Hn H; simpl in H.
  - injection H as <- <-. split_and!; try done.
    + intros e. split; [by left|]. intros [|Hx]; [done|]. by inversion Hx.
    + intros e Hx. inversion Hx.
  - inversion Hn as [|? ? Hn1 Hn2]; subst. simpl in Hn1.
    destruct (pm_allocate pm part n) as [[x pm1]| |] eqn:E1; try done. simpl in H.
    destruct (alloc_seq pm1 ops) as [[rs1 pm2]| |] eqn:E2; try done. simpl in H. injection H as <- <-.
    destruct (pm_allocate_step _ _ _ _ _ Hwf Hn1 E1) as (Hwf1 & Ha1 & Hd1).
    destruct (IH _ _ _ Hwf1 Hn2 E2) as (Hwf2 & Hm & Ha2 & Hd2 & Hp2).
    split_and!.
    + done.
    + simpl. by rewrite Hm.
    + intros e. rewrite Ha2, Ha1, Exists_cons. tauto.
    + intros e. rewrite Exists_cons. intros [He|He]; [by apply Hd1|].
      intros Hal. apply (Hd2 _ He), Ha1. by left.
    + assert (forall j q e, rs1 !! j = Some q -> in_range e (part, x, n) -> in_range e q -> False) as K.
      { intros j q e Hq H1 H2. apply (Hd2 e).
        - apply Exists_exists. exists q. split; [|done]. by eapply elem_of_list_lookup_2.
        - apply Ha1. by right. }
      intros [|i] [|j] r q e Hr Hq H1 H2; simpl in *; try done.
      * injection Hr as <-. exfalso. eauto.
      * injection Hq as <-. exfalso. eauto.
      * f_equal. eauto.
Qed.

(** A decision procedure for concrete maps. *)
Definition wf_partsb (pm : partition_map) : bool :=
  forallb (fun a : string * partition =>
    (pt_start a.2 <=? pt_next a.2) && (pt_next a.2 <=? pt_end a.2) &&
    forallb (fun b : string * partition =>
      bool_decide (a.1 = b.1) || (pt_end a.2 <? pt_start b.2) || (pt_end b.2 <? pt_start a.2)) (map_to_list pm))
    (map_to_list pm).
Lemma wf_partsb_sound pm : wf_partsb pm = true -> wf_parts pm.
Proof.
  unfold wf_partsb. rewrite forallb_forall. intros H. split.
  - intros x p Hp%elem_of_map_to_list%elem_of_list_In. specialize (H _ Hp). simpl in H. lia.
  - intros x y p q Hp%elem_of_map_to_list%elem_of_list_In Hq%elem_of_map_to_list%elem_of_list_In Hne.
    specialize (H _ Hp). simpl in H. apply andb_true_iff in H as [_ H].
    rewrite forallb_forall in H. specialize (H _ Hq). simpl in H.
    rewrite bool_decide_eq_false_2 in H by done. simpl in H. lia.
Qed.

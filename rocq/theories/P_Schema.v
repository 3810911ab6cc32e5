(** The schema in memory is the one the facts define. *)
From Verif Require Import M_Conn Spec_Value P_Value P_Base P_Store P_Fill P_Step P_Meta P_Inv P_Conn Spec_Tx Spec_Conn Spec_Schema.

(* ---------------------------------------------------------------- AddRetractAlterSet *)

Section Aras.
  Context {K : Type} `{Countable K} {V : Type}.
  Definition find_last (l : list (K * V * bool)) (k : K) (b : bool) : option V :=
    fold_left (fun o q => if decide (q.1.1 = k /\ q.2 = b) then Some q.1.2 else o) l None.
  Definition keyed (l : list (K * V * bool)) : list (K * bool) := map (fun q => (q.1.1, q.2)) l.

  Lemma find_last_snoc l q k b : find_last (l ++ [q]) k b = if decide (q.1.1 = k /\ q.2 = b) then Some q.1.2 else find_last l k b.
  Proof using. unfold find_last. by rewrite fold_left_app. Qed.
  Lemma find_last_None l k b : find_last l k b = None <-> (k, b) ∉ keyed l.
  Proof using.
    unfold keyed. induction l as [|q l IH] using rev_ind; [unfold find_last; simpl; set_solver|].
    rewrite find_last_snoc, map_app, elem_of_app. cbn [map]. rewrite elem_of_list_singleton. case_decide as E.
    - destruct E as [<- <-]. split; [done|]. intros Hn. destruct Hn. by right.
    - rewrite IH. split; [|tauto]. intros Hn [Hx|Hx]; [done|]. injection Hx as -> ->. by apply E.
  Qed.
  Lemma find_last_Some l k b v : NoDup (keyed l) -> find_last l k b = Some v <-> (k, v, b) ∈ l.
  Proof using.
    unfold keyed. induction l as [|q l IH] using rev_ind; intros Hn; [unfold find_last; simpl; set_solver|].
    rewrite map_app in Hn. apply NoDup_app in Hn as (Hn & Hd & _). specialize (IH Hn).
    rewrite find_last_snoc, elem_of_app, elem_of_list_singleton. case_decide as E.
    - destruct q as [[k0 v0] b0]. simpl in *. destruct E as [-> ->]. split; [intros [= ->]; by right|].
      intros [Hx|Hx]; [|congruence]. exfalso. eapply Hd; [apply elem_of_list_fmap; exists (k, v, b); split; [|done]; done|]. simpl. set_solver.
    - rewrite IH. split; [tauto|]. intros [?|<-]; [done|]. simpl in E. tauto.
  Qed.
  Lemma find_last_snoc_fresh l (q : K * V * bool) : NoDup (keyed (l ++ [q])) -> (q.1.1, q.2) ∉ keyed l.
  Proof using. unfold keyed. rewrite map_app. intros (_ & Hd & _)%NoDup_app Hin. apply Hd in Hin. simpl in Hin. set_solver. Qed.

  Lemma witness_all (l : list (K * V * bool)) : NoDup (keyed l) ->
    forall k, let s := fold_left (fun s q => witness s q.1.1 q.1.2 q.2) l aras_empty in
      ar_asserted s !! k = match find_last l k true, find_last l k false with Some v, None => Some v | _, _ => None end
      /\ ar_retracted s !! k = match find_last l k true, find_last l k false with None, Some v => Some v | _, _ => None end
      /\ ar_altered s !! k = match find_last l k true, find_last l k false with Some v, Some r => Some (r, v) | _, _ => None end.
  Proof using.
    induction l as [|[[x v] b] l IH] using rev_ind; intros Hn k; simpl.
    { unfold find_last. simpl. by rewrite !lookup_empty. }
    pose proof (find_last_snoc_fresh _ _ Hn) as Hf. simpl in Hf. apply find_last_None in Hf.
    assert (NoDup (keyed l)) as Hn' by (unfold keyed in *; rewrite map_app in Hn; by apply NoDup_app in Hn as [? _]).
    specialize (IH Hn'). rewrite fold_left_app. cbn [fold_left fst snd]. rewrite !find_last_snoc. cbn [fst snd].
    set (s := fold_left _ l _) in *. pose proof (IH x) as (Ax & Rx & Lx). specialize (IH k) as (Ak & Rk & Lk).
    destruct b; unfold witness; rewrite Hf in *.
    - rewrite (decide_False (P := x = k /\ true = false)) by naive_solver.
      destruct (decide (x = k)) as [->|Hne].
      + rewrite decide_True by done. rewrite Rx. destruct (find_last l k false) as [r|]; simpl.
        * rewrite Ax, lookup_delete, lookup_insert. done.
        * rewrite lookup_insert, Rx, Lx. done.
      + rewrite (decide_False (P := x = k /\ true = true)) by naive_solver. rewrite Rx.
        destruct (find_last l x false) as [r|]; simpl.
        * rewrite lookup_delete_ne, lookup_insert_ne by done. done.
        * rewrite lookup_insert_ne by done. done.
    - rewrite (decide_False (P := x = k /\ false = true)) by naive_solver.
      destruct (decide (x = k)) as [->|Hne].
      + rewrite decide_True by done. rewrite Ax. destruct (find_last l k true) as [r|]; simpl.
        * rewrite Rx, lookup_delete, lookup_insert. done.
        * rewrite lookup_insert, Ax, Lx. done.
      + rewrite (decide_False (P := x = k /\ false = false)) by naive_solver. rewrite Ax.
        destruct (find_last l x true) as [r|]; simpl.
        * rewrite lookup_delete_ne, lookup_insert_ne by done. done.
        * rewrite lookup_insert_ne by done. done.
  Qed.
End Aras.

(* ---------------------------------------------------------------- splitting the quadruples *)

Definition attr_quad (q : quad) : option (Z * Z * typed_value * bool) :=
  let '(e, a, v, b) := q in if decide (a = DB_IDENT) then None else Some (e, a, v, b).
Definition ident_quad (q : quad) : option (Z * keyword * bool) :=
  let '(e, a, v, b) := q in
  if decide (a = DB_IDENT) then match v with TVKeyword k => Some (e, k, b) | _ => None end else None.

Lemma witness_quads l : forall acc attrs idents, rfold witness_quad acc l = Ok (attrs, idents) ->
  attrs = fold_left (fun s q => witness s q.1.1 q.1.2 q.2) (omap attr_quad l) acc.1
  /\ idents = fold_left (fun s q => witness s q.1.1 q.1.2 q.2) (omap ident_quad l) acc.2.
Proof.
  induction l as [|[[[e a] v] b] l IH]; intros [x y] attrs idents H; cbn [rfold] in H.
  - by injection H as -> ->.
  - apply rbind_Ok in H as ([x' y'] & Hw & H). apply IH in H as [-> ->]. unfold witness_quad in Hw. cbn [omap list_omap attr_quad ident_quad].
    case_decide; [|by injection Hw as <- <-]. destruct v; try done. by injection Hw as <- <-.
Qed.

(* ---------------------------------------------------------------- builders *)

(** What a builder says about each property: nothing, that it has no value, or its value *)
Definition bview (b : builder) (a : Z) : option (option typed_value) :=
  if decide (a = DB_VALUE_TYPE) then (fun t : value_type => Some (TVRef (type_entid t))) <$> b_type b
  else if decide (a = DB_CARDINALITY) then (fun x : bool => Some (TVRef (if x then DB_CARDINALITY_MANY else DB_CARDINALITY_ONE))) <$> b_multival b
  else if decide (a = DB_UNIQUE) then (fun o : option uniq => (fun u : uniq => TVRef (unique_entid u)) <$> o) <$> b_unique b
  else if decide (a = DB_INDEX) then (fun x : bool => Some (TVBoolean x)) <$> b_index b
  else if decide (a = DB_FULLTEXT) then (fun x : bool => Some (TVBoolean x)) <$> b_fulltext b
  else if decide (a = DB_IS_COMPONENT) then (fun x : bool => Some (TVBoolean x)) <$> b_component b
  else if decide (a = DB_NO_HISTORY) then (fun x : bool => Some (TVBoolean x)) <$> b_no_history b
  else None.

Lemma value_type_entid t vt : value_type_of_entid t = Some vt <-> t = type_entid vt.
Proof.
  split.
  - unfold value_type_of_entid. repeat (case_decide; [intros [= <-]; by subst|]). done.
  - intros ->. by destruct vt.
Qed.

Lemma assert_builder_view b a v b' : assert_builder b a v = Ok b' ->
  forall x, bview b' x = if decide (x = a) then Some (Some v) else bview b x.
Proof.
  unfold assert_builder. intros H x.
  destruct (decide (a = DB_VALUE_TYPE)) as [->|E1].
  { destruct v; try done. destruct (value_type_of_entid _) as [vt|] eqn:Ev; [|done]. injection H as <-. apply value_type_entid in Ev as ->.
    unfold bview. by repeat case_decide. }
  repeat (case_decide as E; [subst a|]); try done.
  all: destruct v; try done; unfold bview; repeat case_decide; try done; simplify_eq; done.
Qed.

Notation bv o := (bview (default builder_default o)) (only parsing).

Lemma assert_fold A : forall bs1 bs2, NoDup (A.*1) -> rfold assert_one bs1 A = Ok bs2 -> forall e,
  (forall a v, (e, a, v) ∈ A -> is_Some (bs2 !! e) /\ bv (bs2 !! e) a = Some (Some v))
  /\ (forall a, (forall v, (e, a, v) ∉ A) -> bv (bs2 !! e) a = bv (bs1 !! e) a)
  /\ ((forall a v, (e, a, v) ∉ A) -> bs2 !! e = bs1 !! e)
  /\ (is_Some (bs1 !! e) -> is_Some (bs2 !! e)).
Proof.
  induction A as [|[[e0 a0] v0] A IH]; intros bs1 bs2 Hn H e; cbn [rfold] in H.
  { injection H as <-. split_and!; try done. intros a v Hin. by apply elem_of_nil in Hin. }
  apply rbind_Ok in H as (bs & Hb & H). apply NoDup_cons in Hn as [Hx Hn]. specialize (IH bs bs2 Hn H e) as (I1 & I2 & I3 & I4).
  unfold assert_one in Hb. apply rbind_Ok in Hb as (b & Hb & [= <-]). pose proof (assert_builder_view _ _ _ _ Hb) as Hv.
  assert (forall v, (e0, a0, v) ∉ A) as Hx'.
  { intros v Hin. apply Hx. apply elem_of_list_fmap. by exists (e0, a0, v). }
  split_and!.
  - intros a v [[= -> -> ->]|Hin]%elem_of_cons; [|by apply I1].
    rewrite (I2 a0 Hx'). rewrite lookup_insert in I4 |- *. simpl. rewrite Hv, decide_True by done. split; [|done]. apply I4. by eexists.
  - intros a Ha. rewrite I2 by set_solver. destruct (decide (e0 = e)) as [->|Hne].
    + rewrite lookup_insert. simpl. rewrite Hv. rewrite decide_False; [done|]. intros ->. apply (Ha v0). by left.
    + by rewrite lookup_insert_ne.
  - intros Ha. rewrite I3 by set_solver. rewrite lookup_insert_ne; [done|]. intros ->. apply (Ha a0 v0). by left.
  - intros Hs. apply I4. destruct (decide (e0 = e)) as [->|Hne]; [rewrite lookup_insert; by eexists|by rewrite lookup_insert_ne].
Qed.

(** What a retraction does to a builder *)
Definition retracted_view (a : Z) : option (option typed_value) :=
  if decide (a = DB_IS_COMPONENT) then Some (Some (TVBoolean false)) else Some None.
Lemma retract_one_Ok m bs e a v bs' : retract_one m bs (e, a, v) = Ok bs' ->
  is_Some (m !! e) \/ is_Some (bs !! e) ->
  exists b, bs' = <[e := b]> bs
  /\ (a = DB_IS_COMPONENT \/ a = DB_UNIQUE)
  /\ forall x, bview b x = if decide (x = a) then retracted_view a
               else bview (match bs !! e with Some b => b | None => match m !! e with Some at_ => modify_attribute at_ | None => builder_default end end) x.
Proof.
  unfold retract_one. intros H _. set (b0 := match bs !! e with Some b => b | None => _ end) in *.
  destruct (decide (a = DB_IS_COMPONENT)) as [->|E1]; [|destruct (decide (a = DB_UNIQUE)) as [->|E2]; [|done]].
  - destruct v; try done. destruct (decide (b_component b0 = _)); [|done]. injection H as <-. eexists. split_and!; [done|by left|]. intros x.
    unfold bview, retracted_view. repeat case_decide; try done; subst; done.
  - destruct v; try done. assert (bs' = <[e := b_set_unique b0 None]> bs) as -> by (repeat case_decide; try done; by injection H as <-).
    eexists. split_and!; [done|by right|]. intros x. unfold bview, retracted_view. repeat case_decide; try done; subst; done.
Qed.
Lemma retract_one_known m bs e a v bs' : retract_one m bs (e, a, v) = Ok bs' -> bs !! e = None -> is_Some (m !! e).
Proof.
  unfold retract_one. intros H Hb. rewrite Hb in H. destruct (m !! e) as [at_|]; [by eexists|]. exfalso.
  destruct (decide (a = DB_IS_COMPONENT)) as [->|E1]; [destruct v; try done; by case_decide|].
  destruct (decide (a = DB_UNIQUE)) as [->|E2]; [|done]. destruct v; try done. repeat case_decide; naive_solver.
Qed.

Lemma mentions_dec (R : list eav) e : (exists a v, (e, a, v) ∈ R) \/ ~ (exists a v, (e, a, v) ∈ R).
Proof.
  destruct (decide (e ∈ R.*1.*1)) as [H|H].
  - left. apply elem_of_list_fmap in H as ([e' a] & -> & H). apply elem_of_list_fmap in H as ([[e2 a2] v] & [= -> ->] & H). eauto.
  - right. intros (a & v & Hin). apply H. apply elem_of_list_fmap. exists (e, a). split; [done|]. apply elem_of_list_fmap. by exists (e, a, v).
Qed.
Definition base (m : gmap Z attribute) (e : Z) : builder :=
  match m !! e with Some at_ => modify_attribute at_ | None => builder_default end.
Lemma retract_fold m R : forall bs1 bs2, NoDup (R.*1) -> rfold (retract_one m) bs1 R = Ok bs2 -> forall e,
  (forall a v, (e, a, v) ∈ R -> (bs1 !! e = None -> is_Some (m !! e)) /\ (a = DB_IS_COMPONENT \/ a = DB_UNIQUE)
     /\ is_Some (bs2 !! e) /\ bv (bs2 !! e) a = retracted_view a)
  /\ (forall a, (forall v, (e, a, v) ∉ R) -> (exists a v, (e, a, v) ∈ R) -> bv (bs2 !! e) a = bview (default (base m e) (bs1 !! e)) a)
  /\ ((forall a v, (e, a, v) ∉ R) -> bs2 !! e = bs1 !! e)
  /\ (is_Some (bs1 !! e) -> is_Some (bs2 !! e)).
Proof.
  induction R as [|[[e0 a0] v0] R IH]; intros bs1 bs2 Hn H e; cbn [rfold] in H.
  { injection H as <-. split_and!; try done.
    - intros a v Hin. by apply elem_of_nil in Hin.
    - intros a _ (a' & v & Hin). by apply elem_of_nil in Hin. }
  apply rbind_Ok in H as (bs & Hb & H). apply NoDup_cons in Hn as [Hx Hn]. specialize (IH bs bs2 Hn H e) as (I1 & I2 & I3 & I4).
  pose proof (retract_one_known _ _ _ _ _ _ Hb) as Hk.
  assert (is_Some (m !! e0) \/ is_Some (bs1 !! e0)) as Hko.
  { destruct (bs1 !! e0) eqn:E; [right; by eexists|left; by apply Hk]. }
  destruct (retract_one_Ok _ _ _ _ _ _ Hb Hko) as (b & -> & Ha & Hv).
  assert (forall v, (e0, a0, v) ∉ R) as Hx'.
  { intros v Hin. apply Hx. apply elem_of_list_fmap. by exists (e0, a0, v). }
  assert (bv (bs2 !! e0) a0 = retracted_view a0 \/ e0 <> e) as Hown.
  { destruct (decide (e0 = e)) as [->|]; [left|by right].
    destruct (mentions_dec R e) as [Hex|Hex].
    - rewrite (I2 a0 Hx' Hex), lookup_insert. simpl. by rewrite Hv, decide_True.
    - rewrite I3 by naive_solver. rewrite lookup_insert. simpl. by rewrite Hv, decide_True. }
  split_and!.
  - intros a v [[= -> -> ->]|Hin]%elem_of_cons.
    + split_and!; try done; [|by destruct Hown]. apply I4. rewrite lookup_insert. by eexists.
    + destruct (I1 a v Hin) as (J1 & J2 & J3 & J4). split_and!; try done. intros Hnone. destruct (decide (e0 = e)) as [->|Hne]; [by apply Hk|].
      apply J1. by rewrite lookup_insert_ne.
  - intros a Hna Hex. destruct (decide (e0 = e)) as [->|Hne].
    + assert (a <> a0) as Hne by (intros ->; apply (Hna v0); by left).
      assert (bv (bs2 !! e) a = bview b a) as ->.
      { destruct (mentions_dec R e) as [Hex'|Hex'].
        - rewrite (I2 a ltac:(set_solver) Hex'), lookup_insert. done.
        - rewrite I3 by naive_solver. by rewrite lookup_insert. }
      rewrite Hv, decide_False by done. unfold base. by destruct (bs1 !! e).
    + destruct Hex as (a' & v' & [[= -> -> ->]|Hin]%elem_of_cons); [done|].
      rewrite I2; [by rewrite lookup_insert_ne|set_solver|eauto].
  - intros Hna. rewrite I3 by set_solver. rewrite lookup_insert_ne; [done|]. intros ->. apply (Hna a0 v0). by left.
  - intros Hs. apply I4. destruct (decide (e0 = e)) as [->|Hne]; [rewrite lookup_insert; by eexists|by rewrite lookup_insert_ne].
Qed.

Lemma apply_builders_exact l : forall m rep m' rep', NoDup l.*1 -> rfold apply_builder (m, rep) l = Ok (m', rep') -> forall e,
  (e ∉ l.*1 -> m' !! e = m !! e)
  /\ (forall b, (e, b) ∈ l -> match m !! e with
        | None => validate_install b = Ok tt /\ attribute_validate (build b) = Ok tt /\ m' !! e = Some (build b)
        | Some a => validate_alter b = Ok tt /\ m' !! e = Some (mutate b a).1
        end).
Proof.
  induction l as [|[e0 b0] l IH]; intros m rep m' rep' Hn H e; cbn [rfold] in H.
  { injection H as <- <-. split; [done|]. intros b Hb. by apply elem_of_nil in Hb. }
  apply rbind_Ok in H as ([m1 rep1] & H1 & H). apply NoDup_cons in Hn as [Hx Hn]. specialize (IH _ _ _ _ Hn H). simpl in Hx.
  assert (forall e, e <> e0 -> m1 !! e = m !! e) as Hother.
  { intros x Hne. unfold apply_builder in H1. destruct (m !! e0).
    - apply rbind_Ok in H1 as (u & _ & H1). destruct (mutate b0 a). injection H1 as <- <-. by rewrite lookup_insert_ne.
    - apply rbind_Ok in H1 as (u & _ & H1). apply rbind_Ok in H1 as (u' & _ & [= <- <-]). by rewrite lookup_insert_ne. }
  split.
  - intros Hin. simpl in Hin. rewrite (proj1 (IH e)), Hother; set_solver.
  - intros b [[= -> ->]|Hin]%elem_of_cons.
    + rewrite (proj1 (IH e0) Hx). unfold apply_builder in H1. destruct (m !! e0) as [a|].
      * apply rbind_Ok in H1 as ([] & Hv & H1). destruct (mutate b0 a) as [a' muts]. injection H1 as <- <-. rewrite lookup_insert. done.
      * apply rbind_Ok in H1 as ([] & Hv & H1). apply rbind_Ok in H1 as ([] & Hv' & [= <- <-]). rewrite lookup_insert. done.
    + assert (e <> e0) as Hne. { intros ->. apply Hx. apply elem_of_list_fmap. by exists (e0, b). }
      specialize (proj2 (IH e) b Hin). by rewrite (Hother e Hne).
Qed.

Lemma apply_builders_nil l : forall m rep m' rep', rfold apply_builder (m, rep) l = Ok (m', rep') ->
  (length (mr_installed rep') + length (mr_altered rep') = length (mr_installed rep) + length (mr_altered rep) + length l)%nat.
Proof.
  induction l as [|[e0 b0] l IH]; intros m rep m' rep' H; cbn [rfold] in H.
  { injection H as <- <-. simpl. lia. }
  apply rbind_Ok in H as ([m1 rep1] & H1 & H). apply IH in H. rewrite H. simpl. clear H IH.
  unfold apply_builder in H1. destruct (m !! e0).
  - apply rbind_Ok in H1 as (u & _ & H1). destruct (mutate b0 a). injection H1 as <- <-. simpl. rewrite app_length. simpl. lia.
  - apply rbind_Ok in H1 as (u & _ & H1). apply rbind_Ok in H1 as (u' & _ & [= <- <-]). simpl. rewrite app_length. simpl. lia.
Qed.

(** Whether an assertion about a property is understood does not depend on the builder. *)
Definition recognised (a : Z) (v : typed_value) : Prop := exists b, assert_builder builder_default a v = Ok b.
Lemma recognised_same b0 b1 a v b : assert_builder b0 a v = Ok b -> exists b, assert_builder b1 a v = Ok b.
Proof.
  unfold assert_builder. intros H.
  destruct (decide (a = DB_VALUE_TYPE)); [destruct v; try done; destruct (value_type_of_entid _); [by eexists|done]|].
  destruct (decide (a = DB_CARDINALITY)); [destruct v; try done; repeat case_decide; try done; by eexists|].
  destruct (decide (a = DB_UNIQUE)); [destruct v; try done; repeat case_decide; try done; by eexists|].
  repeat (case_decide; [destruct v; try done; by eexists|]). done.
Qed.
Lemma recognised_any b0 a v b : assert_builder b0 a v = Ok b -> recognised a v.
Proof. apply recognised_same. Qed.
Lemma recognised_Ok b0 a v : recognised a v -> exists b, assert_builder b0 a v = Ok b.
Proof. intros [b H]. by eapply recognised_same. Qed.
Lemma assert_fold_recognised A : forall bs1 bs2, rfold assert_one bs1 A = Ok bs2 -> forall e a v, (e, a, v) ∈ A -> recognised a v.
Proof.
  induction A as [|[[e0 a0] v0] A IH]; intros bs1 bs2 H e a v Hin; [by apply elem_of_nil in Hin|]. cbn [rfold] in H.
  apply rbind_Ok in H as (bs & Hb & H). apply elem_of_cons in Hin as [[= -> -> ->]|Hin]; [|by eapply IH].
  unfold assert_one in Hb. apply rbind_Ok in Hb as (b & Hb & _). by eapply recognised_any.
Qed.

(** Everything about applying assertions [A] and retractions [R] to the attributes [m] *)
Record triples_applied (m m' : gmap Z attribute) (A R : list eav) (e : Z) (b : builder) : Prop := {
  ta_result : match m !! e with
        | None => validate_install b = Ok tt /\ attribute_validate (build b) = Ok tt /\ m' !! e = Some (build b)
        | Some a => validate_alter b = Ok tt /\ m' !! e = Some (mutate b a).1
        end;
  ta_asserted : forall a v, (e, a, v) ∈ A -> bview b a = Some (Some v);
  ta_retracted : forall a v, (e, a, v) ∈ R -> is_Some (m !! e) /\ (a = DB_IS_COMPONENT \/ a = DB_UNIQUE) /\ bview b a = retracted_view a;
  ta_other : forall a, (forall v, (e, a, v) ∉ A) -> (forall v, (e, a, v) ∉ R) ->
    bview b a = bview builder_default a /\ (forall a v, (e, a, v) ∉ R)
    \/ bview b a = bview (base m e) a /\ exists a v, (e, a, v) ∈ R }.
Lemma triples_exact m A R m' rep : NoDup (A.*1) -> NoDup (R.*1) -> (forall e a v w, (e, a, v) ∈ A -> (e, a, w) ∉ R) ->
  update_attribute_map_from_entid_triples m A R = Ok (m', rep) ->
  (forall e, (forall a v, (e, a, v) ∉ A /\ (e, a, v) ∉ R) /\ m' !! e = m !! e
            \/ (exists a v, (e, a, v) ∈ A \/ (e, a, v) ∈ R) /\ exists b, triples_applied m m' A R e b)
  /\ (forall e a v, (e, a, v) ∈ A -> recognised a v)
  /\ (is_nil (mr_installed rep) && is_nil (mr_altered rep) = true -> m' = m)%bool.
Proof.
  unfold update_attribute_map_from_entid_triples. intros HA HR Hd H.
  apply rbind_Ok in H as (bs1 & H1 & H). apply rbind_Ok in H as (bs2 & H2 & H).
  split_and!.
  - intros e. pose proof (retract_fold m R _ _ HR H1 e) as (R1 & R2 & R3 & R4). pose proof (assert_fold A _ _ HA H2 e) as (A1 & A2 & A3 & A4).
    pose proof (apply_builders_exact _ _ _ _ _ (sorted_e_nodup bs2) H e) as [B1 B2].
    destruct (mentions_dec A e) as [HmA|HmA]; [|destruct (mentions_dec R e) as [HmR|HmR]].
    3:{ left. split; [naive_solver|]. apply B1. intros (p & -> & Hp)%elem_of_list_fmap. destruct p as [e b]. apply sorted_e_elem in Hp.
        simpl in *. rewrite A3, R3 in Hp by naive_solver. by rewrite lookup_empty in Hp. }
    all: right; split; [naive_solver|].
    all: assert (is_Some (bs2 !! e)) as [b Hb] by naive_solver.
    all: exists b; rewrite Hb in *; cbn [default from_option id] in *.
    all: split; [by apply B2, sorted_e_elem|naive_solver|..].
    all: try (intros a v Hin; destruct (R1 a v Hin) as (J1 & J2 & J3 & J4); split_and!; [by apply J1; rewrite lookup_empty|done|];
              rewrite A2, J4; [done|]; intros w Hw; by eapply Hd).
    all: intros a Ha Hr; rewrite (A2 a Ha).
    + destruct (mentions_dec R e) as [HmR|HmR].
      * right. rewrite (R2 a Hr HmR), lookup_empty. done.
      * left. rewrite R3, lookup_empty by naive_solver. split; [done|naive_solver].
    + right. rewrite (R2 a Hr HmR), lookup_empty. done.
  - by eapply assert_fold_recognised.
  - intros Hnil. apply andb_true_iff in Hnil as [N1%is_nil_true N2%is_nil_true]. pose proof (apply_builders_nil _ _ _ _ _ H) as Hl.
    rewrite N1, N2 in Hl. simpl in Hl. destruct (sorted_e bs2) as [|p l]; [|simpl in Hl; lia]. by injection H as <- _.
Qed.

(* ---------------------------------------------------------------- facts and attributes *)

Definition functional (F : fact -> Prop) : Prop := forall e a p q, a ∈ SCHEMA_LIST -> F (e, a, p) -> F (e, a, q) -> p = q.
Definition known (F : fact -> Prop) : Prop :=
  forall e a p, a ∈ SCHEMA_LIST -> F (e, a, p) -> exists v, p = to_sql_value_pair v /\ recognised a v.

Lemma to_sql_ref_inj x y : to_sql_value_pair (TVRef x) = to_sql_value_pair (TVRef y) <-> x = y.
Proof. simpl. split; [by intros [= ->]|by intros ->]. Qed.
Lemma to_sql_bool_inj x y : to_sql_value_pair (TVBoolean x) = to_sql_value_pair (TVBoolean y) <-> x = y.
Proof. destruct x, y; simpl; split; try done; by intros [= ?]. Qed.

Lemma mutate_fields b a : let a' := (mutate b a).1 in
  at_type a' = at_type a /\ at_fulltext a' = at_fulltext a
  /\ at_multival a' = default (at_multival a) (b_multival b)
  /\ at_unique a' = default None (b_unique b)
  /\ at_index a' = default (at_index a) (b_index b)
  /\ at_component a' = default (at_component a) (b_component b)
  /\ at_no_history a' = default (at_no_history a) (b_no_history b).
Proof.
  unfold mutate. destruct b as [bt bm bu bi bf bc bn]. cbn [b_multival b_unique b_index b_component b_no_history].
  destruct bm, bu, bi, bc, bn; simpl; repeat (case_decide; simpl); split_and!; congruence.
Qed.

Lemma bview_type b : bview b DB_VALUE_TYPE = (fun t : value_type => Some (TVRef (type_entid t))) <$> b_type b.
Proof. done. Qed.
Lemma bview_card b : bview b DB_CARDINALITY = (fun x : bool => Some (TVRef (if x then DB_CARDINALITY_MANY else DB_CARDINALITY_ONE))) <$> b_multival b.
Proof. done. Qed.
Lemma bview_unique b : bview b DB_UNIQUE = (fun o : option uniq => (fun u : uniq => TVRef (unique_entid u)) <$> o) <$> b_unique b.
Proof. done. Qed.
Lemma bview_index b : bview b DB_INDEX = (fun x : bool => Some (TVBoolean x)) <$> b_index b.
Proof. done. Qed.
Lemma bview_fulltext b : bview b DB_FULLTEXT = (fun x : bool => Some (TVBoolean x)) <$> b_fulltext b.
Proof. done. Qed.
Lemma bview_component b : bview b DB_IS_COMPONENT = (fun x : bool => Some (TVBoolean x)) <$> b_component b.
Proof. done. Qed.
Lemma bview_history b : bview b DB_NO_HISTORY = (fun x : bool => Some (TVBoolean x)) <$> b_no_history b.
Proof. done. Qed.

Lemma in_type : DB_VALUE_TYPE ∈ SCHEMA_LIST.
Proof. by apply (bool_decide_eq_true_1 _). Qed.
Lemma in_card : DB_CARDINALITY ∈ SCHEMA_LIST.
Proof. by apply (bool_decide_eq_true_1 _). Qed.
Lemma in_unique : DB_UNIQUE ∈ SCHEMA_LIST.
Proof. by apply (bool_decide_eq_true_1 _). Qed.
Lemma in_index : DB_INDEX ∈ SCHEMA_LIST.
Proof. by apply (bool_decide_eq_true_1 _). Qed.
Lemma in_fulltext : DB_FULLTEXT ∈ SCHEMA_LIST.
Proof. by apply (bool_decide_eq_true_1 _). Qed.
Lemma in_component : DB_IS_COMPONENT ∈ SCHEMA_LIST.
Proof. by apply (bool_decide_eq_true_1 _). Qed.

Lemma bool_set (P : sqlval * Z -> Prop) (o : option bool) v d : (fun x : bool => Some (TVBoolean x)) <$> o = Some (Some v) ->
  (forall p, P p <-> p = to_sql_value_pair v) -> default d o = true <-> P (to_sql_value_pair (TVBoolean true)).
Proof.
  intros (x & -> & [= ->])%fmap_Some HP. rewrite HP, to_sql_bool_inj. simpl. split; congruence.
Qed.
Lemma card_set (P : sqlval * Z -> Prop) (o : option bool) v d :
  (fun x : bool => Some (TVRef (if x then DB_CARDINALITY_MANY else DB_CARDINALITY_ONE))) <$> o = Some (Some v) ->
  (forall p, P p <-> p = to_sql_value_pair v) -> default d o = true <-> P (to_sql_value_pair (TVRef DB_CARDINALITY_MANY)).
Proof.
  intros (x & -> & [= ->])%fmap_Some HP. rewrite HP, to_sql_ref_inj. by destruct x.
Qed.
Lemma unique_entid_inj u u' : unique_entid u = unique_entid u' <-> u = u'.
Proof. by destruct u, u'. Qed.
Lemma unique_set (P : sqlval * Z -> Prop) (o : option (option uniq)) v u :
  (fun o : option uniq => (fun u : uniq => TVRef (unique_entid u)) <$> o) <$> o = Some (Some v) ->
  (forall p, P p <-> p = to_sql_value_pair v) -> default None o = Some u <-> P (to_sql_value_pair (TVRef (unique_entid u))).
Proof.
  intros (x & -> & Hx)%fmap_Some HP. symmetry in Hx. apply fmap_Some in Hx as (u' & -> & ->). rewrite HP, to_sql_ref_inj, unique_entid_inj.
  simpl. split; congruence.
Qed.
Lemma unique_cleared (o : option (option uniq)) :
  (fun o : option uniq => (fun u : uniq => TVRef (unique_entid u)) <$> o) <$> o = Some None -> o = Some None.
Proof. intros (x & -> & Hx)%fmap_Some. by destruct x. Qed.
Lemma type_set (o : option value_type) (P : sqlval * Z -> Prop) v t : (fun t : value_type => Some (TVRef (type_entid t))) <$> o = Some (Some v) ->
  (forall p, P p <-> p = to_sql_value_pair v) -> o = Some t -> P (to_sql_value_pair (TVRef (type_entid t))).
Proof. intros (x & -> & [= ->])%fmap_Some HP [= ->]. by apply HP. Qed.

Section Step.
  Context (F F' : fact -> Prop) (dF : forall x, F x \/ ~ F x) (dF' : forall x, F' x \/ ~ F' x).
  Context (funF : functional F) (funF' : functional F') (knF : known F).
  Context (A R : list eav).
  Context (HA1 : forall e a v, (e, a, v) ∈ A -> a ∈ SCHEMA_LIST /\ F' (e, a, to_sql_value_pair v)).
  Context (HA2 : forall e a p, a ∈ SCHEMA_LIST -> F' (e, a, p) -> ~ F (e, a, p) -> exists v, p = to_sql_value_pair v /\ (e, a, v) ∈ A).
  Context (HR1 : forall e a v, (e, a, v) ∈ R -> a ∈ SCHEMA_LIST /\ forall p, ~ F' (e, a, p)).
  Context (HR2 : forall e a p, a ∈ SCHEMA_LIST -> F (e, a, p) -> (forall q, ~ F' (e, a, q)) -> exists v, (e, a, v) ∈ R).
  Context (nA : NoDup (A.*1)) (nR : NoDup (R.*1)).

  Lemma about_dec (L : list eav) (e a : Z) : (exists v, (e, a, v) ∈ L) \/ (forall v, (e, a, v) ∉ L).
  Proof using.
    destruct (decide ((e, a) ∈ L.*1)) as [H|H].
    - left. apply elem_of_list_fmap in H as ([[e' a'] v] & [= -> ->] & H). eauto.
    - right. intros v Hin. apply H, elem_of_list_fmap. by exists (e, a, v).
  Qed.
  Lemma step_cases e a : a ∈ SCHEMA_LIST ->
    (exists v, (e, a, v) ∈ A /\ forall p, F' (e, a, p) <-> p = to_sql_value_pair v)
    \/ (forall v, (e, a, v) ∉ A) /\ (exists v, (e, a, v) ∈ R) /\ (forall p, ~ F' (e, a, p))
    \/ (forall v, (e, a, v) ∉ A) /\ (forall v, (e, a, v) ∉ R) /\ (forall p, F' (e, a, p) <-> F (e, a, p)).
  Proof using dF dF' funF funF' HA1 HA2 HR1 HR2.
    intros Ha. destruct (about_dec A e a) as [[v Hv]|HnA].
    { left. exists v. split; [done|]. destruct (HA1 _ _ _ Hv) as [_ Hf]. intros p. split; [intros Hp; by eapply funF'|by intros ->]. }
    right. destruct (about_dec R e a) as [[v Hv]|HnR].
    { left. split_and!; [done|eauto|]. by apply HR1 in Hv as [_ Hv]. }
    right. split_and!; [done|done|]. assert (forall p, F' (e, a, p) -> F (e, a, p)) as K.
    { intros p Hp. destruct (dF (e, a, p)) as [?|Hn]; [done|]. destruct (HA2 _ _ _ Ha Hp Hn) as (v & _ & Hv). by destruct (HnA v). }
    intros p. split; [apply K|]. intros Hp. destruct (dF' (e, a, p)) as [?|Hn]; [done|]. exfalso.
    destruct (HR2 e a p Ha Hp) as [v Hv]; [|by destruct (HnR v)]. intros q Hq. apply Hn. by rewrite (funF e a p q Ha Hp (K q Hq)).
  Qed.

  Lemma step_attributes m m' rep : attributes_agree F m ->
    update_attribute_map_from_entid_triples m A R = Ok (m', rep) ->
    (forall e at_, m !! e = Some at_ -> (exists a v, (e, a, v) ∈ A /\ a ∈ [DB_CARDINALITY; DB_INDEX; DB_IS_COMPONENT]) ->
       (forall v, (e, DB_UNIQUE, v) ∉ A) -> at_unique at_ = None) ->
    attributes_agree F' m' /\ known F' /\ (is_nil (mr_installed rep) && is_nil (mr_altered rep) = true -> m' = m)%bool.
  Proof using dF dF' funF funF' knF HA1 HA2 HR1 HR2 nA nR.
    intros [HS HD] Hup Hun.
    assert (forall e a v w, (e, a, v) ∈ A -> (e, a, w) ∉ R) as Hdis.
    { intros e a v w Hv Hw. apply HA1 in Hv as [_ Hv]. apply HR1 in Hw as [_ Hw]. by eapply Hw. }
    destruct (triples_exact _ _ _ _ _ nA nR Hdis Hup) as (Hex & Hrec & Hnil).
    split_and!; [|intros e a p Ha Hp|done].
    2:{ destruct (step_cases e a Ha) as [(v & Hv & Hf)|[(_ & _ & Hf)|(_ & _ & Hf)]].
        - apply Hf in Hp as ->. exists v. split; [done|]. by eapply Hrec.
        - by apply Hf in Hp.
        - apply Hf in Hp. by eapply knF. }
    assert (forall e a p, F' (e, a, p) -> a ∈ SCHEMA_LIST -> is_Some (m' !! e)) as HD'.
    { intros e a p Hp Ha. destruct (Hex e) as [[Hno Hm]|(_ & b & [Hres _ _ _])].
      - rewrite Hm. apply (HD e a p); [|done]. destruct (dF (e, a, p)) as [?|Hn]; [done|].
        destruct (HA2 _ _ _ Ha Hp Hn) as (v & _ & Hv). by destruct (Hno a v) as [[] _].
      - destruct (m !! e); naive_solver. }
    split; [|done]. intros e at_ Hat. destruct (Hex e) as [[Hno Hm]|(Hmen & b & [Hres TA TR TO])].
    { rewrite Hm in Hat. specialize (HS e at_ Hat). assert (forall a p, a ∈ SCHEMA_LIST -> F' (e, a, p) <-> F (e, a, p)) as Heq.
      { intros a p Ha. destruct (step_cases e a Ha) as [(v & Hv & _)|[(_ & (v & Hv) & _)|(_ & _ & Hf)]]; [|by destruct (Hno a v)..|done]. by destruct (Hno a v) as [[] _]. }
      destruct HS as [s1 s2 s3 s4 s5 s6 s7]. split; [| | | | | |done].
      - by apply Heq; [apply in_type|].
      - rewrite Heq; [done|apply in_card].
      - intros u. rewrite Heq; [done|apply in_unique].
      - rewrite Heq; [done|apply in_index].
      - rewrite Heq; [done|apply in_fulltext].
      - rewrite Heq; [done|apply in_component]. }
    (* the builder, property by property *)
    assert (forall a, a ∈ SCHEMA_LIST ->
      (exists v, bview b a = Some (Some v) /\ forall p, F' (e, a, p) <-> p = to_sql_value_pair v)
      \/ (is_Some (m !! e) /\ (a = DB_IS_COMPONENT \/ a = DB_UNIQUE) /\ bview b a = retracted_view a /\ forall p, ~ F' (e, a, p))
      \/ ((forall p, F' (e, a, p) <-> F (e, a, p)) /\ (forall v, (e, a, v) ∉ A)
          /\ (bview b a = bview builder_default a /\ (forall a v, (e, a, v) ∉ R)
              \/ bview b a = bview (base m e) a /\ is_Some (m !! e)))) as C.
    { intros a Ha. destruct (step_cases e a Ha) as [(v & Hv & Hf)|[(H1 & (v & Hv) & Hf)|(H1 & H2 & Hf)]].
      - left. exists v. split; [by apply TA|done].
      - right; left. destruct (TR a v Hv) as (? & ? & ?). done.
      - right; right. split_and!; [done|done|]. destruct (TO a H1 H2) as [[? ?]|[? (a' & v & Hv)]]; [by left|right]. split; [done|]. by destruct (TR a' v Hv). }
    assert (bview b DB_NO_HISTORY = None) as Hnh.
    { assert (forall v, (e, DB_NO_HISTORY, v) ∉ A) as N1 by (intros v [Hx _]%HA1; by apply (bool_decide_eq_true_2 _) in Hx).
      assert (forall v, (e, DB_NO_HISTORY, v) ∉ R) as N2 by (intros v [Hx _]%HR1; by apply (bool_decide_eq_true_2 _) in Hx).
      destruct (TO _ N1 N2) as [[-> _]|[-> _]]; [done|]. unfold base. by destruct (m !! e). }
    rewrite bview_history in Hnh. apply fmap_None in Hnh.
    pose proof (C DB_VALUE_TYPE in_type) as Ct. rewrite bview_type in Ct.
    pose proof (C DB_CARDINALITY in_card) as Cc. rewrite bview_card in Cc.
    pose proof (C DB_UNIQUE in_unique) as Cu. rewrite bview_unique in Cu.
    pose proof (C DB_INDEX in_index) as Ci. rewrite bview_index in Ci.
    pose proof (C DB_FULLTEXT in_fulltext) as Cf. rewrite bview_fulltext in Cf.
    pose proof (C DB_IS_COMPONENT in_component) as Cm. rewrite bview_component in Cm.
    clear C.
    destruct (m !! e) as [a0|] eqn:Em.
    - destruct Hres as [Hva Hm']. rewrite Hat in Hm'. injection Hm' as ->.
      specialize (HS e a0 Em) as [s1 s2 s3 s4 s5 s6 s7].
      assert (b_type b = None /\ b_fulltext b = None) as [Ht Hf0].
      { unfold validate_alter in Hva. by destruct (b_type b), (b_fulltext b). }
      unfold base in *. rewrite Em in *.
      destruct (mutate_fields b a0) as (M1 & M2 & M3 & M4 & M5 & M6 & M7).
      split; rewrite ?M1, ?M2, ?M3, ?M4, ?M5, ?M6, ?M7; clear M1 M2 M3 M4 M5 M6 M7 Hat.
      + destruct Ct as [(v & Hv & _)|[(_ & [?|?] & _)|(Hq & _)]]; [by rewrite Ht in Hv|done|done|]. by apply Hq.
      + destruct Cc as [(v & Hv & Hq)|[(_ & [?|?] & _)|(Hq & _ & [[Hb _]|[Hb _]])]]; [by eapply (card_set (fun p => F' (e, DB_CARDINALITY, p)))|done|done|..]; rewrite Hq, <- s2.
        * apply fmap_None in Hb. by rewrite Hb.
        * rewrite bview_card in Hb. destruct (b_multival b) as [x|]; [|done]. simpl in *. destruct x, (at_multival a0); try done; by injection Hb.
      + intros u. destruct Cu as [(v & Hv & Hq)|[(_ & _ & Hb & Hq)|(Hq & HnA & [[Hb HnR]|[Hb _]])]].
        * by apply (unique_set (fun p => F' (e, DB_UNIQUE, p)) _ v).
        * apply unique_cleared in Hb as ->. split; [done|]. intros Hx. by apply Hq in Hx.
        * apply fmap_None in Hb as ->. rewrite Hq, <- s3. rewrite (Hun e a0); [done|done| |done].
          destruct Hmen as (a & v & [Hv|Hv]); [|by destruct (HnR a v)]. exists a, v. split; [done|]. pose proof (TA a v Hv) as Hview.
          apply HA1 in Hv as Hs. destruct Hs as [Hs _]. unfold SCHEMA_LIST in Hs. rewrite !elem_of_cons, elem_of_nil in Hs.
          destruct Hs as [->|[->|[->|[->|[->|[->|[]]]]]]]; try (by apply (bool_decide_eq_true_1 _)).
          { rewrite bview_fulltext, Hf0 in Hview. done. }
          { by destruct (HnA v). }
          { rewrite bview_type, Ht in Hview. done. }
        * rewrite bview_unique in Hb. rewrite Hq, <- s3. destruct (b_unique b) as [x|]; [|done]. simpl in *.
          destruct x as [[]|], (at_unique a0) as [[]|]; try done; by simplify_eq.
      + destruct Ci as [(v & Hv & Hq)|[(_ & [?|?] & _)|(Hq & _ & [[Hb _]|[Hb _]])]]; [by eapply (bool_set (fun p => F' (e, DB_INDEX, p)))|done|done|..]; rewrite Hq, <- s4.
        * apply fmap_None in Hb. by rewrite Hb.
        * apply fmap_None in Hb. by rewrite Hb.
      + destruct Cf as [(v & Hv & _)|[(_ & [?|?] & _)|(Hq & _)]]; [by rewrite Hf0 in Hv|done|done|]. by rewrite Hq.
      + destruct Cm as [(v & Hv & Hq)|[(_ & _ & Hb & Hq)|(Hq & _ & [[Hb _]|[Hb _]])]]; [by eapply (bool_set (fun p => F' (e, DB_IS_COMPONENT, p)))|..].
        * unfold retracted_view in Hb. rewrite decide_True in Hb by done. apply fmap_Some in Hb as (x & -> & [= <-]). simpl. split; [done|]. intros Hx. by apply Hq in Hx.
        * rewrite Hq, <- s6. apply fmap_None in Hb. by rewrite Hb.
        * rewrite Hq, <- s6. rewrite bview_component in Hb. destruct (b_component b) as [x|]; [|done]. simpl in *. by injection Hb as ->.
      + by rewrite Hnh.
    - destruct Hres as (Hvi & _ & Hm'). rewrite Hat in Hm'. injection Hm' as ->.
      assert (forall a p, a ∈ SCHEMA_LIST -> ~ F (e, a, p)) as Hnone.
      { intros a p Ha Hp. destruct (HD e a p Hp Ha) as [x Hx]. congruence. }
      unfold validate_install in Hvi. destruct (b_type b) as [t|] eqn:Et; [|done]. unfold build. rewrite Et.
      split; cbn [at_type at_multival at_unique at_index at_fulltext at_component at_no_history default from_option id].
      + destruct Ct as [(v & Hv & Hq)|[([? ?] & _)|(_ & _ & [[? _]|[_ [? ?]]])]]; [|done..]. by eapply (type_set _ (fun p => F' (e, DB_VALUE_TYPE, p))).
      + destruct Cc as [(v & Hv & Hq)|[([? ?] & _)|(Hq & _ & [[Hb _]|[_ [? ?]]])]]; [by eapply (card_set (fun p => F' (e, DB_CARDINALITY, p)))|done| |done].
        apply fmap_None in Hb as ->. rewrite Hq. split; [done|]. by intros Hx%(Hnone _ _ in_card).
      + intros u. destruct Cu as [(v & Hv & Hq)|[([? ?] & _)|(Hq & _ & [[Hb _]|[_ [? ?]]])]]; [by apply (unique_set (fun p => F' (e, DB_UNIQUE, p)) _ v)|done| |done].
        apply fmap_None in Hb as ->. rewrite Hq. split; [done|]. by intros Hx%(Hnone _ _ in_unique).
      + destruct Ci as [(v & Hv & Hq)|[([? ?] & _)|(Hq & _ & [[Hb _]|[_ [? ?]]])]]; [by eapply (bool_set (fun p => F' (e, DB_INDEX, p)))|done| |done].
        apply fmap_None in Hb as ->. rewrite Hq. split; [done|]. by intros Hx%(Hnone _ _ in_index).
      + destruct Cf as [(v & Hv & Hq)|[([? ?] & _)|(Hq & _ & [[Hb _]|[_ [? ?]]])]]; [by eapply (bool_set (fun p => F' (e, DB_FULLTEXT, p)))|done| |done].
        apply fmap_None in Hb as ->. rewrite Hq. split; [done|]. by intros Hx%(Hnone _ _ in_fulltext).
      + destruct Cm as [(v & Hv & Hq)|[([? ?] & _)|(Hq & _ & [[Hb _]|[_ [? ?]]])]]; [by eapply (bool_set (fun p => F' (e, DB_IS_COMPONENT, p)))|done| |done].
        apply fmap_None in Hb as ->. rewrite Hq. split; [done|]. by intros Hx%(Hnone _ _ in_component).
      + by rewrite Hnh.
  Qed.
End Step.

(* ---------------------------------------------------------------- idents *)

(** An entity drops an ident, gains one, or both. *)
Definition ident_op : Type := Z * option keyword * option keyword.
Definition ident_do (s : gmap Z keyword * gmap keyword Z) (o : ident_op) : gmap Z keyword * gmap keyword Z :=
  let '(e, d, g) := o in
  (match g with Some k => <[e := k]> s.1 | None => delete e s.1 end,
   let im := match d with Some k => delete k s.2 | None => s.2 end in
   match g with Some k => <[k := e]> im | None => im end).
Definition ident_ops (i : aras Z keyword) : list ident_op :=
  map (fun p : Z * keyword => (p.1, None, Some p.2)) (sorted_e (ar_asserted i))
  ++ map (fun p : Z * (keyword * keyword) => (p.1, Some p.2.1, Some p.2.2)) (sorted_e (ar_altered i))
  ++ map (fun p : Z * keyword => (p.1, Some p.2, None)) (sorted_e (ar_retracted i)).
Lemma fold_left_map {A B C} (f : A -> B -> A) (g : C -> B) l : forall a, fold_left f (map g l) a = fold_left (fun a c => f a (g c)) l a.
Proof. induction l; simpl; auto. Qed.
Lemma fold_left_same {A B} (f g : A -> B -> A) l : (forall a b, f a b = g a b) -> forall a, fold_left f l a = fold_left g l a.
Proof. intros H. induction l as [|b l IH]; intros a; simpl; [done|]. by rewrite H, IH. Qed.
Lemma apply_idents_ops s i : apply_idents s i = fold_left ident_do (ident_ops i) s.
Proof.
  unfold apply_idents, ident_ops. rewrite !fold_left_app, !fold_left_map.
  reflexivity.
Qed.
Definition op_e (o : ident_op) : Z := o.1.1.
Definition op_gains (l : list ident_op) : list keyword := omap (fun o : ident_op => o.2) l.
Definition op_drops (l : list ident_op) : list keyword := omap (fun o : ident_op => o.1.2) l.

Lemma ident_fold l : forall s, NoDup (map op_e l) -> NoDup (op_gains l) -> (forall k, k ∈ op_drops l -> k ∉ op_gains l) ->
  let s' := fold_left ident_do l s in
  (forall e d g, (e, d, g) ∈ l -> s'.1 !! e = g)
  /\ (forall e, e ∉ map op_e l -> s'.1 !! e = s.1 !! e)
  /\ (forall e d k, (e, d, Some k) ∈ l -> s'.2 !! k = Some e)
  /\ (forall e k g, (e, Some k, g) ∈ l -> s'.2 !! k = None)
  /\ (forall k, k ∉ op_gains l -> k ∉ op_drops l -> s'.2 !! k = s.2 !! k).
Proof.
  induction l as [|[[e0 d0] g0] l IH]; intros s Hn Hg Hd; simpl.
  { split_and!; try done; intros; by match goal with H : _ ∈ [] |- _ => apply elem_of_nil in H end. }
  cbn [map] in Hn. apply NoDup_cons in Hn as [Hx Hn]. change (op_e (e0, d0, g0)) with e0 in Hx.
  assert (NoDup (op_gains l)) as Hg'. { unfold op_gains in *. simpl in Hg. destruct g0; [by apply NoDup_cons in Hg as [_ ?]|done]. }
  assert (forall k, k ∈ op_drops l -> k ∉ op_gains l) as Hd'.
  { intros k Hk Hk2. apply (Hd k); unfold op_drops, op_gains in *; simpl; [destruct d0|destruct g0]; set_solver. }
  specialize (IH (match g0 with Some k => <[e0 := k]> s.1 | None => delete e0 s.1 end,
   let im := match d0 with Some k => delete k s.2 | None => s.2 end in
   match g0 with Some k => <[k := e0]> im | None => im end) Hn Hg' Hd') as (I1 & I2 & I3 & I4 & I5). cbn [fst snd] in *.
  assert (forall k, g0 = Some k -> k ∉ op_gains l) as G0.
  { intros k ->. unfold op_gains in Hg. simpl in Hg. by apply NoDup_cons in Hg as [? _]. }
  assert (forall k, g0 = Some k -> k ∉ op_drops l) as G1.
  { intros k -> Hk. apply (Hd k); unfold op_drops, op_gains; simpl; [destruct d0; set_solver|by left]. }
  assert (forall k, d0 = Some k -> k ∉ op_gains l) as D0.
  { intros k -> Hk. apply (Hd k); unfold op_drops, op_gains; simpl; [by left|destruct g0; set_solver]. }
  assert (forall k, d0 = Some k -> g0 <> Some k) as D1.
  { intros k -> ->. apply (Hd k); unfold op_drops, op_gains; simpl; by left. }
  split_and!.
  - intros e d g [[= -> -> ->]|Hin]%elem_of_cons; [|by eapply I1]. rewrite I2 by done. destruct g0; [by rewrite lookup_insert|by rewrite lookup_delete].
  - intros e He. apply not_elem_of_cons in He as [Hne He]. change (op_e (e0, d0, g0)) with e0 in Hne. rewrite I2 by done.
    destruct g0; [by rewrite lookup_insert_ne|by rewrite lookup_delete_ne].
  - intros e d k [[= -> -> <-]|Hin]%elem_of_cons; [|by eapply I3]. rewrite I5 by auto. by rewrite lookup_insert.
  - intros e k g [[= -> <- ->]|Hin]%elem_of_cons; [|by eapply I4]. destruct (decide (k ∈ op_drops l)) as [Hk|Hk].
    + unfold op_drops in Hk. apply elem_of_list_omap in Hk as ([[e1 d1] g1] & Hin & Hd1). simpl in Hd1. subst d1. by eapply I4.
    + rewrite I5 by auto. destruct g0 as [k0|]; [|by rewrite lookup_delete]. rewrite lookup_insert_ne by (intros ->; by apply (D1 k)). by rewrite lookup_delete.
  - intros k Hk1 Hk2. unfold op_gains, op_drops in Hk1, Hk2. simpl in Hk1, Hk2.
    assert (g0 <> Some k) as Hg0 by (intros ->; set_solver). assert (d0 <> Some k) as Hd0 by (intros ->; set_solver).
    rewrite I5; [|destruct g0; set_solver|destruct d0; set_solver].
    assert (match d0 with Some k0 => delete k0 s.2 | None => s.2 end !! k = s.2 !! k) as E.
    { destruct d0; [|done]. rewrite lookup_delete_ne; [done|congruence]. }
    destruct g0; [|done]. rewrite lookup_insert_ne; [done|congruence].
Qed.

Lemma storable_text_inj k l : storable_keyword k -> storable_keyword l -> to_sql_value_pair (TVKeyword k) = to_sql_value_pair (TVKeyword l) -> k = l.
Proof.
  intros Hk%keyword_roundtrip Hl%keyword_roundtrip E. assert (kw_to_string k = kw_to_string l) as E' by (cbn [to_sql_value_pair] in E; congruence).
  rewrite E' in Hk. congruence.
Qed.

Section Idents.
  Context (F F' : fact -> Prop) (dF : forall x, F x \/ ~ F x) (dF' : forall x, F' x \/ ~ F' x).
  Context (l : list (Z * keyword * bool)).
  (** [l] lists what changed. *)
  Context (Hl : forall (e : Z) (k : keyword) (b : bool), (e, k, b) ∈ l <-> storable_keyword k
     /\ if b then ~ F (e, DB_IDENT, keyword_value k) /\ F' (e, DB_IDENT, keyword_value k)
        else F (e, DB_IDENT, keyword_value k) /\ ~ F' (e, DB_IDENT, keyword_value k)).
  Context (nl : NoDup (keyed l)).
  Context (one' : forall e k1 k2, named F' e k1 -> named F' e k2 -> k1 = k2) (one : forall e k1 k2, named F e k1 -> named F e k2 -> k1 = k2).
  Context (inj' : forall e1 e2 k, named F' e1 k -> named F' e2 k -> e1 = e2).
  (** No ident is passed on. *)
  Context (pass : forall e1 e2 k, (e1, k, true) ∈ l -> (e2, k, false) ∉ l).

  Lemma ops_spec e d g : (e, d, g) ∈ ident_ops (fold_left (fun s q => witness s q.1.1 q.1.2 q.2) l aras_empty) <->
    d = find_last l e false /\ g = find_last l e true /\ (d <> None \/ g <> None).
  Proof using nl.
    clear Hl. pose proof (witness_all l nl) as W. set (i := fold_left _ l _) in *. unfold ident_ops. rewrite !elem_of_app, !elem_of_list_fmap.
    specialize (W e) as (W1 & W2 & W3). split.
    - intros [((e1 & k) & [= -> -> ->] & Hin)|[((e1 & [k0 k1]) & [= -> -> ->] & Hin)|((e1 & k) & [= -> -> ->] & Hin)]];
        apply sorted_e_elem in Hin; simpl in *; destruct (find_last l e1 true), (find_last l e1 false); split_and!; try congruence; naive_solver.
    - intros (-> & -> & Hne). destruct (find_last l e true) as [k1|], (find_last l e false) as [k0|].
      + right; left. exists (e, (k0, k1)). split; [done|]. by apply sorted_e_elem.
      + left. exists (e, k1). split; [done|]. by apply sorted_e_elem.
      + right; right. exists (e, k0). split; [done|]. by apply sorted_e_elem.
      + naive_solver.
  Qed.
  Lemma ops_nodup : NoDup (map op_e (ident_ops (fold_left (fun s q => witness s q.1.1 q.1.2 q.2) l aras_empty))).
  Proof using nl.
    clear Hl. pose proof (witness_all l nl) as W. set (i := fold_left _ l _) in *. unfold ident_ops. rewrite !map_app, !map_map.
    assert (forall e, is_Some (ar_asserted i !! e) -> is_Some (ar_altered i !! e) -> False) as D1.
    { intros e [? E1] [? E2]. specialize (W e) as (W1 & W2 & W3). destruct (find_last l e true), (find_last l e false); congruence. }
    assert (forall e, is_Some (ar_asserted i !! e) -> is_Some (ar_retracted i !! e) -> False) as D2.
    { intros e [? E1] [? E2]. specialize (W e) as (W1 & W2 & W3). destruct (find_last l e true), (find_last l e false); congruence. }
    assert (forall e, is_Some (ar_altered i !! e) -> is_Some (ar_retracted i !! e) -> False) as D3.
    { intros e [? E1] [? E2]. specialize (W e) as (W1 & W2 & W3). destruct (find_last l e true), (find_last l e false); congruence. }
    assert (forall V (m : gmap Z V) e, e ∈ map fst (sorted_e m) -> is_Some (m !! e)) as M.
    { intros V m e (p & -> & Hp)%elem_of_list_fmap. destruct p as [e v]. apply sorted_e_elem in Hp. by eexists. }
    change (NoDup (map fst (sorted_e (ar_asserted i)) ++ map fst (sorted_e (ar_altered i)) ++ map fst (sorted_e (ar_retracted i)))).
    apply NoDup_app. split_and!; [apply sorted_e_nodup|..].
    - intros e He%M [He2%M|He2%M]%elem_of_app; eauto.
    - apply NoDup_app. split_and!; [apply sorted_e_nodup| |apply sorted_e_nodup]. intros e He%M He2%M. eauto.
  Qed.

  Lemma step_idents em im : (forall e k, em !! e = Some k <-> named F e k) -> (forall k e, im !! k = Some e <-> named F e k) ->
    let s' := apply_idents (em, im) (fold_left (fun s q => witness s q.1.1 q.1.2 q.2) l aras_empty) in
    (forall e k, s'.1 !! e = Some k <-> named F' e k) /\ (forall k e, s'.2 !! k = Some e <-> named F' e k).
  Proof using dF dF' Hl nl one one' inj' pass.
    intros He Hi. rewrite apply_idents_ops. set (ops := ident_ops _).
    assert (forall e d g, (e, d, g) ∈ ops <-> d = find_last l e false /\ g = find_last l e true /\ (d <> None \/ g <> None)) as Hops by apply ops_spec.
    assert (forall e k b, find_last l e b = Some k <-> (e, k, b) ∈ l) as Hfl by (intros; by apply find_last_Some).
    assert (forall k, k ∈ op_gains ops <-> exists e, (e, k, true) ∈ l) as Hgain.
    { intros k. unfold op_gains. rewrite elem_of_list_omap. split.
      - intros ([[e d] g] & Hin & Hg). simpl in Hg. subst g. apply Hops in Hin as (_ & Hg & _). exists e. by apply Hfl.
      - intros (e & Hin). exists (e, find_last l e false, find_last l e true). apply Hfl in Hin. split; [|done]. apply Hops. rewrite Hin. naive_solver. }
    assert (forall k, k ∈ op_drops ops <-> exists e, (e, k, false) ∈ l) as Hdrop.
    { intros k. unfold op_drops. rewrite elem_of_list_omap. split.
      - intros ([[e d] g] & Hin & Hg). simpl in Hg. subst d. apply Hops in Hin as (Hg & _ & _). exists e. by apply Hfl.
      - intros (e & Hin). exists (e, find_last l e false, find_last l e true). apply Hfl in Hin. split; [|done]. apply Hops. rewrite Hin. naive_solver. }
    assert (NoDup (op_gains ops)) as Hng.
    { assert (NoDup (map op_e ops)) as Hn by apply ops_nodup. revert Hn.
      assert (forall o, o ∈ ops -> o ∈ ops) as Hsub by done. revert Hsub. generalize ops at 1 3 4. intros l0. induction l0 as [|[[e d] g] l0 IH]; intros Hsub Hn; [constructor|].
      cbn [map] in Hn. apply NoDup_cons in Hn as [Hx Hn]. unfold op_gains in *. simpl. destruct g as [k|]; [|apply IH; [|done]; intros; apply Hsub; by right].
      constructor; [|apply IH; [|done]; intros; apply Hsub; by right].
      intros ([[e2 d2] g2] & Hin & Hg)%elem_of_list_omap. simpl in Hg. subst g2. apply Hx. apply elem_of_list_fmap. exists (e2, d2, Some k). split; [|done].
      assert ((e2, d2, Some k) ∈ ops) as H2 by (apply Hsub; by right). assert ((e, d, Some k) ∈ ops) as H1 by (apply Hsub; by left).
      apply Hops in H1 as (_ & H1 & _), H2 as (_ & H2 & _). symmetry in H1, H2. apply Hfl, Hl in H1 as (S1 & _ & N1), H2 as (S2 & _ & N2).
      unfold op_e. simpl. by apply (inj' e e2 k). }
    destruct (ident_fold ops (em, im)) as (I1 & I2 & I3 & I4 & I5); [apply ops_nodup|done| |].
    { intros k (e1 & Hk1)%Hdrop (e2 & Hk2)%Hgain. by eapply pass. }
    cbn [fst snd] in *. set (s' := fold_left ident_do ops (em, im)) in *.
    assert (forall e k, named F' e k <-> (e, k, true) ∈ l \/ (named F e k /\ (e, k, false) ∉ l)) as Hn'.
    { intros e k. rewrite !Hl. unfold named. destruct (dF (e, DB_IDENT, keyword_value k)), (dF' (e, DB_IDENT, keyword_value k)); tauto. }
    assert (forall e k, s'.1 !! e = Some k <-> named F' e k) as R1.
    { intros e k. destruct (find_last l e true) as [k1|] eqn:E1.
      - assert (s'.1 !! e = Some k1) as ->. { apply (I1 e (find_last l e false)). apply Hops. rewrite E1. naive_solver. }
        apply Hfl in E1. split; [intros [= ->]; apply Hn'; by left|]. intros Hk. f_equal. apply (one' e); [apply Hn'; by left|done].
      - destruct (find_last l e false) as [k0|] eqn:E0.
        + assert (s'.1 !! e = None) as ->. { apply (I1 e (Some k0)). apply Hops. rewrite E0, E1. naive_solver. }
          split; [done|]. intros [Hk|[Hk Hk2]]%Hn'; [apply Hfl in Hk; congruence|]. exfalso. apply Hk2. apply Hfl in E0 as Hin.
          assert (k = k0) as ->; [|done]. apply (one e); [done|]. apply Hl in Hin as (S & Hin & _). done.
        + rewrite I2. 2:{ intros ([[e2 d2] g2] & -> & Hin)%elem_of_list_fmap. apply Hops in Hin as (-> & -> & Hne). unfold op_e in *. simpl in *. naive_solver. }
          rewrite He, Hn'. split; [intros Hk; right; split; [done|]; intros Hin%Hfl; congruence|]. intros [Hin%Hfl|[? _]]; [congruence|done]. }
    split; [done|]. intros k e. destruct (decide (k ∈ op_gains ops)) as [Hk|Hk].
    - apply Hgain in Hk as (e1 & Hk). assert (s'.2 !! k = Some e1) as ->.
      { apply (I3 e1 (find_last l e1 false)). apply Hops. apply Hfl in Hk. rewrite Hk. naive_solver. }
      assert (named F' e1 k) as Hn1 by (apply Hn'; by left). split; [by intros [= ->]|]. intros Hn2. f_equal. by eapply inj'.
    - destruct (decide (k ∈ op_drops ops)) as [Hd|Hd].
      + apply Hdrop in Hd as (e1 & Hd). assert (s'.2 !! k = None) as ->.
        { apply (I4 e1 k (find_last l e1 true)). apply Hops. apply Hfl in Hd. rewrite Hd. naive_solver. }
        split; [done|]. intros [Hin|[Hin Hin2]]%Hn'; [destruct Hk; apply Hgain; eauto|].
        assert (im !! k = Some e) as Q1 by by apply Hi. assert (im !! k = Some e1) as Q2.
        { apply Hi. by apply Hl in Hd as (? & ? & _). }
        assert (e1 = e) as -> by congruence. done.
      + rewrite I5 by done. rewrite Hi, Hn'. split; [|by intros [Hin|[? _]]; [destruct Hk; apply Hgain; eauto|]].
        intros Hin. right. split; [done|]. intros Hx. apply Hd, Hdrop. eauto.
  Qed.
End Idents.

(* ---------------------------------------------------------------- the whole schema *)

Lemma schema_retractions_exact m retr ids m' out : (forall e v, (e, DB_VALUE_TYPE, v) ∈ retr -> False) ->
  update_attribute_map_from_schema_retractions m retr ids = Ok (m', out) -> m' = m /\ out ≡ₚ retr.
Proof.
  intros Hno H. split; [by eapply schema_retractions_keep|]. unfold update_attribute_map_from_schema_retractions in H.
  assert (forall l m0 out0, (forall r, r ∈ l -> r ∈ retr) ->
    rfold (fun '(m, out) (r : eav) =>
      let e := r.1.1 in
      let attrs := retraction_attrs retr e in
      if (bool_decide (DB_CARDINALITY ∈ attrs) && bool_decide (DB_VALUE_TYPE ∈ attrs))%bool then
        if is_some (ids !! e) then Ok (delete e m, out) else Err EBadSchemaAssertion
      else Ok (m, out ++ [r])) (m0, out0) l = Ok (m', out) -> out = out0 ++ l) as K.
  { induction l as [|r l IH]; intros m0 out0 Hsub Hf; cbn [rfold] in Hf; [injection Hf as _ <-; by rewrite app_nil_r|].
    apply rbind_Ok in Hf as ([m1 out1] & Hr & Hf). rewrite (bool_decide_eq_false_2 (DB_VALUE_TYPE ∈ _)) in Hr.
    - rewrite andb_false_r in Hr. injection Hr as <- <-. apply IH in Hf; [|intros; apply Hsub; by right]. by rewrite Hf, <- app_assoc.
    - unfold retraction_attrs. intros (x & Hx & Hin)%elem_of_list_fmap. apply elem_of_list_filter in Hin as [_ Hin].
      destruct x as [[e a] v]. simpl in Hx. subst a. by eapply Hno. }
  apply K in H as ->; [|by intros r [_ Hr]%elem_of_list_filter].
  assert (forall l : list eav, filter (fun r : eav => is_a_schema_attribute r.1.2 = false) l
     ++ filter (fun r : eav => is_a_schema_attribute r.1.2 = true) l ≡ₚ l) as P; [|apply P].
  induction l as [|r l IH]; [done|]. rewrite !filter_cons. destruct (is_a_schema_attribute r.1.2) eqn:Er; simpl.
  - rewrite <- Permutation_middle. by constructor.
  - by constructor.
Qed.

Lemma component_of_same m m' : m = m' -> component_attributes_of m = component_attributes_of m'.
Proof. by intros ->. Qed.

Lemma metadata_split a : a ∈ METADATA_LIST <-> a = DB_IDENT \/ a ∈ SCHEMA_LIST.
Proof. unfold METADATA_LIST, SCHEMA_LIST. set_solver. Qed.
Lemma ident_not_schema : DB_IDENT ∉ SCHEMA_LIST.
Proof. by apply (bool_decide_eq_true_1 _). Qed.

Definition chg (F F' : fact -> Prop) (b : bool) (x : fact) : Prop := if b then ~ F x /\ F' x else F x /\ ~ F' x.

Record schema_agrees (F : fact -> Prop) (s : schema) : Prop := {
  sa_attributes : attributes_agree F (sc_attribute_map s);
  sa_idents : idents_agree F s;
  sa_components : sc_component_attributes s = component_attributes_of (sc_attribute_map s) }.

Section Schema.
  Context (F F' : fact -> Prop) (dF : forall x, F x \/ ~ F x) (dF' : forall x, F' x \/ ~ F' x).
  Context (funF : functional F) (funF' : functional F') (knF : known F).
  Context (one' : forall e k1 k2, named F' e k1 -> named F' e k2 -> k1 = k2) (one : forall e k1 k2, named F e k1 -> named F e k2 -> k1 = k2).
  Context (inj' : forall e1 e2 k, named F' e1 k -> named F' e2 k -> e1 = e2).
  Context (Q : list quad).
  Context (Q1 : forall (e a : Z) (v : typed_value) (b : bool), (e, a, v, b) ∈ Q ->
    a ∈ METADATA_LIST /\ chg F F' b (e, a, to_sql_value_pair v) /\ (a = DB_IDENT -> exists k, v = TVKeyword k /\ storable_keyword k)).
  Context (Q2 : forall e a p b, a ∈ METADATA_LIST -> chg F F' b (e, a, p) -> exists v, p = to_sql_value_pair v /\ (e, a, v, b) ∈ Q).
  Context (nQ : NoDup (map (fun q : quad => (q.1.1, q.2)) Q)).
  Context (tQ : no_type_retraction Q).
  Context (pass : forall (e1 e2 : Z) (k : keyword), (e1, DB_IDENT, TVKeyword k, true) ∈ Q -> (e2, DB_IDENT, TVKeyword k, false) ∉ Q).

  Lemma attr_quads_elem e a v b : ((e, a), v, b) ∈ omap attr_quad Q <-> (e, a, v, b) ∈ Q /\ a <> DB_IDENT.
  Proof using.
    clear. rewrite elem_of_list_omap. split.
    - intros ([[[e' a'] v'] b'] & Hin & Hq). unfold attr_quad in Hq. case_decide; [done|]. by injection Hq as -> -> -> ->.
    - intros [Hin Ha]. exists (e, a, v, b). split; [done|]. unfold attr_quad. by rewrite decide_False.
  Qed.
  Lemma ident_quads_elem e k b : (e, k, b) ∈ omap ident_quad Q <-> (e, DB_IDENT, TVKeyword k, b) ∈ Q.
  Proof using.
    clear. rewrite elem_of_list_omap. split.
    - intros ([[[e' a'] v'] b'] & Hin & Hq). unfold ident_quad in Hq. case_decide; [|done]. subst a'. destruct v'; try done. by injection Hq as -> -> ->.
    - intros Hin. exists (e, DB_IDENT, TVKeyword k, b). split; [done|]. unfold ident_quad. by rewrite decide_True.
  Qed.
  Lemma attr_quads_nodup : NoDup (keyed (omap attr_quad Q)).
  Proof using nQ.
    clear - nQ. unfold keyed. induction Q as [|[[[e a] v] b] l IH]; simpl; [constructor|]. cbn [map] in nQ. apply NoDup_cons in nQ as [Hx Hn].
    unfold attr_quad at 1. case_decide; [by apply IH|]. simpl. constructor; [|by apply IH].
    intros ([[[e' a'] v'] b'] & Heq & Hin)%elem_of_list_fmap. simpl in Heq. injection Heq as <- <- <-. apply Hx.
    apply elem_of_list_omap in Hin as ([[[e2 a2] v2] b2] & Hin & Hq). unfold attr_quad in Hq. case_decide; [done|]. injection Hq as -> -> -> ->.
    apply elem_of_list_fmap. by exists (e, a, v', b).
  Qed.
  Lemma ident_quads_nodup : NoDup (keyed (omap ident_quad Q)).
  Proof using nQ.
    clear - nQ. unfold keyed. induction Q as [|[[[e a] v] b] l IH]; simpl; [constructor|]. cbn [map] in nQ. apply NoDup_cons in nQ as [Hx Hn].
    specialize (IH Hn). unfold ident_quad at 1. case_decide; [|done]. subst a. destruct v; try done. simpl. constructor; [|done].
    intros ([[e' k'] b'] & Heq & Hin)%elem_of_list_fmap. simpl in Heq. injection Heq as <- <-. apply Hx.
    apply elem_of_list_omap in Hin as ([[[e2 a2] v2] b2] & Hin & Hq). unfold ident_quad in Hq. case_decide; [|done]. subst a2. destruct v2; try done. injection Hq as -> -> ->.
    apply elem_of_list_fmap. by exists (e, DB_IDENT, TVKeyword k', b).
  Qed.

  Lemma step_schema s s' rep : schema_agrees F s ->
    (forall e at_, sc_attribute_map s !! e = Some at_ ->
       (exists a v, (e, a, v, true) ∈ Q /\ a ∈ [DB_CARDINALITY; DB_INDEX; DB_IS_COMPONENT]) ->
       (forall v, (e, DB_UNIQUE, v, true) ∉ Q) -> at_unique at_ = None) ->
    update_schema_from_entid_quadruples s Q = Ok (s', rep) ->
    schema_agrees F' s' /\ known F'
    /\ (is_nil (mr_installed rep) && is_nil (mr_altered rep) = true -> sc_attribute_map s' = sc_attribute_map s)%bool
    /\ (is_nil (mr_idents rep) = true -> (forall e p, F' (e, DB_IDENT, p) <-> F (e, DB_IDENT, p))).
  Proof using dF dF' funF funF' knF one one' inj' Q1 Q2 nQ tQ pass.
    intros [Ha Hi Hc] Hun H. unfold update_schema_from_entid_quadruples in H.
    apply rbind_Ok in H as ([attrs idents] & Hw & H). apply witness_quads in Hw as [Ea Ei]. cbn [fst snd] in Ea, Ei.
    pose proof (witness_all _ attr_quads_nodup) as W. cbn zeta in W. rewrite <- Ea in W.
    assert (forall (e a : Z) (v : typed_value) b, find_last (omap attr_quad Q) (e, a) b = Some v <-> (e, a, v, b) ∈ Q /\ a <> DB_IDENT) as Hfl.
    { intros. rewrite find_last_Some by apply attr_quads_nodup. apply attr_quads_elem. }
    set (A := map (triple_of id) (sorted_ea (ar_asserted attrs)) ++ map (triple_of snd) (sorted_ea (ar_altered attrs))) in *.
    set (R := map (triple_of id) (sorted_ea (ar_retracted attrs))) in *.
    assert (forall e a v, (e, a, v) ∈ A <-> (e, a, v, true) ∈ Q /\ a <> DB_IDENT) as HA.
    { intros e a v. unfold A. rewrite elem_of_app, !elem_of_list_fmap, <- Hfl. destruct (W (e, a)) as (W1 & W2 & W3). split.
      - intros [([[e1 a1] v1] & [= -> -> ->] & Hin)|([[e1 a1] [r1 v1]] & [= -> -> ->] & Hin)]; apply sorted_ea_elem in Hin; simpl in *;
          destruct (find_last _ (e1, a1) true), (find_last _ (e1, a1) false); congruence.
      - intros Hf. rewrite Hf in *. destruct (find_last _ (e, a) false) as [r|].
        + right. exists ((e, a), (r, v)). split; [done|]. by apply sorted_ea_elem.
        + left. exists ((e, a), v). split; [done|]. by apply sorted_ea_elem. }
    assert (forall e a v, (e, a, v) ∈ R <-> (e, a, v, false) ∈ Q /\ a <> DB_IDENT /\ forall w, (e, a, w, true) ∉ Q) as HR.
    { intros e a v. unfold R. rewrite elem_of_list_fmap. destruct (W (e, a)) as (W1 & W2 & W3). split.
      - intros ([[e1 a1] v1] & [= -> -> ->] & Hin). apply sorted_ea_elem in Hin. rewrite W2 in Hin. simpl in *.
        destruct (find_last _ (e1, a1) true) eqn:Et; [done|]. destruct (find_last _ (e1, a1) false) as [v2|] eqn:Ef; [|done]. injection Hin as ->. apply Hfl in Ef as [Hin Hne]. split_and!; [done|done|].
        intros w Hwin. assert (find_last (omap attr_quad Q) (e1, a1) true = Some w) by (by apply Hfl). congruence.
      - intros (Hin & Hne & Hno). exists ((e, a), v). split; [done|]. apply sorted_ea_elem. rewrite W2.
        destruct (find_last _ (e, a) true) eqn:Et; [apply Hfl in Et as [Et _]; by destruct (Hno t)|]. assert (find_last (omap attr_quad Q) (e, a) false = Some v) as -> by (by apply Hfl). done. }
    apply rbind_Ok in H as ([m1 out] & Hret & H).
    apply schema_retractions_exact in Hret as [-> HP].
    2:{ intros e v Hin. apply HR in Hin as (Hin & _). by eapply tQ. }
    apply rbind_Ok in H as ([m2 rep2] & Htr & H).
    assert (forall e a v, (e, a, v) ∈ out <-> (e, a, v) ∈ R) as HO by (intros; by rewrite HP).
    destruct (step_attributes F F' dF dF' funF funF' knF A out) with (m := sc_attribute_map s) (m' := m2) (rep := rep2) as (S1 & S2 & S3).
    - intros e a v (Hin & Hne)%HA. destruct (Q1 _ _ _ _ Hin) as (Hm & [_ Hf] & _). split; [|done]. apply metadata_split in Hm. tauto.
    - intros e a p Hs Hf Hnf. destruct (Q2 e a p true) as (v & -> & Hin); [apply metadata_split; tauto|done|]. exists v. split; [done|]. apply HA. split; [done|].
      intros ->. by apply ident_not_schema.
    - intros e a v Hin. apply HO, HR in Hin as (Hin & Hne & Hno). destruct (Q1 _ _ _ _ Hin) as (Hm & [Hf Hnf] & _). apply metadata_split in Hm as [?|Hm]; [done|].
      split; [done|]. intros p Hp. destruct (dF (e, a, p)) as [Hfp|Hfp].
      + rewrite (funF e a p (to_sql_value_pair v)) in Hp; done.
      + destruct (Q2 e a p true) as (w & _ & Hw); [apply metadata_split; tauto|done|]. by eapply Hno.
    - intros e a p Hs Hf Hno. destruct (Q2 e a p false) as (v & -> & Hin); [apply metadata_split; tauto|split; [done|apply Hno]|]. exists v. apply HO, HR.
      split_and!; [done|intros ->; by apply ident_not_schema|]. intros w Hw. destruct (Q1 _ _ _ _ Hw) as (_ & [_ Hf'] & _). by eapply Hno.
    - unfold A. rewrite fmap_app. apply NoDup_app. split_and!.
      + unfold sorted_ea. rewrite merge_sort_Permutation. change (NoDup (map fst (map (triple_of id) (map_to_list (ar_asserted attrs))))). rewrite map_map.
        rewrite (map_ext _ fst); [apply NoDup_fst_map_to_list|]. by intros [[? ?] ?].
      + intros [e a] (x & Hx & Hin)%elem_of_list_fmap (y & Hy & Hin2)%elem_of_list_fmap. destruct x as [[e1 a1] v1], y as [[e2 a2] v2].
        simpl in Hx, Hy. simplify_eq. apply elem_of_list_fmap in Hin as ([[? ?] ?] & [= <- <- ->] & Hin), Hin2 as ([[? ?] ?] & [= <- <- ->] & Hin2).
        apply sorted_ea_elem in Hin, Hin2. destruct (W (e1, a1)) as (W1 & W2 & W3). destruct (find_last _ (e1, a1) true), (find_last _ (e1, a1) false); congruence.
      + unfold sorted_ea. rewrite merge_sort_Permutation. change (NoDup (map fst (map (triple_of snd) (map_to_list (ar_altered attrs))))). rewrite map_map.
        rewrite (map_ext _ fst); [apply NoDup_fst_map_to_list|]. by intros [[? ?] ?].
    - rewrite HP. unfold R, sorted_ea. rewrite merge_sort_Permutation. change (NoDup (map fst (map (triple_of id) (map_to_list (ar_retracted attrs))))). rewrite map_map.
        rewrite (map_ext _ fst); [apply NoDup_fst_map_to_list|]. by intros [[? ?] ?].
    - done.
    - done.
    - intros e at_ Hm (a & v & Hin & Hsa) Hno. apply (Hun e at_ Hm).
      + exists a, v. split; [|done]. by apply HA in Hin as [? _].
      + intros w Hw. apply (Hno w), HA. done.
    - destruct (step_idents F F' dF dF' (omap ident_quad Q)) with (em := sc_entid_map s) (im := sc_ident_map s) as [I1 I2]; try done.
      + intros e k b. rewrite ident_quads_elem. split.
        * intros Hin. destruct (Q1 _ _ _ _ Hin) as (_ & Hch & Hk). destruct (Hk eq_refl) as (k' & [= <-] & Hs). by split.
        * intros [Hs Hch]. destruct (Q2 e DB_IDENT (keyword_value k) b) as (v & Hv & Hin); [apply metadata_split; by left|done|].
          destruct (Q1 _ _ _ _ Hin) as (_ & _ & Hk). destruct (Hk eq_refl) as (k' & -> & Hs'). by rewrite (storable_text_inj k k' Hs Hs' Hv).
      + apply ident_quads_nodup.
      + intros e1 e2 k. rewrite !ident_quads_elem. apply pass.
      + apply Hi.
      + apply Hi.
      + rewrite <- Ei in I1, I2. destruct (apply_idents _ idents) as [em im]. cbn [fst snd] in I1, I2. injection H as <- <-.
        cbn [sc_attribute_map sc_entid_map sc_ident_map sc_component_attributes mr_installed mr_altered mr_idents].
        split_and!; [split|done|done|]; cbn [sc_attribute_map sc_entid_map sc_ident_map sc_component_attributes].
        * done.
        * by split.
        * destruct (is_nil (mr_installed rep2) && is_nil (mr_altered rep2))%bool eqn:En; [|done]. rewrite (S3 eq_refl). simpl. by case_bool_decide.
        * intros Hnil%is_nil_true. apply app_eq_nil in Hnil as [N1 Hnil]. apply app_eq_nil in Hnil as [N2 N3].
          assert (forall e k b, (e, DB_IDENT, TVKeyword k, b) ∉ Q) as Hnone.
          { intros e k b Hin. apply ident_quads_elem in Hin. pose proof (witness_all _ ident_quads_nodup e) as W'. cbn zeta in W'. rewrite <- Ei in W'.
            assert (sorted_e (ar_asserted idents) = []) as M1 by (by destruct (sorted_e (ar_asserted idents))).
            assert (sorted_e (ar_altered idents) = []) as M2 by (by destruct (sorted_e (ar_altered idents))).
            assert (forall V (m : gmap Z V) e, sorted_e m = [] -> m !! e = None) as Hsn.
            { intros V m e' Hs. destruct (m !! e') eqn:E; [|done]. apply sorted_e_elem in E. rewrite Hs in E. by apply elem_of_nil in E. }
            rewrite !Hsn in W' by done.
            assert (find_last (omap ident_quad Q) e b = Some k) as Hb by (apply find_last_Some; [apply ident_quads_nodup|done]).
            destruct W' as (W1 & W2 & W3). destruct b; rewrite Hb in *; [by destruct (find_last _ e false)|by destruct (find_last _ e true)]. }
          intros e p. assert (forall b, ~ chg F F' b (e, DB_IDENT, p)) as Hch.
          { intros b Hb. apply Q2 in Hb as (v & -> & Hin); [|apply metadata_split; by left]. destruct (Q1 _ _ _ _ Hin) as (_ & _ & Hk).
            destruct (Hk eq_refl) as (k & -> & _). by eapply Hnone. }
          pose proof (Hch true) as C1. pose proof (Hch false) as C2. simpl in C1, C2.
          destruct (dF (e, DB_IDENT, p)), (dF' (e, DB_IDENT, p)); tauto.
  Qed.
End Schema.

(** What happens to a set of clauses, whatever they say. *)
From Verif Require Import M_Query Spec_Query Spec_Value Spec_Sets Spec_Cache P_Value P_Sets P_QuerySql P_QuerySat P_QueryPat P_QueryInv P_QueryApply P_QueryClauses P_QueryFinish.

Definition arm_clauses (a : arm) : list clause := match a with AClause c => [c] | AAnd cs => cs end.
Lemma clause_induction (P : clause -> Prop) :
  (forall p, P (CPattern p)) -> (forall x t, P (CType x t)) -> (forall nm ar, P (CPred nm ar)) -> (forall u cs, Forall P cs -> P (CNot u cs)) ->
  (forall u arms, Forall (fun a => Forall P (arm_clauses a)) arms -> P (COr u arms)) -> forall c, P c.
Proof.
  intros H1 H2 H0 H3 H4. fix IH 1. intros [p|x t|nm ar|u cs|u arms]; [apply H1|apply H2|apply H0|apply H3|apply H4].
  - induction cs as [|c cs IHcs]; constructor; [apply IH|exact IHcs].
  - induction arms as [|a arms IHarms]; constructor; [|exact IHarms]. destruct a as [c|cs]; cbn [arm_clauses].
    + constructor; [apply IH|constructor].
    + induction cs as [|c cs IHcs]; constructor; [apply IH|exact IHcs].
Qed.
Lemma meets_not st s σ u cs : meets st s σ (CNot u cs) <-> ~ exists σ', agree_on (unified u (flat_map clause_vars cs)) σ σ' /\ Forall (meets st s σ') cs.
Proof.
  cbn [meets]. assert (forall σ', (fix all cs := match cs with [] => True | c :: cs => meets st s σ' c /\ all cs end) cs <-> Forall (meets st s σ') cs) as H.
  { intros σ'. induction cs as [|c cs IH]; [by split|]. rewrite Forall_cons, <- IH. done. }
  by setoid_rewrite H.
Qed.

(* ---------------------------------------------------------------- what happens to the clauses, whatever they say *)

Definition weighty (c : cc) : Prop := c_empty c = true \/ c_wheres c <> [].
Record step (c c' : cc) : Prop := {
  st_next : (c_next c <= c_next c')%nat;
  st_empty : c_empty c = true -> c_empty c' = true;
  st_pinned : pinned c -> pinned c';
  st_weighty : weighty c -> weighty c';
  st_tables : weighty c' \/ forall t al, (t, al) ∈ c_from c' -> (t, al) ∈ c_from c \/ t = TDatoms \/ t = TAll }.
Lemma step_refl c : step c c.
Proof. split; auto. Qed.
Lemma step_trans c1 c2 c3 : step c1 c2 -> step c2 c3 -> step c1 c3.
Proof.
  intros [A1 A2 A3 A4 A5] [B1 B2 B3 B4 B5]. split; auto; [lia|]. destruct B5 as [B5|B5]; [by left|]. destruct A5 as [A5|A5]; [left; auto|]. right.
  intros t al H. destruct (B5 t al H) as [H'|H']; [auto|by right].
Qed.
Lemma step_same c c' : (c_next c <= c_next c')%nat -> (c_empty c = true -> c_empty c' = true) -> (exists ks, c_wheres c' = c_wheres c ++ ks) -> c_vals c' = c_vals c ->
  (forall x q qs, is_Some (c_vals c !! x) -> c_cols c' !! x = Some (q :: qs) -> c_cols c !! x = Some (q :: qs)) -> c_from c' = c_from c -> step c c'.
Proof.
  intros H1 H2 [ks Hk] Hv Hc Hf. split; auto.
  - intros Hp x v q qs Hx Hq. rewrite Hv in Hx. rewrite Hk. apply elem_of_app. left. apply (Hp x v q qs Hx). apply Hc; [by eexists|done].
  - intros [H|H]; [left; auto|right]. rewrite Hk. by destruct (c_wheres c).
  - right. rewrite Hf. auto.
Qed.
Lemma step_mark_empty c : step c (mark_empty c).
Proof. apply step_same; destruct c as [[]]; try done. exists []. by rewrite app_nil_r. Qed.
Lemma step_add_where kk c : step c (add_where kk c).
Proof. apply step_same; destruct c as [[]]; try done. by exists [kk]. Qed.
Lemma step_constrain_var v t c : step c (constrain_var v t c).
Proof.
  destruct (cols_constrain_var v t c) as [Hc _]. destruct (grows_constrain_var v t c) as [G1 G2 G3 G4 G5 G6 GC G7]. apply step_same; try done; [by rewrite G4| |by rewrite Hc].
  intros He. apply (empty_grows _ _ (grows_constrain_var v t c) He).
Qed.
Lemma step_requirement v ts c : step c (add_type_requirement v ts c).
Proof.
  destruct (same_requirement v ts c) as (A1 & A2 & A3 & AC & A4). apply step_same; try done; [by rewrite A2|exists []; by rewrite A3, app_nil_r| |];
    unfold add_type_requirement; destruct c as [[]]; repeat case_match; done.
Qed.
Lemma step_to_ref p c : step c (constrain_to_ref p c).
Proof. destruct p; [apply step_refl|apply step_constrain_var|apply step_refl]. Qed.
Lemma step_mark_as_ref p c : step c (mark_as_ref p c).
Proof. destruct p; [apply step_refl|apply step_constrain_var|apply step_refl..]. Qed.
Lemma step_bind_column k q v c : step c (bind_column k q v c).
Proof.
  destruct (grows_bind_column k q v c) as [G1 G2 G3 G4 G5 G6 GC G7]. apply step_same; try done; [by rewrite G4|intros He; apply (empty_grows _ _ (grows_bind_column k q v c) He)|].
  intros x q' qs [y Hy]. unfold bind_column. destruct (c_vals c !! v) as [z|] eqn:Ez.
  - unfold constrain_constant. destruct c as [[]]. repeat case_match; done.
  - assert (x <> v) as Hx by congruence. destruct c as [[]]. cbn. repeat case_match; cbn; rewrite lookup_insert_ne by done; done.
Qed.
Lemma step_apply_eplace k q p c : step c (apply_eplace k q p c).
Proof. destruct p; [apply step_refl|apply step_bind_column|apply step_add_where]. Qed.
Lemma step_apply_value k al t p c : step c (apply_value k al t p c).1.
Proof.
  unfold apply_value, constrain_constant. repeat case_match; cbn [fst];
    first [apply step_refl|apply step_mark_empty|apply step_bind_column|apply step_constrain_var|eapply step_trans; [apply step_constrain_var|apply step_bind_column]
          |eapply step_trans; [apply step_add_where|apply step_add_where]|apply step_add_where].
Qed.
Lemma step_bind_value v x c : step c (bind_value v x c).
Proof.
  unfold bind_value. eapply step_trans; [apply (step_constrain_var v (tv_type x))|]. set (c1 := constrain_var v (tv_type x) c). clearbody c1. clear c. rename c1 into c.
  set (c2 := match c_cols c !! v with Some (q :: _) => add_where (KEquals q (QValue x)) c | _ => c end).
  assert (step c c2) as S2. { unfold c2. repeat case_match; auto using step_refl, step_add_where. }
  assert (c_cols c2 = c_cols c /\ c_from c2 = c_from c) as [Hc2 Hf2]. { unfold c2. repeat case_match; by destruct c as [[]]. }
  assert (forall q qs, c_cols c !! v = Some (q :: qs) -> KEquals q (QValue x) ∈ c_wheres c2) as Hw. { intros q qs Hq. unfold c2. rewrite Hq. destruct c as [[] l w]. cbn. apply elem_of_app. right. by left. }
  eapply step_trans; [exact S2|]. clearbody c2.
  set (c3 := match c_extracted c2 !! v with Some q => add_where (has_unit_type q.1 (tv_type x)) c2 | None => c2 end).
  assert (step c2 c3) as S3. { unfold c3. repeat case_match; auto using step_refl, step_add_where. }
  assert (c_cols c3 = c_cols c2 /\ exists ks, c_wheres c3 = c_wheres c2 ++ ks) as (Hc3 & ks & Hk3).
  { unfold c3. repeat case_match; destruct c2 as [[]]; (split; [done|]); [by eexists|exists []; by rewrite app_nil_r]. }
  eapply step_trans; [exact S3|]. clearbody c3. destruct S2 as [_ _ P2 _ _], S3 as [_ _ P3 _ _].
  split.
  - by destruct c3 as [[]].
  - by destruct c3 as [[]].
  - intros Hp y z q qs Hy Hq. assert (c_wheres (put_val v x c3) = c_wheres c3) as -> by (by destruct c3 as [[]]).
    assert (c_cols (put_val v x c3) = c_cols c3) as Hcc by (by destruct c3 as [[]]). rewrite Hcc in Hq.
    assert (c_vals (put_val v x c3) = <[v := x]> (c_vals c3)) as Hvv by (by destruct c3 as [[]]). rewrite Hvv in Hy. apply lookup_insert_Some in Hy as [[<- <-]|[Hne Hy]].
    + rewrite Hk3. apply elem_of_app. left. apply (Hw q qs). by rewrite <- Hc2, <- Hc3.
    + by apply (Hp y z q qs).
  - by destruct c3 as [[]].
  - right. destruct c3 as [[]]. auto.
Qed.
Lemma step_push_from t al c : t = TDatoms \/ t = TAll \/ weighty c -> step c (push_from (t, al) c).
Proof.
  intros Ht. split; try (by destruct c as [[]]). destruct Ht as [Ht|[Ht|Ht]]; [right|right|left; by destruct c as [[]]];
    intros t' al' H; destruct c as [[]]; cbn in H |- *; apply elem_of_app in H as [H|H%elem_of_list_singleton]; auto; simplify_eq; auto.
Qed.
Lemma step_with_next n c : (c_next c <= n)%nat -> step c (with_next n c).
Proof. intros H. apply step_same; destruct c as [[]]; try done. exists []. by rewrite app_nil_r. Qed.
Lemma weighty_grows c c' : grows c c' -> weighty c -> weighty c'.
Proof.
  intros Hg [H|H]; [left; by apply (empty_grows _ _ Hg)|right]. destruct (g_wheres _ _ Hg) as [ks ->]. by destruct (c_wheres c).
Qed.
(** A pattern with a given attribute constrains its row. *)
Lemma apply_for_alias_weighty k p al c : (match ep_a p with EpEntid _ => True | EpVar x => is_Some (c_vals c !! x) | EpPlaceholder => False end) -> weighty (apply_for_alias k p al c).
Proof.
  intros Ha. unfold apply_for_alias. destruct (c_empty c) eqn:Ee; [by left|].
  assert (c_vals (apply_eplace k (al, CE) (ep_e p) (constrain_to_ref (ep_a p) (constrain_to_ref (ep_e p) (constrain_to_ref (ep_tx p) c)))) = c_vals c) as Hv.
  { rewrite vals_apply_eplace, !vals_constrain_to_ref. done. }
  set (c1 := apply_eplace k (al, CE) (ep_e p) _) in *. clearbody c1.
  assert (forall c2 t, weighty c2 -> weighty (let '(c, stop) := apply_value k al t (ep_v p) c2 in if stop then c else apply_eplace k (al, CTx) (ep_tx p) c)) as Hend.
  { intros c2 t H2. pose proof (grows_apply_value k al t (ep_v p) c2) as Gv. destruct (apply_value k al t (ep_v p) c2) as [c3 []]; cbn [fst] in Gv;
      [by eapply weighty_grows|]. eapply weighty_grows; [apply grows_apply_eplace|]. by eapply weighty_grows. }
  destruct (ep_a p) as [|x|e]; [done| |].
  - apply Hend. cbn [apply_eplace]. destruct Ha as [y Hy]. unfold bind_column. rewrite Hv, Hy. cbn [snd]. destruct c1 as [[] l w]. repeat case_match; try (by left); right; cbn; by destruct w.
  - destruct (kn_attr k e); [|left; by destruct c1 as [[]]]. apply Hend. right. destruct c1 as [[] l w]. cbn. by destruct w.
Qed.
Lemma step_apply_for_alias k p al c : step c (apply_for_alias k p al c).
Proof.
  unfold apply_for_alias. destruct (c_empty c); [apply step_refl|].
  assert (forall c1 t, step c c1 -> step c (let '(c, stop) := apply_value k al t (ep_v p) c1 in if stop then c else apply_eplace k (al, CTx) (ep_tx p) c)) as Hend.
  { intros c1 t Hc1. pose proof (step_apply_value k al t (ep_v p) c1) as Gv. destruct (apply_value k al t (ep_v p) c1) as [c2 []]; cbn [fst] in Gv;
      [by eapply step_trans|]. eapply step_trans; [|apply step_apply_eplace]. by eapply step_trans. }
  assert (step c (apply_eplace k (al, CE) (ep_e p) (constrain_to_ref (ep_a p) (constrain_to_ref (ep_e p) (constrain_to_ref (ep_tx p) c))))) as Hc.
  { eapply step_trans; [|apply step_apply_eplace]. do 2 (eapply step_trans; [|apply step_to_ref]). apply step_to_ref. }
  destruct (ep_a p) as [|x|e]; [apply Hend|apply Hend|destruct (kn_attr k e); [apply Hend|]]; (eapply step_trans; [exact Hc|]);
    first [apply step_apply_eplace|apply step_add_where|apply step_mark_empty].
Qed.
Lemma step_apply_pattern k p c : step c (apply_pattern k p c).
Proof.
  unfold apply_pattern. destruct (attempt_cache k p c) as [c' done_] eqn:Ea.
  assert (step c c') as S1.
  { unfold attempt_cache, reverse_lookup in Ea. repeat (case_match; simplify_eq; try apply step_refl; try apply step_mark_empty; try apply step_bind_value). }
  destruct done_; [done|]. eapply step_trans; [exact S1|]. clear c Ea S1. rename c' into c. unfold alias_table. destruct (table_for_places k c (ep_a p) (ep_v p)) as [t|] eqn:Et.
  - set (al := ADatoms _). set (c1 := apply_for_alias k p al _). eapply step_trans; [apply (step_with_next (S (c_next c)) c); lia|].
    eapply step_trans; [apply (step_apply_for_alias k p al)|]. fold c1. apply step_push_from.
    assert (t = TDatoms \/ t = TAll \/ match ep_a p with EpEntid _ => True | EpVar x => is_Some (c_vals c !! x) | EpPlaceholder => False end) as [H|[H|H]]; auto.
    + unfold table_for_places, table_for_unknown in Et. destruct (ep_a p) as [|x|e]; [|destruct (c_vals c !! x) eqn:Ex|auto]; [|eauto|]; injection Et as <-; repeat case_match; auto.
    + right. right. apply apply_for_alias_weighty. destruct (ep_a p); try done. by destruct c as [[]].
  - eapply step_trans; apply step_mark_empty.
Qed.
Lemma step_apply_evolved k es c : step c (apply_evolved k es c).
Proof.
  revert c. induction es as [|e es IH]; intros c; cbn [apply_evolved]; [apply step_refl|]. destruct (evolve_pattern c e); [|apply step_mark_empty].
  eapply step_trans; [apply step_apply_pattern|apply IH].
Qed.
Lemma step_first_pass cs c : step c (fold_left first_pass cs c).
Proof.
  revert c. induction cs as [|cl cs IH]; intros c; [apply step_refl|]. cbn [fold_left]. eapply step_trans; [|apply IH].
  destruct cl; cbn [first_pass]; [|apply step_requirement|apply step_refl..]. do 2 (eapply step_trans; [|apply step_mark_as_ref]). apply step_mark_as_ref.
Qed.
Lemma step_second_pass k f cs : Forall (fun cl => forall c c', f cl c = Ok c' -> step c c') cs -> forall es c c', second_pass k f es cs c = Ok c' -> step c c'.
Proof.
  induction 1 as [|cl cs Hcl Hcs IH]; intros es c c' Hr; [injection Hr as <-; apply step_apply_evolved|].
  destruct cl as [p|x t|nm ar|u l|u l]; cbn [second_pass] in Hr.
  - destruct (make_evolved k c p); [by apply IH in Hr|]. injection Hr as <-. apply step_mark_empty.
  - by apply IH in Hr.
  - destruct (f (CPred nm ar) (apply_evolved k es c)) as [c1| |] eqn:E1; cbn in Hr; try done. eapply step_trans; [apply step_apply_evolved|]. eapply step_trans; [by apply Hcl|by apply IH in Hr].
  - destruct (f (CNot u l) (apply_evolved k es c)) as [c1| |] eqn:E1; cbn in Hr; try done. eapply step_trans; [apply step_apply_evolved|]. eapply step_trans; [by apply Hcl|by apply IH in Hr].
  - destruct (f (COr u l) (apply_evolved k es c)) as [c1| |] eqn:E1; cbn in Hr; try done. eapply step_trans; [apply step_apply_evolved|]. eapply step_trans; [by apply Hcl|by apply IH in Hr].
Qed.
Lemma step_clauses k f cs c c' : Forall (fun cl => forall c c', f cl c = Ok c' -> step c c') cs -> apply_clauses_with k f cs c = Ok c' -> step c c'.
Proof. intros H Hr. eapply step_trans; [apply step_first_pass|]. by eapply step_second_pass. Qed.

(** Clauses that name an attribute constrain something. *)
Lemma apply_pattern_weighty k p c : uncached k -> (exists a, ep_a p = EpEntid a) -> weighty (apply_pattern k p c).
Proof.
  intros NC [a Ha]. unfold apply_pattern. destruct (attempt_cache k p c) as [c' done_] eqn:Ea. unfold attempt_cache in Ea. destruct (NC a) as [N1 N2]. rewrite Ha, N1, N2 in Ea. cbn [orb] in Ea.
  assert ((c' = c /\ done_ = false) \/ (c' = mark_empty c /\ done_ = true)) as [[-> ->]|[-> ->]]. { repeat (case_match; simplify_eq; auto). }
  - unfold alias_table. rewrite Ha. cbn [table_for_places]. destruct (kn_attr k a ≫= _) as [t|]; [|left; by destruct c as [[]]].
    pose proof (apply_for_alias_weighty k p (ADatoms (c_next c)) (with_next (S (c_next c)) c)) as H. rewrite Ha in H. specialize (H I).
    set (c1 := apply_for_alias k p _ _) in *. clearbody c1. by destruct c1 as [[]].
  - left. by destruct c as [[]].
Qed.
Lemma apply_evolved_weighty k es c : uncached k -> (exists e a, e ∈ es /\ ep_a e = EpEntid a) -> weighty (apply_evolved k es c).
Proof.
  intros NC (e & a & Hin & Ha). revert c. induction es as [|e0 es IH]; intros c; [by apply elem_of_nil in Hin|]. cbn [apply_evolved].
  destruct (evolve_pattern c e0) as [e'|] eqn:Ee; [|left; by destruct c as [[]]]. apply elem_of_cons in Hin as [<-|Hin]; [|by apply IH].
  apply (st_weighty _ _ (step_apply_evolved k es (apply_pattern k e' c))). apply apply_pattern_weighty; [done|]. exists a. unfold evolve_pattern in Ee. apply bind_Some in Ee as (ee & _ & [= <-]). done.
Qed.
Lemma step_narrow_type v ts c : step c (narrow_type v ts c).
Proof. unfold narrow_type. repeat case_match; apply step_same; destruct c as [[]]; try done; (exists []; by rewrite app_nil_r). Qed.
(** A comparison constrains something, or there is nothing. *)
Definition compared (f : clause -> cc -> res cc) (cl : clause) : Prop := match cl with CPred _ _ => forall c c', f cl c = Ok c' -> weighty c' | _ => True end.
Lemma step_predicate k nm ar c c' : apply_predicate k nm ar c = Ok c' -> step c c' /\ weighty c'.
Proof.
  unfold apply_predicate, apply_inequality. intros Hr. destruct (inequality_of nm) as [op|]; [|done]. destruct ar as [|l [|r [|]]]; try done.
  destruct (potential_types k c l) as [lt| |]; cbn [rbind] in Hr; try done. destruct (vts_is_empty _); [done|].
  destruct (potential_types k c r) as [rt| |]; cbn [rbind] in Hr; try done. destruct (vts_is_empty _); [done|].
  destruct (vts_is_empty _). { injection Hr as <-. split; [apply step_mark_empty|left; by destruct c as [[]]]. }
  set (rs := if N.eqb _ _ then _ else _) in Hr.
  assert (forall c a c1 v, rs c a = Ok (c1, v) -> step c c1) as Hrs.
  { clear. intros c a c1 v. assert (forall c2 x, first_column c2 x = Ok (c1, v) -> c1 = c2) as Hf. { intros c2 x. unfold first_column. repeat case_match; by intros [= <- _]. }
    unfold rs. destruct (N.eqb _ _); [|destruct (vts_is_only_numeric _); [|destruct (N.eqb _ _); [|done]]]; destruct a as [x|z|kw|[]|]; cbn [resolve_instant resolve_numeric resolve_ref]; try done;
      repeat case_match; try done; intros Hr; first [apply Hf in Hr as ->|injection Hr as <- _];
      first [apply step_refl|apply step_constrain_var|apply step_narrow_type]. }
  destruct (rs c l) as [[c1 lv]| |] eqn:E1; cbn [rbind] in Hr; try done. destruct (rs c1 r) as [[c2 rv]| |] eqn:E2; cbn [rbind] in Hr; try done. injection Hr as <-.
  split; [|right; destruct c2 as [s cm w]; cbn; by destruct w]. eapply step_trans; [by eapply Hrs|]. eapply step_trans; [by eapply Hrs|]. apply step_add_where.
Qed.
Lemma second_pass_weighty k f cs : uncached k -> Forall (fun cl => forall c c', f cl c = Ok c' -> step c c') cs -> Forall (compared f) cs ->
  forall es c c', second_pass k f es cs c = Ok c' -> weighty c \/ (exists e a, e ∈ es /\ ep_a e = EpEntid a) \/ anchored cs -> weighty c'.
Proof.
  intros NC Hf Hcmp. induction Hf as [|cl cs Hcl Hcs IH]; intros es c c' Hr Hw.
  { injection Hr as <-. destruct Hw as [Hw|[Hw|[(p & Hp & _)|(nm & ar & Hp)]]]; [by apply (st_weighty _ _ (step_apply_evolved k es c))|by apply apply_evolved_weighty|by apply elem_of_nil in Hp|by apply elem_of_nil in Hp]. }
  apply Forall_cons_1 in Hcmp as [Hc1 Hcmp]. specialize (IH Hcmp).
  assert (forall cl, (forall c c', f cl c = Ok c' -> step c c') -> (weighty c \/ (exists e a, e ∈ es /\ ep_a e = EpEntid a) \/ anchored cs) ->
    rbind (f cl (apply_evolved k es c)) (fun c => second_pass k f [] cs c) = Ok c' -> weighty c') as Hother.
  { clear Hr Hw. intros cl' Hs Hw Hr. destruct (f cl' (apply_evolved k es c)) as [c1| |] eqn:E1; cbn [rbind] in Hr; try done. apply (IH [] c1 c' Hr).
    destruct Hw as [Hw|[Hw|Hw]]; [left|left|by right; right]; apply (st_weighty _ _ (Hs _ _ E1)).
    - by apply (st_weighty _ _ (step_apply_evolved k es c)).
    - by apply apply_evolved_weighty. }
  assert (anchored (cl :: cs) -> anchored cs \/ match cl with CPattern p => named p | CPred _ _ => True | _ => False end) as Hanch.
  { intros [(p & Hp & Ha)|(nm & ar & Hp)]; apply elem_of_cons in Hp as [<-|Hp]; [by right|left; left; by exists p|by right|left; right; by exists nm, ar]. }
  destruct cl as [p|x t|nm ar|u l|u l]; cbn [second_pass] in Hr.
  - destruct (make_evolved k c p) as [e|] eqn:Ee; [|injection Hr as <-; left; by destruct c as [[]]]. apply (IH _ _ _ Hr). destruct Hw as [Hw|[(e0 & a & He0 & Ha)|Hw]]; [by left| |].
    + right. left. exists e0, a. split; [apply elem_of_app; by left|done].
    + apply Hanch in Hw as [Hw|Ha]; [by right; right|]. right. left. unfold named in Ha. unfold make_evolved in Ee.
      apply bind_Some in Ee as (e1 & _ & Ee). apply bind_Some in Ee as ([a1 t1] & Ha1 & Ee). apply bind_Some in Ee as (ev & _ & Ee). apply bind_Some in Ee as (tx & _ & [= <-]).
      unfold evolve_attribute in Ha1. apply bind_Some in Ha1 as (a0 & Ha0 & Ha1).
      assert (exists a, a0 = EpEntid a) as [a ->]. { destruct (p_a p); try done; cbn in Ha0; [injection Ha0 as <-; by eexists|]. destruct (kn_ident k k0); [|done]. injection Ha0 as <-. by eexists. }
      apply bind_Some in Ha1 as (at_ & _ & [= <- _]). eexists _, a. split; [apply elem_of_app; right; by left|done].
  - apply (IH _ _ _ Hr). destruct Hw as [Hw|[Hw|Hw]]; auto. right. right. by apply Hanch in Hw as [Hw|[]].
  - destruct (f (CPred nm ar) (apply_evolved k es c)) as [c1| |] eqn:E1; cbn [rbind] in Hr; try done. apply (IH [] c1 c' Hr). left. by apply (Hc1 _ _ E1).
  - apply (Hother (CNot u l)); [done| |exact Hr]. destruct Hw as [Hw|[Hw|Hw]]; auto. right. right. by apply Hanch in Hw as [Hw|[]].
  - apply (Hother (COr u l)); [done| |exact Hr]. destruct Hw as [Hw|[Hw|Hw]]; auto. right. right. by apply Hanch in Hw as [Hw|[]].
Qed.

(** Alternatives. *)
From Verif Require Import M_Query Spec_Query Spec_Value Spec_Sets Spec_Cache P_Value P_Sets P_QuerySql P_QuerySat P_QueryPat P_QueryInv P_QueryApply P_QueryClauses P_QueryFinish P_QueryStep.

(* ---------------------------------------------------------------- the meaning *)

Lemma all_forall {A} (P : A -> Prop) l : (fix all l := match l with [] => True | x :: l => P x /\ all l end) l <-> Forall P l.
Proof. induction l as [|x l IH]; [by split|]. rewrite Forall_cons, <- IH. done. Qed.
Lemma some_exists {A} (P : A -> Prop) l : (fix some l := match l with [] => False | x :: l => P x \/ some l end) l <-> exists x, x ∈ l /\ P x.
Proof.
  induction l as [|x l IH]; [split; [done|]; by intros (? & ?%elem_of_nil & _)|]. rewrite IH. split.
  - intros [H|(y & Hy & H)]; [exists x; split; [by left|done]|exists y; split; [by right|done]].
  - intros (y & [->|Hy]%elem_of_cons & H); [by left|right; by exists y].
Qed.
Section meaning.
  Context (st : store) (s : schema).
  Notation meets := (meets st s).
  Notation meets_arm := (meets_arm st s).
  Lemma meets_arm_clauses σ a : meets_arm σ a <-> Forall (meets σ) (arm_clauses a).
  Proof. destruct a as [c|cs]; cbn [Spec_Query.meets_arm arm_clauses]; [by rewrite Forall_singleton|apply all_forall]. Qed.
  Lemma meets_or σ u arms : meets σ (COr u arms) <-> exists σ', agree_on (unified u (flat_map arm_vars arms)) σ σ' /\ exists a, a ∈ arms /\ Forall (meets σ') (arm_clauses a).
  Proof.
    cbn [Spec_Query.meets]. f_equiv. intros σ'. f_equiv. rewrite (some_exists (meets_arm σ') arms). f_equiv. intros a. by rewrite meets_arm_clauses.
  Qed.
  Lemma agree_sub vs ws σ σ' : (forall x, x ∈ ws -> x ∈ vs) -> agree_on vs σ σ' -> agree_on ws σ σ'.
  Proof. intros H Ha x Hx. apply Ha. auto. Qed.
  Lemma agree_sym vs σ σ' : agree_on vs σ σ' -> agree_on vs σ' σ.
  Proof. intros H x Hx. by rewrite H. Qed.
  Lemma arm_vars_clauses a : arm_vars a = flat_map clause_vars (arm_clauses a).
  Proof. destruct a; cbn [arm_vars arm_clauses flat_map]; [by rewrite app_nil_r|done]. Qed.
  Lemma in_flat {A} (f : A -> list string) l x y : y ∈ l -> x ∈ f y -> x ∈ flat_map f l.
  Proof. intros Hy Hx. apply elem_of_list_In, in_flat_map. exists y. split; by apply elem_of_list_In. Qed.
  (** What a clause means depends on its variables only. *)
  Lemma meets_agree c : forall σ σ', agree_on (clause_vars c) σ σ' -> meets σ c -> meets σ' c.
  Proof.
    induction c as [p|x t|nm ar|u cs IH|u arms IH] using clause_induction; intros σ σ' Ha.
    - intros (e & a & v & tx & Hd & H1 & H2 & H3 & H4). exists e, a, v, tx. cbn [clause_vars] in Ha. unfold pattern_vars in Ha.
      assert (forall q i, (forall x, x ∈ nplace_vars q -> σ' x = σ x) -> place_is s σ q i -> place_is s σ' q i) as Hp.
      { intros [|x| |] i Hx Hi; try done. cbn in *. rewrite Hx; [done|by left]. }
      split; [done|]. split; [|split; [|split]].
      + eapply Hp; [|exact H1]. intros x Hx; apply Ha; rewrite !elem_of_app; tauto.
      + eapply Hp; [|exact H2]. intros x Hx; apply Ha; rewrite !elem_of_app; tauto.
      + destruct (p_v p) as [|x| | |] eqn:Ev; try done. cbn in *. rewrite (Ha x); [done|]. rewrite !elem_of_app, elem_of_cons. tauto.
      + eapply Hp; [|exact H4]. intros x Hx; apply Ha; rewrite !elem_of_app; tauto.
    - cbn in *. intros <-. f_equal. apply Ha. by left.
    - intros (a & b & v & w & -> & Hv & Hw & Hr). exists a, b, v, w. cbn [clause_vars flat_map] in Ha. rewrite app_nil_r in Ha.
      assert (forall a v, (forall x, x ∈ farg_vars a -> σ' x = σ x) -> arg_is s σ a v -> arg_is s σ' a v) as H. { intros [x| | | |] y Hx; try done. cbn. intros ->. symmetry. apply Hx. by left. }
      split_and!; [done| | |done]; [apply (H a v)|apply (H b w)]; try done; intros x Hx; apply Ha, elem_of_app; auto.
    - rewrite !meets_not. intros Hno (τ & Hτ & Hall). apply Hno. set (vs := flat_map clause_vars cs) in *.
      exists (fun x => if decide (x ∈ vs) then τ x else σ x). cbn [clause_vars] in Ha. fold vs in Ha. split.
      + intros x Hx. cbv beta. destruct (decide (x ∈ vs)) as [Hv|Hv]; [|done]. rewrite (Hτ x Hx). by apply Ha.
      + rewrite Forall_forall in IH, Hall |- *. intros c Hc. apply (IH c Hc τ); [|by apply Hall]. intros x Hx. cbv beta. rewrite decide_True; [done|]. unfold vs. by apply (in_flat _ _ _ c).
    - rewrite !meets_or. intros (τ & Hτ & a & Hin & Hall). set (vs := flat_map arm_vars arms) in *. exists (fun x => if decide (x ∈ vs) then τ x else σ' x). cbn [clause_vars] in Ha. fold vs in Ha. split.
      + intros x Hx. cbv beta. destruct (decide (x ∈ vs)) as [Hv|Hv]; [|done]. rewrite (Hτ x Hx). symmetry. by apply Ha.
      + exists a. split; [done|]. rewrite Forall_forall in IH. specialize (IH a Hin). rewrite Forall_forall in IH, Hall |- *. intros c Hc. apply (IH c Hc τ); [|by apply Hall].
        intros x Hx. cbv beta. rewrite decide_True; [done|]. apply (in_flat _ _ _ a); [done|]. rewrite arm_vars_clauses. by apply (in_flat _ _ _ c).
  Qed.
  Lemma meets_or_shared σ u arms : (forall x, x ∈ flat_map arm_vars arms -> x ∈ unified u (flat_map arm_vars arms)) ->
    meets σ (COr u arms) <-> exists a, a ∈ arms /\ Forall (meets σ) (arm_clauses a).
  Proof.
    intros Hu. rewrite meets_or. split.
    - intros (τ & Hτ & a & Hin & Hall). exists a. split; [done|]. rewrite Forall_forall in Hall |- *. intros c Hc. apply (meets_agree c τ); [|by apply Hall].
      apply agree_sym. eapply agree_sub; [|exact Hτ]. intros x Hx. apply Hu, (in_flat _ _ _ a); [done|]. rewrite arm_vars_clauses. by apply (in_flat _ _ _ c).
    - intros (a & Hin & Hall). exists σ. split; [by intros x _|by exists a].
  Qed.
End meaning.

(* ---------------------------------------------------------------- which alternatives are left *)

Section decon.
  Context (k : known) (c : cc).
  Definition place_table (p : pattern) : option table :=
    evolve_attribute k c (p_a p) ≫= fun a => evolve_value k c a.2 (p_v p) ≫= fun v => table_for_places k c a.1 v.
  Definition pattern_arm (p : pattern) : arm := AClause (CPattern p).
  Definition shape_same (p p' : pattern) : bool :=
    (matches_place (p_e p) (p_e p') && matches_place (p_a p) (p_a p') && matches_value_place (p_v p) (p_v p') && matches_place (p_tx p) (p_tx p'))%bool.
  Definition decided (ps : list pattern) : decon := match ps with [] => DEmpty | [p] => DUnitPattern p | _ => DSimple ps end.
  Lemma decon_spec qs : forall ps mask ex,
    (forall p p', p ∈ ps ++ qs -> p' ∈ ps ++ qs -> shape_same p p' = true /\ forall t t', place_table p = Some t -> place_table p' = Some t' -> t = t') ->
    (match ex with Some t => exists p, p ∈ ps /\ place_table p = Some t | None => ps = [] end) ->
    decon_loop k c ps mask ex (map pattern_arm qs) = decided (ps ++ List.filter (fun p => is_some (place_table p)) qs).
  Proof.
    induction qs as [|q qs IH]; intros ps mask ex Hall Hex; cbn [map decon_loop List.filter].
    { by rewrite app_nil_r. }
    unfold pattern_arm at 1. fold (place_table q). destruct (place_table q) as [t|] eqn:Et; cbn [is_some].
    - assert (match ps with p0 :: _ => matches_place (p_e p0) (p_e q) && matches_place (p_a p0) (p_a q) && matches_value_place (p_v p0) (p_v q) && matches_place (p_tx p0) (p_tx q) | [] => true end = true) as ->.
      { destruct ps as [|p0 ps]; [done|]. destruct (Hall p0 q) as [H _]; [by left|apply elem_of_app; right; by left|]. exact H. }
      assert (match ex with Some t' => bool_decide (t = t') | None => true end = true) as ->.
      { destruct ex as [t'|]; [|done]. apply bool_decide_eq_true. destruct Hex as (p & Hp & Ht). destruct (Hall q p) as [_ H]; [apply elem_of_app; right; by left|apply elem_of_app; by left|]. by apply H. }
      cbn [andb]. rewrite IH.
      + by rewrite <- app_assoc.
      + intros p p' Hp Hp'. rewrite <- app_assoc in Hp, Hp'. by apply Hall.
      + exists q. split; [apply elem_of_app; right; by left|done].
    - rewrite IH; [done| |done]. intros p p' Hp Hp'. apply Hall; rewrite elem_of_app in *; rewrite elem_of_cons; tauto.
  Qed.
End decon.

(* ---------------------------------------------------------------- a row constrained in a receptacle *)

Definition merge_cols (m0 m : gmap var (list qalias)) : gmap var (list qalias) := union_with (fun a b => Some (a ++ b)) m0 m.
Lemma merge_cols_lookup m0 m x : merge_cols m0 m !! x = match m !! x with Some l => Some (default [] (m0 !! x) ++ l) | None => m0 !! x end.
Proof. unfold merge_cols. rewrite lookup_union_with. by destruct (m0 !! x), (m !! x). Qed.
Lemma merge_cols_push m0 m v q : <[v := default [] (merge_cols m0 m !! v) ++ [q]]> (merge_cols m0 m) = merge_cols m0 (<[v := default [] (m !! v) ++ [q]]> m).
Proof.
  apply map_eq. intros x. rewrite (merge_cols_lookup m0 (<[v := _]> m) x). destruct (decide (x = v)) as [->|Hx].
  - rewrite !lookup_insert, merge_cols_lookup. destruct (m !! v); simpl; [by rewrite <- app_assoc|done].
  - rewrite !lookup_insert_ne by done. apply merge_cols_lookup.
Qed.
Lemma merge_cols_fold m0 m : map_fold (fun v cols m => <[v := default [] (m !! v) ++ cols]> m) m0 m = merge_cols m0 m.
Proof.
  apply (map_fold_ind (fun b m => b = merge_cols m0 m)).
  - apply map_eq. intros x. rewrite merge_cols_lookup. by rewrite lookup_empty.
  - intros v cols m' r Hv ->. apply map_eq. intros x. rewrite (merge_cols_lookup m0 (<[v := _]> m') x). destruct (decide (x = v)) as [->|Hx].
    + rewrite !lookup_insert, merge_cols_lookup. by rewrite Hv.
    + rewrite !lookup_insert_ne by done. apply merge_cols_lookup.
Qed.
(** The receptacle [r], inside the clauses [c] *)
Definition embed (c r : cc) : cc :=
  let s := c_scope c in
  CC (Scope (c_empty r) (s_next s) (s_from s) (merge_cols (s_cols s) (c_cols r)) (s_inputs s) (s_vals s) (c_known r ∪ s_known s) (s_extracted s) (s_required s))
    (c_computed c) (c_wheres c ++ c_wheres r).
Lemma restrict_lookup {A} (U : gset var) (m : gmap var A) x y : restrict U m !! x = Some y <-> m !! x = Some y /\ x ∈ U.
Proof. unfold restrict. rewrite map_filter_lookup_Some. done. Qed.
Lemma restrict_in {A} (U : gset var) (m : gmap var A) x : x ∈ U -> restrict U m !! x = m !! x.
Proof.
  intros Hx. destruct (m !! x) as [y|] eqn:E; [by apply restrict_lookup|]. destruct (restrict U m !! x) as [y|] eqn:E'; [|done]. apply restrict_lookup in E' as [E' _]. congruence.
Qed.
Lemma embed_add_where c kk r : add_where kk (embed c r) = embed c (add_where kk r).
Proof. destruct r as [[] l w]. unfold embed. cbn. by rewrite app_assoc. Qed.
Lemma embed_mark_empty c r : mark_empty (embed c r) = embed c (mark_empty r).
Proof. by destruct r as [[] l w]. Qed.
Lemma embed_empty c r : c_empty (embed c r) = c_empty r.
Proof. done. Qed.

Definition eplace_vars (p : eplace) : list var := match p with EpVar v => [v] | _ => [] end.
Definition ep_vars (e : epattern) : list var := eplace_vars (ep_e e) ++ match ep_v e with EvVar v => [v] | _ => [] end ++ eplace_vars (ep_tx e).
Definition units (c : cc) : Prop := forall x ts, c_known c !! x = Some ts -> exists t, ts = vts_of_one t.
Section embed.
  Context (k : known) (c0 : cc) (U : gset var).
  Record framed (r : cc) : Prop := {
    fr_vals : c_vals r = restrict U (c_vals c0);
    fr_known : forall x, x ∈ U -> c_known r !! x = None -> c_known c0 !! x = None }.
  Lemma framed_ext r r' : c_vals r' = c_vals r -> (forall x, c_known r' !! x = None -> c_known r !! x = None) -> framed r -> framed r'.
  Proof. intros Hv Hk [F1 F2]. split; [congruence|auto]. Qed.
  Lemma embed_known r x : framed r -> x ∈ U -> c_known (embed c0 r) !! x = c_known r !! x.
  Proof.
    intros Hf Hx. change (c_known (embed c0 r)) with (c_known r ∪ c_known c0). destruct (c_known r !! x) as [ts|] eqn:E; [by apply lookup_union_Some_l|].
    rewrite lookup_union, E. rewrite (fr_known r Hf x Hx E). done.
  Qed.
  Lemma embed_vals r x : framed r -> x ∈ U -> c_vals (embed c0 r) !! x = c_vals r !! x.
  Proof. intros Hf Hx. rewrite (fr_vals r Hf), restrict_in by done. done. Qed.
  Lemma embed_constrain_var v t r : v ∈ U -> framed r -> constrain_var v t (embed c0 r) = embed c0 (constrain_var v t r) /\ framed (constrain_var v t r).
  Proof.
    intros Hv Hf. split.
    - unfold constrain_var. rewrite embed_known by done.
      assert (put_known v (vts_of_one t) (embed c0 r) = embed c0 (put_known v (vts_of_one t) r)) as H. { destruct r as [[] l w]. unfold embed. cbn. by rewrite insert_union_l. }
      rewrite H. destruct (c_known r !! v); [|done]. destruct (vts_contains _ t); [done|]. apply embed_mark_empty.
    - apply (framed_ext r); [apply grows_constrain_var| |done]. intros x. destruct (decide (x = v)) as [->|Hx]; [|by rewrite known_constrain_var_ne].
      unfold constrain_var. destruct (c_known r !! v) eqn:E; [|done]. destruct r as [[] l w]. destruct (vts_contains _ t); cbn; by rewrite lookup_insert.
  Qed.
  Lemma embed_to_ref p r : (forall v, v ∈ eplace_vars p -> v ∈ U) -> framed r -> constrain_to_ref p (embed c0 r) = embed c0 (constrain_to_ref p r) /\ framed (constrain_to_ref p r).
  Proof. intros Hp Hf. destruct p as [|v|e]; [done| |done]. apply embed_constrain_var; [apply Hp; by left|done]. Qed.
  Lemma bind_plain q v r : c_vals r !! v = None -> associated_tag q = None \/ is_some (known_type r v) = true ->
    bind_column k q v r = with_cols (fun m => <[v := default [] (m !! v) ++ [q]]> m) r.
  Proof.
    intros Hv Ht. unfold bind_column. rewrite Hv. f_equal. destruct Ht as [Ht|Ht]; rewrite Ht; [by destruct (_ && _ && _)%bool|]. cbn [negb]. by rewrite andb_false_r.
  Qed.
  Lemma embed_bind q v r : v ∈ U -> framed r -> associated_tag q = None \/ is_some (known_type r v) = true ->
    bind_column k q v (embed c0 r) = embed c0 (bind_column k q v r) /\ framed (bind_column k q v r).
  Proof.
    intros Hv Hf Ht. split.
    - destruct (c_vals r !! v) as [x|] eqn:Ev.
      + unfold bind_column, constrain_constant. rewrite embed_vals, Ev by done. repeat case_match; auto using embed_add_where, embed_mark_empty.
      + rewrite (bind_plain q v r Ev Ht), bind_plain.
        * destruct r as [[] l w]. unfold embed. cbn. by rewrite merge_cols_push.
        * by rewrite embed_vals.
        * destruct Ht as [Ht|Ht]; [by left|right]. unfold known_type in *. by rewrite embed_known.
    - apply (framed_ext r); [apply grows_bind_column|by rewrite known_bind_column|done].
  Qed.
  Lemma framed_add_where kk r : framed r -> framed (add_where kk r).
  Proof. apply framed_ext; by destruct r as [[] l w]. Qed.
  Lemma framed_mark_empty r : framed r -> framed (mark_empty r).
  Proof. apply framed_ext; by destruct r as [[] l w]. Qed.
  Lemma embed_eplace al col p r : col = CE \/ col = CTx -> (forall v, v ∈ eplace_vars p -> v ∈ U) -> framed r ->
    apply_eplace k (al, col) p (embed c0 r) = embed c0 (apply_eplace k (al, col) p r) /\ framed (apply_eplace k (al, col) p r).
  Proof.
    intros Hc Hp Hf. destruct p as [|v|e]; cbn [apply_eplace]; [done| |auto using embed_add_where, framed_add_where].
    apply embed_bind; [apply Hp; by left|done|]. left. by destruct Hc as [-> | ->].
  Qed.
  Lemma embed_value al t p r : (forall v, p = EvVar v -> v ∈ U) -> framed r ->
    apply_value k al (Some t) p (embed c0 r) = (embed c0 (apply_value k al (Some t) p r).1, (apply_value k al (Some t) p r).2) /\ framed (apply_value k al (Some t) p r).1.
  Proof.
    intros Hp Hf. unfold apply_value, constrain_constant. destruct p as [|v|e|z|i|x]; cbn [fst snd].
    - done.
    - destruct (embed_constrain_var v t r (Hp v eq_refl) Hf) as [-> F1]. rewrite embed_empty. pose proof (known_constrain_var v t r) as Hk.
      destruct (c_empty (constrain_var v t r)); cbn [fst snd]; [done|].
      destruct (embed_bind (al, CV) v (constrain_var v t r) (Hp v eq_refl) F1) as [-> F2]; [|done]. right. by rewrite (known_type_one _ _ t (Hk eq_refl)).
    - destruct t; cbn [fst snd]; rewrite ?embed_add_where, ?embed_mark_empty; auto using framed_add_where, framed_mark_empty.
    - destruct t; cbn [fst snd]; rewrite ?embed_add_where, ?embed_mark_empty; auto using framed_add_where, framed_mark_empty.
    - destruct t; [|destruct (kn_ident k i)|..]; repeat case_match; cbn [fst snd]; rewrite ?embed_add_where, ?embed_mark_empty; auto using framed_add_where, framed_mark_empty.
    - case_bool_decide; cbn [fst snd]; rewrite ?embed_add_where, ?embed_mark_empty; auto using framed_add_where, framed_mark_empty.
  Qed.
  Lemma embed_apply e a at_ al r : ep_a e = EpEntid a -> kn_attr k a = Some at_ -> (forall v, v ∈ ep_vars e -> v ∈ U) -> framed r ->
    apply_for_alias k e al (embed c0 r) = embed c0 (apply_for_alias k e al r).
  Proof.
    intros Ha Hat HU Hf. unfold ep_vars in HU. unfold apply_for_alias. rewrite embed_empty. destruct (c_empty r); [done|]. rewrite Ha, Hat. cbn [constrain_to_ref].
    destruct (embed_to_ref (ep_tx e) r) as [-> F1]; [intros v Hv; apply HU; rewrite !elem_of_app; auto|done|].
    destruct (embed_to_ref (ep_e e) (constrain_to_ref (ep_tx e) r)) as [-> F2]; [intros v Hv; apply HU; rewrite !elem_of_app; auto|done|].
    set (r1 := constrain_to_ref (ep_e e) _) in *.
    destruct (embed_eplace al CE (ep_e e) r1) as [-> F3]; [by left|intros v Hv; apply HU; rewrite !elem_of_app; auto|done|]. set (r2 := apply_eplace k (al, CE) _ _) in *.
    rewrite embed_add_where. set (r3 := add_where _ r2). assert (framed r3) as F4 by (by apply framed_add_where).
    assert (forall c, value_type_for k c (EpEntid a) = Some (at_type at_)) as Hvt. { intros c. unfold value_type_for. by rewrite Hat. }
    rewrite !Hvt. destruct (embed_value al (at_type at_) (ep_v e) r3) as [Hv F5]; [intros v Hv; apply HU; rewrite !elem_of_app, Hv; right; left; by left|done|].
    rewrite Hv. clear Hv. destruct (apply_value k al (Some (at_type at_)) (ep_v e) r3) as [r4 stop]. cbn [fst snd] in *. destruct stop; [done|].
    apply (embed_eplace al CTx); [by right|intros v Hv; apply HU; rewrite !elem_of_app; auto|done].
  Qed.
  Lemma embed_receptacle : c_empty c0 = false -> let r := make_receptacle (use_as_template U c0) in framed r /\ forall n, with_next n c0 = embed (with_next n c0) r.
  Proof.
    intros Hne r. split.
    - split; [by destruct c0 as [[] l w]|]. intros x Hx Hn. rewrite <- (restrict_in U) by exact Hx. destruct c0 as [[] l w]. exact Hn.
    - intros n. destruct c0 as [[] l w]. unfold embed. cbn in *. subst. rewrite app_nil_r. f_equal. f_equal.
      + apply map_eq. intros x. rewrite merge_cols_lookup. by rewrite lookup_empty.
      + apply map_eq. intros x. rewrite lookup_union. destruct (restrict U s_known !! x) as [y|] eqn:E.
        * apply restrict_lookup in E as [-> _]. done.
        * by destruct (s_known !! x).
  Qed.
End embed.

(* ---------------------------------------------------------------- what a row adds *)

Section within.
  Context (k : known) (U : gset var).
  Record within (c c' : cc) : Prop := {
    w_grows : grows c c';
    w_units : units c -> units c';
    w_kept : units c -> c_empty c' = false -> forall x ts, c_known c !! x = Some ts -> c_known c' !! x = Some ts;
    w_out : forall x, x ∉ U -> c_known c' !! x = c_known c !! x;
    w_cols : forall x, is_Some (c_cols c' !! x) -> is_Some (c_cols c !! x) \/ (x ∈ U /\ c_vals c !! x = None) }.
  Lemma within_refl c : within c c.
  Proof. split; auto using grows_refl. Qed.
  Lemma within_trans c1 c2 c3 : within c1 c2 -> within c2 c3 -> within c1 c3.
  Proof.
    intros [A1 A2 A3 A4 A5] [B1 B2 B3 B4 B5]. split; [by eapply grows_trans|auto| | |].
    - intros Hu Hne x ts Hx. apply B3; [auto|done|]. apply A3; [done|by apply (g_ne _ _ B1)|done].
    - intros x Hx. rewrite B4, A4 by done. done.
    - intros x Hx. destruct (B5 x Hx) as [H|[H1 H2]]; [auto|]. right. split; [done|]. by rewrite <- (g_vals _ _ A1).
  Qed.
  Lemma within_scope c c' : grows c c' -> c_known c' = c_known c -> c_cols c' = c_cols c -> within c c'.
  Proof. intros Hg Hk Hc. split; [done|..]; unfold units; rewrite ?Hk, ?Hc; auto. Qed.
  Lemma within_constrain_var v t c : v ∈ U -> within c (constrain_var v t c).
  Proof.
    intros Hv. pose proof (grows_constrain_var v t c) as Hg. destruct (cols_constrain_var v t c) as [Hc _].
    assert (c_known (constrain_var v t c) = <[v := vts_of_one t]> (c_known c)) as Hk. { unfold constrain_var. destruct c as [[] l w]. by repeat case_match. }
    split; [done|..]; unfold units; rewrite ?Hk, ?Hc; auto.
    - intros Hu x ts. destruct (decide (x = v)) as [->|Hx]; [rewrite lookup_insert; intros [= <-]; eauto|rewrite lookup_insert_ne by done; apply Hu].
    - intros Hu Hne x ts Hx. destruct (decide (x = v)) as [->|Hxv]; [|by rewrite lookup_insert_ne]. rewrite lookup_insert. destruct (Hu _ _ Hx) as [t' ->].
      unfold constrain_var in Hne. rewrite Hx in Hne. destruct (vts_contains (vts_of_one t') t) eqn:Ec; [by apply one_contains_iff in Ec as ->|]. by destruct c as [[]].
    - intros x Hx. rewrite lookup_insert_ne; [done|]. by intros ->.
  Qed.
  Lemma within_to_ref p c : (forall v, v ∈ eplace_vars p -> v ∈ U) -> within c (constrain_to_ref p c).
  Proof. intros H. destruct p as [|v|]; [apply within_refl| |apply within_refl]. apply within_constrain_var, H. by left. Qed.
  Lemma within_add_where kk c : within c (add_where kk c).
  Proof. apply within_scope; [apply grows_add_where|by destruct c..]. Qed.
  Lemma within_mark_empty c : within c (mark_empty c).
  Proof. apply within_scope; [apply grows_mark_empty|by destruct c as [[]]..]. Qed.
  Lemma within_bind q v c : v ∈ U -> within c (bind_column k q v c).
  Proof.
    intros Hv. destruct (c_vals c !! v) as [x|] eqn:Ev.
    - unfold bind_column, constrain_constant. rewrite Ev. repeat case_match; auto using within_add_where, within_mark_empty.
    - pose proof (grows_bind_column k q v c) as Hg. split; [done|..]; unfold units; rewrite ?known_bind_column; auto.
      intros x Hx. destruct (decide (x = v)) as [->|Hxv]; [by right|left]. revert Hx. unfold bind_column. rewrite Ev. clear -Hxv.
      assert (forall c, c_cols (with_cols (fun m => <[v := default [] (m !! v) ++ [q]]> m) c) = <[v := default [] (c_cols c !! v) ++ [q]]> (c_cols c)) as -> by (by intros [[]]).
      rewrite lookup_insert_ne by done. destruct c as [[]]. by repeat case_match.
  Qed.
  Lemma within_eplace q p c : (forall v, v ∈ eplace_vars p -> v ∈ U) -> within c (apply_eplace k q p c).
  Proof. intros H. destruct p as [|v|]; [apply within_refl| |apply within_add_where]. apply within_bind, H. by left. Qed.
  Lemma within_value al t p c : (forall v, p = EvVar v -> v ∈ U) -> within c (apply_value k al t p c).1.
  Proof.
    intros H. unfold apply_value, constrain_constant. destruct p as [|v| | | |]; [|specialize (H v eq_refl)|..]; repeat case_match; cbn [fst];
      eauto using within_refl, within_mark_empty, within_add_where, within_bind, within_constrain_var, within_trans.
  Qed.
  Lemma within_apply e a al c : ep_a e = EpEntid a -> (forall v, v ∈ ep_vars e -> v ∈ U) -> within c (apply_for_alias k e al c).
  Proof.
    intros Ha HU. unfold ep_vars in HU. unfold apply_for_alias. rewrite Ha. cbn [constrain_to_ref]. destruct (c_empty c); [apply within_refl|].
    assert (within c (apply_eplace k (al, CE) (ep_e e) (constrain_to_ref (ep_e e) (constrain_to_ref (ep_tx e) c)))) as W1.
    { eapply within_trans; [|apply within_eplace]; [eapply within_trans; apply within_to_ref|]; intros v Hv; apply HU; rewrite !elem_of_app; auto. }
    set (c1 := apply_eplace k (al, CE) _ _) in *. destruct (kn_attr k a); [|eapply within_trans; [exact W1|apply within_mark_empty]].
    set (c2 := add_where _ c1). set (t := value_type_for k c2 _).
    assert (within c (apply_value k al t (ep_v e) c2).1) as W2.
    { eapply within_trans; [exact W1|]. eapply within_trans; [apply within_add_where|]. apply within_value. intros v Hv; apply HU; rewrite !elem_of_app, Hv. right. left. by left. }
    destruct (apply_value k al t (ep_v e) c2) as [c3 []]; cbn [fst] in W2; [done|]. eapply within_trans; [exact W2|apply within_eplace]. intros v Hv; apply HU; rewrite !elem_of_app; auto.
  Qed.
End within.

(* ---------------------------------------------------------------- rows for patterns of one kind *)

Definition sim_e (p p' : eplace) : Prop := p = p' \/ exists i j, p = EpEntid i /\ p' = EpEntid j.
Definition const_v (p : evplace) : Prop := match p with EvEntid _ | EvValue _ => True | _ => False end.
Definition sim_v (p p' : evplace) : Prop := p = p' \/ (const_v p /\ const_v p').
Section twins.
  Context (k : known).
  Lemma scope_constrain_var v t c1 c2 : c_scope c1 = c_scope c2 -> c_scope (constrain_var v t c1) = c_scope (constrain_var v t c2).
  Proof. destruct c1 as [s l w], c2 as [s' l' w']. cbn. intros ->. unfold constrain_var. change (c_known (CC s' l w)) with (s_known s'). change (c_known (CC s' l' w')) with (s_known s'). destruct (s_known s' !! v) as [ts|]; [by destruct (vts_contains ts t)|done]. Qed.
  Lemma scope_to_ref p p' c1 c2 : sim_e p p' -> c_scope c1 = c_scope c2 -> c_scope (constrain_to_ref p c1) = c_scope (constrain_to_ref p' c2).
  Proof. intros [<-|(i & j & -> & ->)] H; [|done]. destruct p; [done|by apply scope_constrain_var|done]. Qed.
  Lemma scope_add_where kk c : c_scope (add_where kk c) = c_scope c.
  Proof. by destruct c. Qed.
  Lemma scope_bind q v c1 c2 : c_scope c1 = c_scope c2 -> c_scope (bind_column k q v c1) = c_scope (bind_column k q v c2).
  Proof.
    destruct c1 as [s l w], c2 as [s' l' w']. cbn [c_scope]. intros ->. unfold bind_column, constrain_constant.
    change (c_vals (CC s' l w)) with (s_vals s'). change (c_vals (CC s' l' w')) with (s_vals s'). destruct (s_vals s' !! v) as [x|].
    - destruct (q.2); try done; (destruct x; try done); by destruct (kn_ident k _).
    - change (known_type (CC s' l w) v) with (known_type (CC s' l' w') v). change (c_inputs (CC s' l w)) with (c_inputs (CC s' l' w')). change (c_extracted (CC s' l w)) with (c_extracted (CC s' l' w')).
      destruct (negb _ && negb _ && negb _)%bool; [|done]. by destruct (associated_tag q).
  Qed.
  Lemma scope_eplace q p p' c1 c2 : sim_e p p' -> c_scope c1 = c_scope c2 -> c_scope (apply_eplace k q p c1) = c_scope (apply_eplace k q p' c2).
  Proof.
    intros [<-|(i & j & -> & ->)] H; cbn [apply_eplace]; [|by rewrite !scope_add_where]. destruct p; cbn [apply_eplace]; [done|by apply scope_bind|by rewrite !scope_add_where].
  Qed.
  Lemma empty_scope c1 c2 : c_scope c1 = c_scope c2 -> c_empty c1 = c_empty c2.
  Proof. unfold c_empty. by intros ->. Qed.
  Lemma const_value al t p c : const_v p -> c_empty (apply_value k al t p c).1 = false -> c_scope (apply_value k al t p c).1 = c_scope c /\ (apply_value k al t p c).2 = false.
  Proof.
    intros Hc. unfold apply_value, constrain_constant. destruct p; try done; repeat case_match; cbn [fst snd]; rewrite ?scope_add_where; try done; destruct c as [[]]; done.
  Qed.
  Lemma scope_value al t t' p p' c1 c2 : sim_v p p' -> (forall v, p = EvVar v -> t = t') -> (p = p' -> p = EvPlaceholder \/ (exists v, p = EvVar v) \/ const_v p) ->
    c_scope c1 = c_scope c2 -> c_empty (apply_value k al t p c1).1 = false -> c_empty (apply_value k al t' p' c2).1 = false ->
    c_scope (apply_value k al t p c1).1 = c_scope (apply_value k al t' p' c2).1 /\ (apply_value k al t p c1).2 = (apply_value k al t' p' c2).2.
  Proof.
    intros Hs Ht Hsh Hsc N1 N2. assert (const_v p /\ const_v p' \/ p = p' /\ ~ const_v p) as [[H1 H2]|[<- H1]].
    { destruct Hs as [<-|H]; [|by left]. destruct (Hsh eq_refl) as [-> |[[v ->]|H]]; auto. }
    - destruct (const_value _ _ _ _ H1 N1) as [-> ->]. destruct (const_value _ _ _ _ H2 N2) as [-> ->]. done.
    - destruct (Hsh eq_refl) as [-> |[[v ->]|H]]; [done| |done]. rewrite <- (Ht v eq_refl) in *. unfold apply_value in *. destruct t as [t|]; [|cbn [fst snd] in *; split; [by apply scope_bind|done]].
      pose proof (scope_constrain_var v t _ _ Hsc) as Hs'. rewrite (empty_scope _ _ Hs') in *. destruct (c_empty (constrain_var v t c2)); cbn [fst snd] in *; split; try done. by apply scope_bind.
  Qed.
  Lemma twins e e' a a' at_ at_' al r : ep_a e = EpEntid a -> ep_a e' = EpEntid a' -> kn_attr k a = Some at_ -> kn_attr k a' = Some at_' ->
    sim_e (ep_e e) (ep_e e') -> sim_e (ep_tx e) (ep_tx e') -> sim_v (ep_v e) (ep_v e') -> (forall v, ep_v e = EvVar v -> at_type at_ = at_type at_') ->
    (ep_v e = ep_v e' -> ep_v e = EvPlaceholder \/ (exists v, ep_v e = EvVar v) \/ const_v (ep_v e)) ->
    c_empty (apply_for_alias k e al r) = false -> c_empty (apply_for_alias k e' al r) = false ->
    c_scope (apply_for_alias k e al r) = c_scope (apply_for_alias k e' al r).
  Proof.
    intros Ha Ha' Hat Hat' Se Stx Sv Hty Hsh. unfold apply_for_alias. destruct (c_empty r) eqn:Er; [done|]. rewrite Ha, Ha', Hat, Hat'. cbn [constrain_to_ref].
    assert (forall c, value_type_for k c (EpEntid a) = Some (at_type at_)) as Hvt. { intros c. unfold value_type_for. by rewrite Hat. }
    assert (forall c, value_type_for k c (EpEntid a') = Some (at_type at_')) as Hvt'. { intros c. unfold value_type_for. by rewrite Hat'. }
    rewrite !Hvt, !Hvt'.
    set (c1 := add_where _ (apply_eplace k (al, CE) (ep_e e) _)). set (c2 := add_where _ (apply_eplace k (al, CE) (ep_e e') _)).
    assert (c_scope c1 = c_scope c2) as H1. { unfold c1, c2. rewrite !scope_add_where. apply scope_eplace; [done|]. apply scope_to_ref; [done|]. by apply scope_to_ref. }
    clearbody c1 c2. pose proof (scope_value al (Some (at_type at_)) (Some (at_type at_')) (ep_v e) (ep_v e') c1 c2 Sv) as H2.
    destruct (apply_value k al (Some (at_type at_)) (ep_v e) c1) as [c3 s3]. destruct (apply_value k al (Some (at_type at_')) (ep_v e') c2) as [c4 s4]. cbn [fst snd] in H2. intros N1 N2.
    assert (c_empty c3 = false) as N3 by (destruct s3; [done|]; by apply (g_ne _ _ (grows_apply_eplace k (al, CTx) (ep_tx e) c3))).
    assert (c_empty c4 = false) as N4 by (destruct s4; [done|]; by apply (g_ne _ _ (grows_apply_eplace k (al, CTx) (ep_tx e') c4))).
    destruct H2 as [H2 <-]; try done; [intros v Hv; f_equal; eauto|]. destruct s3; [done|]. by apply scope_eplace.
  Qed.
End twins.

(* ---------------------------------------------------------------- the types *)

Definition with_known (f : gmap var vts -> gmap var vts) : cc -> cc := set_scope (fun s =>
  Scope (s_empty s) (s_next s) (s_from s) (s_cols s) (s_inputs s) (s_vals s) (f (s_known s)) (s_extracted s) (s_required s)).
Lemma put_all (l : list (var * vts)) (m : gmap var vts) : NoDup (l.*1) -> fold_left (fun m x => <[x.1 := x.2]> m) l m = list_to_map l ∪ m.
Proof.
  revert m. induction l as [|[x ts] l IH]; intros m Hnd; cbn [fold_left fst snd]; [symmetry; apply (left_id_L ∅ (∪))|]. cbn in Hnd. apply NoDup_cons in Hnd as [Hx Hnd].
  rewrite IH by done. cbn [list_to_map]. change (list_to_map ((x, ts) :: l)) with (<[x := ts]> (list_to_map l : gmap var vts)).
  rewrite <- insert_union_r by (by apply not_elem_of_list_to_map_1). by rewrite insert_union_l.
Qed.
Lemma broaden_same (K : gmap var vts) f : (forall x ts, K !! x = Some ts -> c_known f !! x = None \/ c_known f !! x = Some ts) -> c_known (broaden_types K f) = K ∪ c_known f.
Proof.
  intros H. unfold broaden_types. rewrite <- (list_to_map_to_list K) at 2. rewrite <- (put_all (map_to_list K)) by apply NoDup_fst_map_to_list.
  assert (forall x, x ∈ map_to_list K -> c_known f !! x.1 = None \/ c_known f !! x.1 = Some x.2) as H' by (intros [x ts] Hx%elem_of_map_to_list; by apply H).
  pose proof (NoDup_fst_map_to_list K) as Hnd. clear H. revert f H'. induction (map_to_list K) as [|[x ts] l IH]; intros f H; cbn [fold_left fst snd]; [done|]. cbn in Hnd. apply NoDup_cons in Hnd as [Hx Hnd].
  assert (c_known (broaden_type f (x, ts)) = <[x := ts]> (c_known f)) as Hb.
  { unfold broaden_type. cbn [fst snd]. destruct (H (x, ts)) as [E|E]; [by left|..]; cbn [fst snd] in E; rewrite E; [destruct (vts_is_unit ts)|]; destruct f as [[]]; try done. cbn. unfold vts_union. by rewrite N.lor_diag. }
  rewrite IH; [by rewrite Hb|done|]. intros y Hy. rewrite Hb. rewrite lookup_insert_ne; [apply H; by right|]. intros ->. apply Hx, elem_of_list_fmap. by exists y.
Qed.
Lemma broaden_all (K : gmap var vts) rs f : Forall (fun r => c_known r = K) rs -> c_known f = K -> c_known (fold_left (fun f r => broaden_types (c_known r) f) rs f) = K.
Proof.
  revert f. induction rs as [|r rs IH]; intros f Hrs Hf; cbn [fold_left]; [done|]. apply Forall_cons_1 in Hrs as [Hr Hrs]. apply IH; [done|]. rewrite Hr. rewrite broaden_same; rewrite Hf.
  - apply map_eq. intros x. rewrite lookup_union. by destruct (K !! x).
  - auto.
Qed.
Lemma narrow_same (K : gmap var vts) c : (forall x ts, K !! x = Some ts -> vts_is_empty ts = false /\ (c_known c !! x = None \/ c_known c !! x = Some ts)) ->
  narrow_types K c = with_known (fun m => K ∪ m) c.
Proof.
  intros H. unfold narrow_types.
  assert (with_known (fun m => K ∪ m) c = with_known (fold_left (fun m x => <[x.1 := x.2]> m) (map_to_list K)) c) as ->.
  { destruct c as [[]]. cbn. f_equal. f_equal. rewrite put_all by apply NoDup_fst_map_to_list. by rewrite list_to_map_to_list. }
  assert (forall x, x ∈ map_to_list K -> vts_is_empty x.2 = false /\ (c_known c !! x.1 = None \/ c_known c !! x.1 = Some x.2)) as H' by (intros [x ts] Hx%elem_of_map_to_list; by apply H).
  pose proof (NoDup_fst_map_to_list K) as Hnd. clear H. revert c H'. induction (map_to_list K) as [|[x ts] l IH]; intros c H; cbn [fold_left fst snd]; [by destruct c as [[]]|]. cbn in Hnd. apply NoDup_cons in Hnd as [Hx Hnd].
  assert (narrow_type x ts c = put_known x ts c) as Hb.
  { unfold narrow_type. destruct (H (x, ts)) as [He E]; [by left|]. cbn [fst snd] in He, E. rewrite He. destruct E as [E|E]; rewrite E; [done|]. unfold vts_intersection. by rewrite N.land_diag, He. }
  rewrite Hb, IH; [by destruct c as [[]]|done|]. intros y Hy. assert (c_known (put_known x ts c) !! y.1 = c_known c !! y.1) as ->; [|apply H; by right].
  destruct c as [[]]. cbn. rewrite lookup_insert_ne; [done|]. intros ->. apply Hx, elem_of_list_fmap. by exists y.
Qed.

(* ---------------------------------------------------------------- alternatives in one scope *)

Section join.
  Context (sq : sqlite) (k : known) (st : store).
  Context (M : option nat) (L : string -> Prop) (ins : list string) (V : gmap string typed_value).
  Notation inv := (inv sq k st M L ins V).
  Notation holds E := (Forall (fun kk => holds_in sq st E kk = true)).
  Lemma holds_or E l : holds_in sq st E (KOr l) = true <-> exists ks, ks ∈ l /\ holds E ks.
  Proof.
    cbn [holds_in]. rewrite existsb_exists. split; intros (ks & H1 & H2); exists ks; (split; [by apply elem_of_list_In|]).
    - rewrite forallb_forall in H2. apply Forall_forall. intros kk Hkk. by apply H2, elem_of_list_In.
    - apply forallb_forall. intros kk Hkk. rewrite Forall_forall in H2. by apply H2, elem_of_list_In.
  Qed.
  Lemma respects_or n l : Forall (Forall (respects sq st n)) l -> respects sq st n (KOr l).
  Proof.
    intros Hl E E' HE. cbn [holds_in]. induction Hl as [|ks l Hks Hl IH]; [done|]. cbn [existsb]. f_equal; [|exact IH]. clear IH Hl.
    induction Hks as [|kk ks Hkk Hks IH]; [done|]. cbn [forallb]. f_equal; [by apply Hkk|exact IH].
  Qed.
  Lemma or_join O rest F c' cs : cs <> [] ->
    (forall c, c ∈ cs -> c_scope c = c_scope c' /\ c_computed c = c_computed c' /\ inv O rest F c) ->
    (forall E, holds E (c_wheres c') <-> exists c, c ∈ cs /\ holds E (c_wheres c)) -> Forall (respects sq st (lim M c')) (c_wheres c') ->
    inv O rest F c' /\ forall E σ, sat sq st c' E σ <-> exists c, c ∈ cs /\ sat sq st c E σ.
  Proof.
    intros Hne Hcs Hw Hr. split.
    - destruct cs as [|c cs']; [done|]. destruct (Hcs c ltac:(by left)) as (Hs & Hcm & I). destruct I as [I1 I2 I3 I4 I5 I6 I7 I8 IX I9 I10 I11 I12 IV].
      assert (lim M c' = lim M c) as Hl by (unfold lim, c_next; by rewrite Hs, Hcm).
      assert (forall E, okenv sq st O F c' E -> exists c1, c1 ∈ c :: cs' /\ okenv sq st O F c1 E) as Hok.
      { intros E (E0 & HO & HE & Hh). apply Hw in Hh as (c1 & Hin & Hh). exists c1. split; [done|]. exists E0. split_and!; [done| |done]. destruct (Hcs c1 Hin) as (_ & Hc1 & _). unfold comp in *. by rewrite Hc1. }
      unfold c_empty, c_inputs, c_vals, c_known, c_cols, c_extracted in *. rewrite Hs in *.
      assert (forall x al, lonely sq st O F c x al -> s_empty (c_scope c') = false -> lonely sq st O F c' x al) as Hlone.
      { intros x al Hlo Hemp. pose proof Hlo as (H1 & H2 & H3 & H4 & _). unfold c_known, c_vals, c_cols, c_extracted in *. rewrite Hs in *. unfold lonely, c_known, c_vals, c_cols, c_extracted. split_and!; try done. intros E HE.
        destruct (Hok E HE) as (c1 & Hin & HE1). destruct (Hcs c1 Hin) as (Hs1 & _ & J). unfold c_required. rewrite <- Hs1.
        assert (c_cols c1 !! x = Some [(al, CV)]) as Hcol by (unfold c_cols; by rewrite Hs1). assert (c_empty c1 = false) as Hne1 by (unfold c_empty; by rewrite Hs1).
        destruct (i_cols J Hne1 x _ Hcol) as [_ [(t & Ht & _)|(al' & Ha)]]; [unfold c_known in Ht; rewrite Hs1 in Ht; congruence|].
        destruct Ha as (_ & _ & Ha3 & _ & Ha5). assert (al' = al) as -> by congruence. exact (Ha5 E HE1). }
      split; unfold c_empty, c_inputs, c_vals, c_known, c_cols, c_extracted; rewrite ?Hl; try done.
      + by rewrite <- Hcm.
      + by rewrite <- Hcm.
      + by rewrite <- Hl.
      + intros Hemp x qs Hx. destruct (I9 Hemp x qs Hx) as [Hq [(t & Ht & _)|(al & Ha)]]; (split; [done|]); [left|right; exists al; by apply Hlone].
        unfold c_known in Ht. rewrite Hs in Ht. exists t. split; [done|]. intros E q HE Hin. destruct (Hok E HE) as (c1 & Hin1 & HE1). destruct (Hcs c1 Hin1) as (Hs1 & _ & J).
        assert (c_cols c1 !! x = Some qs) as Hcol by (unfold c_cols; by rewrite Hs1). assert (c_empty c1 = false) as Hne1 by (unfold c_empty; by rewrite Hs1).
        destruct (i_cols J Hne1 x _ Hcol) as [_ [(t' & Ht' & H')|(al' & Ha' & _)]]; unfold c_known in *; rewrite Hs1 in *; [|congruence].
        assert (t' = t) as -> by (apply one_inj; congruence). by apply H'.
      + intros Hemp x q Hx. destruct (I10 Hemp x q Hx) as (H1 & H2 & H3). split_and!; try done. by apply Hlone.
    - intros E σ. split.
      + intros [S1 S2 S3 S4 S5 S6 S7]. apply Hw in S2 as (c & Hin & Hh). exists c. split; [done|]. destruct (Hcs c Hin) as (Hs & _).
        unfold c_empty, c_vals, c_known, c_cols, c_extracted, c_required in *. by split; unfold c_empty, c_vals, c_known, c_cols, c_extracted, c_required; rewrite ?Hs.
      + intros (c & Hin & [S1 S2 S3 S4 S5 S6 S7]). destruct (Hcs c Hin) as (Hs & _).
        unfold c_empty, c_vals, c_known, c_cols, c_extracted, c_required in *. rewrite Hs in *. split; try done. apply Hw. by exists c.
  Qed.
End join.

(* ---------------------------------------------------------------- the patterns of one kind *)

Lemma evolve_place_vars k c p e v : evolve_nplace k c p = Some e -> v ∈ eplace_vars e -> p = NVar v /\ c_vals c !! v = None.
Proof.
  intros H Hv. destruct p as [|x|i|i]; cbn in H; try (injection H as <-; by apply elem_of_nil in Hv); [|by destruct (kn_ident k i); [injection H as <-; apply elem_of_nil in Hv|]].
  destruct (c_vals c !! x) as [y|] eqn:Ey; [|injection H as <-; cbn in Hv; by apply elem_of_list_singleton in Hv as ->].
  destruct y; try done; [by injection H as <-; apply elem_of_nil in Hv|]. destruct (kn_ident k _); [|done]. injection H as <-. by apply elem_of_nil in Hv.
Qed.
Lemma evolve_value_vars k c t p v : evolve_value k c t p = Some (EvVar v) -> p = VVar v /\ c_vals c !! v = None.
Proof.
  destruct p as [|x|z|i|y]; cbn; try done.
  - destruct (c_vals c !! x) as [y|] eqn:Ey; [|by intros [= ->]]. destruct y; by destruct (can_constrain c x _).
  - by destruct t as [[]|].
  - destruct t as [[]|]; try done. by destruct (kn_ident k i).
Qed.
Record evolution (k : known) (c : cc) (p : pattern) (e : epattern) : Prop := {
  ev_e : evolve_nplace k c (p_e p) = Some (ep_e e);
  ev_a : exists t, evolve_attribute k c (p_a p) = Some (ep_a e, t) /\ evolve_value k c t (p_v p) = Some (ep_v e);
  ev_tx : evolve_nplace k c (p_tx p) = Some (ep_tx e) }.
Lemma make_evolved_parts k c p e : make_evolved k c p = Some e -> evolution k c p e.
Proof.
  unfold make_evolved. intros H. apply bind_Some in H as (e1 & H1 & H). apply bind_Some in H as ([a t] & H2 & H). apply bind_Some in H as (v & H3 & H). apply bind_Some in H as (tx & H4 & [= <-]).
  split; [done| |done]. by exists t.
Qed.
Lemma evolution_vars k c p e : named p -> evolution k c p e -> forall v, v ∈ ep_vars e -> v ∈ pattern_vars p /\ c_vals c !! v = None.
Proof.
  intros Hn [H1 (t & H2 & H3) H4] v Hv. unfold ep_vars in Hv. unfold pattern_vars. rewrite !elem_of_app in Hv. rewrite !elem_of_app. destruct Hv as [Hv|[Hv|Hv]].
  - destruct (evolve_place_vars _ _ _ _ _ H1 Hv) as [Hq ?]. split; [|done]. rewrite Hq. left. apply elem_of_list_singleton. reflexivity.
  - destruct (ep_v e) as [|x| | | |] eqn:Ev; try (by apply elem_of_nil in Hv). apply elem_of_list_singleton in Hv as ->. destruct (evolve_value_vars _ _ _ _ _ H3) as [Hq ?]. split; [|done].
    rewrite Hq. right. right. left. apply elem_of_list_singleton. reflexivity.
  - destruct (evolve_place_vars _ _ _ _ _ H4 Hv) as [Hq ?]. split; [|done]. rewrite Hq. right. right. right. apply elem_of_list_singleton. reflexivity.
Qed.
Lemma evolution_again k c p e : evolution k c p e -> evolve_pattern c e = Some e.
Proof.
  intros [H1 (t & H2 & H3) H4]. unfold evolve_pattern. destruct e as [ee ea ev etx]. cbn in *.
  assert (forall v, ev = EvVar v -> c_vals c !! v = None) as Hv by (intros v ->; by destruct (evolve_value_vars _ _ _ _ _ H3)).
  assert (forall v, ee = EpVar v -> c_vals c !! v = None) as He. { intros v ->. by destruct (evolve_place_vars _ _ _ _ v H1 ltac:(by left)). }
  destruct ee as [|v|i]; [|rewrite (He v eq_refl)|]; (destruct ev as [|w| | | |]; [reflexivity|rewrite (Hv w eq_refl); reflexivity|reflexivity..]).
Qed.
Lemma attribute_named k c p a t : named p -> evolve_attribute k c (p_a p) = Some (a, t) -> exists a' at_, a = EpEntid a' /\ kn_attr k a' = Some at_ /\ attribute_of (kn_schema k) p = Some at_ /\ t = Some (at_type at_).
Proof.
  intros Hn H2. unfold named in Hn. unfold evolve_attribute in H2. apply bind_Some in H2 as (a0 & Ha & H2). unfold attribute_of.
  assert (exists a, a0 = EpEntid a /\ forall at_, kn_attr k a = Some at_ -> match p_a p with NEntid a => sc_attribute_map (kn_schema k) !! a
     | NIdent i => sc_ident_map (kn_schema k) !! i ≫= fun a => sc_attribute_map (kn_schema k) !! a | _ => None end = Some at_) as (a' & -> & Hat).
  { destruct (p_a p) as [|x|a1|i]; try done; cbn in Ha.
    - injection Ha as <-. by exists a1.
    - destruct (kn_ident k i) as [a1|] eqn:Ei; [|done]. injection Ha as <-. exists a1. split; [done|]. intros at_ H. unfold kn_ident in Ei. by rewrite Ei. }
  apply bind_Some in H2 as (at_ & H4 & [= <- <-]). exists a', at_. auto.
Qed.
Lemma evolution_named k c p e : named p -> evolution k c p e -> exists a at_, ep_a e = EpEntid a /\ kn_attr k a = Some at_ /\ attribute_of (kn_schema k) p = Some at_
  /\ evolve_value k c (Some (at_type at_)) (p_v p) = Some (ep_v e).
Proof. intros Hn [_ (t & H2 & H3) _]. destruct (attribute_named _ _ _ _ _ Hn H2) as (a & at_ & H4 & H5 & H6 & ->). exists a, at_. auto. Qed.
Lemma evolution_table k c p e : evolution k c p e -> table_for_places k c (ep_a e) (ep_v e) = place_table k c p.
Proof. intros [_ (t & H2 & H3) _]. unfold place_table. rewrite H2. cbn. by rewrite H3. Qed.
Lemma place_const k c p p' e e' : same_place p p' -> evolve_nplace k c p = Some e -> evolve_nplace k c p' = Some e' -> sim_e e e'.
Proof.
  assert (forall p, match p with NEntid _ | NIdent _ => True | _ => False end -> forall e, evolve_nplace k c p = Some e -> exists i, e = EpEntid i) as Hc.
  { intros [|x|i|i] Hp e0 He; try done; cbn in He; [injection He as <-; eauto|]. destruct (kn_ident k i); [|done]. injection He as <-. eauto. }
  intros Hs H H'. destruct p as [|x|i|i], p' as [|x'|i'|i']; try done; try (left; cbn in Hs; subst; cbn in H, H'; congruence);
    (right; apply Hc in H as [? ->]; [apply Hc in H' as [? ->]; [by eauto|done]|done]).
Qed.
Lemma value_kind k c t p e : evolve_value k c (Some t) p = Some e ->
  match p with VPlaceholder => e = EvPlaceholder | VVar x => (e = EvVar x /\ c_vals c !! x = None) \/ (const_v e /\ is_Some (c_vals c !! x)) | _ => const_v e end.
Proof.
  destruct p as [|x|z|i|y]; cbn.
  - by intros [= <-].
  - destruct (c_vals c !! x) as [y|] eqn:Ey; [|intros [= <-]; by left]. intros H. right. split; [|done]. destruct y; (destruct (can_constrain c x _); [|done]); by injection H as <-.
  - destruct t; try done; by intros [= <-].
  - destruct t; try done; [|by intros [= <-]]. destruct (kn_ident k i); [|done]. by intros [= <-].
  - by intros [= <-].
Qed.
Lemma value_sim k c t t' p p' e e' : same_value p p' -> evolve_value k c (Some t) p = Some e -> evolve_value k c (Some t') p' = Some e' -> sim_v e e'.
Proof.
  intros Hs H%value_kind H'%value_kind. destruct p as [|x|z|i|y], p' as [|x'|z'|i'|y']; try done; try (by right).
  - left. congruence.
  - cbn in Hs. subst. destruct H as [[H H0]|[H H0]], H' as [[H' H0']|[H' H0']]; [left; congruence|rewrite H0 in H0'; by destruct H0'|rewrite H0' in H0; by destruct H0|by right].
Qed.

Lemma same_place_matches p p' : same_place p p' -> matches_place p p' = true.
Proof. destruct p, p'; try done. cbn. intros ->. by apply bool_decide_eq_true. Qed.
Lemma same_value_matches p p' : same_value p p' -> matches_value_place p p' = true.
Proof. destruct p, p'; try done. cbn. intros ->. by apply bool_decide_eq_true. Qed.
Lemma alike_shape s ins p p' : named p -> named p' -> alike s ins p p' -> shape_same p p' = true.
Proof.
  intros Hn Hn' (H1 & H2 & H3 & _). unfold shape_same. rewrite (same_place_matches _ _ H1), (same_value_matches _ _ H2), (same_place_matches _ _ H3).
  unfold named in *. by destruct (p_a p), (p_a p').
Qed.
(** Patterns of one kind read one table. *)
Lemma alike_table k c ins p p' t t' : named p -> named p' -> alike (kn_schema k) ins p p' -> place_table k c p = Some t -> place_table k c p' = Some t' -> t = t'.
Proof.
  assert (forall p t, named p -> place_table k c p = Some t -> exists at_ v, attribute_of (kn_schema k) p = Some at_ /\ evolve_value k c (Some (at_type at_)) (p_v p) = Some v /\ table_for_attribute at_ v = Some t) as Hp.
  { clear. intros p t Hn H. unfold place_table in H. apply bind_Some in H as ([a ty] & Ha & H). apply bind_Some in H as (v & Hv & H). cbn [fst snd] in *.
    destruct (attribute_named _ _ _ _ _ Hn Ha) as (a' & at_ & -> & H2 & H3 & ->). exists at_, v. split_and!; try done. unfold table_for_places in H. by rewrite H2 in H. }
  intros Hn Hn' (_ & Hv & _ & Hat) Ht Ht'. destruct (Hp p t Hn Ht) as (at_ & v & A1 & A2 & A3). destruct (Hp p' t' Hn' Ht') as (at_' & v' & B1 & B2 & B3).
  destruct (Hat _ _ A1 B1) as [Hf _]. unfold table_for_attribute in *. rewrite <- Hf in B3. destruct (at_fulltext at_); [|congruence].
  apply value_kind in A2, B2. assert ((v = EvPlaceholder /\ v' = EvPlaceholder) \/ (v <> EvPlaceholder /\ v' <> EvPlaceholder)) as [[-> ->]|[H1 H2]]; [|congruence|].
  { destruct (p_v p), (p_v p'); try done; try (by left); right; (split; [clear B2|clear A2]);
      repeat match goal with H : _ \/ _ |- _ => destruct H as [[H _]|[H _]] | H : const_v ?x |- _ => destruct x; try done end; try done; subst; done. }
  assert (forall v t, v <> EvPlaceholder -> match v with EvPlaceholder => Some TDatoms | EvVar _ | EvValue (TVString _) => Some TFulltext | _ => None end = Some t -> t = TFulltext) as Hft.
  { clear. intros v t Hv H. destruct v as [| | | | |[]]; congruence. }
  rewrite (Hft _ _ H1 A3), (Hft _ _ H2 B3). done.
Qed.

(* ---------------------------------------------------------------- the whole *)

Section simple.
  Context (sq : sqlite) (k : known) (st : store) (G : store_good (sc_attribute_map (kn_schema k)) st) (CO : cache_ok k st).
  Context (M : option nat) (L : string -> Prop) (ins : list string) (V : gmap string typed_value) (HLI : forall x, L x -> x ∉ ins).
  Notation inv := (inv sq k st M L ins V).
  Notation Sat := (Sat sq st).
  Notation matches := (matches st (kn_schema k)).
  Notation psafe := (psafe L ins V).

  Lemma once_part vs ws rest : once L (vs ++ ws ++ rest) -> once L (vs ++ rest).
  Proof using Type.
    intros H x l1 l2 E HL. pose proof (once_app _ _ _ H) as (H1 & H2 & H3). pose proof (once_app _ _ _ H2) as (H4 & H5 & H6).
    destruct (decide (x ∈ vs)) as [Hx|Hx].
    - assert (x ∉ rest) as Hr. { intros Hr. apply (H3 x HL Hx). apply elem_of_app. by right. }
      pose proof Hx as (v1 & v2 & ->)%elem_of_list_split. destruct (H1 x v1 v2 eq_refl HL) as [Hv1 Hv2].
      assert (forall y1 y2 z1 z2 : list string, y1 ++ x :: y2 = z1 ++ x :: z2 -> x ∉ y1 -> x ∉ y2 -> x ∉ z1 /\ x ∉ z2) as Huniq.
      { clear. induction y1 as [|a y1 IH]; intros y2 z1 z2 E Hy1 Hy2.
        - destruct z1 as [|b z1]; cbn in E; [injection E as <-; by split; [intros ?%elem_of_nil|]|]. injection E as -> E. exfalso. apply Hy2. rewrite E. apply elem_of_app. right. by left.
        - destruct z1 as [|b z1]; cbn in E; injection E as -> E; [exfalso; apply Hy1; by left|]. rewrite elem_of_cons in Hy1. destruct (IH _ _ _ E) as [? ?]; [tauto|done|]. split; [|done].
          rewrite elem_of_cons. tauto. }
      rewrite <- app_assoc in E. cbn in E. apply (Huniq v1 (v2 ++ rest) l1 l2 E); [done|]. rewrite elem_of_app. tauto.
    - assert (exists r1 r2, l1 = vs ++ r1 /\ rest = r1 ++ x :: r2 /\ l2 = r2) as (r1 & r2 & -> & -> & ->).
      { clear -E Hx. revert l1 E. induction vs as [|a vs IH]; intros l1 E; [by exists l1, l2|]. destruct l1 as [|b l1]; cbn in E; injection E as -> E; [exfalso; apply Hx; by left|].
        destruct (IH ltac:(intros H; apply Hx; by right) l1 E) as (r1 & r2 & -> & -> & ->). by exists r1, r2. }
      destruct (H5 x r1 r2 eq_refl HL) as [H7 H8]. split; [|done]. rewrite elem_of_app. tauto.
  Qed.
  Lemma once_pattern ps p rest : p ∈ ps -> once L (flat_map pattern_vars ps ++ rest) -> once L (pattern_vars p ++ rest).
  Proof using Type.
    induction ps as [|q ps IH]; intros Hp Ho; [by apply elem_of_nil in Hp|]. cbn [flat_map] in Ho. rewrite <- app_assoc in Ho.
    apply elem_of_cons in Hp as [->|Hp]; [by apply once_part in Ho|]. apply IH; [done|]. by apply once_app in Ho as (_ & Ho & _).
  Qed.
  Lemma simple_or_ok O rest ps (U : gset var) c c' t :
    inv O (flat_map pattern_vars ps ++ rest) (c_from c) c -> c_empty c = false -> once L (flat_map pattern_vars ps ++ rest) ->
    (forall p, p ∈ ps -> psafe p /\ named p /\ rvals c p /\ (forall x, x ∈ pattern_vars p -> x ∈ U) /\ place_table k c p = Some t) ->
    (forall p p', p ∈ ps -> p' ∈ ps -> alike (kn_schema k) ins p p') -> apply_simple_or k ps U c = Ok c' ->
    good sq k st M L ins V O rest c' /\ forall E0 σ, Sat c' E0 σ <-> Sat c E0 σ /\ exists p, p ∈ ps /\ matches σ p.
  Proof using G HLI.
    intros I Hne Ho Hps Halike Hr. unfold apply_simple_or in Hr. rewrite Hne in Hr.
    set (es := omap (make_evolved k c) ps) in *.
    assert (forall e, e ∈ es <-> exists p, p ∈ ps /\ make_evolved k c p = Some e) as Hes by (intros e; apply elem_of_list_omap).
    assert (forall p, p ∈ ps -> inv O (pattern_vars p ++ rest) (c_from c) c) as Ip.
    { intros p Hp. eapply inv_weaken; [|exact I]. intros x. rewrite !elem_of_app. intros [Hx|Hx]; [left|by right]. by apply (in_flat _ _ _ p). }
    assert (forall σ, (exists E0, Sat c E0 σ) -> (exists p, p ∈ ps /\ matches σ p) <-> exists e, e ∈ es /\ ematches st σ e) as Hmatch.
    { intros σ (E0 & E & HE & Hs). split.
      - intros (p & Hp & Hm). destruct (Hps p Hp) as (P & Hn & Hrv & _). pose proof (make_evolved_spec sq k st G M L ins V HLI O rest c p E σ (Ip p Hp) P Hs Hrv) as Hspec.
        destruct (make_evolved k c p) as [e|] eqn:Ee; [|done]. exists e. split; [apply Hes; by exists p|by apply Hspec].
      - intros (e & He & Hm). apply Hes in He as (p & Hp & Ee). exists p. split; [done|]. destruct (Hps p Hp) as (P & Hn & Hrv & _).
        pose proof (make_evolved_spec sq k st G M L ins V HLI O rest c p E σ (Ip p Hp) P Hs Hrv) as Hspec. rewrite Ee in Hspec. by apply Hspec. }
    assert (forall e, e ∈ es -> table_for_places k c (ep_a e) (ep_v e) = Some t /\ pat_ok k L rest c e /\ (exists a at_, ep_a e = EpEntid a /\ kn_attr k a = Some at_) /\ (forall v, v ∈ ep_vars e -> v ∈ U)) as He.
    { intros e He. apply Hes in He as (p & Hp & Ee). destruct (Hps p Hp) as (P & Hn & Hrv & HU & Ht). pose proof (make_evolved_parts _ _ _ _ Ee) as Hev. split_and!.
      - by rewrite (evolution_table _ _ _ _ Hev).
      - eapply evolve_pattern_ok; [exact HLI|exact (Ip p Hp)|done|exact P| |by eapply once_pattern|by eapply evolution_again].
        eapply make_evolved_shape; [exact HLI|exact (Ip p Hp)|done|exact P|exact Ee].
      - destruct (evolution_named _ _ _ _ Hn Hev) as (a & at_ & H1 & H2 & _). by exists a, at_.
      - intros v Hv. by apply HU, (evolution_vars _ _ _ _ Hn Hev). }
    destruct es as [|e0 es0] eqn:Ees; [done|]. rewrite <- Ees in *. assert (e0 ∈ es) as He0 by (rewrite Ees; by left).
    unfold alias_table in Hr. destruct (He e0 He0) as (Ht0 & _). rewrite Ht0 in Hr. set (al := ADatoms (c_next c)) in *. set (cn := with_next (S (c_next c)) c) in *.
    set (r := make_receptacle (use_as_template U c)). change (map (simple_arm k (use_as_template U c) al) es) with (map (fun e => apply_for_alias k e al r) es) in Hr.
    destruct (embed_receptacle c U Hne) as [Hfr Hcn]. fold r in Hfr, Hcn. specialize (Hcn (S (c_next c))). fold cn in Hcn.
    assert (framed cn U r) as Hfr'. { destruct Hfr as [F1 F2]. split; unfold cn; destruct c as [[]]; done. }
    set (arm := fun e => apply_for_alias k e al r) in *.
    assert (forall e, e ∈ es -> aliased k t e c = push_from (t, al) (embed cn (arm e))) as Hal.
    { intros e Hin. destruct (He e Hin) as (_ & _ & (a & at_ & H1 & H2) & HU). unfold aliased. fold al cn. rewrite Hcn at 1. by rewrite (embed_apply k cn U e a at_ al r H1 H2 HU Hfr'). }
    assert (forall x, x ∈ rest -> x ∈ flat_map pattern_vars ps ++ rest) as Hrest by (intros x Hx; apply elem_of_app; by right).
    pose proof (inv_weaken sq k st M L ins V _ _ _ _ _ Hrest I) as I0.
    assert (forall e, e ∈ es -> inv O rest (c_from (aliased k t e c)) (aliased k t e c) /\ forall E0 σ, Sat (aliased k t e c) E0 σ <-> Sat c E0 σ /\ ematches st σ e) as Hok.
    { intros e Hin. destruct (He e Hin) as (H1 & H2 & _). by destruct (aliased_ok sq k st G M L ins V O rest t e c I0 H2 H1) as (H3 & _ & _ & H4). }
    assert (forall e, e ∈ es -> c_empty (arm e) = true -> forall E0 σ, Sat c E0 σ -> ~ ematches st σ e) as Hdead.
    { intros e Hin Hemp E0 σ Hs Hm. assert (Sat (aliased k t e c) E0 σ) as H by (by apply Hok). apply Sat_ne in H. rewrite Hal in H by done. change (c_empty (arm e) = false) in H. congruence. }
    destruct (filter (fun r => c_empty r = false) (map arm es)) as [|r0 rs0] eqn:Ers.
    { injection Hr as <-. split; [left; by unfold cn; destruct c as [[]]|]. intros E0 σ. split; [intros H%Sat_ne; by unfold cn in H; destruct c as [[]]|].
      intros [Hs Hm]. exfalso. apply Hmatch in Hm as (e & Hin & Hm); [|by exists E0]. refine (Hdead e Hin _ E0 σ Hs Hm).
      destruct (c_empty (arm e)) eqn:Ea; [done|]. assert (arm e ∈ filter (fun r => c_empty r = false) (map arm es)) as H; [|rewrite Ers in H; by apply elem_of_nil in H].
      apply elem_of_list_filter. split; [done|]. apply elem_of_list_fmap. by exists e. }
    rewrite <- Ers in Hr. set (rs := filter _ _) in *. assert (forall r1, r1 ∈ rs <-> c_empty r1 = false /\ exists e, e ∈ es /\ r1 = arm e) as Hrs.
    { intros r1. unfold rs. rewrite elem_of_list_filter, elem_of_list_fmap. naive_solver. }
    clearbody rs. assert (r0 ∈ rs) as Hr0 by (rewrite Ers; by left). assert (rs <> []) as Hrs0 by (by rewrite Ers).
    (* they differ in what they demand of the row only *)
    assert (forall r1, r1 ∈ rs -> c_scope r1 = c_scope r0) as Hscope.
    { intros r1 Hr1. apply Hrs in Hr1 as (N1 & e1 & He1 & ->). apply Hrs in Hr0 as (N0 & e2 & He2 & ->). unfold arm in *.
      destruct (He e1 He1) as (_ & _ & (a1 & at1 & A1 & A2) & _). destruct (He e2 He2) as (_ & _ & (a2 & at2 & B1 & B2) & _).
      apply Hes in He1 as (p1 & Hp1 & E1). apply Hes in He2 as (p2 & Hp2 & E2). destruct (Hps p1 Hp1) as (_ & Hn1 & _). destruct (Hps p2 Hp2) as (_ & Hn2 & _).
      pose proof (make_evolved_parts _ _ _ _ E1) as V1. pose proof (make_evolved_parts _ _ _ _ E2) as V2.
      destruct (evolution_named _ _ _ _ Hn1 V1) as (a1' & at1' & A3 & A4 & A5 & A6). assert (a1' = a1) as -> by congruence. assert (at1' = at1) as -> by congruence.
      destruct (evolution_named _ _ _ _ Hn2 V2) as (a2' & at2' & B3 & B4 & B5 & B6). assert (a2' = a2) as -> by congruence. assert (at2' = at2) as -> by congruence.
      destruct (Halike p1 p2 Hp1 Hp2) as (S1 & S2 & S3 & S4). destruct (S4 _ _ A5 B5) as [_ S5].
      apply (twins k e1 e2 a1 a2 at1 at2); try done.
      - eapply place_const; [exact S1|apply V1|apply V2].
      - eapply place_const; [exact S3|apply V1|apply V2].
      - eapply value_sim; [exact S2|exact A6|exact B6].
      - intros v Hv. rewrite Hv in A6. destruct (evolve_value_vars _ _ _ _ _ A6) as [Hpv Hnone]. apply (S5 v Hpv). intros Hi.
        destruct (i_given (Ip p1 Hp1) Hne v) as (y & _ & Hy); [|done|congruence]. unfold pattern_vars. rewrite Hpv, !elem_of_app. left. right. right. left. by left.
      - intros _. apply value_kind in A6. destruct (p_v p1); naive_solver. }
    set (K := c_known r0) in *.
    assert (units c) as Hunits by (intros x ts Hx; by apply (i_known I x)).
    assert (c_known r = restrict U (c_known c) /\ c_vals r = restrict U (c_vals c) /\ c_cols r = ∅ /\ c_wheres r = []) as (Rk & Rv & Rc & Rw) by (by unfold r; destruct c as [[]]).
    assert (within U r r0) as Hw0. { apply Hrs in Hr0 as (_ & e & Hin & ->). destruct (He e Hin) as (_ & _ & (a & at_ & H1 & _) & H2). by apply (within_apply k U e a). }
    assert (c_empty r0 = false) as Hne0 by (by apply Hrs in Hr0 as [? _]).
    assert (units r) as Hur. { intros x ts. rewrite Rk. intros [Hx _]%restrict_lookup. by apply (Hunits x). }
    assert (c_known (fold_left (fun f r => broaden_types (c_known r) f) rs cc_default) = K) as Hfold.
    { assert (Forall (fun r => c_known r = K) rs) as Hall. { apply Forall_forall. intros r1 Hr1. unfold K, c_known. by rewrite (Hscope r1 Hr1). }
      rewrite Ers in Hall |- *. apply Forall_cons_1 in Hall as [H0 Hall]. cbn [fold_left]. apply broaden_all; [done|]. rewrite H0. rewrite broaden_same.
      - apply (right_id_L ∅ (∪)).
      - intros x ts _. left. apply lookup_empty. }
    set (ws := match rs with [r] => c_wheres r | _ => [KOr (map c_wheres rs)] end) in *.
    assert (ws = match rs0 with [] => c_wheres r0 | _ => [KOr (map c_wheres rs)] end) as Hws0 by (unfold ws; clear -Ers; subst rs; by destruct rs0).
    assert (c' = CC (c_scope (push_from (t, al) (embed cn r0))) (c_computed c) (c_wheres c ++ ws)) as Hc'.
    { rewrite <- Hws0 in Hr. rewrite Hfold in Hr. injection Hr as <-. rewrite narrow_same.
      - unfold cn. destruct c as [[] l w]. unfold with_known, add_wheres, push_from, with_cols, with_next, set_scope, embed. cbn. rewrite merge_cols_fold. rewrite Hne0. unfold c_empty in Hne. cbn in Hne. rewrite Hne. reflexivity.
      - intros x ts Hx. destruct (w_units _ _ _ Hw0 Hur x ts Hx) as [ty ->]. split; [by destruct ty|].
        assert (c_known (add_wheres ws (push_from (t, al) (with_cols (fun m => map_fold (fun v cols m => <[v := default [] (m !! v) ++ cols]> m) m (c_cols r0)) cn))) = c_known c) as -> by (by unfold cn; destruct c as [[]]).
        destruct (decide (x ∈ U)) as [HxU|HxU].
        + destruct (c_known c !! x) as [ts'|] eqn:Ek; [right|by left]. rewrite <- (restrict_in U) in Ek by done. rewrite <- Rk in Ek.
          pose proof (w_kept _ _ _ Hw0 Hur Hne0 x ts' Ek) as H. unfold K in Hx. congruence.
        + left. unfold K in Hx. rewrite (w_out _ _ _ Hw0 x HxU), Rk in Hx. by apply restrict_lookup in Hx as [_ ?]. }
    set (cs := map (fun r1 => push_from (t, al) (embed cn r1)) rs).
    assert (forall c1, c1 ∈ cs <-> exists e, e ∈ es /\ c_empty (arm e) = false /\ c1 = aliased k t e c) as Hcs.
    { intros c1. unfold cs. rewrite elem_of_list_fmap. split.
      - intros (r1 & -> & Hr1). apply Hrs in Hr1 as (N1 & e & Hin & ->). exists e. split_and!; try done. by rewrite Hal.
      - intros (e & Hin & N1 & ->). exists (arm e). rewrite Hal by done. split; [done|]. apply Hrs. split; [done|]. by exists e. }
    assert (forall r1, r1 ∈ rs -> c_scope (push_from (t, al) (embed cn r1)) = c_scope c') as Hsc.
    { intros r1 Hr1. rewrite Hc'. cbn [c_scope]. pose proof (Hscope r1 Hr1) as Hs. unfold embed, push_from, c_empty, c_cols, c_known. cbn. by rewrite Hs. }
    assert (c_computed c' = c_computed c) as Hcm by (by rewrite Hc').
    assert (forall r1, c_computed (push_from (t, al) (embed cn r1)) = c_computed c /\ c_wheres (push_from (t, al) (embed cn r1)) = c_wheres c ++ c_wheres r1) as Hparts by (intros r1; unfold cn; by destruct c as [[]]).
    assert (c_from c' = c_from (push_from (t, al) (embed cn r0))) as Hfrom by (by rewrite Hc').
    assert (forall E, Forall (fun kk => holds_in sq st E kk = true) ws <-> exists r1, r1 ∈ rs /\ Forall (fun kk => holds_in sq st E kk = true) (c_wheres r1)) as Hws.
    { intros E. unfold ws. assert (Forall (fun kk => holds_in sq st E kk = true) [KOr (map c_wheres rs)] <-> exists r1, r1 ∈ rs /\ Forall (fun kk => holds_in sq st E kk = true) (c_wheres r1)) as H.
      { rewrite Forall_singleton, holds_or. split; [intros (ks & (r1 & -> & Hr1)%elem_of_list_fmap & H); by exists r1|intros (r1 & Hr1 & H); exists (c_wheres r1); split; [by apply elem_of_list_fmap_1|done]]. }
      destruct rs as [|r1 [|r2 rs']]; [done| |exact H]. split; [intros H'; exists r1; split; [by left|done]|intros (r' & ->%elem_of_list_singleton & H'); done]. }
    destruct (or_join sq k st M L ins V O rest (c_from c') c' cs) as [J1 J2].
    - unfold cs. by rewrite Ers.
    - intros c1 Hc1. pose proof Hc1 as (e & Hin & N1 & E1)%Hcs. apply elem_of_list_fmap in Hc1 as (r1 & -> & Hr1). split_and!; [by apply Hsc|rewrite Hcm; by apply Hparts|].
      rewrite E1. destruct (Hok e Hin) as [H _]. rewrite <- E1 in H |- *. assert (c_from c' = c_from (push_from (t, al) (embed cn r1))) as ->; [|done]. unfold c_from. by rewrite (Hsc r1 Hr1).
    - intros E. rewrite Hc'. cbn [c_wheres]. rewrite Forall_app, Hws. split.
      + intros [H1 (r1 & Hr1 & H2)]. exists (push_from (t, al) (embed cn r1)). split; [apply elem_of_list_fmap; by exists r1|]. destruct (Hparts r1) as [_ ->]. by apply Forall_app.
      + intros (c1 & Hc1 & H). apply elem_of_list_fmap in Hc1 as (r1 & -> & Hr1). destruct (Hparts r1) as [_ Hw]. rewrite Hw in H. apply Forall_app in H as [H1 H2]. split; [done|]. by exists r1.
    - assert (forall r1, r1 ∈ rs -> Forall (respects sq st (lim M c')) (c_wheres c ++ c_wheres r1)) as Hresp.
      { intros r1 Hr1. destruct (Hparts r1) as [Hp1 Hp2]. rewrite <- Hp2. assert (lim M c' = lim M (push_from (t, al) (embed cn r1))) as ->.
        { unfold lim, c_next. by rewrite (Hsc r1 Hr1), Hcm, Hp1. }
        apply Hrs in Hr1 as (N1 & e & Hin & ->). rewrite <- Hal by done. destruct (Hok e Hin) as [H _]. apply H. }
      rewrite Hc' at 2. cbn [c_wheres]. apply Forall_app. split; [specialize (Hresp r0 Hr0); by apply Forall_app in Hresp as [? _]|].
      assert (Forall (respects sq st (lim M c')) [KOr (map c_wheres rs)]) as H.
      { apply Forall_singleton, respects_or, Forall_forall. intros ks (r1 & -> & Hr1)%elem_of_list_fmap. specialize (Hresp r1 Hr1). by apply Forall_app in Hresp as [_ ?]. }
      unfold ws. destruct rs as [|r1 [|r2 rs']]; [done| |exact H]. specialize (Hresp r1 ltac:(by left)). by apply Forall_app in Hresp as [_ ?].
    - split; [by right|]. intros E0 σ.
      assert (Sat c' E0 σ <-> exists e, e ∈ es /\ c_empty (arm e) = false /\ Sat (aliased k t e c) E0 σ) as ->.
      { unfold P_QueryApply.Sat. split.
        - intros (E & HE & Hs). apply J2 in Hs as (c1 & Hc1 & Hs). pose proof Hc1 as (e & Hin & N1 & E1)%Hcs. exists e. split_and!; try done. exists E. rewrite <- E1. split; [|done].
          apply elem_of_list_fmap in Hc1 as (r1 & -> & Hr1). unfold comp, c_from in *. rewrite (Hsc r1 Hr1). destruct (Hparts r1) as [-> _]. by rewrite <- Hcm.
        - intros (e & Hin & N1 & E & HE & Hs). exists E. assert (aliased k t e c ∈ cs) as Hc1 by (apply Hcs; by exists e). split; [|apply J2; by exists (aliased k t e c)].
          rewrite Hal in HE by done. assert (arm e ∈ rs) as Hr1 by (apply Hrs; split; [done|]; by exists e). unfold comp, c_from in *. rewrite (Hsc _ Hr1) in HE. destruct (Hparts (arm e)) as [Hp _]. rewrite Hp in HE. by rewrite Hcm. }
      split.
      + intros (e & Hin & N1 & Hs). apply Hok in Hs as [Hs Hm]; [|done]. split; [done|]. apply Hmatch; [by exists E0|]. by exists e.
      + intros [Hs Hm]. apply Hmatch in Hm as (e & Hin & Hm); [|by exists E0]. exists e. split; [done|]. destruct (c_empty (arm e)) eqn:Ea; [by destruct (Hdead e Hin Ea E0 σ Hs)|].
        split; [done|]. by apply Hok.
  Qed.
End simple.

(* ---------------------------------------------------------------- what the rest of the query sees of it *)

Lemma narrow_parts K c : c_next (narrow_types K c) = c_next c /\ c_from (narrow_types K c) = c_from c /\ c_wheres (narrow_types K c) = c_wheres c
  /\ c_cols (narrow_types K c) = c_cols c /\ c_vals (narrow_types K c) = c_vals c.
Proof.
  unfold narrow_types. generalize (map_to_list K). intros l. revert c. induction l as [|[x ts] l IH]; intros c; cbn [fold_left fst snd]; [done|].
  destruct (IH (narrow_type x ts c)) as (-> & -> & -> & -> & ->). unfold narrow_type.
  destruct (vts_is_empty ts); [by destruct c as [[]]|]. destruct (c_known c !! x); [|by destruct c as [[]]]. destruct (vts_is_empty _); by destruct c as [[]].
Qed.
Lemma step_simple_or k ps (U : gset var) c c' : (forall p, p ∈ ps -> named p /\ forall x, x ∈ pattern_vars p -> x ∈ U) -> apply_simple_or k ps U c = Ok c' -> step c c'.
Proof.
  intros Hps Hr. unfold apply_simple_or in Hr. destruct (c_empty c) eqn:Hne; [injection Hr as <-; apply step_refl|].
  assert (forall e, e ∈ omap (make_evolved k c) ps -> (exists a, ep_a e = EpEntid a) /\ forall x, x ∈ ep_vars e -> x ∈ U) as He.
  { intros e (p & Hp & Ee)%elem_of_list_omap. destruct (Hps p Hp) as [Hn HU]. pose proof (make_evolved_parts _ _ _ _ Ee) as Hev. split.
    - destruct (evolution_named _ _ _ _ Hn Hev) as (a & _ & H & _). by exists a.
    - intros x Hx. by apply HU, (evolution_vars _ _ _ _ Hn Hev). }
  set (es := omap (make_evolved k c) ps) in *. clearbody es. destruct es as [|e0 es0] eqn:Ees; [done|]. rewrite <- Ees in *.
  unfold alias_table in Hr. destruct (table_for_places k c (ep_a e0) (ep_v e0)) as [t|]; [|done]. set (al := ADatoms (c_next c)) in *. set (cn := with_next (S (c_next c)) c) in *.
  destruct (filter (fun r => c_empty r = false) _) as [|r0 rs0] eqn:Ers; [injection Hr as <-; unfold cn; eapply step_trans; [apply (step_with_next (S (c_next c))); lia|apply step_mark_empty]|].
  set (r := make_receptacle (use_as_template U c)) in *.
  assert (c_empty r0 = false /\ exists e, e ∈ es /\ r0 = apply_for_alias k e al r) as (Hne0 & e & Hin & Hr0).
  { assert (r0 ∈ filter (fun r => c_empty r = false) (map (simple_arm k (use_as_template U c) al) es)) as H by (rewrite Ers; by left).
    apply elem_of_list_filter in H as [H (e & -> & Hin)%elem_of_list_fmap]. split; [done|]. by exists e. }
  destruct (He e Hin) as ([a Ha] & HU). pose proof (within_apply k U e a al r Ha HU) as Hw. rewrite <- Hr0 in Hw.
  assert (weighty r0) as W0. { rewrite Hr0. apply apply_for_alias_weighty. by rewrite Ha. }
  set (ws := match rs0 with [] => c_wheres r0 | _ => [KOr (map c_wheres (r0 :: rs0))] end) in *.
  assert (ws <> []) as Hws. { unfold ws. destruct rs0; [|done]. destruct W0 as [?|?]; [congruence|done]. }
  set (K := c_known _) in Hr. set (cm := with_cols _ cn) in Hr.
  assert (c' = narrow_types K (add_wheres ws (push_from (t, al) cm))) as -> by (injection Hr as <-; unfold ws; by destruct rs0). clear Hr.
  destruct (narrow_parts K (add_wheres ws (push_from (t, al) cm))) as (N1 & N2 & N3 & N4 & N5).
  assert (c_next (add_wheres ws (push_from (t, al) cm)) = S (c_next c)) as M1 by (by unfold cm, cn; destruct c as [[]]).
  assert (c_wheres (add_wheres ws (push_from (t, al) cm)) = c_wheres c ++ ws) as M3 by (by unfold cm, cn; destruct c as [[]]).
  assert (c_vals (add_wheres ws (push_from (t, al) cm)) = c_vals c) as M5 by (by unfold cm, cn; destruct c as [[]]).
  assert (c_cols (add_wheres ws (push_from (t, al) cm)) = merge_cols (c_cols c) (c_cols r0)) as M4.
  { rewrite <- merge_cols_fold. by unfold cm, cn; destruct c as [[]]. }
  rewrite M1 in N1. rewrite M3 in N3. rewrite M4 in N4. rewrite M5 in N5.
  assert (forall cx, c_wheres cx = c_wheres c ++ ws -> weighty cx) as Hwt. { intros cx H. right. rewrite H. intros [_ ?]%app_eq_nil. done. }
  split.
  - rewrite N1. lia.
  - congruence.
  - intros Hp x v q qs Hx Hq. rewrite N5 in Hx. rewrite N4, merge_cols_lookup in Hq. rewrite N3. apply elem_of_app. left. apply (Hp x v q qs Hx).
    destruct (c_cols r0 !! x) as [l|] eqn:El; [|done]. exfalso. destruct (w_cols _ _ _ Hw x ltac:(by eexists)) as [H|[HxU H]].
    + unfold r in H. destruct c as [[]]. cbn in H. rewrite lookup_empty in H. by destruct H.
    + assert (c_vals r = restrict U (c_vals c)) as Rv by (by unfold r; destruct c as [[]]). rewrite Rv, restrict_in in H by done. congruence.
  - intros _. auto.
  - left. auto.
Qed.
(** Alternatives of one kind are taken as patterns, those that name no attribute or can read no table left out. *)
Lemma deconstruct_alike k c ins u arms :
  (forall x, x ∈ flat_map arm_vars arms -> x ∈ unified u (flat_map arm_vars arms)) -> validate_or u arms = true -> arms <> [] -> fully_unified u (vars_of (flat_map arm_vars arms)) = true /\
  (forall ps, arms = map pattern_arm ps -> (forall p, p ∈ ps -> named p) -> (forall p p', p ∈ ps -> p' ∈ ps -> alike (kn_schema k) ins p p') ->
     match arms with [_] => True | _ => deconstruct k c u arms = decided (List.filter (fun p => is_some (place_table k c p)) ps) end).
Proof.
  intros Hu Hv Hne. assert (fully_unified u (vars_of (flat_map arm_vars arms)) = true) as Hf.
  { destruct u as [|vs]; [done|]. cbn. apply bool_decide_eq_true. f_equal. apply set_eq. intros x. unfold vars_of. rewrite !elem_of_list_to_set. split; [|apply Hu]. intros Hx.
    destruct arms as [|a arms]; [done|]. cbn in Hv. apply andb_true_iff in Hv as [Hv _]. apply bool_decide_eq_true in Hv. cbn [flat_map]. apply elem_of_app. left.
    assert (x ∈ vars_of (arm_vars a)) as H. { apply Hv. unfold vars_of. by apply elem_of_list_to_set. } unfold vars_of in H. by apply elem_of_list_to_set in H. }
  split; [done|]. intros ps -> Hn Ha. unfold deconstruct. rewrite Hf. cbn [negb].
  assert (decon_loop k c [] [] None (map pattern_arm ps) = decided (List.filter (fun p => is_some (place_table k c p)) ps)) as H.
  { apply (decon_spec k c ps [] [] None); [|done]. intros p p' Hp Hp'. cbn in Hp, Hp'. split; [by eapply alike_shape; [apply Hn|apply Hn|apply Ha]|]. intros t t' Ht Ht'. eapply (alike_table k c ins p p'); eauto. }
  destruct ps as [|p [|p' ps]]; [done|done|exact H].
Qed.

Section alternatives.
  Context (sq : sqlite) (k : known) (st : store) (G : store_good (sc_attribute_map (kn_schema k)) st) (CO : cache_ok k st) (NC : uncached k).
  Context (M : option nat) (L : string -> Prop) (ins : list string) (V : gmap string typed_value) (HLI : forall x, L x -> x ∉ ins).
  Notation inv := (inv sq k st M L ins V).
  Notation Sat := (Sat sq st).
  Notation good := (good sq k st M L ins V).
  Notation matches := (matches st (kn_schema k)).
  Notation psafe := (psafe L ins V).

  Lemma inputs_rvals O rest c p : inv O (pattern_vars p ++ rest) (c_from c) c -> c_empty c = false -> ref_inputs ins V p -> rvals c p.
  Proof using NC.
    intros I Hne Hr x v Hx Hv. pose proof (i_own I NC x v Hv) as Hi. destruct (i_given I Hne x) as (v' & H1 & H2); [apply elem_of_app; left; by apply place_vars_pattern|done|].
    apply (Hr x); [exact Hx|done|congruence].
  Qed.
  Lemma one_pattern_ok O rest p c c' : good O (pattern_vars p ++ rest) c -> once L (pattern_vars p ++ rest) -> psafe p -> ref_inputs ins V p ->
    apply_clause k (CPattern p) c = Ok c' -> good O rest c' /\ forall E0 σ, Sat c' E0 σ <-> Sat c E0 σ /\ matches σ p.
  Proof using G CO NC HLI.
    intros Hg Ho P Hri Hr. destruct (c_empty c) eqn:Hne.
    { assert (step c c') as Hst. { cbn [apply_clause] in Hr. destruct (make_evolved k c p); injection Hr as <-; [apply step_apply_pattern|apply step_mark_empty]. }
      pose proof (st_empty _ _ Hst Hne) as He. split; [by left|]. intros E0 σ. split; [intros H%Sat_ne; congruence|intros [H%Sat_ne _]; congruence]. }
    pose proof (good_inv _ _ _ _ _ _ _ _ _ _ Hg Hne) as I. pose proof (inputs_rvals O rest c p I Hne Hri) as Hrv.
    assert (forall E0 σ, Sat c E0 σ -> match make_evolved k c p with Some e => (matches σ p <-> ematches st σ e) /\ evolved k L p e | None => ~ matches σ p end) as Hspec.
    { intros E0 σ (E & HE & Hs). by apply (make_evolved_spec sq k st G M L ins V HLI O rest c p E σ I P Hs Hrv). }
    cbn [apply_clause] in Hr. destruct (make_evolved k c p) as [e|] eqn:Ee; injection Hr as <-.
    - assert (pat_ok k L rest c e) as Hok.
      { eapply evolve_pattern_ok; [exact HLI|exact I|done|exact P|by eapply make_evolved_shape|done|]. eapply evolution_again. by apply (make_evolved_parts _ _ p). }
      assert (inv O rest (c_from c) c) as I0. { eapply inv_weaken; [|exact I]. intros x Hx. apply elem_of_app. by right. }
      destruct (apply_pattern_ok sq k st G CO M L ins V O rest e c I0 Hok) as (I' & _ & _ & Hs). split; [by right|]. intros E0 σ. rewrite Hs. split; (intros [H1 H2]; split; [done|]).
      + by apply (Hspec E0 σ H1).
      + by apply (Hspec E0 σ H1).
    - split; [left; by destruct c as [[]]|]. intros E0 σ. split; [intros H%Sat_ne; by destruct c as [[]]|intros [H1 H2]; by destruct (Hspec E0 σ H1)].
  Qed.
  (** A pattern that can read no table matches nothing. *)
  Lemma tableless O rest p c E0 σ : inv O (pattern_vars p ++ rest) (c_from c) c -> once L (pattern_vars p ++ rest) -> psafe p -> ref_inputs ins V p ->
    place_table k c p = None -> Sat c E0 σ -> ~ matches σ p.
  Proof using G CO NC HLI.
    intros I Ho P Hri Ht Hs Hm. pose proof (Sat_ne _ _ _ _ _ Hs) as Hne.
    assert (exists c', apply_clause k (CPattern p) c = Ok c' /\ c_empty c' = true) as (c' & Hr & He).
    { cbn [apply_clause]. destruct (make_evolved k c p) as [e|] eqn:Ee; (eexists; split; [done|]); [|by destruct c as [[]]].
      unfold apply_pattern. assert (attempt_cache k e c = (c, false) \/ attempt_cache k e c = (mark_empty c, true)) as [-> | ->]; [|..|by destruct c as [[]]].
      { unfold attempt_cache. destruct (ep_tx e); try (by left). destruct (ep_a e) as [| |a]; try (by left). destruct (kn_attr k a); [|by right]. destruct (NC a) as [-> ->]. by left. }
      unfold alias_table. rewrite (evolution_table _ _ p _ (make_evolved_parts _ _ _ _ Ee)), Ht. by destruct c as [[]]. }
    destruct (one_pattern_ok O rest p c c' (or_intror I) Ho P Hri Hr) as [_ Hiff]. assert (Sat c' E0 σ) as H by (by apply Hiff). apply Sat_ne in H. congruence.
  Qed.
  Lemma alternatives_ok O rest ps (U : gset var) u c c' :
    good O (flat_map pattern_vars ps ++ rest) c -> once L (flat_map pattern_vars ps ++ rest) ->
    (forall p, p ∈ ps -> psafe p /\ named p /\ ref_inputs ins V p /\ (forall x, x ∈ pattern_vars p -> x ∈ U)) ->
    (forall p p', p ∈ ps -> p' ∈ ps -> alike (kn_schema k) ins p p') ->
    match decided (List.filter (fun p => is_some (place_table k c p)) ps) with
    | DEmpty => Ok (mark_empty c) | DUnitPattern p => apply_clause k (CPattern p) c | DSimple ps => apply_simple_or k ps U c | _ => u end = Ok c' ->
    good O rest c' /\ forall E0 σ, Sat c' E0 σ <-> Sat c E0 σ /\ exists p, p ∈ ps /\ matches σ p.
  Proof using G CO NC HLI.
    intros Hg Ho Hps Hal Hr. set (qs := List.filter _ ps) in *.
    assert (forall p, p ∈ qs <-> p ∈ ps /\ is_some (place_table k c p) = true) as Hqs. { intros p. unfold qs. rewrite !elem_of_list_In. apply filter_In. }
    destruct (c_empty c) eqn:Hne.
    { assert (step c c') as Hst.
      { destruct qs as [|p [|p' qs']] eqn:Eq; cbn [decided] in Hr.
        - injection Hr as <-. apply step_mark_empty.
        - cbn [apply_clause] in Hr. destruct (make_evolved k c p); injection Hr as <-; [apply step_apply_pattern|apply step_mark_empty].
        - eapply step_simple_or; [|exact Hr]. intros q Hq. apply Hqs in Hq as [Hq _]. destruct (Hps q Hq) as (_ & ? & _ & ?). done. }
      pose proof (st_empty _ _ Hst Hne) as He. split; [by left|]. intros E0 σ. split; [intros H%Sat_ne; congruence|intros [H%Sat_ne _]; congruence]. }
    pose proof (good_inv _ _ _ _ _ _ _ _ _ _ Hg Hne) as I.
    assert (forall p, p ∈ ps -> inv O (pattern_vars p ++ rest) (c_from c) c) as Ip.
    { intros p Hp. eapply inv_weaken; [|exact I]. intros x. rewrite !elem_of_app. intros [Hx|Hx]; [left|by right]. by apply (in_flat _ _ _ p). }
    assert (forall p, p ∈ ps -> once L (pattern_vars p ++ rest)) as Op by (intros p Hp; by eapply once_pattern).
    assert (forall E0 σ, Sat c E0 σ -> (exists p, p ∈ ps /\ matches σ p) <-> exists p, p ∈ qs /\ matches σ p) as Hleft.
    { intros E0 σ Hs. split; intros (p & Hp & Hm); exists p; (split; [|done]); [|by apply Hqs in Hp as [? _]]. apply Hqs. split; [done|]. destruct (place_table k c p) eqn:Et; [done|].
      exfalso. destruct (Hps p Hp) as (P & _ & Hri & _). by apply (tableless O rest p c E0 σ (Ip p Hp) (Op p Hp) P Hri Et Hs). }
    assert (good O rest c' /\ forall E0 σ, Sat c' E0 σ <-> Sat c E0 σ /\ exists p, p ∈ qs /\ matches σ p) as [H1 H2].
    2:{ split; [done|]. intros E0 σ. rewrite H2. split; (intros [Hs Hm]; split; [done|]); by apply (Hleft E0 σ Hs). }
    destruct qs as [|p [|p' qs']] eqn:Eq; cbn [decided] in Hr.
    - injection Hr as <-. split; [left; by destruct c as [[]]|]. intros E0 σ. split; [intros H%Sat_ne; by destruct c as [[]]|intros [_ (p & Hp & _)]; by apply elem_of_nil in Hp].
    - assert (p ∈ ps) as Hp by (by apply (Hqs p); left). destruct (Hps p Hp) as (P & _ & Hri & _).
      destruct (one_pattern_ok O rest p c c' (or_intror (Ip p Hp)) (Op p Hp) P Hri Hr) as [H1 H2]. split; [done|]. intros E0 σ. rewrite H2.
      split; (intros [Hs Hm]; split; [done|]); [exists p; split; [by left|done]|]. by destruct Hm as (q & ->%elem_of_list_singleton & Hm).
    - rewrite <- Eq in *. assert (exists t, forall q, q ∈ qs -> place_table k c q = Some t) as [t Ht].
      { assert (p ∈ qs) as Hp by (rewrite Eq; by left). pose proof (proj1 (Hqs p) Hp) as [Hp' Ht]. destruct (place_table k c p) as [t|] eqn:Et; [|done]. exists t. intros q Hq.
        pose proof (proj1 (Hqs q) Hq) as [Hq' Hqt]. destruct (place_table k c q) as [t'|] eqn:Et'; [|done]. f_equal. symmetry.
        eapply (alike_table k c ins p q); [by apply Hps|by apply Hps|by apply Hal|done|done]. }
      assert (forall vs, (forall x : string, x ∈ flat_map pattern_vars qs ++ vs -> x ∈ flat_map pattern_vars ps ++ vs)) as Hsub.
      { intros vs x. rewrite !elem_of_app. intros [Hx|Hx]; [left|by right]. apply elem_of_list_In, in_flat_map in Hx as (q & Hq & Hx). apply elem_of_list_In, Hqs in Hq as [Hq _]. apply (in_flat _ _ _ q); [done|]. by apply elem_of_list_In. }
      apply (simple_or_ok sq k st G M L ins V HLI O rest qs U c c' t); try done.
      + eapply inv_weaken; [|exact I]. auto.
      + clear - Ho. unfold qs. clear qs. revert Ho. assert (forall pre, once L (pre ++ flat_map pattern_vars ps ++ rest) -> once L (pre ++ flat_map pattern_vars (List.filter (fun p => is_some (place_table k c p)) ps) ++ rest)) as H.
        { induction ps as [|p ps IH]; intros pre H; [done|]. cbn [flat_map List.filter] in *. rewrite <- app_assoc in H. destruct (is_some (place_table k c p)).
          - cbn [flat_map]. rewrite <- app_assoc. rewrite (assoc_L (++)) in H |- *. by apply IH.
          - apply IH. by eapply once_part. }
        apply (H []).
      + intros q Hq. pose proof (proj1 (Hqs q) Hq) as [Hq' _]. destruct (Hps q Hq') as (P & Hn & Hri & HU). split_and!; try done; [|by apply Ht]. by apply (inputs_rvals O rest), Hri; [apply Ip|].
      + intros q q' Hq Hq'. apply Hal; by apply Hqs.
  Qed.
End alternatives.

(** Alternatives that become a table of their own. *)
From Verif Require Import M_Query Spec_Query Spec_Union Spec_Value Spec_Sets Spec_Cache P_Value P_Sets P_QuerySql P_QuerySat P_QueryPat P_QueryInv P_QueryApply P_QueryClauses P_QueryFinish P_QueryStep P_QueryPred P_QueryOr P_QueryMain P_QueryProj.

(* ---------------------------------------------------------------- what an alternative says about types *)

Lemma inter_one ts t : vts_contains ts t = true -> vts_intersection ts (vts_of_one t) = vts_of_one t.
Proof. intros H. apply one_subset in H. unfold vts_is_subset in H. apply N.eqb_eq in H. unfold vts_intersection. rewrite N.land_comm. done. Qed.
Lemma inter_one_empty ts t : vts_contains ts t = false -> vts_is_empty (vts_intersection ts (vts_of_one t)) = true.
Proof. intros H. apply one_disjoint in H. unfold vts_is_disjoint in H. unfold vts_is_empty, vts_intersection. by rewrite N.land_comm. Qed.

Section frame.
  Context (k : known) (NC : uncached k) (U : gset var).
  Record frame (c c' : cc) : Prop := {
    fm_ne : c_empty c' = false -> c_empty c = false;
    fm_vals : c_vals c' = c_vals c;
    fm_required : c_required c' = c_required c;
    fm_kept : c_empty c' = false -> forall x t, c_known c !! x = Some (vts_of_one t) -> c_known c' !! x = Some (vts_of_one t);
    fm_out : forall x, x ∉ U -> c_known c' !! x = c_known c !! x;
    fm_bound : forall x, is_Some (c_cols c !! x) -> is_Some (c_cols c' !! x) }.
  Lemma frame_refl c : frame c c.
  Proof using Type. by split. Qed.
  Lemma frame_trans c1 c2 c3 : frame c1 c2 -> frame c2 c3 -> frame c1 c3.
  Proof using Type.
    intros [A1 A2 A3 A4 A5 A6] [B1 B2 B3 B4 B5 B6]. split; [auto|congruence|congruence| | |auto].
    - intros Hne x t Hx. apply B4; [done|]. apply A4; [auto|done].
    - intros x Hx. rewrite B5, A5 by done. done.
  Qed.
  Lemma frame_same c c' : (c_empty c' = false -> c_empty c = false) -> c_vals c' = c_vals c -> c_required c' = c_required c -> c_known c' = c_known c -> c_cols c' = c_cols c -> frame c c'.
  Proof using Type. intros H1 H2 H3 H4 H5. split; try done; rewrite ?H4, ?H5; auto. Qed.
  Lemma frame_add_where kk c : frame c (add_where kk c).
  Proof using Type. apply frame_same; by destruct c. Qed.
  Lemma frame_mark_empty c : frame c (mark_empty c).
  Proof using Type. apply frame_same; by destruct c as [[]]. Qed.
  Lemma frame_with_next n c : frame c (with_next n c).
  Proof using Type. apply frame_same; by destruct c as [[]]. Qed.
  Lemma frame_push_from x c : frame c (push_from x c).
  Proof using Type. apply frame_same; by destruct c as [[]]. Qed.
  Lemma frame_constrain_var v t c : v ∈ U -> frame c (constrain_var v t c).
  Proof using Type.
    intros Hv. assert (c_known (constrain_var v t c) = <[v := vts_of_one t]> (c_known c)) as Hk. { unfold constrain_var. destruct c as [[] l w]. by repeat case_match. }
    destruct (cols_constrain_var v t c) as [Hc _]. split; rewrite ?Hk, ?Hc; auto.
    - apply (g_ne _ _ (grows_constrain_var v t c)).
    - apply (g_vals _ _ (grows_constrain_var v t c)).
    - unfold constrain_var. destruct c as [[] l w]. by repeat case_match.
    - intros Hne x t' Hx. destruct (decide (x = v)) as [->|Hxv]; [|by rewrite lookup_insert_ne]. rewrite lookup_insert.
      unfold constrain_var in Hne. rewrite Hx in Hne. destruct (vts_contains (vts_of_one t') t) eqn:Ec; [by apply one_contains_iff in Ec as ->|]. by destruct c as [[]].
    - intros x Hx. rewrite lookup_insert_ne; [done|]. by intros ->.
  Qed.
  Lemma frame_narrow_type v ts c : v ∈ U -> frame c (narrow_type v ts c).
  Proof using Type.
    intros Hv. unfold narrow_type. destruct (vts_is_empty ts) eqn:Ets; [apply frame_mark_empty|].
    assert (forall ts', (forall t, c_known c !! v = Some (vts_of_one t) -> ts' = vts_of_one t) -> frame c (put_known v ts' c)) as Hput.
    { intros ts' Hts. destruct c as [[] l w]. split; try done; cbn in *.
      - intros _ x t Hx. destruct (decide (x = v)) as [->|Hxv]; [|by rewrite lookup_insert_ne]. rewrite lookup_insert. f_equal. by apply Hts.
      - intros x Hx. rewrite lookup_insert_ne; [done|]. by intros ->. }
    destruct (c_known c !! v) as [ex|] eqn:Ek; [|by apply Hput].
    destruct (vts_is_empty (vts_intersection ts ex)) eqn:Ei.
    - destruct c as [[] l w]. split; try done; cbn. intros x Hx. rewrite lookup_insert_ne; [done|]. by intros ->.
    - apply Hput. intros t [= ->]. destruct (vts_contains ts t) eqn:Ec; [by apply inter_one|]. by rewrite (inter_one_empty ts t Ec) in Ei.
  Qed.
  Lemma frame_bind q v c : v ∈ U -> frame c (bind_column k q v c).
  Proof using Type.
    intros Hv. unfold bind_column, constrain_constant. destruct (c_vals c !! v); [repeat case_match; auto using frame_add_where, frame_mark_empty|].
    set (late := bool_decide _). assert (forall c0, frame c0 (with_cols (fun m => <[v := default [] (m !! v) ++ [q]]> m) c0)) as H.
    { intros [[] l w]. split; try done. cbn. intros x Hx. destruct (decide (x = v)) as [->|Hxv]; [rewrite lookup_insert; by eexists|by rewrite lookup_insert_ne]. }
    destruct (_ && _ && _)%bool; [|apply H]. destruct (associated_tag q); [|apply H]. eapply frame_trans; [|apply H]. apply frame_same; by destruct c as [[]].
  Qed.
  Lemma bound_bind q v c : c_vals c !! v = None -> is_Some (c_cols (bind_column k q v c) !! v).
  Proof using Type.
    intros Hv. unfold bind_column. rewrite Hv. assert (forall c0, is_Some (c_cols (with_cols (fun m => <[v := default [] (m !! v) ++ [q]]> m) c0) !! v)) as H; [|apply H].
    intros [[] l w]. cbn. rewrite lookup_insert. by eexists.
  Qed.
  Lemma frame_to_ref p c : (forall v, v ∈ eplace_vars p -> v ∈ U) -> frame c (constrain_to_ref p c).
  Proof using Type. intros H. destruct p as [|v|]; [apply frame_refl| |apply frame_refl]. apply frame_constrain_var, H. by left. Qed.
  Lemma frame_eplace q p c : (forall v, v ∈ eplace_vars p -> v ∈ U) -> frame c (apply_eplace k q p c).
  Proof using Type. intros H. destruct p as [|v|]; [apply frame_refl| |apply frame_add_where]. apply frame_bind, H. by left. Qed.
  Lemma frame_value al t p c : (forall v, p = EvVar v -> v ∈ U) -> frame c (apply_value k al t p c).1.
  Proof using Type.
    intros H. unfold apply_value, constrain_constant. destruct p as [|v| | | |]; [|specialize (H v eq_refl)|..]; repeat case_match; cbn [fst];
      eauto using frame_refl, frame_mark_empty, frame_add_where, frame_bind, frame_constrain_var, frame_trans.
  Qed.
  Lemma value_settled al t v c c' : apply_value k al (Some t) (EvVar v) c = (c', false) -> c_vals c !! v = None -> c_empty c' = false ->
    c_known c' !! v = Some (vts_of_one t) /\ is_Some (c_cols c' !! v).
  Proof using Type.
    cbn [apply_value]. intros H Hv Hne. destruct (c_empty (constrain_var v t c)) eqn:Ee; [done|]. injection H as <-.
    rewrite known_bind_column. split; [by apply known_constrain_var|]. apply bound_bind. by rewrite (g_vals _ _ (grows_constrain_var v t c)).
  Qed.
  Lemma value_stop al t p c c' : apply_value k al t p c = (c', true) -> c_empty c' = true.
  Proof using Type. unfold apply_value. intros H. repeat case_match; simplify_eq; try done; by destruct c as [[]]. Qed.

  Definition settled (c : cc) (p : pattern) : Prop := forall x, x ∈ pattern_vars p -> c_vals c !! x = None ->
    is_Some (c_cols c !! x) /\ (x ∈ place_vars p -> c_known c !! x = Some (vts_of_one VTRef))
    /\ (p_v p = VVar x -> exists at_, attribute_of (kn_schema k) p = Some at_ /\ c_known c !! x = Some (vts_of_one (at_type at_))).
  Lemma settled_frame c c' p : frame c c' -> c_empty c' = false -> settled c p -> settled c' p.
  Proof using Type.
    intros [A1 A2 A3 A4 A5 A6] Hne Hs x Hx Hv. rewrite A2 in Hv. destruct (Hs x Hx Hv) as (H1 & H2 & H3). split_and!; [auto|auto|].
    intros Hp. destruct (H3 Hp) as (at_ & Ha & Hk). exists at_. auto.
  Qed.
  Lemma apply_settled p e c0 al c : named p -> evolution k c0 p e -> c_vals c = c_vals c0 -> (forall x, x ∈ pattern_vars p -> x ∈ U) ->
    frame c (apply_for_alias k e al c) /\ (c_empty (apply_for_alias k e al c) = false -> settled (apply_for_alias k e al c) p).
  Proof using Type.
    intros Hn Hev Hvals HU. destruct (evolution_named _ _ _ _ Hn Hev) as (a & at_ & Ha & Hat & Hof & Hval). pose proof (evolution_vars _ _ _ _ Hn Hev) as Hvars.
    assert (forall v, v ∈ ep_vars e -> v ∈ U /\ c_vals c !! v = None) as HeU. { intros v Hv. rewrite Hvals. destruct (Hvars v Hv). auto. } clear Hvars.
    unfold ep_vars in HeU. unfold apply_for_alias. destruct (c_empty c) eqn:Ee. { split; [apply frame_refl|]. congruence. }
    rewrite Ha. cbn [constrain_to_ref]. rewrite Hat.
    set (c1 := constrain_to_ref (ep_tx e) c). assert (frame c c1) as F1 by (apply frame_to_ref; intros v Hv; apply HeU; rewrite !elem_of_app; auto).
    set (c2 := constrain_to_ref (ep_e e) c1). assert (frame c1 c2) as F2 by (apply frame_to_ref; intros v Hv; apply HeU; rewrite !elem_of_app; auto).
    set (c3 := apply_eplace k (al, CE) (ep_e e) c2). assert (frame c2 c3) as F3 by (apply frame_eplace; intros v Hv; apply HeU; rewrite !elem_of_app; auto).
    set (c4 := add_where _ c3). assert (frame c3 c4) as F4 by apply frame_add_where.
    assert (value_type_for k c4 (EpEntid a) = Some (at_type at_)) as -> by (unfold value_type_for; by rewrite Hat).
    assert (frame c4 (apply_value k al (Some (at_type at_)) (ep_v e) c4).1) as F5. { apply frame_value. intros v Hv. apply HeU. rewrite !elem_of_app, Hv. right. left. by left. }
    destruct (apply_value k al (Some (at_type at_)) (ep_v e) c4) as [c5 stop] eqn:E5. cbn [fst] in F5.
    pose proof (frame_trans _ _ _ F1 (frame_trans _ _ _ F2 F3)) as F13. pose proof (frame_trans _ _ _ F13 F4) as F14. pose proof (frame_trans _ _ _ F14 F5) as F15.
    destruct stop. { split; [done|]. intros Hne. apply value_stop in E5. congruence. }
    set (c6 := apply_eplace k (al, CTx) (ep_tx e) c5). assert (frame c5 c6) as F6 by (apply frame_eplace; intros v Hv; apply HeU; rewrite !elem_of_app; auto).
    split; [by eapply frame_trans|]. intros Hne6. pose proof (fm_ne _ _ F6 Hne6) as Hne5. pose proof (fm_ne _ _ F5 Hne5) as Hne4. pose proof (fm_ne _ _ F4 Hne4) as Hne3.
    pose proof (fm_ne _ _ F3 Hne3) as Hne2. pose proof (fm_ne _ _ F2 Hne2) as Hne1.
    assert (frame c1 c6) as F16. { eapply frame_trans; [exact F2|]. eapply frame_trans; [exact F3|]. eapply frame_trans; [exact F4|]. eapply frame_trans; [exact F5|exact F6]. }
    assert (frame c2 c6) as F26. { eapply frame_trans; [exact F3|]. eapply frame_trans; [exact F4|]. eapply frame_trans; [exact F5|exact F6]. }
    assert (frame c3 c6) as F36. { eapply frame_trans; [exact F4|]. eapply frame_trans; [exact F5|exact F6]. }
    intros x Hx Hvx. rewrite (fm_vals _ _ F16), (fm_vals _ _ F1) in Hvx. rewrite Hvals in Hvx.
    destruct Hev as [V1 _ V3].
    assert (forall q ee, evolve_nplace k c0 q = Some ee -> x ∈ nplace_vars q -> ee = EpVar x) as Hpl.
    { intros q ee Hq Hin. destruct q as [|y| |]; cbn in Hin; try (by apply elem_of_nil in Hin). apply elem_of_list_singleton in Hin as ->. cbn in Hq. rewrite Hvx in Hq. congruence. }
    assert (x ∈ nplace_vars (p_e p) -> is_Some (c_cols c6 !! x) /\ c_known c6 !! x = Some (vts_of_one VTRef)) as He.
    { intros Hin. pose proof (Hpl _ _ V1 Hin) as Hee. split.
      - apply (fm_bound _ _ F36). unfold c3. rewrite Hee. cbn [apply_eplace]. apply bound_bind. by rewrite (fm_vals _ _ F2), (fm_vals _ _ F1), Hvals.
      - apply (fm_kept _ _ F26 Hne6). unfold c2 in *. rewrite Hee in *. cbn [constrain_to_ref] in *. by apply known_constrain_var. }
    assert (x ∈ nplace_vars (p_tx p) -> is_Some (c_cols c6 !! x) /\ c_known c6 !! x = Some (vts_of_one VTRef)) as Htx.
    { intros Hin. pose proof (Hpl _ _ V3 Hin) as Hee. split.
      - unfold c6. rewrite Hee. cbn [apply_eplace]. apply bound_bind. by rewrite (fm_vals _ _ F15), Hvals.
      - apply (fm_kept _ _ F16 Hne6). unfold c1 in *. rewrite Hee in *. cbn [constrain_to_ref] in *. by apply known_constrain_var. }
    assert (x ∉ nplace_vars (p_a p)) as Hna. { unfold named in Hn. destruct (p_a p); try done; apply not_elem_of_nil. }
    assert (p_v p = VVar x -> is_Some (c_cols c6 !! x) /\ c_known c6 !! x = Some (vts_of_one (at_type at_))) as Hvv.
    { intros Hp. rewrite Hp in Hval. cbn in Hval. rewrite Hvx in Hval. injection Hval as Hval. rewrite <- Hval in E5.
      destruct (value_settled _ _ _ _ _ E5) as [H1 H2]; [by rewrite (fm_vals _ _ F14), Hvals|done|]. split; [by apply (fm_bound _ _ F6)|by apply (fm_kept _ _ F6)]. }
    split_and!.
    - unfold pattern_vars in Hx. rewrite !elem_of_app in Hx. destruct Hx as [Hx|[Hx|[Hx|Hx]]]; [by apply He|done| |by apply Htx].
      destruct (p_v p) eqn:Ev; try (by apply elem_of_nil in Hx). apply elem_of_list_singleton in Hx as ->. by apply Hvv.
    - unfold place_vars. rewrite !elem_of_app. intros [H|[H|H]]; [by apply He|done|by apply Htx].
    - intros Hp. exists at_. split; [done|]. by apply Hvv.
  Qed.
  Lemma pattern_settled p e c0 c : named p -> evolution k c0 p e -> c_vals c = c_vals c0 -> (forall x, x ∈ pattern_vars p -> x ∈ U) ->
    frame c (apply_pattern k e c) /\ (c_empty (apply_pattern k e c) = false -> settled (apply_pattern k e c) p).
  Proof using NC.
    intros Hn Hev Hvals HU. destruct (evolution_named _ _ _ _ Hn Hev) as (a & at_ & Ha & Hat & _ & _). unfold apply_pattern.
    assert (attempt_cache k e c = (c, false)) as ->. { unfold attempt_cache. rewrite Ha, Hat. destruct (NC a) as [-> ->]. by destruct (ep_tx e). }
    unfold alias_table. rewrite Ha. destruct (table_for_places k c (EpEntid a) (ep_v e)) as [t|].
    2:{ split; [eapply frame_trans; apply frame_mark_empty|]. by destruct c as [[]]. }
    set (cn := with_next _ c). destruct (apply_settled p e c0 (ADatoms (c_next c)) cn Hn Hev) as [F1 S1]; [by unfold cn; destruct c as [[]]|done|].
    assert (frame (apply_for_alias k e (ADatoms (c_next c)) cn) (push_from (t, ADatoms (c_next c)) (apply_for_alias k e (ADatoms (c_next c)) cn))) as F2 by apply frame_push_from.
    split; [eapply frame_trans; [apply frame_with_next|eapply frame_trans; [exact F1|exact F2]]|]. intros Hne. eapply settled_frame; [exact F2|done|]. apply S1. by apply (fm_ne _ _ F2).
  Qed.

  Lemma evolve_pattern_vals c c' e : c_vals c' = c_vals c -> evolve_pattern c' e = evolve_pattern c e.
  Proof using Type. intros H. unfold evolve_pattern. by rewrite H. Qed.
  Lemma evolved_settled c0 pend : (forall p e, (p, e) ∈ pend -> named p /\ evolution k c0 p e /\ forall x, x ∈ pattern_vars p -> x ∈ U) -> forall c, c_vals c = c_vals c0 ->
    frame c (apply_evolved k (map snd pend) c) /\ (c_empty (apply_evolved k (map snd pend) c) = false -> forall p, p ∈ map fst pend -> settled (apply_evolved k (map snd pend) c) p).
  Proof using NC.
    induction pend as [|[p e] pend IH]; intros Hp c Hv; cbn [map apply_evolved].
    { split; [apply frame_refl|]. intros _ p H. by apply elem_of_nil in H. }
    destruct (Hp p e ltac:(by left)) as (Hn & Hev & HU). cbn [snd fst]. rewrite (evolve_pattern_vals c0 c e Hv), (evolution_again _ _ _ _ Hev).
    destruct (pattern_settled p e c0 c Hn Hev Hv HU) as [F1 S1].
    destruct (IH ltac:(intros p' e' H; apply Hp; by right) (apply_pattern k e c)) as [F2 S2]; [by rewrite (fm_vals _ _ F1)|].
    split; [by eapply frame_trans|]. intros Hne p' [->|Hp']%elem_of_cons; [|by apply S2]. eapply settled_frame; [exact F2|done|]. apply S1. by apply (fm_ne _ _ F2).
  Qed.
  Lemma frame_mark_ref q c : (forall x, x ∈ nplace_vars q -> x ∈ U) -> frame c (mark_as_ref q c).
  Proof using Type. intros H. destruct q as [|v| |]; try apply frame_refl. apply frame_constrain_var, H. by left. Qed.
  Lemma frame_predicate nm ar c c' : (forall x, x ∈ clause_vars (CPred nm ar) -> x ∈ U) -> apply_predicate k nm ar c = Ok c' -> frame c c'.
  Proof using Type.
    intros HU. unfold apply_predicate, apply_inequality. intros Hr. destruct (inequality_of nm) as [op|]; [|done]. destruct ar as [|l [|r [|]]]; try done.
    destruct (potential_types k c l) as [lt| |]; cbn [rbind] in Hr; try done. destruct (vts_is_empty _); [done|].
    destruct (potential_types k c r) as [rt| |]; cbn [rbind] in Hr; try done. destruct (vts_is_empty _); [done|].
    destruct (vts_is_empty _). { injection Hr as <-. apply frame_mark_empty. }
    set (rs := if N.eqb _ _ then _ else _) in Hr.
    assert (forall c a c1 v, (forall x, a = FVar x -> x ∈ U) -> rs c a = Ok (c1, v) -> frame c c1) as Hrs.
    { clear. intros c a c1 v Ha. assert (forall c2 x, first_column c2 x = Ok (c1, v) -> c1 = c2) as Hf. { intros c2 x. unfold first_column. repeat case_match; by intros [= <- _]. }
      unfold rs. destruct (N.eqb _ _); [|destruct (vts_is_only_numeric _); [|destruct (N.eqb _ _); [|done]]]; destruct a as [x|z|kw|[]|]; cbn [resolve_instant resolve_numeric resolve_ref]; try done;
        repeat case_match; try done; intros Hr; first [apply Hf in Hr as ->|injection Hr as <- _];
        first [apply frame_refl|apply frame_constrain_var; by apply Ha|apply frame_narrow_type; by apply Ha]. }
    destruct (rs c l) as [[c1 lv]| |] eqn:E1; cbn [rbind] in Hr; try done. destruct (rs c1 r) as [[c2 rv]| |] eqn:E2; cbn [rbind] in Hr; try done. injection Hr as <-.
    eapply frame_trans; [eapply Hrs; [|exact E1]|eapply frame_trans; [eapply Hrs; [|exact E2]|apply frame_add_where]].
    - intros x ->. apply HU. cbn. by left.
    - intros x ->. apply HU. cbn. rewrite elem_of_app. right. by left.
  Qed.
  Lemma frame_not u cs c c' : apply_clause k (CNot u cs) c = Ok c' -> frame c c'.
  Proof using Type.
    intros Hr. apply apply_clause_not in Hr. unfold apply_not in Hr.
    destruct (bind_unified _ _ _) as [t0| |]; cbn [rbind] in Hr; try done. destruct (apply_clauses_with _ _ _ _) as [t1| |]; cbn [rbind] in Hr; try done.
    destruct (c_empty t1); [injection Hr as <-; apply frame_with_next|]. destruct (process_required _) as [t2| |]; cbn [rbind] in Hr; try done.
    destruct (_ || _)%bool; injection Hr as <-; [apply frame_with_next|]. eapply frame_trans; [apply frame_with_next|apply frame_add_where].
  Qed.
  Definition simple (c : clause) : Prop := match c with CPattern p => named p | CPred _ _ | CNot _ _ => True | _ => False end.
  Lemma second_settled cs : Forall simple cs -> (forall x, x ∈ flat_map clause_vars cs -> x ∈ U) -> forall pend c c',
    (forall p e, (p, e) ∈ pend -> named p /\ evolution k c p e /\ forall x, x ∈ pattern_vars p -> x ∈ U) ->
    second_pass k (apply_clause k) (map snd pend) cs c = Ok c' ->
    frame c c' /\ (c_empty c' = false -> forall p, p ∈ map fst pend \/ CPattern p ∈ cs -> settled c' p).
  Proof using NC.
    induction 1 as [|cl cs Hcl Hcs IH]; intros HU pend c c' Hp Hr.
    { cbn in Hr. injection Hr as <-. destruct (evolved_settled c pend Hp c eq_refl) as [F S]. split; [done|]. intros Hne p [H|H]; [by apply S|by apply elem_of_nil in H]. }
    assert (forall x, x ∈ flat_map clause_vars cs -> x ∈ U) as HU1. { intros x Hx. apply HU. cbn. apply elem_of_app. by right. }
    assert (forall x, x ∈ clause_vars cl -> x ∈ U) as HU2. { intros x Hx. apply HU. cbn. apply elem_of_app. by left. }
    specialize (IH HU1).
    assert ((forall c c', apply_clause k cl c = Ok c' -> frame c c') -> (forall p, cl <> CPattern p) -> rbind (apply_clause k cl (apply_evolved k (map snd pend) c)) (fun c => second_pass k (apply_clause k) [] cs c) = Ok c' ->
      frame c c' /\ (c_empty c' = false -> forall p, p ∈ map fst pend \/ CPattern p ∈ cl :: cs -> settled c' p)) as Hother.
    { intros Hf Hnp Hr'. destruct (evolved_settled c pend Hp c eq_refl) as [F S]. set (c1 := apply_evolved k (map snd pend) c) in *.
      destruct (apply_clause k cl c1) as [c2| |] eqn:E2; cbn [rbind] in Hr'; try done. pose proof (Hf _ _ E2) as F2.
      destruct (IH [] c2 c') as [F3 S3]; [intros p e H; by apply elem_of_nil in H|done|]. pose proof (frame_trans _ _ _ F2 F3) as F4. split; [by eapply frame_trans|].
      intros Hne p [H|[H|H]%elem_of_cons]; [|by destruct (Hnp p)|by apply S3; [|right]]. eapply settled_frame; [exact F4|done|]. apply S; [|done]. by apply (fm_ne _ _ F4). }
    destruct cl as [p|x t|nm ar|u l|u l]; try done; cbn [second_pass] in Hr.
    - destruct (make_evolved k c p) as [e|] eqn:Ee.
      2:{ injection Hr as <-. split; [apply frame_mark_empty|]. by destruct c as [[]]. }
      destruct (IH (pend ++ [(p, e)]) c c') as [F S].
      + intros p' e' [H|H]%elem_of_app; [by apply Hp|]. apply elem_of_list_singleton in H as [= -> ->]. split_and!; [done|by apply make_evolved_parts|done].
      + by rewrite map_app.
      + split; [done|]. intros Hne p' H. apply S; [done|]. rewrite map_app, elem_of_app. destruct H as [H|[[= ->]|H]%elem_of_cons]; [by left; left|left; right; by left|by right].
    - apply Hother; [|done|done]. intros c1 c2. by apply frame_predicate.
    - apply Hother; [|done|done]. intros c1 c2. apply frame_not.
  Qed.
  Lemma arm_settled a c c' : plain_arm a -> (forall x, x ∈ arm_vars a -> x ∈ U) -> apply_arm k a c = Ok c' ->
    frame c c' /\ (c_empty c' = false -> forall p, CPattern p ∈ top_clauses a -> settled c' p).
  Proof using NC.
    intros Ha HU Hr. destruct a as [cl|cs]; cbn [apply_arm top_clauses arm_vars] in *.
    - destruct cl as [p| | | |]; try done. cbn [apply_clause] in Hr. destruct (make_evolved k c p) as [e|] eqn:Ee; injection Hr as <-.
      + destruct (pattern_settled p e c c Ha (make_evolved_parts _ _ _ _ Ee) eq_refl HU) as [F S]. split; [done|]. intros Hne p' [= ->]%elem_of_list_singleton. auto.
      + split; [apply frame_mark_empty|]. by destruct c as [[]].
    - unfold apply_clauses_with in Hr. change [] with (map snd ([] : list (pattern * epattern))) in Hr.
      destruct (second_settled cs Ha HU _ _ _ ltac:(intros p e H; by apply elem_of_nil in H) Hr) as [F S].
      split; [|intros Hne p Hp; apply S; [done|by right]]. eapply frame_trans; [|exact F]. clear - Ha HU. revert c. induction Ha as [|cl cs Hcl Hcs IH]; intros c; [apply frame_refl|]. cbn [fold_left].
      eapply frame_trans; [|apply IH; intros x Hx; apply HU; cbn; apply elem_of_app; by right].
      destruct cl as [p| | | |]; try done; try apply frame_refl. cbn [first_pass].
      assert (forall x, x ∈ pattern_vars p -> x ∈ U) as HUp. { intros x Hx. apply HU. cbn. apply elem_of_app. by left. } unfold pattern_vars in HUp.
      eapply frame_trans; [eapply frame_trans; apply frame_mark_ref|apply frame_mark_ref]; intros x Hx; apply HUp; rewrite !elem_of_app; auto.
  Qed.
End frame.

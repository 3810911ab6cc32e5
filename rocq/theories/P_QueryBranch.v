(** What the table of alternatives that are conjunctions means. *)
From Verif Require Import M_Query Spec_Query Spec_Union Spec_Value Spec_Sets Spec_Cache P_Value P_Sets P_QuerySql P_QuerySat P_QueryPat P_QueryInv P_QueryApply P_QueryClauses P_QueryFinish P_QueryStep P_QueryPred P_QueryOr P_QueryMain P_QueryProj P_QueryUnion.

(* ---------------------------------------------------------------- alternatives that are left *)

Definition left_out (k : known) (c : cc) (b : bool) (a : arm) : Prop := b = false -> exists p, a = AClause (CPattern p) /\ place_table k c p = None.
Lemma decon_complex k c arms : (exists cs, AAnd cs ∈ arms) -> forall ps mask ex, exists m, decon_loop k c ps mask ex arms = DComplex (mask ++ m) /\ Forall2 (left_out k c) m arms.
Proof.
  intros Hand. assert (forall l, Forall2 (left_out k c) (map (fun _ => true) l) l) as Htrue. { induction l; cbn [map]; constructor; [|done]. by intros ?. }
  induction arms as [|a arms IH]; intros ps mask ex; [destruct Hand as [cs H]; by apply elem_of_nil in H|]. cbn [decon_loop].
  assert (exists m, DComplex (mask ++ true :: map (fun _ => true) arms) = DComplex (mask ++ m) /\ Forall2 (left_out k c) m (a :: arms)) as Hcx.
  { eexists. split; [done|]. constructor; [by intros ?|apply Htrue]. }
  destruct a as [[p| | | |]|cs]; try exact Hcx. assert (exists cs, AAnd cs ∈ arms) as Hand'. { destruct Hand as [cs [H|H]%elem_of_cons]; [done|by exists cs]. } specialize (IH Hand').
  fold (place_table k c p). destruct (place_table k c p) as [t|] eqn:Et.
  - destruct (_ && _)%bool; [|exact Hcx]. destruct (IH (ps ++ [p]) (mask ++ [true]) (Some t)) as (m & -> & Hm). exists (true :: m). rewrite <- app_assoc. split; [done|]. constructor; [by intros ?|done].
  - destruct (IH ps (mask ++ [false]) ex) as (m & -> & Hm). exists (false :: m). rewrite <- app_assoc. split; [done|]. constructor; [intros _; by exists p|done].
Qed.

(* ---------------------------------------------------------------- types that are required *)

Lemma quiet l : forall c c', process_required_loop l c = Ok c' -> (forall v ts, (v, ts) ∈ l -> exists t, c_known c !! v = Some (vts_of_one t)) ->
  (c' = c /\ forall v ts t, (v, ts) ∈ l -> c_known c !! v = Some (vts_of_one t) -> vts_contains ts t = true)
  \/ (c' = mark_empty c /\ exists v ts t, (v, ts) ∈ l /\ c_known c !! v = Some (vts_of_one t) /\ vts_contains ts t = false).
Proof.
  induction l as [|[v ts] l IH]; intros c c' Hr Hk; cbn [process_required_loop] in Hr.
  { injection Hr as <-. left. split; [done|]. intros v ts t H. by apply elem_of_nil in H. }
  destruct (Hk v ts ltac:(by left)) as [t Ht]. rewrite Ht in Hr. destruct (vts_contains ts t) eqn:Ec.
  - assert (vts_is_disjoint (vts_of_one t) ts = false) as Hd.
    { destruct (vts_is_disjoint (vts_of_one t) ts) eqn:E; [|done]. unfold vts_is_disjoint in E. pose proof (inter_one ts t Ec) as H. unfold vts_intersection in H. rewrite N.land_comm in H. rewrite H in E. by destruct t. }
    rewrite Hd, (one_subset _ _ Ec) in Hr. destruct (IH c c' Hr) as [[-> H]|(-> & v' & ts' & t' & H)]; [intros v' ts' H; apply (Hk v' ts'); by right| |].
    + left. split; [done|]. intros v' ts' t' [[= -> ->]|Hin]%elem_of_cons Hk'; [|by eapply H]. assert (t' = t) as -> by (apply one_inj; congruence). done.
    + right. split; [done|]. exists v', ts', t'. destruct H as (? & ? & ?). split_and!; try done. by right.
  - rewrite (one_disjoint _ _ Ec) in Hr. injection Hr as <-. right. split; [done|]. exists v, ts, t. split_and!; try done. by left.
Qed.
Lemma process_next l : forall c c', process_required_loop l c = Ok c' -> c_next c' = c_next c.
Proof.
  assert (forall v ts c, c_next (narrow_type v ts c) = c_next c) as Hn. { intros v ts c. unfold narrow_type. repeat case_match; by destruct c as [[]]. }
  induction l as [|[v ts] l IH]; intros c c' Hr; cbn [process_required_loop] in Hr; [by injection Hr as <-|].
  assert (match c_extracted (narrow_type v ts c) !! v with None => Err EAlgebrizer | Some q => process_required_loop l (add_where (KTypes q.1 ts true) (narrow_type v ts c)) end = Ok c' -> c_next c' = c_next c) as Hnar.
  { intros H. destruct (c_extracted _ !! v); [|done]. apply IH in H as ->. rewrite <- (Hn v ts c). by destruct (narrow_type v ts c). }
  destruct (c_known c !! v); [|by apply Hnar]. destruct (vts_is_disjoint _ _); [injection Hr as <-; by destruct c as [[]]|]. destruct (vts_is_subset _ _); [by apply IH|by apply Hnar].
Qed.
Lemma finish_next r r' : finish_arm r = Ok r' -> c_next r' = c_next r.
Proof.
  unfold finish_arm, process_required. assert (c_next (prune_extracted (expand_columns r)) = c_next r) as <- by (by destruct r as [[]]).
  destruct (c_empty _); [by intros [= <-]|]. apply process_next.
Qed.

(* ---------------------------------------------------------------- a weaker step *)

Record wstep (c c' : cc) : Prop := {
  ws_next : (c_next c <= c_next c')%nat;
  ws_empty : c_empty c = true -> c_empty c' = true;
  ws_pinned : pinned c -> pinned c' }.
Lemma wstep_of c c' : step c c' -> wstep c c'.
Proof. intros []. by split. Qed.
Lemma wstep_trans c1 c2 c3 : wstep c1 c2 -> wstep c2 c3 -> wstep c1 c3.
Proof. intros [] []. split; auto. lia. Qed.
Lemma wstep_second_pass k f cs : Forall (fun cl => forall c c', f cl c = Ok c' -> wstep c c') cs -> forall es c c', second_pass k f es cs c = Ok c' -> wstep c c'.
Proof.
  induction 1 as [|cl cs Hcl Hcs IH]; intros es c c' Hr; [injection Hr as <-; apply wstep_of, step_apply_evolved|].
  assert (rbind (f cl (apply_evolved k es c)) (fun c => second_pass k f [] cs c) = Ok c' -> wstep c c') as Hother.
  { clear Hr. intros Hr. destruct (f cl _) as [c1| |] eqn:E1; cbn [rbind] in Hr; try done.
    eapply wstep_trans; [apply wstep_of, (step_apply_evolved k es)|]. eapply wstep_trans; [by eapply Hcl|by eapply IH]. }
  destruct cl as [p|x t|nm ar|u l|u l]; cbn [second_pass] in Hr; [|by eapply IH|by apply Hother..].
  destruct (make_evolved k c p); [by eapply IH|]. injection Hr as <-. apply wstep_of, step_mark_empty.
Qed.
Lemma wstep_clauses k f cs c c' : Forall (fun cl => forall c c', f cl c = Ok c' -> wstep c c') cs -> apply_clauses_with k f cs c = Ok c' -> wstep c c'.
Proof. intros H Hr. eapply wstep_trans; [apply wstep_of, step_first_pass|]. by eapply wstep_second_pass. Qed.
Lemma wstep_same c c' : (c_next c <= c_next c')%nat -> (c_empty c = true -> c_empty c' = true) -> c_wheres c' = c_wheres c -> c_vals c' = c_vals c -> c_cols c' = c_cols c -> wstep c c'.
Proof. intros H1 H2 H3 H4 H5. split; [done|done|]. unfold pinned. by rewrite H3, H4, H5. Qed.
Lemma wstep_join k U rs c c' : join_union k U rs c = Ok c' -> wstep c c'.
Proof.
  unfold join_union. destruct rs as [|r rs]; [intros [= <-]; apply wstep_of, step_mark_empty|]. set (K := fold_left _ rs _). set (need := filter _ _).
  assert (wstep c (broaden_types K c)) as W1.
  { unfold broaden_types. generalize (map_to_list K). intros l. clear. revert c. induction l as [|x l IH]; intros c; cbn [fold_left]; [apply wstep_of, step_refl|].
    eapply wstep_trans; [|apply IH]. unfold broaden_type. destruct (c_known c !! x.1); [|destruct (vts_is_unit _)]; apply wstep_same; by destruct c as [[]]. }
  set (c1 := broaden_types K c) in *. destruct (push_computed _ c1) as [c2 i] eqn:E2.
  assert (wstep c1 c2) as W2. { destruct c1 as [[] l w]. cbn in E2. injection E2 as <- <-. by apply wstep_same. }
  set (c3 := fold_left _ (sorted_vars U) c2). assert (wstep c2 c3) as W3.
  { unfold c3. generalize (sorted_vars U). intros l. clear. revert c2. induction l as [|x l IH]; intros c2; cbn [fold_left]; [apply wstep_of, step_refl|]. eapply wstep_trans; [apply wstep_of, step_bind_column|apply IH]. }
  set (c4 := fold_left _ need c3). assert (wstep c3 c4) as W4.
  { unfold c4. clear. generalize c3. induction need as [|x l IH]; intros c3'; cbn [fold_left]; [apply wstep_of, step_refl|]. eapply wstep_trans; [|apply IH]. apply wstep_same; by destruct c3' as [[]]. }
  intros [= <-]. eapply wstep_trans; [exact W1|]. eapply wstep_trans; [exact W2|]. eapply wstep_trans; [exact W3|]. eapply wstep_trans; [exact W4|]. apply wstep_same; by destruct c4 as [[]].
Qed.

(* ---------------------------------------------------------------- a table more *)

Section more.
  Context (sq : sqlite) (k : known) (st : store) (L : string -> Prop) (ins : list string) (V : gmap string typed_value).
  Notation inv := (inv sq k st None L ins V).
  Notation comp := (comp sq st).
  Notation lim := (lim None).
  Notation okenv := (okenv sq st).
  Lemma comp_more u c : comp (push_computed u c).1 = comp c ++ [computed_rows sq st [] u].
  Proof using Type. destruct c as [s l w]. unfold P_QueryInv.comp. cbn [push_computed fst c_computed]. by rewrite map_app. Qed.
  Lemma product_old u c F E0 : sited (lim c) (length (c_computed c)) F -> product st (comp (push_computed u c).1) F E0 = product st (comp c) F E0.
  Proof using Type.
    intros HF. apply product_more. intros t al Hin. specialize (HF t al Hin). destruct t as [| | |j]; try done. destruct HF as [_ Hj]. rewrite comp_more. cbn [table_rows].
    rewrite lookup_app_l; [done|]. unfold P_QueryInv.comp. by rewrite map_length.
  Qed.
  Lemma inv_new_computed O rest F u c : inv O rest F c ->
    inv O rest (F ++ [(TComputed (length (c_computed c)), AComputed (length (c_computed c)))]) (push_computed u c).1.
  Proof using Type.
    intros I. pose proof I as [I1 I2 I3 I4 I5 I6 I7 I8 IX I9 I10 I11 I12 IV]. set (i := length (c_computed c)) in *. set (c' := (push_computed u c).1).
    assert (c_wheres c' = c_wheres c /\ c_known c' = c_known c /\ c_cols c' = c_cols c /\ c_extracted c' = c_extracted c /\ c_required c' = c_required c
        /\ c_empty c' = c_empty c /\ c_next c' = c_next c /\ c_vals c' = c_vals c /\ c_inputs c' = c_inputs c /\ c_computed c' = c_computed c ++ [u]) as (Ew & Ek & Ec & Ee & Er & Em & En & Ev & Ei & Ecm).
    { by destruct c as [[] l w]. }
    assert (~ below (lim c) (AComputed i)) as Hfr by (cbn; lia).
    assert (nle (lim c) (lim c')) as Hle by (unfold P_QueryInv.lim; rewrite En, Ecm, app_length; split; cbn; lia).
    assert (forall E, okenv O (F ++ [(TComputed i, AComputed i)]) c' E -> exists E1, okenv O F c E1 /\ same_below (lim c) E1 E) as Hok.
    { intros E (E0 & HO & HE & Hw). apply product_snoc in HE as (E1 & r & HE & Hr & ->). exists E1. split; [|by apply same_below_fresh].
      unfold c' in HE. rewrite product_old in HE by done.
      exists E0. split_and!; try done. rewrite Ew in Hw. apply Forall_forall. intros kk Hkk. rewrite Forall_forall in Hw, I3.
      rewrite <- (Hw kk Hkk). apply (I3 kk Hkk). by apply same_below_fresh. }
    assert (c_empty c = false -> forall y al, lonely sq st O F c y al -> lonely sq st O (F ++ [(TComputed i, AComputed i)]) c' y al) as Hlone.
    { intros Hne y al (H1 & H2 & H3 & H4 & H5). unfold lonely. rewrite Ek, Ev, Ec, Ee, Er. split_and!; try done.
      intros E (E1 & HE1 & Hsame)%Hok. destruct (H5 E1 HE1) as (d & Hd & Hds). exists d. split; [|done]. eapply at_row_below; [done| |done].
      apply (I8 y _ (al, CV) H3). by left. }
    split; rewrite ?Em, ?Ev, ?Ek, ?Ee, ?Ec, ?Ew, ?Ei; try done.
    - intros t' al [Hin|Hin]%elem_of_app.
      + specialize (I2 _ _ Hin). rewrite Ecm, app_length. destruct t'; [..|destruct I2; split; [done|cbn; lia]]; destruct I2 as (j & -> & Hj); exists j; cbn in *; rewrite En; split; (done || lia).
      + apply elem_of_list_singleton in Hin as [= -> ->]. rewrite Ecm, app_length. cbn. split; [done|]. fold i. lia.
    - eapply Forall_impl; [exact I3|]. intros kk. by apply respects_le.
    - intros x qs q Hx Hq. eapply below_le; [exact Hle|by eapply I8].
    - intros x q Hx. eapply below_le; [exact Hle|by eapply IX].
    - intros Hne x qs Hx. destruct (I9 Hne x qs Hx) as [? [(ty & H1 & H2)|[al Ha]]]; (split; [done|]).
      + left. exists ty. rewrite Ek. split; [done|]. intros E q (E1 & HE1 & Hsame)%Hok Hq. destruct (H2 E1 q HE1 Hq) as (v & Hv & Hvt). exists v. split; [|done].
        eapply encodes_below; [by apply same_below_sym| |done]. by eapply I8.
      + right. exists al. by apply Hlone.
    - intros Hne x q Hq. destruct (I10 Hne x q Hq) as (? & ? & Ha). split_and!; try done. by apply Hlone.
  Qed.
End more.
Lemma dedup_keeps {A} (same : A -> A -> bool) l x : (forall y z, y ∈ l -> z ∈ l -> same y z = true -> y = z) -> x ∈ l -> x ∈ dedup same l.
Proof.
  induction l as [|y l IH]; intros Hs Hx; [done|]. cbn [dedup]. apply elem_of_cons in Hx as [->|Hx]; [by left|].
  assert (x ∈ dedup same l) as Hin. { apply IH; [|done]. intros a b Ha Hb. apply Hs; by right. }
  destruct (same y x) eqn:E; [|right; by apply elem_of_list_filter]. rewrite (Hs y x) by (done || by left || by right). by left.
Qed.

(* ---------------------------------------------------------------- an alternative by itself *)

Definition none : string -> Prop := fun _ => False.
Definition bare : env -> Prop := fun E => E = [].
Lemma relax_pattern (L : string -> Prop) ins V p : (forall x, x ∈ pattern_vars p -> ~ L x) -> psafe L ins V p -> psafe none ins V p.
Proof.
  intros HL [P1 P2 P3]. split; [done| |by intros x ?]. intros Ho. specialize (P2 Ho). destruct (p_v p) as [|x| | |] eqn:Ev; try done. destruct P2 as [P2|P2]; [|by right].
  exfalso. apply (HL x); [|done]. unfold pattern_vars. rewrite Ev, !elem_of_app. right. right. left. by left.
Qed.
Lemma relax_clause k (L : string -> Prop) ins V cl : (forall p x, p ∈ clause_patterns cl -> x ∈ pattern_vars p -> ~ L x) -> safe_clause k L ins V cl -> safe_clause k none ins V cl.
Proof.
  assert (forall (P Q : clause -> Prop) (l : list clause), Forall (fun c => P c -> Q c) l ->
    (fix all cs := match cs with [] => True | c :: cs => P c /\ all cs end) l -> (fix all cs := match cs with [] => True | c :: cs => Q c /\ all cs end) l) as Hall.
  { intros P Q l. induction 1 as [|c l Hc _ IH]; [done|]. intros [H1 H2]. split; [by apply Hc|by apply IH]. }
  induction cl as [p|x t|nm ar|u cs IH|u arms IH] using clause_induction; intros HL Hs.
  - eapply relax_pattern; [|exact Hs]. intros x. apply HL. by left.
  - done.
  - cbn [safe_clause] in *. eapply Forall_impl; [exact Hs|]. intros []; try done. by intros _ ?.
  - cbn [safe_clause] in Hs |- *. destruct Hs as (H1 & H2 & H3 & H4). split_and!; try done. eapply Hall; [|exact H4]. rewrite Forall_forall in IH |- *. intros cl Hcl.
    apply IH; [done|]. intros p x Hp. apply HL. cbn [clause_patterns]. apply elem_of_list_In, in_flat_map. exists cl. split; by apply elem_of_list_In.
  - cbn [safe_clause] in Hs |- *. destruct Hs as (H1 & H2 & H3). split_and!; try done. destruct arms as [|a [|b arms]].
    + destruct H3 as [H3 H4]. split; [done|]. intros p Hp. by apply elem_of_nil in Hp.
    + apply Forall_cons_1 in IH as [IH _]. destruct a as [cl|cs]; cbn [safe_arm arm_clauses] in *.
      * destruct H3 as [H3 H4]. split; [done|]. apply Forall_cons_1 in IH as [IH _]. apply IH; [|done]. intros p x Hp. apply HL. cbn. by rewrite app_nil_r.
      * eapply Hall; [|exact H3]. rewrite Forall_forall in IH |- *. intros cl Hcl. apply IH; [done|]. intros p x Hp. apply HL. cbn. rewrite app_nil_r.
        apply elem_of_list_In, in_flat_map. exists cl. split; by apply elem_of_list_In.
    + destruct H3 as [H3 H4]. split; [done|]. intros p Hp. eapply relax_pattern; [|by apply H4]. intros x. apply HL. cbn [clause_patterns].
      apply elem_of_list_In, in_flat_map. exists (AClause (CPattern p)). split; [by apply elem_of_list_In|]. by left.
Qed.
Lemma relax_arm k (L : string -> Prop) ins V a : (forall p x, p ∈ arm_patterns a -> x ∈ pattern_vars p -> ~ L x) -> safe_arm k L ins V a -> safe_arm k none ins V a.
Proof.
  destruct a as [cl|cs]; cbn [safe_arm arm_patterns]; intros HL.
  - intros [H1 H2]. split; [done|]. by eapply relax_clause.
  - induction cs as [|cl cs IH]; [done|]. intros [H1 H2]. split; [eapply relax_clause; [|done]; intros p x Hp; apply HL; cbn; apply elem_of_app; by left|].
    apply IH; [|done]. intros p x Hp. apply HL. cbn. apply elem_of_app. by right.
Qed.
Lemma arm_pvars a x : x ∈ pvars (arm_clauses a) -> x ∈ arm_vars a.
Proof.
  unfold pvars. intros Hp. apply elem_of_list_In, in_flat_map in Hp as (p & Hp & Hx%elem_of_list_In). apply in_flat_map in Hp as (cl & Hcl%elem_of_list_In & Hp%elem_of_list_In).
  pose proof (patterns_vars cl p x Hp Hx) as H. destruct a as [cl'|cs]; cbn [arm_clauses arm_vars] in *; [by apply elem_of_list_singleton in Hcl as ->|by apply (in_flat _ _ _ cl)].
Qed.
Lemma once_none l : once none l.
Proof. by intros x l1 l2 _ ?. Qed.

Section arm.
  Context (sq : sqlite) (k : known) (st : store) (G : store_good (sc_attribute_map (kn_schema k)) st) (CO : cache_ok k st) (NC : uncached k).
  Context (ins : list string) (V : gmap string typed_value).
  Notation Sat := (Sat sq st).
  Notation meets := (meets st (kn_schema k)).
  Notation good0 := (good sq k st None none ins V bare).
  Lemma arm_ok a c c' : plain_arm a -> safe_arm k none ins V a -> good0 (pvars (arm_clauses a) ++ []) c -> apply_arm k a c = Ok c' ->
    good0 [] c' /\ step c c' /\ forall σ, Sat c' [] σ <-> Sat c [] σ /\ Forall (meets σ) (arm_clauses a).
  Proof using G CO NC.
    intros Hp Ha Hg Hr. assert (forall x, none x -> x ∉ ins) as HLI by done. destruct a as [cl|cs]; cbn [arm_clauses apply_arm] in *.
    - destruct cl as [p| | | |]; try done. destruct Ha as [Hri P]. assert (pvars [CPattern p] = pattern_vars p) as Hp1 by (unfold pvars; cbn; by rewrite app_nil_r). rewrite Hp1 in Hg.
      destruct (one_pattern_ok sq k st G CO NC None none ins V HLI bare [] p c c' Hg (once_none _) P Hri Hr) as [H1 H2]. split_and!; [done|exact (stepping_clause k none ins V (CPattern p) P c c' Hr)|].
      intros σ. rewrite Forall_singleton. apply H2.
    - apply safe_arm_clauses in Ha. cbn [arm_clauses] in Ha.
      destruct (apply_clauses_ok sq k st G CO none ins V HLI None cs bare [] c c' Ha Hg (once_none _) Hr) as (H1 & H2 & H3). split_and!; try done. intros σ. by apply H3.
  Qed.
  Lemma arm_step (L : string -> Prop) a c c' : safe_arm k L ins V a -> apply_arm k a c = Ok c' -> step c c'.
  Proof using Type.
    intros Ha Hr. destruct a as [cl|cs]; cbn [apply_arm] in *; [destruct Ha as [_ Ha]; exact (stepping_clause k L ins V cl Ha c c' Hr)|].
    apply safe_arm_clauses in Ha. cbn [arm_clauses] in Ha. eapply step_clauses; [|exact Hr]. eapply Forall_impl; [exact Ha|]. apply stepping_clause.
  Qed.
  Lemma or_arms_next (L : string -> Prop) tmpl arms : Forall (safe_arm k L ins V) arms -> forall mask n rs n', or_arms_with (apply_arm k) tmpl mask arms n = Ok (rs, n') -> (n <= n')%nat.
  Proof using Type.
    induction 1 as [|a arms Ha Harms IH]; intros mask n rs n' Hr; cbn [or_arms_with] in Hr. { by injection Hr as _ <-. }
    destruct mask as [|[] mask]; [by injection Hr as _ <-| |by eapply IH].
    destruct (apply_arm k a _) as [r| |] eqn:Er; cbn [rbind] in Hr; try done. pose proof (st_next _ _ (arm_step L _ _ _ Ha Er)) as Hn.
    assert (n <= c_next r)%nat as Hn' by (by destruct tmpl as [[]]). clear Hn. destruct (c_empty r); [apply IH in Hr; lia|].
    destruct (finish_arm r) as [r'| |] eqn:Ef; cbn [rbind] in Hr; try done. apply finish_next in Ef. fold (or_arms_with (apply_arm k) tmpl) in Hr.
    destruct (or_arms_with _ _ _ _ _) as [[rs1 n1]| |] eqn:E1; cbn [rbind] in Hr; try done. injection Hr as _ <-. apply IH in E1. lia.
  Qed.
End arm.

Section branch.
  Context (sq : sqlite) (k : known) (st : store) (G : store_good (sc_attribute_map (kn_schema k)) st) (CO : cache_ok k st) (NC : uncached k).
  Context (L : string -> Prop) (ins : list string) (V : gmap string typed_value) (HLI : forall x, L x -> x ∉ ins).
  Notation sat := (sat sq st).
  Notation comp := (comp sq st).
  Notation Sat := (Sat sq st).
  Notation inv := (inv sq k st None L ins V).
  Notation inv0 := (P_QueryInv.inv sq k st None none ins V bare).
  Notation good0 := (good sq k st None none ins V bare).
  Notation meets := (meets st (kn_schema k)).
  Context (O : env -> Prop) (vs rest : list string) (c : cc) (I : inv O (vs ++ rest) (c_from c) c) (Hne : c_empty c = false).
  Context (U : gset var) (T : var -> value_type) (HUL : forall x, x ∈ U -> ~ L x) (HUV : forall x, x ∈ U -> x ∈ vs).

  Definition seed (n : nat) : cc := with_next n (make_receptacle (use_as_template U c)).
  Lemma seed_parts n : c_empty (seed n) = false /\ c_next (seed n) = n /\ c_from (seed n) = [] /\ c_wheres (seed n) = [] /\ c_computed (seed n) = [] /\ c_cols (seed n) = ∅
    /\ c_inputs (seed n) = c_inputs c ∩ U /\ c_vals (seed n) = restrict U (c_vals c) /\ c_known (seed n) = restrict U (c_known c) /\ c_required (seed n) = restrict U (c_required c)
    /\ c_extracted (seed n) = restrict U (c_extracted c).
  Proof using Hne. unfold seed. clear - Hne. by destruct c as [[]]. Qed.
  Lemma no_extracted x : x ∈ U -> c_extracted c !! x = None.
  Proof using I Hne HUL. intros Hx. destruct (c_extracted c !! x) as [q|] eqn:E; [|done]. destruct (i_extracted I Hne x q E) as (H & _). by destruct (HUL x Hx). Qed.
  Lemma restrict_out {A} (m : gmap var A) x : x ∉ U -> restrict U m !! x = None.
  Proof using Type. intros Hx. destruct (restrict U m !! x) as [y|] eqn:E; [|done]. by apply restrict_lookup in E as [_ E]. Qed.
  Lemma no_seed_extracted n x : c_extracted (seed n) !! x = None.
  Proof using I Hne HUL.
    destruct (seed_parts n) as (_ & _ & _ & _ & _ & _ & _ & _ & _ & _ & ->). destruct (restrict U _ !! x) as [q|] eqn:E; [|done]. apply restrict_lookup in E as [E Hx]. rewrite no_extracted in E; done.
  Qed.
  Lemma seed_inv n ws : (forall x, x ∈ ws -> x ∈ U) -> inv0 ws [] (seed n).
  Proof using I Hne HUL HUV.
    intros Hws. destruct (seed_parts n) as (B1 & B2 & B3 & B4 & B5 & B6 & B7 & B8 & B9 & B10 & B11). pose proof (no_seed_extracted n) as HX. pose proof I as [I1 I2 I3 I4 I5 I6 I7 I8 IX I9 I10 I11 I12 IV].
    split; rewrite ?B4, ?B6, ?B7, ?B8, ?B9.
    - by intros E0 ->.
    - intros t al H. by apply elem_of_nil in H.
    - constructor.
    - intros x [Hx _]%elem_of_intersection. auto.
    - intros x v [Hx _]%restrict_lookup. eauto.
    - intros x ts [Hx _]%restrict_lookup. eauto.
    - intros _ x v [Hx HxU]%restrict_lookup. apply restrict_lookup. split; [|done]. by apply I7.
    - intros x qs q Hx. by rewrite lookup_empty in Hx.
    - intros x q Hx. by rewrite HX in Hx.
    - intros _ x qs Hx. by rewrite lookup_empty in Hx.
    - intros _ x q Hx. by rewrite HX in Hx.
    - by intros _ x Hx.
    - intros _ x Hx Hi. destruct (I12 Hne x) as (v & H1 & H2); [apply elem_of_app; left; auto|done|]. exists v. split; [done|]. apply restrict_lookup. auto.
    - intros Hu x v [Hx _]%restrict_lookup. eauto.
  Qed.
  Lemma seed_pinned n : pinned (seed n).
  Proof using Hne. destruct (seed_parts n) as (_ & _ & _ & _ & _ & B6 & _). intros x v q qs _ Hx. by rewrite B6, lookup_empty in Hx. Qed.
  Lemma seed_sat n E σ : sat c E σ -> Sat (seed n) [] σ.
  Proof using I Hne HUL.
    intros [S1 S2 S3 S4 S5 S6 S7]. destruct (seed_parts n) as (B1 & B2 & B3 & B4 & B5 & B6 & B7 & B8 & B9 & B10 & B11). exists []. rewrite B3. split; [by left|].
    split; rewrite ?B4, ?B6, ?B8, ?B9, ?B10; try done.
    - intros x v [Hx _]%restrict_lookup. auto.
    - intros x ts [Hx _]%restrict_lookup. auto.
    - intros x ts [Hx _]%restrict_lookup. auto.
    - intros x q Hx. by rewrite no_seed_extracted in Hx.
  Qed.

  (** The type of a shared variable *)
  Definition type_of (x : var) : value_type := match c_vals c !! x with Some v => tv_type v | None => T x end.
  Definition bad : Prop := exists x ts, x ∈ U /\ c_required c !! x = Some ts /\ vts_contains ts (type_of x) = false.
  Record fits (a : arm) : Prop := {
    ft_plain : plain_arm a;
    ft_safe : safe_arm k none ins V a;
    ft_vars : forall x, x ∈ arm_vars a -> x ∈ U;
    ft_types : forall x, x ∈ U -> exists p, CPattern p ∈ top_clauses a /\ gives_type (kn_schema k) ins p x (T x) }.
  Definition row_has (r : cc) (E : env) (σ : string -> typed_value) : Prop := forall x, x ∈ U -> storable (σ x) /\ tv_type (σ x) = type_of x /\ arm_value (c_scope r) E x = sql_of (σ x).
  Record armed (a : arm) (r : cc) : Prop := {
    ar_bad : c_empty r = true <-> bad;
    ar_known : forall x, c_known r !! x = if decide (x ∈ U) then Some (vts_of_one (type_of x)) else None;
    ar_kept : forall x ts, x ∈ U -> c_known c !! x = Some ts -> ts = vts_of_one (type_of x);
    ar_row : c_empty r = false -> forall E, E ∈ select sq st [] r -> exists σ, Forall (meets σ) (arm_clauses a) /\ row_has r E σ;
    ar_hit : forall E σ, sat c E σ -> Forall (meets σ) (arm_clauses a) -> c_empty r = false /\ exists E', E' ∈ select sq st [] r /\ row_has r E' σ }.

  Lemma arm_spec a n r0 : fits a -> apply_arm k a (seed n) = Ok r0 -> (n <= c_next r0)%nat
    /\ (c_empty r0 = true -> forall E σ, sat c E σ -> ~ Forall (meets σ) (arm_clauses a))
    /\ (c_empty r0 = false -> forall r, finish_arm r0 = Ok r -> armed a r).
  Proof using G CO NC I Hne HUL HUV.
    intros [A1 A2 A3 A4] Hr. destruct (seed_parts n) as (B1 & B2 & B3 & B4 & B5 & B6 & B7 & B8 & B9 & B10 & B11).
    assert (good0 (pvars (arm_clauses a) ++ []) (seed n)) as Hg. { right. rewrite B3. apply seed_inv. intros x Hx. rewrite app_nil_r in Hx. by apply A3, arm_pvars. }
    destruct (arm_ok sq k st G CO NC ins V a _ _ A1 A2 Hg Hr) as (G0 & S0 & M0). pose proof (st_next _ _ S0) as Hn. rewrite B2 in Hn. split; [done|]. split.
    { intros Hem E σ Hs Hm. assert (Sat r0 [] σ) as H. { apply M0. split; [by eapply seed_sat|done]. } apply Sat_ne in H. congruence. }
    intros Hne0 r Hf. destruct (arm_settled k NC U a _ _ A1 A3 Hr) as [F S]. specialize (S Hne0).
    pose proof (good_inv _ _ _ _ _ _ _ _ _ _ G0 Hne0) as I0.
    assert (c_vals r0 = restrict U (c_vals c)) as Hvals by (by rewrite (fm_vals _ _ _ F)).
    assert (forall x, x ∈ U -> c_vals c !! x = None -> x ∉ ins) as Hnin. { intros x Hx Hv Hi. destruct (i_given I Hne x) as (v & _ & H2); [apply elem_of_app; left; auto|done|congruence]. }
    assert (forall x, x ∈ U -> c_known r0 !! x = Some (vts_of_one (type_of x)) /\ (c_vals c !! x = None -> is_Some (c_cols r0 !! x))) as Hkn.
    { intros x Hx. unfold type_of. destruct (c_vals c !! x) as [v|] eqn:Ev.
      - split; [|done]. apply (fm_kept _ _ _ F Hne0). rewrite B9. apply restrict_lookup. split; [|done]. by apply (i_vals_known I Hne).
      - destruct (A4 x Hx) as (p & Hp & Hxp & [Hi|[T1 T2]]); [by destruct (Hnin x Hx Ev)|]. destruct (S p Hp x Hxp) as (S1 & S2 & S3); [by rewrite Hvals, restrict_in|]. split; [|done].
        unfold pattern_vars in Hxp. rewrite !elem_of_app in Hxp. unfold place_vars in S2. rewrite !elem_of_app in S2, T1.
        assert (x ∈ nplace_vars (p_e p) \/ x ∈ nplace_vars (p_a p) \/ x ∈ nplace_vars (p_tx p) \/ p_v p = VVar x) as Hcases.
        { destruct Hxp as [H|[H|[H|H]]]; auto. right; right; right. destruct (p_v p) as [|y| | |]; try (by apply elem_of_nil in H). by apply elem_of_list_singleton in H as ->. }
        destruct Hcases as [H|[H|[H|H]]]; [rewrite T1, S2 by auto; done..|]. destruct (S3 H) as (at_ & Ha & ->). by rewrite (T2 H _ Ha). }
    assert (forall x, c_known r0 !! x = if decide (x ∈ U) then Some (vts_of_one (type_of x)) else None) as Hknown.
    { intros x. destruct (decide (x ∈ U)) as [Hx|Hx]; [by apply Hkn|]. rewrite (fm_out _ _ _ F x Hx), B9. by apply restrict_out. }
    assert (pinned r0) as P0 by apply (st_pinned _ _ S0), seed_pinned.
    pose proof (finish_ok sq st k None none ins V bare [] r0 r (raw_rows k st G) (view_rows k st G) I0 Hne0 P0 Hf) as [F1 F2 F3 F4 F5 F6 F7 F8 F9 F10 F11 F12 F13].
    assert (c_known r = c_known r0 /\ (c_empty r = true <-> bad)) as [Hkr Hbad].
    { unfold finish_arm, process_required in Hf. set (c1 := prune_extracted (expand_columns r0)) in *.
      assert (c_empty c1 = false /\ c_known c1 = c_known r0 /\ c_required c1 = restrict U (c_required c)) as (C1 & C2 & C3).
      { rewrite <- B10, <- (fm_required _ _ _ F), <- Hne0. unfold c1. by destruct r0 as [[]]. }
      rewrite C1 in Hf. destruct (quiet _ _ _ Hf) as [[-> H]|(-> & x & ts & t & H1 & H2 & H3)].
      - intros x ts Hx%sorted_map_elem. rewrite C3 in Hx. apply restrict_lookup in Hx as [_ Hx]. rewrite C2, Hknown, decide_True by done. eauto.
      - split; [done|]. rewrite C1. split; [done|]. intros (x & ts & H1 & H2 & H3). rewrite (H x ts (type_of x)) in H3; [done| |].
        + apply sorted_map_elem. rewrite C3. by apply restrict_lookup.
        + by rewrite C2, Hknown, decide_True.
      - split; [rewrite <- C2; by destruct c1 as [[]]|]. split; [|intros _; by destruct c1 as [[]]]. intros _. apply sorted_map_elem in H1. rewrite C3 in H1. apply restrict_lookup in H1 as [H1 HxU].
        exists x, ts. split_and!; try done. rewrite C2, Hknown, decide_True in H2 by done. by apply one_inj in H2 as ->. }
    assert (forall E σ, sat r0 E σ -> row_has r E σ) as Hrow.
    { intros E σ Hs x Hx. assert (tv_type (σ x) = type_of x) as Ht. { pose proof (sat_known _ _ _ _ _ Hs x _ (proj1 (Hkn x Hx))) as H. by apply one_contains_iff in H. }
      assert (arm_value (c_scope r) E x = match c_vals r0 !! x with Some v => sql_of v | None => default SNull (match c_cols r0 !! x with Some (q :: _) => env_column E q | _ => None end) end) as ->.
      { rewrite <- F3, <- F5. by destruct r as [[]]. }
      destruct (c_vals r0 !! x) as [v|] eqn:Ev.
      - rewrite (sat_vals _ _ _ _ _ Hs x v Ev) in *. split_and!; try done. by apply (i_vals I0 x).
      - destruct (Hkn x Hx) as [_ [qs Hqs]]. { rewrite <- (restrict_in U) by done. by rewrite <- Hvals. }
        rewrite Hqs. destruct (i_cols I0 Hne0 x qs Hqs) as [Hnil _]. destruct qs as [|q qs]; [done|].
        pose proof (sat_cols _ _ _ _ _ Hs x _ q Hqs ltac:(by left)) as Henc. rewrite (encodes_column _ _ _ Henc). split_and!; try done. by eapply encodes_storable. }
    assert (forall E, E ∈ select sq st [] r -> E ∈ product st (comp r0) (c_from r0) []) as Hsel.
    { intros E HE. apply select_elem in HE as [HE _]; [|by right]. unfold P_QueryInv.comp in *. by rewrite <- F1, <- F7. }
    split; [done|by rewrite Hkr| | |].
    - intros x ts Hx Hk. destruct (i_known I x ts Hk) as [t ->]. assert (Some (vts_of_one t) = Some (vts_of_one (type_of x))) as Heq; [|by apply one_inj in Heq as ->]. rewrite <- (proj1 (Hkn x Hx)). symmetry.
      apply (fm_kept _ _ _ F Hne0). rewrite B9. by apply restrict_lookup.
    - intros Hner E HE. pose proof (F13 Hner [] E eq_refl HE) as Hs. apply F12 in Hs. exists (assigned r0 E). split; [|by apply Hrow]. apply M0. exists E. split; [by apply Hsel|done].
    - intros E σ Hs Hm. assert (Sat r0 [] σ) as (E' & HE' & Hs'). { apply M0. split; [by eapply seed_sat|done]. } pose proof (proj2 (F12 E' σ) Hs') as Hs''.
      split; [by apply Hs''|]. exists E'. split; [|by apply Hrow]. apply select_elem; [by right|]. unfold P_QueryInv.comp. rewrite F1, F7. split; [done|]. apply Hs''.
  Qed.

  Lemma arms_spec arms : (forall a, a ∈ arms -> fits a) -> forall mask n rs n', Forall2 (left_out k c) mask arms ->
    or_arms_with (apply_arm k) (use_as_template U c) mask arms n = Ok (rs, n') ->
    (forall r, r ∈ rs -> exists a, a ∈ arms /\ armed a r)
    /\ (forall a, a ∈ arms -> (exists r, r ∈ rs /\ armed a r) \/ forall E σ, E ∈ product st (comp c) (c_from c) [] -> sat c E σ -> ~ Forall (meets σ) (arm_clauses a)).
  Proof using G CO NC I Hne HUL HUV HLI.
    induction arms as [|a arms IH]; intros Hfit mask n rs n' Hmask Hr; cbn [or_arms_with] in Hr.
    { injection Hr as <- _. split; [intros r H; by apply elem_of_nil in H|intros a H; by apply elem_of_nil in H]. }
    apply Forall2_cons_inv_r in Hmask as (b & mask' & Hb & Hmask & ->). fold (or_arms_with (apply_arm k) (use_as_template U c)) in Hr.
    assert (fits a) as Ha by (apply Hfit; by left). specialize (IH ltac:(intros a' H; apply Hfit; by right)).
    destruct b.
    - fold (seed n) in Hr. destruct (apply_arm k a (seed n)) as [r0| |] eqn:Er; cbn [rbind] in Hr; try done. destruct (arm_spec a n r0 Ha Er) as (_ & H1 & H2).
      destruct (c_empty r0) eqn:Ee.
      + destruct (IH _ _ _ _ Hmask Hr) as [H3 H4]. split.
        * intros r Hin. destruct (H3 r Hin) as (a' & ? & ?). exists a'. split; [by right|done].
        * intros a' [->|Hin]%elem_of_cons; [right; intros E σ _; by apply (H1 eq_refl E)|by apply H4].
      + destruct (finish_arm r0) as [r| |] eqn:Ef; cbn [rbind] in Hr; try done. specialize (H2 eq_refl r eq_refl).
        destruct (or_arms_with _ _ _ _ _) as [[rs1 n1]| |] eqn:E1; cbn [rbind] in Hr; try done. injection Hr as <- _. destruct (IH _ _ _ _ Hmask E1) as [H3 H4]. split.
        * intros r' [->|Hin]%elem_of_cons; [exists a; split; [by left|done]|]. destruct (H3 r' Hin) as (a' & ? & ?). exists a'. split; [by right|done].
        * intros a' [->|Hin]%elem_of_cons; [left; exists r; split; [by left|done]|]. destruct (H4 a' Hin) as [(r' & ? & ?)|?]; [left; exists r'; split; [by right|done]|by right].
    - destruct (IH _ _ _ _ Hmask Hr) as [H3 H4]. split.
      + intros r Hin. destruct (H3 r Hin) as (a' & ? & ?). exists a'. split; [by right|done].
      + intros a' [->|Hin]%elem_of_cons; [|by apply H4]. right. intros E σ HE Hs Hm. destruct (Hb eq_refl) as (p & -> & Ht). destruct Ha as [_ [Hri P] Hv _]. cbn [arm_clauses] in Hm. apply Forall_cons_1 in Hm as [Hm _].
        assert (psafe L ins V p) as P'. { destruct P as [P1 P2 P3]. split; [done| |]; [|intros x HL Hx; apply (HUL x); [apply Hv; by apply place_vars_pattern|done]].
          intros Ho. specialize (P2 Ho). destruct (p_v p); try done. destruct P2 as [P2|P2]; [done|by right]. }
        refine (tableless sq k st G CO NC None L ins V HLI O [] p c [] σ _ _ P' Hri Ht _ Hm).
        * eapply inv_weaken; [|exact I]. intros x Hx. rewrite app_nil_r in Hx. apply elem_of_app. left. auto.
        * intros x l1 l2 Heq HL. exfalso. apply (HUL x); [|done]. apply Hv. cbn. rewrite <- (app_nil_r (pattern_vars p)), Heq. apply elem_of_app. right. by left.
        * by exists E.
  Qed.

  (* -------------------------------------------------------------- the rows of the table *)
  Definition typed (σ : string -> typed_value) : Prop := forall x, x ∈ U -> storable (σ x) /\ tv_type (σ x) = type_of x.
  Definition row_of (σ : string -> typed_value) : row := RComputed (map (fun v => (CVar v, sql_of (σ v))) (sorted_vars U)).
  Lemma arm_row_of r E σ : row_has r E σ -> arm_row (sorted_vars U) [] (c_scope r) E = row_of σ /\ typed σ.
  Proof using Type.
    intros Hr. split; [|intros x Hx; by destruct (Hr x Hx) as (? & ? & ?)]. unfold arm_row, row_of. f_equal.
    assert (forall l, (forall x, x ∈ l -> x ∈ U) -> flat_map (fun v => (CVar v, arm_value (c_scope r) E v) :: (if decide (v ∈ []) then [(CVarTag v, arm_tag (c_scope r) E v)] else [])) l = map (fun v => (CVar v, sql_of (σ v))) l) as H.
    { induction l as [|v l IH]; intros Hl; [done|]. cbn [flat_map map]. rewrite decide_False by apply not_elem_of_nil. destruct (Hr v) as (_ & _ & ->); [apply Hl; by left|]. cbn [app]. f_equal. apply IH. intros x Hx. apply Hl. by right. }
    apply H. intros x. apply sorted_vars_elem.
  Qed.
  Lemma row_column_of σ v : v ∈ U -> row_column (row_of σ) (CVar v) = Some (sql_of (σ v)).
  Proof using Type.
    intros Hv%sorted_vars_elem. unfold row_of. cbn [row_column].
    assert ((CVar v, sql_of (σ v)) ∈ map (fun v => (CVar v, sql_of (σ v))) (sorted_vars U)) as Hin by (apply elem_of_list_fmap; by exists v).
    destruct (list_find_elem_of (fun x : column * sqlval => x.1 = CVar v) _ _ Hin eq_refl) as [[i [cc' w]] Hf]. rewrite Hf. apply list_find_Some in Hf as (Hi & Hc & _). cbn in Hc. subst cc'.
    apply elem_of_list_lookup_2, elem_of_list_fmap in Hi as (v' & [= <- ->] & _). done.
  Qed.
  Lemma same_row σ σ' : typed σ -> typed σ' -> row_same (computed_values (row_of σ)) (computed_values (row_of σ')) = true -> row_of σ = row_of σ'.
  Proof using Type.
    intros H1 H2 Hs. unfold row_of in *. f_equal. cbn [computed_values] in Hs. unfold row_same in Hs. apply andb_true_iff in Hs as [_ Hs].
    assert (forall l, (forall x, x ∈ l -> x ∈ U) -> forallb (fun p => sql_same p.1 p.2) (zip (map snd (map (fun v => (CVar v, sql_of (σ v))) l)) (map snd (map (fun v => (CVar v, sql_of (σ' v))) l))) = true ->
      map (fun v => (CVar v, sql_of (σ v))) l = map (fun v => (CVar v, sql_of (σ' v))) l) as H.
    { clear Hs. induction l as [|v l IH]; intros Hl Hs; [done|]. cbn in Hs. apply andb_true_iff in Hs as [Hv Hs]. cbn [map]. destruct (H1 v) as [A1 A2]; [apply Hl; by left|]. destruct (H2 v) as [B1 B2]; [apply Hl; by left|].
      apply sql_same_typed in Hv; [|done|done|congruence]. rewrite Hv. f_equal. apply IH; [|done]. intros x Hx. apply Hl. by right. }
    apply H; [|done]. intros x. apply sorted_vars_elem.
  Qed.
  Lemma dedup_sub {A} (same : A -> A -> bool) l x : x ∈ dedup same l -> x ∈ l.
  Proof using Type. induction l as [|y l IH]; [done|]. cbn [dedup]. intros [->|[_ H]%elem_of_list_filter]%elem_of_cons; [by left|]. right. auto. Qed.

  Section rows.
    Context (arms : list arm) (rs : list cc) (Hrs : forall r, r ∈ rs -> exists a, a ∈ arms /\ armed a r).
    Notation union := (Union (sorted_vars U) [] rs).
    Definition some_arm (σ : string -> typed_value) : Prop := exists a, a ∈ arms /\ Forall (meets σ) (arm_clauses a).
    Lemma all_rows : (exists r, r ∈ rs /\ c_empty r = false) \/ rs = [] -> computed_rows sq st [] union =
      dedup (fun x y => row_same (computed_values x) (computed_values y)) (flat_map (fun a => map (arm_row (sorted_vars U) [] (c_scope a)) (select sq st [] a)) rs).
    Proof using Hrs.
      intros Hne'. assert (match last rs with Some (CC s _ _) => s_empty s | None => false end = false) as Hl.
      { destruct (last rs) as [r|] eqn:El; [|done]. assert (r ∈ rs) as Hin by (by apply last_Some_elem_of in El). destruct Hne' as [(r' & Hin' & He)| ->]; [|done].
        destruct (Hrs r Hin) as (a & _ & Ha). destruct (Hrs r' Hin') as (a' & _ & Ha'). change (match r with CC s _ _ => s_empty s end = false). assert (c_empty r = false) as Hr; [|by destruct r].
        destruct (c_empty r) eqn:Er; [|done]. exfalso. apply (ar_bad _ _ Ha) in Er. apply (ar_bad _ _ Ha') in Er. congruence. }
      cbn [computed_rows]. by rewrite Hl.
    Qed.
    Lemma row_meaning rw : rw ∈ computed_rows sq st [] union -> exists σ, rw = row_of σ /\ typed σ /\ some_arm σ.
    Proof using Hrs.
      intros Hin. assert (exists r, r ∈ rs /\ c_empty r = false) as Hex.
      { destruct (last rs) as [r|] eqn:El.
        - assert (r ∈ rs) as Hr by (by apply last_Some_elem_of in El). exists r. split; [done|]. destruct (c_empty r) eqn:He; [|done].
          cbn [computed_rows] in Hin. rewrite El in Hin. destruct r as [s l w]. change (s_empty s = true) in He. rewrite He in Hin. by apply elem_of_nil in Hin.
        - apply last_None in El. rewrite El in Hin. by apply elem_of_nil in Hin. }
      { rewrite all_rows in Hin by (by left). apply dedup_sub in Hin. apply elem_of_list_In, in_flat_map in Hin as (r & Hr%elem_of_list_In & Hin). apply in_map_iff in Hin as (E & <- & HE%elem_of_list_In).
        destruct (Hrs r Hr) as (a & Ha & Har). assert (c_empty r = false) as Her.
        { destruct (c_empty r) eqn:Er; [|done]. destruct Hex as (r' & Hr' & He'). destruct (Hrs r' Hr') as (a' & _ & Ha'). apply (ar_bad _ _ Har) in Er. apply (ar_bad _ _ Ha') in Er. congruence. }
        destruct (ar_row _ _ Har Her E HE) as (σ & Hm & Hrow). destruct (arm_row_of r E σ Hrow) as [-> Ht]. exists σ. split_and!; try done. by exists a. }
    Qed.
    Lemma row_present a r E σ : r ∈ rs -> armed a r -> sat c E σ -> Forall (meets σ) (arm_clauses a) -> row_of σ ∈ computed_rows sq st [] union.
    Proof using Hrs.
      intros Hr Har Hs Hm. destruct (ar_hit _ _ Har E σ Hs Hm) as (He & E' & HE' & Hrow). rewrite all_rows by (left; by exists r).
      assert (forall x, x ∈ flat_map (fun a => map (arm_row (sorted_vars U) [] (c_scope a)) (select sq st [] a)) rs -> exists σ, x = row_of σ /\ typed σ) as Hall.
      { intros x Hin. apply elem_of_list_In, in_flat_map in Hin as (r' & Hr'%elem_of_list_In & Hin). apply in_map_iff in Hin as (E1 & <- & HE1%elem_of_list_In).
        destruct (Hrs r' Hr') as (a' & _ & Har'). assert (c_empty r' = false) as He'.
        { destruct (c_empty r') eqn:Er; [|done]. apply (ar_bad _ _ Har') in Er. apply (ar_bad _ _ Har) in Er. congruence. }
        destruct (ar_row _ _ Har' He' E1 HE1) as (σ' & _ & Hrow'). destruct (arm_row_of r' E1 σ' Hrow') as [-> Ht]. by exists σ'. }
      apply dedup_keeps.
      - intros y z Hy Hz. destruct (Hall y Hy) as (σ1 & -> & T1). destruct (Hall z Hz) as (σ2 & -> & T2). by apply same_row.
      - destruct (arm_row_of r E' σ Hrow) as [<- _]. apply elem_of_list_In, in_flat_map. exists r. split; [by apply elem_of_list_In|]. apply in_map_iff. exists E'. split; [done|by apply elem_of_list_In].
    Qed.
  End rows.

  (* -------------------------------------------------------------- types *)
  Definition ready (c0 : cc) : Prop := forall x, x ∈ U -> (c_known c0 !! x = None \/ c_known c0 !! x = Some (vts_of_one (type_of x))) /\ c_extracted c0 !! x = None.
  Lemma broaden_one c0 x : ready c0 -> x ∈ U -> broaden_type c0 (x, vts_of_one (type_of x)) = constrain_var x (type_of x) c0.
  Proof using Type.
    intros Hr Hx. destruct (Hr x Hx) as [Hk Hxt]. unfold broaden_type, constrain_var. cbn [fst snd]. assert (vts_is_unit (vts_of_one (type_of x)) = true) as -> by (by destruct (type_of x)).
    destruct Hk as [->| ->].
    - f_equal. destruct c0 as [[] l w]. unfold with_extracted, set_scope. cbn in *. by rewrite delete_notin.
    - assert (vts_contains (vts_of_one (type_of x)) (type_of x) = true) as -> by (by apply one_contains_iff). f_equal. unfold vts_union. apply N.lor_diag.
  Qed.
  Record retyped (l : list (var * vts)) (c0 c1 : cc) : Prop := {
    rt_ready : ready c1;
    rt_empty : c_empty c1 = c_empty c0;
    rt_from : c_from c1 = c_from c0;
    rt_computed : c_computed c1 = c_computed c0;
    rt_vals : c_vals c1 = c_vals c0;
    rt_known : forall x, x ∈ U -> is_Some (c_known c0 !! x) \/ x ∈ map fst l -> c_known c1 !! x = Some (vts_of_one (type_of x));
    rt_sat : forall E σ, sat c1 E σ <-> sat c0 E σ /\ forall x, x ∈ map fst l -> tv_type (σ x) = type_of x }.
  Lemma broaden_all l : (forall p, p ∈ l -> p.1 ∈ U /\ p.2 = vts_of_one (type_of p.1)) -> forall rest' F c0, ready c0 -> inv O rest' F c0 ->
    inv O rest' F (fold_left broaden_type l c0) /\ retyped l c0 (fold_left broaden_type l c0).
  Proof using HUL.
    induction l as [|[x ts] l IH]; intros Hl rest' F c0 Hr Hi; cbn [fold_left map fst].
    - split; [done|]. split; try done; [|split; [intros H; split; [done|]; intros x Hx; by apply elem_of_nil in Hx|by intros [? _]]].
      intros x Hx [[ts Hk]|Hin]; [|by apply elem_of_nil in Hin]. destruct (Hr x Hx) as [[H|H] _]; congruence.
    - destruct (Hl (x, ts) ltac:(by left)) as [Hx Hts]. cbn [fst snd] in Hx, Hts. subst ts. rewrite (broaden_one c0 x Hr Hx). set (c1 := constrain_var x (type_of x) c0).
      assert (c_known c1 = <[x := vts_of_one (type_of x)]> (c_known c0)) as Hk1. { unfold c1, constrain_var. destruct c0 as [[] l' w]. by repeat case_match. }
      assert (c_empty c1 = c_empty c0 /\ c_from c1 = c_from c0 /\ c_computed c1 = c_computed c0 /\ c_vals c1 = c_vals c0 /\ c_extracted c1 = c_extracted c0) as (E1 & E2 & E3 & E4 & E5).
      { destruct (Hr x Hx) as [Hk _]. unfold c1, constrain_var. destruct Hk as [->| ->]; [by destruct c0 as [[]]|]. assert (vts_contains (vts_of_one (type_of x)) (type_of x) = true) as -> by (by apply one_contains_iff). by destruct c0 as [[]]. }
      assert (ready c1) as Hr1.
      { intros y Hy. rewrite E5. destruct (Hr y Hy) as [H1 H2]. split; [|done]. rewrite Hk1. destruct (decide (y = x)) as [->|Hyx]; [rewrite lookup_insert; by right|by rewrite lookup_insert_ne]. }
      assert (inv O rest' F c1) as Hi1. { apply inv_constrain_var; [done|by intros _; apply Hr|]. intros HL. by destruct (HUL x Hx). }
      destruct (IH ltac:(intros p Hp; apply Hl; by right) rest' F c1 Hr1 Hi1) as [J1 [J2 J3 J4 J5 J6 J7 J8]]. split; [done|]. split; try congruence; try done.
      + intros y Hy Hor. apply J7; [done|]. destruct (decide (y = x)) as [->|Hyx]; [left; rewrite Hk1, lookup_insert; by eexists|]. rewrite Hk1, lookup_insert_ne by done.
        destruct Hor as [?|[?|?]%elem_of_cons]; [by left|done|by right].
      + intros E σ. rewrite J8. unfold c1. rewrite sat_constrain_var. split.
        * intros [[H1 H2] H3]. split; [done|]. intros y [->|Hy]%elem_of_cons; auto.
        * intros [H1 H2]. split_and!; [done|apply H2; by left|]. intros y Hy. apply H2. by right.
  Qed.

  (* -------------------------------------------------------------- columns *)
  Section columns.
  Context (CM : list computed) (i : nat) (Hi : (i < length CM)%nat).
  Notation al := (AComputed i).
  Notation F := (c_from c ++ [(TComputed i, al)]).
  Definition placed (E : env) : Prop := exists E0, O E0 /\ E ∈ product st (map (computed_rows sq st []) CM) F E0.
  Context (Hrows : forall E, placed E -> exists σ', typed σ' /\ forall v, v ∈ U -> env_column E (al, CVar v) = Some (sql_of (σ' v))).
  Lemma constant_holds E q w : holds_in sq st E (KEquals q (match w with TVRef e => QEntid e | _ => QValue w end)) = eq_columns sq (env_column E q) (Some (sql_of w)).
  Proof using Type. by destruct w. Qed.
  Record columned (l : list var) (c0 c1 : cc) : Prop := {
    cl_empty : c_empty c1 = c_empty c0;
    cl_from : c_from c1 = c_from c0;
    cl_computed : c_computed c1 = c_computed c0;
    cl_sat : forall E σ, placed E -> sat c1 E σ <-> sat c0 E σ /\ forall v, v ∈ l -> encodes E (al, CVar v) (σ v) }.
  Lemma bind_all l : (forall v, v ∈ l -> v ∈ U) -> forall rest' c0, c_computed c0 = CM -> c_vals c0 = c_vals c -> (forall x, x ∈ U -> c_known c0 !! x = Some (vts_of_one (type_of x))) ->
    inv O rest' F c0 ->
    inv O rest' F (fold_left (fun c v => bind_column k (al, CVar v) v c) l c0) /\ columned l c0 (fold_left (fun c v => bind_column k (al, CVar v) v c) l c0).
  Proof using HUL Hi Hrows.
    induction l as [|v l IH]; intros Hl rest' c0 Hcm Hv Hk Hi0; cbn [fold_left].
    { split; [done|]. split; try done. intros E σ _. split; [|by intros [? _]]. intros H. split; [done|]. intros v Hin. by apply elem_of_nil in Hin. }
    assert (v ∈ U) as HvU by (apply Hl; by left). set (c1 := bind_column k (al, CVar v) v c0).
    assert (below (lim None c0) al) as Hb. { cbn. by rewrite Hcm. }
    assert (c_computed c1 = CM /\ c_vals c1 = c_vals c /\ c_known c1 = c_known c0 /\ c_empty c1 = c_empty c0 /\ c_from c1 = c_from c0 /\ inv O rest' F c1
      /\ forall E σ, placed E -> sat c1 E σ <-> sat c0 E σ /\ encodes E (al, CVar v) (σ v)) as (D1 & D2 & D3 & D4 & D5 & D6 & D7).
    { destruct (c_vals c0 !! v) as [w|] eqn:Ew.
      - assert (c1 = constrain_constant (al, CVar v) w c0) as Hc1. { unfold c1, bind_column. by rewrite Ew. }
        assert (storable w) as Hw by (by apply (i_vals Hi0 v)). assert (type_of v = tv_type w) as Htw by (unfold type_of; by rewrite <- Hv, Ew).
        rewrite Hc1. unfold constrain_constant. set (kk := KEquals _ _). split_and!; try (by destruct c0 as [[]]).
        + apply inv_add_where; [|done]. apply respects_equals; [done|]. by destruct w.
        + intros E σ Hpl. rewrite sat_add_where. destruct (Hrows E Hpl) as (σ' & Ht & Hcol). unfold kk. rewrite constant_holds, (Hcol v HvU). cbn [eq_columns]. destruct (Ht v HvU) as [Hst Hty].
          split; (intros [H1 H2]; split; [done|]).
          * apply sql_eq_typed in H2; [|done|done|congruence]. rewrite (sat_vals _ _ _ _ _ H1 v w Ew). cbn [encodes snd]. split; [|done]. by rewrite (Hcol v HvU), H2.
          * cbn [encodes snd] in H2. destruct H2 as [H2 _]. rewrite (Hcol v HvU), (sat_vals _ _ _ _ _ H1 v w Ew) in H2. injection H2 as ->. by apply sql_eq_typed.
      - assert (c1 = with_cols (fun m => <[v := default [] (m !! v) ++ [(al, CVar v)]]> m) c0) as Hc1 by (apply bind_plain; [done|by left]).
        rewrite Hc1. split_and!; try (by destruct c0 as [[]]).
        + apply (inv_push_col _ _ _ _ _ _ _ _ _ _ v (al, CVar v) (type_of v)); [done|intros HL; by destruct (HUL v HvU)|done|]. intros _. split; [by apply Hk|].
          intros E (E0 & HO & HE & _). assert (placed E) as Hpl. { exists E0. split; [done|]. unfold P_QueryInv.comp in HE. by rewrite <- Hcm. }
          destruct (Hrows E Hpl) as (σ' & Ht & Hcol). destruct (Ht v HvU). exists (σ' v). split; [|done]. cbn [encodes snd]. by rewrite (Hcol v HvU).
        + intros E σ _. apply sat_push_col. }
    destruct (IH ltac:(intros y Hy; apply Hl; by right) rest' c1 D1 D2 ltac:(by rewrite D3) D6) as [J1 [J2 J3 J4 J5]]. split; [done|]. split; try congruence.
    intros E σ Hpl. rewrite (J5 E σ Hpl), (D7 E σ Hpl). split.
    - intros [[H1 H2] H3]. split; [done|]. intros y [->|Hy]%elem_of_cons; auto.
    - intros [H1 H2]. split_and!; [done|apply H2; by left|]. intros y Hy. apply H2. by right.
  Qed.
  End columns.

  (* -------------------------------------------------------------- the union *)
  Lemma union_fold rs : forall m, (forall x, m !! x = if decide (x ∈ U) then Some (vts_of_one (type_of x)) else None) ->
    (forall r, r ∈ rs -> forall x, c_known r !! x = if decide (x ∈ U) then Some (vts_of_one (type_of x)) else None) ->
    forall x, fold_left (fun m r => union_types m (c_known r)) rs m !! x = if decide (x ∈ U) then Some (vts_of_one (type_of x)) else None.
  Proof using Type.
    induction rs as [|r rs IH]; intros m Hm Hrs; [done|]. cbn [fold_left]. apply IH; [|intros r' Hr'; apply Hrs; by right]. intros x. unfold union_types. rewrite lookup_merge, Hm, (Hrs r) by (by left).
    destruct (decide (x ∈ U)); [|done]. cbn [diag_None]. f_equal. unfold vts_union. apply N.lor_diag.
  Qed.
  Lemma join_ok arms rs n c' : (forall r, r ∈ rs -> exists a, a ∈ arms /\ armed a r) ->
    (forall a, a ∈ arms -> (exists r, r ∈ rs /\ armed a r) \/ forall E σ, E ∈ product st (comp c) (c_from c) [] -> sat c E σ -> ~ Forall (meets σ) (arm_clauses a)) ->
    (forall a x, a ∈ arms -> x ∈ flat_map clause_vars (arm_clauses a) -> x ∈ U) -> (c_next c <= n)%nat -> join_union k U rs (with_next n c) = Ok c' ->
    good sq k st None L ins V O rest c' /\ forall E0 σ, O E0 -> Sat c' E0 σ <-> Sat c E0 σ /\ some_arm arms σ.
  Proof using I Hne HUL.
    intros Hrs Harms Hvars Hn Hr. pose proof (i_computed I) as HO0. cbn beta iota in HO0.
    destruct rs as [|r rs']; [cbn in Hr; injection Hr as <-|].
    { split; [left; by destruct c as [[]]|]. intros E0 σ HO. split; [intros H%Sat_ne; by destruct c as [[]]|]. intros [(E & HE & Hs) (a & Ha & Hm)]. rewrite (HO0 _ HO) in HE.
      destruct (Harms a Ha) as [(r & H & _)|H]; [by apply elem_of_nil in H|]. by destruct (H E σ HE Hs). }
    cbn [join_union] in Hr. set (rs := r :: rs') in *. set (K := fold_left _ rs' _) in Hr.
    assert (forall r, r ∈ rs -> forall x, c_known r !! x = if decide (x ∈ U) then Some (vts_of_one (type_of x)) else None) as Hkn. { intros r1 H1. destruct (Hrs r1 H1) as (a & _ & Ha). apply (ar_known _ _ Ha). }
    assert (forall x, K !! x = if decide (x ∈ U) then Some (vts_of_one (type_of x)) else None) as HK. { apply union_fold; [apply Hkn; by left|]. intros r1 H1. apply Hkn. by right. }
    clearbody K.
    match type of Hr with context [filter ?P (sorted_vars U)] => assert (filter P (sorted_vars U) = []) as Hneed end.
    { apply elem_of_nil_inv. intros v [Hex Hv%sorted_vars_elem]%elem_of_list_filter. apply existsb_exists in Hex as (r1 & H1%elem_of_list_In & H2).
      unfold known_type in H2. rewrite (Hkn r1 H1), decide_True in H2 by done. destruct (type_of v); done. }
    rewrite Hneed in Hr. cbn [fold_left] in Hr. set (u := Union (sorted_vars U) [] rs) in Hr. set (cn := with_next n c) in *.
    assert (c_from cn = c_from c /\ c_computed cn = c_computed c /\ c_vals cn = c_vals c /\ c_known cn = c_known c /\ c_extracted cn = c_extracted c /\ c_empty cn = c_empty c) as (N1 & N2 & N3 & N4 & N5 & N6).
    { unfold cn. clear. by destruct c as [[]]. }
    assert (inv O rest (c_from c) cn) as In. { apply inv_with_next; [done|]. eapply inv_weaken; [|exact I]. intros x Hx. apply elem_of_app. by right. }
    assert (ready cn) as Rn.
    { intros x Hx. rewrite N4, N5. split; [|by apply no_extracted]. destruct (c_known c !! x) as [ts|] eqn:Ek; [right|by left]. destruct (Hrs r ltac:(by left)) as (a & _ & Ha). f_equal. by apply (ar_kept _ _ Ha). }
    assert (forall p, p ∈ map_to_list K -> p.1 ∈ U /\ p.2 = vts_of_one (type_of p.1)) as HKl.
    { intros [x ts] Hp%elem_of_map_to_list. rewrite HK in Hp. cbn [fst snd]. destruct (decide (x ∈ U)); [|done]. by simplify_eq. }
    destruct (broaden_all _ HKl rest (c_from c) cn Rn In) as [I1 [R1 R2 R3 R4 R5 R6 R7]]. fold (broaden_types K cn) in *. set (c1 := broaden_types K cn) in *.
    assert (forall x, x ∈ U -> x ∈ map fst (map_to_list K)) as HUK.
    { intros x Hx. apply elem_of_list_fmap. exists (x, vts_of_one (type_of x)). split; [done|]. apply elem_of_map_to_list. by rewrite HK, decide_True. }
    pose proof (inv_new_computed sq k st L ins V O rest (c_from c) u c1 I1) as I2. set (c2 := (push_computed u c1).1) in *.
    assert (push_computed u c1 = (c2, length (c_computed c1))) as Hpush by (unfold c2; by destruct c1). rewrite Hpush in Hr.
    assert (c_from c2 = c_from c1 /\ c_computed c2 = c_computed c1 ++ [u] /\ c_vals c2 = c_vals c1 /\ c_known c2 = c_known c1 /\ c_empty c2 = c_empty c1) as (P1 & P2 & P3 & P4 & P5) by (unfold c2; by destruct c1 as [[]]).
    assert (forall E σ, sat c2 E σ <-> sat c1 E σ) as P6. { intros E σ. unfold c2. clear. destruct c1 as [[] l w]. cbn. by split; intros []; split. }
    set (i := length (c_computed c1)) in *. assert (i = length (c_computed c)) as Hic by (unfold i; by rewrite R4, N2).
    assert (i < length (c_computed c2))%nat as Hi by (rewrite P2, app_length; cbn; unfold i; lia).
    assert (map (computed_rows sq st []) (c_computed c2) !! i = Some (computed_rows sq st [] u)) as Hat.
    { rewrite P2, map_app, lookup_app_r by (rewrite map_length; unfold i; lia). rewrite map_length. unfold i. by rewrite Nat.sub_diag. }
    set (F := c_from c ++ [(TComputed i, AComputed i)]) in *.
    assert (forall E E0, E ∈ product st (map (computed_rows sq st []) (c_computed c2)) F E0 <-> exists E1 rw, E1 ∈ product st (comp c) (c_from c) E0 /\ rw ∈ computed_rows sq st [] u /\ E = (AComputed i, rw) :: E1) as Hprod.
    { intros E E0. unfold F. rewrite product_snoc. cbn [table_rows]. rewrite Hat. cbn [default].
      assert (product st (map (computed_rows sq st []) (c_computed c2)) (c_from c) E0 = product st (comp c) (c_from c) E0) as ->; [|done].
      apply product_more. intros t al Hin. pose proof (i_from I t al Hin) as Hs. destruct t as [| | |j]; try done. destruct Hs as [_ Hj]. cbn [table_rows]. f_equal.
      unfold P_QueryInv.comp. rewrite P2, R4, N2, map_app, lookup_app_l; [done|]. by rewrite map_length. }
    assert (forall E1 σ v, v ∈ U -> env_column ((AComputed i, row_of σ) :: E1) (AComputed i, CVar v) = Some (sql_of (σ v))) as Hcol.
    { intros E1 σ v Hv. cbn [env_column fst snd]. rewrite decide_True by done. by rewrite row_column_of. }
    assert (forall E, placed (c_computed c2) i E -> exists σ', typed σ' /\ forall v, v ∈ U -> env_column E (AComputed i, CVar v) = Some (sql_of (σ' v))) as Hrows.
    { intros E (E0 & _ & (E1 & rw & _ & Hrw & ->)%Hprod). destruct (row_meaning arms rs Hrs rw Hrw) as (σ' & -> & Ht & _). exists σ'. split; [done|]. intros v Hv. by apply Hcol. }
    destruct (bind_all (c_computed c2) i Hi Hrows (sorted_vars U) ltac:(intros v; apply sorted_vars_elem) rest c2 eq_refl ltac:(congruence)) as [I3 [C1 C2 C3 C4]]; [|done|].
    { intros x Hx. rewrite P4. apply R6; [done|]. right. by apply HUK. }
    set (c3 := fold_left _ (sorted_vars U) c2) in *. injection Hr as <-.
    assert (c_from (push_from (TComputed i, AComputed i) c3) = F) as HF. { unfold F. rewrite <- N1, <- R3, <- P1, <- C2. by destruct c3 as [[]]. }
    assert (comp (push_from (TComputed i, AComputed i) c3) = map (computed_rows sq st []) (c_computed c2)) as HC. { unfold P_QueryInv.comp. rewrite <- C3. by destruct c3 as [[]]. }
    split. { right. rewrite HF. by apply inv_push_from. }
    assert (forall E1 rw σ, sat c ((AComputed i, rw) :: E1) σ <-> sat c E1 σ) as Hbelow.
    { intros E1 rw σ. symmetry. apply (sat_below _ _ (lim None c)); [apply same_below_fresh; cbn; rewrite Hic; lia|apply (i_wheres I)|apply (i_below I)|apply (i_xbelow I)]. }
    assert (forall E σ, sat c3 E σ -> c_empty c3 = false) as _ by (by intros E σ []).
    intros E0 σ HO. unfold P_QueryApply.Sat. rewrite HF, HC. setoid_rewrite sat_push_from. split.
    - intros (E & HE & Hs). assert (placed (c_computed c2) i E) as Hpl by (by exists E0). apply (C4 E σ Hpl) in Hs as [Hs Henc]. rewrite P6, R7 in Hs. destruct Hs as [Hs Hty]. unfold cn in Hs. rewrite sat_with_next in Hs.
      apply Hprod in HE as (E1 & rw & HE1 & Hrw & ->). destruct (row_meaning arms rs Hrs rw Hrw) as (σ' & -> & Ht & (a & Ha & Hm)). split; [exists E1; split; [done|exact (proj1 (Hbelow _ _ _) Hs)]|].
      exists a. split; [done|]. rewrite Forall_forall in Hm |- *. intros cl Hcl. apply (meets_agree st (kn_schema k) cl σ' σ); [|by apply Hm]. intros x Hx.
      assert (x ∈ U) as HxU by (apply (Hvars a x Ha); by apply (in_flat _ _ _ cl)). destruct (Ht x HxU) as [T1 T2]. pose proof (Henc x ltac:(by apply sorted_vars_elem)) as Henc'.
      apply (encodes_inj ((AComputed i, row_of σ') :: E1) (AComputed i, CVar x)); [done| |].
      + cbn [encodes snd]. by rewrite Hcol.
      + cbn [snd]. rewrite T2. apply Hty. by apply HUK.
    - intros [(E1 & HE1 & Hs) (a & Ha & Hm)]. pose proof HE1 as HE1'. rewrite (HO0 _ HO) in HE1'. destruct (Harms a Ha) as [(r1 & Hr1 & Har)|Hno]; [|by destruct (Hno E1 σ HE1' Hs)].
      pose proof (row_present arms rs Hrs a r1 E1 σ Hr1 Har Hs Hm) as Hin. destruct (ar_hit _ _ Har E1 σ Hs Hm) as (_ & E' & _ & Hrow). destruct (arm_row_of r1 E' σ Hrow) as [_ Ht].
      assert (((AComputed i, row_of σ) :: E1) ∈ product st (map (computed_rows sq st []) (c_computed c2)) F E0) as HE. { apply Hprod. by exists E1, (row_of σ). }
      exists ((AComputed i, row_of σ) :: E1). split; [done|]. assert (placed (c_computed c2) i ((AComputed i, row_of σ) :: E1)) as Hpl by (by exists E0). apply (C4 _ σ Hpl). rewrite P6, R7. split_and!.
      + unfold cn. rewrite sat_with_next. exact (proj2 (Hbelow _ _ _) Hs).
      + intros x Hx. assert (x ∈ U) as HxU. { apply elem_of_list_fmap in Hx as ([y ts] & -> & Hy). by apply HKl in Hy as [? _]. } by apply Ht.
      + intros v Hv%sorted_vars_elem. cbn [encodes snd]. rewrite Hcol by done. split; [done|]. by apply Ht.
  Qed.
End branch.

(* ---------------------------------------------------------------- clauses with unions *)

Section wide.
  Context (sq : sqlite) (k : known) (st : store) (G : store_good (sc_attribute_map (kn_schema k)) st) (CO : cache_ok k st) (NC : uncached k).
  Context (L : string -> Prop) (ins : list string) (V : gmap string typed_value) (HLI : forall x, L x -> x ∉ ins).
  Notation Sat := (Sat sq st).
  Notation good := (good sq k st None L ins V).
  Notation meets := (meets st (kn_schema k)).

  Definition wide (cl : clause) : Prop := safe_clause k L ins V cl
    \/ exists u arms, cl = COr u arms /\ branches (kn_schema k) ins V u arms /\ forall a, a ∈ arms -> safe_arm k L ins V a.
  Lemma union_applied u arms c c' : branches (kn_schema k) ins V u arms -> apply_clause k (COr u arms) c = Ok c' ->
    exists mask rs n, Forall2 (left_out k c) mask arms /\ or_arms_with (apply_arm k) (use_as_template (vars_of (flat_map arm_vars arms)) c) mask arms (c_next c) = Ok (rs, n)
      /\ join_union k (vars_of (flat_map arm_vars arms)) rs (with_next n c) = Ok c'.
  Proof using Type.
    intros (H1 & H2 & H3 & _) Hr. cbn [apply_clause] in Hr. destruct (validate_or u arms) eqn:Hv; [|done]. cbn [negb] in Hr.
    assert (arms <> []) as Hne by (by intros ->; cbn in H1; lia). destruct (deconstruct_alike k c ins u arms H3 Hv Hne) as [Hf _].
    destruct (decon_complex k c arms H2 [] [] None) as (mask & Hd & Hm). assert (deconstruct k c u arms = DComplex mask) as Hdec.
    { unfold deconstruct. rewrite Hf. cbn [negb]. destruct arms as [|a [|b arms]]; [done|cbn in H1; lia|]. exact Hd. }
    rewrite Hdec, Hf in Hr. cbn [negb] in Hr. fold (apply_arm k) in Hr.
    destruct (or_arms_with _ _ _ _ _) as [[rs n]| |] eqn:Eo; cbn [rbind] in Hr; try done. by exists mask, rs, n.
  Qed.
  Lemma union_step u arms c c' : branches (kn_schema k) ins V u arms -> (forall a, a ∈ arms -> safe_arm k L ins V a) -> apply_clause k (COr u arms) c = Ok c' -> wstep c c'.
  Proof using Type.
    intros Hb Hs Hr. destruct (union_applied u arms c c' Hb Hr) as (mask & rs & n & _ & Ho & Hj). apply (or_arms_next k ins V L) in Ho; [|by apply Forall_forall].
    eapply wstep_trans; [|by eapply wstep_join]. apply wstep_same; by destruct c as [[]].
  Qed.
  Lemma union_ok u arms : branches (kn_schema k) ins V u arms -> (forall a, a ∈ arms -> safe_arm k L ins V a) -> fspec sq k st None L ins V (apply_clause k) (COr u arms).
  Proof using G CO NC HLI.
    intros Hb Hs. split. { intros c c' Hr. destruct (union_step u arms c c' Hb Hs Hr). auto. }
    intros O rest c c' Hg Ho Hr. destruct (union_step u arms c c' Hb Hs Hr) as [_ Hempty _]. destruct (c_empty c) eqn:Hne.
    { specialize (Hempty eq_refl). split; [by left|]. intros E0 σ _. split; [intros H%Sat_ne; congruence|intros [H%Sat_ne _]; congruence]. }
    pose proof (good_inv _ _ _ _ _ _ _ _ _ _ Hg Hne) as I. destruct (union_applied u arms c c' Hb Hr) as (mask & rs & n & Hmask & Hor & Hj).
    destruct Hb as (H1 & H2 & H3 & H4 & T & HT). set (U := vars_of (flat_map arm_vars arms)) in *.
    assert (forall x, x ∈ U <-> x ∈ flat_map arm_vars arms) as HU by (intros x; apply elem_of_list_to_set).
    assert (forall a p x, CPattern p ∈ top_clauses a -> x ∈ pattern_vars p -> x ∈ flat_map pattern_vars (arm_patterns a)) as Htop.
    { intros a p x Hp Hx. apply (in_flat _ _ _ p); [|done]. destruct a as [cl|cs]; cbn [top_clauses arm_patterns] in *; [apply elem_of_list_singleton in Hp as <-; by left|].
      apply elem_of_list_In, in_flat_map. exists (CPattern p). split; [by apply elem_of_list_In|]. by left. }
    assert (pvars [COr u arms] = flat_map pattern_vars (flat_map arm_patterns arms)) as Hpv. { unfold pvars. cbn [flat_map clause_patterns]. by rewrite app_nil_r. }
    assert (forall x, x ∈ U -> forall a, a ∈ arms -> x ∈ flat_map pattern_vars (arm_patterns a)) as Hin. { intros x Hx a Ha. destruct (HT a x Ha ltac:(by apply HU)) as (p & Hp & Hxp & _). by eapply Htop. }
    assert (forall x, x ∈ U -> ~ L x) as HUL.
    { intros x Hx HL. rewrite Hpv in Ho. apply once_app in Ho as [Ho _]. destruct arms as [|a [|b arms]]; [cbn in H1; lia..|]. cbn [flat_map] in Ho. rewrite flat_map_app in Ho. apply once_app in Ho as (_ & _ & Ho).
      apply (Ho x HL); [apply Hin; [done|by left]|]. rewrite flat_map_app. apply elem_of_app. left. apply Hin; [done|]. right. by left. }
    assert (forall x, x ∈ U -> x ∈ pvars [COr u arms]) as HUV.
    { intros x Hx. rewrite Hpv. destruct arms as [|a arms]; [cbn in H1; lia|]. cbn [flat_map]. rewrite flat_map_app. apply elem_of_app. left. apply Hin; [done|]. by left. }
    assert (forall a x, a ∈ arms -> x ∈ arm_vars a -> x ∈ U) as Hvars. { intros a x Ha Hx. apply HU. by apply (in_flat _ _ _ a). }
    assert (forall a p x, p ∈ arm_patterns a -> x ∈ pattern_vars p -> x ∈ arm_vars a) as Hpat.
    { intros [cl|cs] p x Hp Hx; cbn [arm_patterns arm_vars] in *; [by eapply patterns_vars|]. apply elem_of_list_In, in_flat_map in Hp as (cl & Hcl%elem_of_list_In & Hp%elem_of_list_In). apply (in_flat _ _ _ cl); [done|]. by eapply patterns_vars. }
    assert (forall a, a ∈ arms -> fits k ins V U T a) as Hfit.
    { intros a Ha. destruct (H4 a Ha) as [A1 _]. split; [done| |by intros x; apply Hvars|].
      - apply (relax_arm k L); [|by apply Hs]. intros p x Hp Hx. apply HUL, (Hvars a); [done|]. by eapply Hpat.
      - intros x Hx. apply HT; [done|]. by apply HU. }
    pose proof (or_arms_next k ins V L _ _ (proj2 (Forall_forall _ _) Hs) _ _ _ _ Hor) as Hn.
    destruct (arms_spec sq k st G CO NC L ins V HLI O (pvars [COr u arms]) rest c I Hne U T HUL HUV arms Hfit mask (c_next c) rs n Hmask Hor) as [R1 R2].
    destruct (join_ok sq k st L ins V O (pvars [COr u arms]) rest c I Hne U T HUL arms rs n c' R1 R2) as [J1 J2]; [|done|done|].
    { intros a x Ha Hx. apply (Hvars a); [done|]. destruct a as [cl|cs]; cbn [arm_clauses arm_vars flat_map] in *; [by rewrite app_nil_r in Hx|done]. }
    split; [done|]. intros E0 σ HO. rewrite (J2 E0 σ HO). by rewrite (meets_or_shared st (kn_schema k) σ u arms H3).
  Qed.
  Lemma wide_ok cl : wide cl -> okclause sq k st None L ins V (apply_clause k) cl.
  Proof using G CO NC HLI. intros [H|(u & arms & -> & Hb & Hs)]; [by apply okclause_safe|by apply union_ok]. Qed.
  Lemma wide_step cl c c' : wide cl -> apply_clause k cl c = Ok c' -> wstep c c'.
  Proof using Type. intros [H|(u & arms & -> & Hb & Hs)]; [intros Hr; apply wstep_of; by eapply stepping_clause|by apply union_step]. Qed.
  Lemma wide_clauses cs O rest c c' : Forall wide cs -> good O (pvars cs ++ rest) c -> once L (pvars cs ++ rest) -> apply_clauses k cs c = Ok c' ->
    good O rest c' /\ wstep c c' /\ forall E0 σ, O E0 -> Sat c' E0 σ <-> Sat c E0 σ /\ Forall (meets σ) cs.
  Proof using G CO NC HLI.
    intros Hcs Hg Ho Hr. destruct (clauses_ok sq k st G CO None L ins V HLI (apply_clause k) cs O rest c c') as [H1 H2]; try done.
    { eapply Forall_impl; [exact Hcs|]. apply wide_ok. }
    split_and!; try done. eapply wstep_clauses; [|exact Hr]. eapply Forall_impl; [exact Hcs|]. intros cl Hw c1 c2. by apply wide_step.
  Qed.
End wide.

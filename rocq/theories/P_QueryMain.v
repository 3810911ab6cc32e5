(** What the clauses of a query mean, negation and alternatives included. *)
From Verif Require Import M_Query Spec_Query Spec_Value Spec_Sets Spec_Cache P_Value P_Sets P_QuerySql P_QuerySat P_QueryPat P_QueryInv P_QueryApply P_QueryClauses P_QueryFinish P_QueryStep P_QueryPred P_QueryOr.

(* ---------------------------------------------------------------- not *)

Record bound_to (c : cc) (vs : list var) (t t' : cc) : Prop := {
  bt_empty : c_empty t' = c_empty t;
  bt_next : c_next t' = c_next t;
  bt_from : c_from t' = c_from t;
  bt_wheres : c_wheres t' = c_wheres t;
  bt_computed : c_computed t' = c_computed t;
  bt_inputs : c_inputs t' = c_inputs t;
  bt_known : c_known t' = c_known t;
  bt_required : c_required t' = c_required t;
  bt_extracted : c_extracted t' = c_extracted t;
  bt_in : forall x, x ∈ vs -> (exists v, c_vals c !! x = Some v /\ c_vals t' !! x = Some v /\ c_cols t' !! x = c_cols t !! x)
    \/ (c_vals c !! x = None /\ c_vals t' !! x = c_vals t !! x /\ exists q qs, c_cols c !! x = Some (q :: qs) /\ c_cols t' !! x = Some [q]);
  bt_out : forall x, x ∉ vs -> c_vals t' !! x = c_vals t !! x /\ c_cols t' !! x = c_cols t !! x }.
Lemma bind_unified_spec c vs : NoDup vs -> forall t t', bind_unified c vs t = Ok t' -> bound_to c vs t t'.
Proof.
  induction 1 as [|v vs Hv Hnd IH]; intros t t'; cbn [bind_unified].
  { intros [= <-]. split; try done. intros x Hx. by apply elem_of_nil in Hx. }
  destruct (c_vals c !! v) as [y|] eqn:Ev.
  - intros H. apply IH in H as [A1 A2 A3 A4 A5 A6 A7 A8 A9 A10 A11]. destruct (A11 v Hv) as [B1 B2]. destruct t as [[] l w].
    split; try done.
    + intros x Hx. destruct (decide (x = v)) as [->|Hne].
      * left. exists y. rewrite B1, B2. cbn. by rewrite lookup_insert.
      * apply elem_of_cons in Hx as [?|Hx]; [done|]. destruct (A10 x Hx) as [?|(? & H2 & ?)]; [by left|right]. split_and!; try done. rewrite H2. cbn. by rewrite lookup_insert_ne.
    + intros x Hx. apply not_elem_of_cons in Hx as [Hne Hx]. destruct (A11 x Hx) as [-> ->]. cbn. by rewrite lookup_insert_ne.
  - destruct (c_cols c !! v) as [[|q qs]|] eqn:Ec; try done. intros H. apply IH in H as [A1 A2 A3 A4 A5 A6 A7 A8 A9 A10 A11]. destruct (A11 v Hv) as [B1 B2]. destruct t as [[] l w].
    split; try done.
    + intros x Hx. destruct (decide (x = v)) as [->|Hne].
      * right. split_and!; [done|by rewrite B1|]. exists q, qs. rewrite B2. cbn. by rewrite lookup_insert.
      * apply elem_of_cons in Hx as [?|Hx]; [done|]. destruct (A10 x Hx) as [(z & H1 & H2 & H3)|?]; [left|by right]. exists z. split_and!; try done. rewrite H3. cbn. by rewrite lookup_insert_ne.
    + intros x Hx. apply not_elem_of_cons in Hx as [Hne Hx]. destruct (A11 x Hx) as [-> ->]. cbn. by rewrite lookup_insert_ne.
Qed.
Lemma product_carry st l n F E E' : same_below n E E' -> forall E1, E1 ∈ product st l F E -> exists E1', E1' ∈ product st l F E' /\ same_below n E1 E1'.
Proof.
  revert E E'. induction F as [|[t al] F IH]; intros E E' Hs E1; cbn [M_Query.product].
  - intros ->%elem_of_list_singleton. exists E'. split; [by left|done].
  - intros (r & Hr & HE)%elem_of_list_In%in_flat_map. apply elem_of_list_In in HE. apply (IH _ ((al, r) :: E')) in HE as (E1' & H1 & H2); [|by apply same_below_cons].
    exists E1'. split; [|done]. apply elem_of_list_In, in_flat_map. exists r. split; [done|]. by apply elem_of_list_In.
Qed.

Lemma patterns_vars cl p x : p ∈ clause_patterns cl -> x ∈ pattern_vars p -> x ∈ clause_vars cl.
Proof.
  induction cl as [p'|y t|nm ar|u cs IH|u arms IH] using clause_induction; intros Hp Hx; cbn [clause_patterns clause_vars] in *.
  - by apply elem_of_list_singleton in Hp as ->.
  - by apply elem_of_nil in Hp.
  - by apply elem_of_nil in Hp.
  - apply elem_of_list_In, in_flat_map in Hp as (cl & Hcl%elem_of_list_In & Hp%elem_of_list_In). rewrite Forall_forall in IH. apply (in_flat _ _ _ cl); [done|]. by apply IH.
  - apply elem_of_list_In, in_flat_map in Hp as (a & Ha%elem_of_list_In & Hp%elem_of_list_In). rewrite Forall_forall in IH. specialize (IH a Ha). rewrite Forall_forall in IH.
    apply (in_flat _ _ _ a); [done|]. destruct a as [cl|cs]; cbn [arm_patterns arm_vars arm_clauses] in *; [apply IH; [by left|done|done]|].
    apply elem_of_list_In, in_flat_map in Hp as (cl & Hcl%elem_of_list_In & Hp%elem_of_list_In). apply (in_flat _ _ _ cl); [done|]. by apply IH.
Qed.

Section main.
  Context (sq : sqlite) (k : known) (st : store) (G : store_good (sc_attribute_map (kn_schema k)) st) (CO : cache_ok k st).
  Context (L : string -> Prop) (ins : list string) (V : gmap string typed_value) (HLI : forall x, L x -> x ∉ ins).
  Notation sat := (sat sq st).
  Notation comp := (comp sq st).
  Notation inv M := (inv sq k st M L ins V).
  Notation Sat := (Sat sq st).
  Notation good M := (good sq k st M L ins V).
  Notation okenv := (okenv sq st).
  Notation meets := (meets st (kn_schema k)).

  Lemma raw_rows d : d ∈ st_datoms st -> d ∈ all_datoms st \/ d_tag d = 10.
  Proof using G. intros Hd. destruct (sg_raw _ _ G d Hd) as [[_ H]|(_ & _ & H & _)]; auto. Qed.
  Lemma view_rows d : d ∈ all_datoms st -> exists v, row_value d v.
  Proof using G. intros Hd. destruct (sg_view _ _ G d Hd) as (at_ & v & _ & H1 & _ & H2 & H3 & _). exists v. by split. Qed.

  (** The clauses inside see the variables they share with those outside. *)
  Lemma template_inv M O vs rest c t0 (U : gset var) :
    inv M O (vs ++ rest) (c_from c) c -> c_empty c = false -> bound_to c (sorted_vars U) (use_as_template U c) t0 -> (forall x, x ∈ ins -> x ∈ vs -> x ∈ U) ->
    inv (Some (lim M c).2) (okenv O (c_from c) c) (vs ++ []) (c_from t0) t0 /\ pinned t0
    /\ forall E σ σ', sat c E σ -> Sat t0 E σ' <-> forall x, x ∈ U -> σ x = σ' x.
  Proof using Type.
    intros [I1 I2 I3 I4 I5 I6 I7 I8 IX I9 I10 I11 I12 IV] Hne [A1 A2 A3 A4 A5 A6 A7 A8 A9 A10 A11] HU.
    assert (c_empty t0 = false /\ c_next t0 = c_next c /\ c_from t0 = [] /\ c_wheres t0 = [] /\ c_computed t0 = []) as (B1 & B2 & B3 & B4 & B5) by (by rewrite A1, A2, A3, A4, A5; destruct c as [[]]).
    assert (c_inputs t0 = c_inputs c ∩ U) as B6 by (by rewrite A6; destruct c as [[]]).
    assert (c_known t0 = restrict U (c_known c)) as B7 by (by rewrite A7; destruct c as [[]]).
    assert (c_required t0 = restrict U (c_required c)) as B8 by (by rewrite A8; destruct c as [[]]).
    assert (c_extracted t0 = restrict U (c_extracted c)) as B9 by (by rewrite A9; destruct c as [[]]).
    assert (forall x, x ∈ U -> (exists v, c_vals c !! x = Some v /\ c_vals t0 !! x = Some v /\ c_cols t0 !! x = None)
      \/ (c_vals c !! x = None /\ c_vals t0 !! x = None /\ exists q qs, c_cols c !! x = Some (q :: qs) /\ c_cols t0 !! x = Some [q])) as B10.
    { intros x Hx. destruct (A10 x ltac:(by apply sorted_vars_elem)) as [(v & H1 & H2 & H3)|(H1 & H2 & H3)].
      - left. exists v. split_and!; [done|done|by rewrite H3].
      - right. split_and!; try done. rewrite H2. destruct (restrict U (c_vals c) !! x) as [y|] eqn:E; [|by destruct c as [[]]]. apply restrict_lookup in E as [E _]. congruence. }
    assert (forall x, x ∉ U -> c_vals t0 !! x = None /\ c_cols t0 !! x = None) as B11.
    { intros x Hx. destruct (A11 x ltac:(by rewrite sorted_vars_elem)) as [-> ->]. split; [|by destruct c as [[]]].
      destruct (restrict U (c_vals c) !! x) as [y|] eqn:E; [|by destruct c as [[]]]. apply restrict_lookup in E as [_ E]. done. }
    clear A1 A2 A3 A4 A5 A6 A7 A8 A9 A10 A11.
    assert (forall x v, c_vals t0 !! x = Some v -> x ∈ U /\ c_vals c !! x = Some v /\ c_cols t0 !! x = None) as Hvals.
    { intros x v Hx. destruct (decide (x ∈ U)) as [HxU|HxU]; [|destruct (B11 x HxU); congruence]. destruct (B10 x HxU) as [(w & H1 & H2 & H3)|(_ & H2 & _)]; [|congruence]. split_and!; congruence. }
    assert (forall x qs', c_cols t0 !! x = Some qs' -> x ∈ U /\ c_vals c !! x = None /\ exists q qs, c_cols c !! x = Some (q :: qs) /\ qs' = [q]) as Hcols.
    { intros x qs' Hx. destruct (decide (x ∈ U)) as [HxU|HxU]; [|destruct (B11 x HxU); congruence]. destruct (B10 x HxU) as [(w & H1 & H2 & H3)|(H1 & H2 & q & qs & H3 & H4)]; [congruence|]. split_and!; [done|done|]. exists q, qs. split; [done|]. congruence. }
    assert (forall E, okenv (okenv O (c_from c) c) [] t0 E -> okenv O (c_from c) c E) as Hok.
    { intros E (E0 & HO & HE & _). cbn in HE. apply elem_of_list_singleton in HE as ->. done. }
    assert (forall x al, x ∈ U -> lonely sq st O (c_from c) c x al -> lonely sq st (okenv O (c_from c) c) [] t0 x al) as Hlone.
    { intros x al HxU (H1 & H2 & H3 & H4 & H5). unfold lonely. rewrite B7, B8, B9. split_and!.
      - destruct (restrict U (c_known c) !! x) as [y|] eqn:E; [|done]. apply restrict_lookup in E as [E _]. congruence.
      - destruct (B10 x HxU) as [(w & ? & _)|(_ & ? & _)]; congruence.
      - destruct (B10 x HxU) as [(w & ? & _)|(_ & _ & q & qs & ? & ?)]; congruence.
      - by apply restrict_lookup.
      - intros E HE%Hok. destruct (H5 E HE) as (d & Hd & [Hr|(Hr & ts & Hts & Hc)]); exists d; (split; [done|]); [by left|right]. split; [done|]. exists ts. split; [|done]. by apply restrict_lookup. }
    assert (lim (Some (lim M c).2) t0 = lim M c) as Bl by (unfold lim; by rewrite B2).
    split_and!.
    - split; rewrite ?Bl, ?B3, ?B4, ?B5, ?B6, ?B7, ?B9; try done.
      + intros t al H. by apply elem_of_nil in H.
      + intros x [Hx _]%elem_of_intersection. auto.
      + intros x v Hx. apply Hvals in Hx as (_ & Hx & _). eauto.
      + intros x ts [Hx _]%restrict_lookup. eauto.
      + intros _ x v Hx. apply Hvals in Hx as (HxU & Hx & _). apply restrict_lookup. split; [|done]. by apply I7.
      + intros x qs q Hx Hq. apply Hcols in Hx as (_ & _ & q' & qs' & Hx & ->). apply elem_of_list_singleton in Hq as ->. eapply I8; [done|by left].
      + intros x q [Hx _]%restrict_lookup. eauto.
      + intros _ x qs Hx. apply Hcols in Hx as Hx'. destruct Hx' as (HxU & Hxv & q & qs' & Hxc & ->). split; [done|]. destruct (I9 Hne _ _ Hxc) as [_ [(t & H1 & H2)|[al Ha]]].
        * left. exists t. rewrite B7. split; [by apply restrict_lookup|]. intros E q' HE%Hok ->%elem_of_list_singleton. apply H2; [done|by left].
        * right. exists al. by apply Hlone.
      + intros _ x q [Hx HxU]%restrict_lookup. destruct (I10 Hne x q Hx) as (H1 & H2 & H3). split_and!; [done| |by apply Hlone]. rewrite app_nil_r. intros H. apply H2, elem_of_app. by left.
      + intros _ x HL Hx. rewrite app_nil_r in Hx. destruct (I11 Hne x HL ltac:(apply elem_of_app; by left)) as (H1 & H2 & H3).
        assert (x ∉ U) as HxU. { intros HxU. destruct (B10 x HxU) as [(w & ? & _)|(_ & _ & q & qs & ? & _)]; congruence. }
        destruct (B11 x HxU) as [H4 H5]. split_and!; [done| |done]. destruct (restrict U (c_known c) !! x) as [y|] eqn:E; [|done]. apply restrict_lookup in E as [E _]. congruence.
      + intros _ x Hx Hi. rewrite app_nil_r in Hx. destruct (I12 Hne x ltac:(apply elem_of_app; by left) Hi) as (v & H1 & H2). exists v. split; [done|].
        destruct (B10 x (HU x Hi Hx)) as [(w & ? & ? & _)|(? & _)]; congruence.
      + intros Hu x v Hx. apply Hvals in Hx as (_ & Hx & _). eauto.
    - intros x v q qs Hx Hq. apply Hvals in Hx as (_ & _ & Hx). congruence.
    - intros E σ σ' Hs. unfold P_QueryApply.Sat. rewrite B3. cbn [M_Query.product]. split.
      + intros (E' & ->%elem_of_list_singleton & Hs') x Hx. destruct (B10 x Hx) as [(v & H1 & H2 & _)|(_ & _ & q & qs & H3 & H4)].
        * by rewrite (sat_vals _ _ _ _ _ Hs x v H1), (sat_vals _ _ _ _ _ Hs' x v H2).
        * apply (encodes_inj E q); [eapply (sat_cols _ _ _ _ _ Hs); [done|by left]|eapply (sat_cols _ _ _ _ _ Hs'); [done|by left]|].
          destruct (I9 Hne _ _ H3) as [_ [(t & Ht & _)|(al & _ & _ & Hal & _)]].
          -- pose proof (sat_known _ _ _ _ _ Hs x _ Ht) as T1%one_contains_iff. pose proof (sat_known _ _ _ _ _ Hs' x (vts_of_one t) ltac:(rewrite B7; by apply restrict_lookup)) as T2%one_contains_iff.
             destruct (q.2); try exact Logic.I; congruence.
          -- rewrite H3 in Hal. by injection Hal as -> _.
      + intros Hag. exists E. split; [by left|]. destruct Hs as [S1 S2 S3 S4 S5 S6 S7]. split; rewrite ?B4, ?B7, ?B8, ?B9; try done.
        * intros x qs' q' Hx Hq. apply Hcols in Hx as (HxU & _ & q & qs & Hx & ->). apply elem_of_list_singleton in Hq as ->. rewrite <- Hag by done. eapply S3; [done|by left].
        * intros x v Hx. apply Hvals in Hx as (HxU & Hx & _). rewrite <- Hag by done. auto.
        * intros x ts [Hx HxU]%restrict_lookup. rewrite <- Hag by done. auto.
        * intros x ts [Hx HxU]%restrict_lookup. rewrite <- Hag by done. auto.
        * intros x q [Hx HxU]%restrict_lookup. rewrite <- Hag by done. auto.
  Qed.

  Lemma not_respects M O c c' : c_computed c = [] -> finished sq st M O c c' -> respects sq st (lim M c) (KNotExists c').
  Proof using Type.
    intros Hcm [F1 F2 F3 F4 F5 F6 F7 F8 F9 F10 F11 F12 F13]. rewrite Hcm in F7.
    assert (forall E E', same_below (lim M c) E E' -> select sq st E c' = [] -> select sq st E' c' = []) as H.
    { intros E E' Hs Hn. destruct (select sq st E' c') as [|E1 l] eqn:El; [done|]. exfalso. assert (E1 ∈ select sq st E' c') as H1 by (rewrite El; by left).
      apply select_elem in H1 as [H1 H2]; [|by left]. apply (product_carry st _ (lim M c) _ E' E (same_below_sym _ _ _ Hs)) in H1 as (E2 & H3 & H4).
      assert (E2 ∈ select sq st E c') as H5; [|rewrite Hn in H5; by apply elem_of_nil in H5]. apply select_elem; [by left|]. split; [done|].
      rewrite Forall_forall in H2, F8 |- *. intros kk Hkk. rewrite <- (F8 kk Hkk E1 E2 H4). by apply H2. }
    intros E E' Hs. change (is_nil (select sq st E c') = is_nil (select sq st E' c')).
    destruct (select sq st E c') eqn:E1; destruct (select sq st E' c') eqn:E2; try done.
    - rewrite (H E E' Hs E1) in E2. done.
    - rewrite (H E' E (same_below_sym _ _ _ Hs) E2) in E1. done.
  Qed.

  (** The clauses the theorem is about *)
  Fixpoint safe_clause (cl : clause) : Prop :=
    match cl with
    | CPattern p => psafe L ins V p
    | CType _ _ => True
    | CPred _ args => Forall (arg_ok L) args
    | CNot u cs => uncached k /\ anchored cs /\ (forall x, x ∈ ins -> x ∈ flat_map clause_vars cs -> x ∈ unified u (flat_map clause_vars cs))
        /\ (fix all cs := match cs with [] => True | c :: cs => safe_clause c /\ all cs end) cs
    | COr u arms => uncached k /\ (forall x, x ∈ flat_map arm_vars arms -> x ∈ unified u (flat_map arm_vars arms))
        /\ match arms with [a] => safe_arm a | _ => alternatives (kn_schema k) ins V arms /\ forall p, AClause (CPattern p) ∈ arms -> psafe L ins V p end
    end
  with safe_arm (a : arm) : Prop :=
    match a with
    | AClause c => match c with CPattern p => ref_inputs ins V p | _ => True end /\ safe_clause c
    | AAnd cs => (fix all cs := match cs with [] => True | c :: cs => safe_clause c /\ all cs end) cs
    end.
  Lemma safe_not u cs : safe_clause (CNot u cs) <->
    uncached k /\ anchored cs /\ (forall x, x ∈ ins -> x ∈ flat_map clause_vars cs -> x ∈ unified u (flat_map clause_vars cs)) /\ Forall safe_clause cs.
  Proof using Type.
    cbn [safe_clause]. assert ((fix all cs := match cs with [] => True | c :: cs => safe_clause c /\ all cs end) cs <-> Forall safe_clause cs) as ->; [|done].
    induction cs as [|c cs IH]; [by split|]. rewrite Forall_cons, <- IH. done.
  Qed.
  Lemma safe_arm_clauses a : safe_arm a -> Forall safe_clause (arm_clauses a).
  Proof using Type.
    destruct a as [c|cs]; cbn [safe_arm arm_clauses]; [intros [_ H]; by constructor|]. induction cs as [|c cs IH]; intros H; [done|]. destruct H as [H1 H2]. constructor; auto.
  Qed.
  (** What is known of an [or] that is applied *)
  Lemma or_applied u arms c : safe_clause (COr u arms) -> validate_or u arms = true ->
    (exists a, arms = [a] /\ safe_arm a /\ forall c', apply_clause k (COr u arms) c = Ok c' -> match a with AClause cl => apply_clause k cl c | AAnd cs => apply_clauses_with k (apply_clause k) cs c end = Ok c')
    \/ exists ps, arms = map pattern_arm ps /\ (forall p, p ∈ ps -> psafe L ins V p /\ named p /\ ref_inputs ins V p /\ (forall x, x ∈ pattern_vars p -> x ∈ vars_of (flat_map arm_vars arms)))
         /\ (forall p p', p ∈ ps -> p' ∈ ps -> alike (kn_schema k) ins p p')
         /\ forall c', apply_clause k (COr u arms) c = Ok c' -> match decided (List.filter (fun p => is_some (place_table k c p)) ps) with
              | DEmpty => Ok (mark_empty c) | DUnitPattern p => apply_clause k (CPattern p) c | DSimple ps => apply_simple_or k ps (vars_of (flat_map arm_vars arms)) c | _ => Panic PQuery end = Ok c'.
  Proof using Type.
    intros (NC & Hu & Harms) Hv. assert (arms <> []) as Hne. { destruct arms; [|done]. destruct Harms as [(ps & H1 & H2 & _) _]. by destruct ps. }
    destruct (deconstruct_alike k c ins u arms Hu Hv Hne) as [Hf Hd].
    assert ((exists a, arms = [a] /\ safe_arm a) \/ (match arms with [_] => False | _ => True end /\ alternatives (kn_schema k) ins V arms /\ forall p, AClause (CPattern p) ∈ arms -> psafe L ins V p)) as [(a & -> & Ha)|(Hm & (ps & H1 & H2 & H3 & H4) & Hp)].
    { destruct arms as [|a [|b arms]]; [done|left; by exists a|by right]. }
    - left. exists a. split_and!; try done. intros c' Hr. cbn [apply_clause] in Hr. rewrite Hv in Hr. cbn [negb] in Hr. unfold deconstruct in Hr. rewrite Hf in Hr. by destruct a.
    - right. exists ps. split_and!; try done.
      + intros p Hin. destruct (H3 p Hin) as [Hn Hri]. assert (AClause (CPattern p) ∈ arms) as Hina. { rewrite H2. apply elem_of_list_fmap. by exists p. }
        split_and!; try done; [by apply Hp|]. intros x Hx. unfold vars_of. apply elem_of_list_to_set. by apply (in_flat _ _ _ (AClause (CPattern p))).
      + intros c' Hr. assert (deconstruct k c u arms = decided (List.filter (fun p => is_some (place_table k c p)) ps)) as Hdec.
        { specialize (Hd ps H2 ltac:(intros p Hin; by apply H3) H4). by destruct arms as [|a [|b arms]]. }
        cbn [apply_clause] in Hr. rewrite Hv in Hr. cbn [negb] in Hr. rewrite Hdec in Hr. destruct (List.filter _ ps) as [|p [|p' qs]]; exact Hr.
  Qed.
  Lemma vars_of_unified u cs : vars_of (unified u (flat_map clause_vars cs)) = match u with UImplicit => vars_of (flat_map clause_vars cs) | UExplicit vs => vars_of vs end.
  Proof using Type. by destruct u. Qed.

  (* a stronger form: what it does, whatever it means *)
  Definition stepping (cl : clause) : Prop := forall c c', apply_clause k cl c = Ok c' -> step c c'.
  Lemma apply_clause_not u cs c c' : apply_clause k (CNot u cs) c = Ok c' ->
    apply_not u (vars_of (flat_map clause_vars cs)) (apply_clauses_with k (apply_clause k) cs) c = Ok c'.
  Proof using Type. cbn [apply_clause]. by destruct (validate_not _ _). Qed.
  Lemma compared_clauses cs : Forall (compared (apply_clause k)) cs.
  Proof using Type. apply Forall_forall. intros [] _; try done. intros c c' Hr. by apply step_predicate in Hr as [_ Hr]. Qed.
  Lemma stepping_clause cl : safe_clause cl -> stepping cl.
  Proof using Type.
    induction cl as [p|x t|nm ar|u cs IH|u arms IH] using clause_induction; intros Hs c c' Hr.
    - cbn [apply_clause] in Hr. destruct (make_evolved k c p); injection Hr as <-; [apply step_apply_pattern|apply step_mark_empty].
    - cbn [apply_clause] in Hr. injection Hr as <-. first [apply step_requirement|apply step_refl].
    - by apply step_predicate in Hr as [Hr _].
    - apply safe_not in Hs as (_ & _ & _ & Hall). apply apply_clause_not in Hr. unfold apply_not in Hr.
      destruct (bind_unified _ _ _) as [t0| |] eqn:E0; cbn [rbind] in Hr; try done. destruct (apply_clauses_with _ _ _ _) as [t1| |] eqn:E1; cbn [rbind] in Hr; try done.
      apply bind_unified_spec in E0; [|apply sorted_vars_nodup]. apply step_clauses in E1.
      2:{ apply Forall_forall. intros cl Hcl. rewrite Forall_forall in IH, Hall. apply IH; auto. }
      assert (c_next c <= c_next t1)%nat as Hn. { pose proof (st_next _ _ E1) as H. rewrite (bt_next _ _ _ _ E0) in H. by destruct c as [[]]. }
      assert (step c (with_next (c_next t1) c)) as S1 by (by apply step_with_next).
      destruct (c_empty t1); [by injection Hr as <-|]. destruct (process_required _) as [t2| |]; cbn [rbind] in Hr; try done.
      destruct (_ || _)%bool; injection Hr as <-; [done|]. eapply step_trans; [exact S1|apply step_add_where].
    - assert (validate_or u arms = true) as Hv. { cbn [apply_clause] in Hr. by destruct (validate_or u arms). }
      destruct (or_applied u arms c Hs Hv) as [(a & -> & Ha & Hap)|(ps & -> & Hps & _ & Hap)]; specialize (Hap c' Hr).
      + apply Forall_cons_1 in IH as [IH _]. pose proof (safe_arm_clauses a Ha) as Hcs. destruct a as [cl|cs]; cbn [arm_clauses] in *.
        * apply Forall_cons_1 in IH as [IH _]. apply Forall_cons_1 in Hcs as [Hcs _]. by apply IH.
        * eapply step_clauses; [|exact Hap]. apply Forall_forall. intros cl Hcl. rewrite Forall_forall in IH, Hcs. apply IH; auto.
      + destruct (List.filter _ ps) as [|p [|p' qs]] eqn:Eq; cbn [decided] in Hap.
        * injection Hap as <-. apply step_mark_empty.
        * cbn [apply_clause] in Hap. destruct (make_evolved k c p); injection Hap as <-; [apply step_apply_pattern|apply step_mark_empty].
        * eapply step_simple_or; [|exact Hap]. intros q Hq. rewrite <- Eq in Hq. apply elem_of_list_In, filter_In in Hq as [Hq _]. apply elem_of_list_In in Hq. destruct (Hps q Hq) as (_ & ? & _ & ?). done.
  Qed.

  Lemma not_ok M u cs : safe_clause (CNot u cs) -> (forall m, Forall (fun cl => okclause sq k st (Some m) L ins V (apply_clause k) cl) cs) ->
    fspec sq k st M L ins V (apply_clause k) (CNot u cs).
  Proof using G CO HLI.
    intros Hsafe Hcs. split.
    { intros c c' Hr. destruct (stepping_clause _ Hsafe c c' Hr). auto. }
    intros O rest c c' Hg Ho Hr. pose proof (stepping_clause _ Hsafe c c' Hr) as [_ Hempty _ _ _].
    destruct (c_empty c) eqn:Hne.
    { specialize (Hempty eq_refl). split; [by left|]. intros E0 σ _. split; [intros H%Sat_ne; congruence|intros [H%Sat_ne _]; congruence]. }
    pose proof (good_inv _ _ _ _ _ _ _ _ _ _ Hg Hne) as I. clear Hg Hempty.
    assert (pvars [CNot u cs] = pvars cs) as Hpv. { unfold pvars. cbn [flat_map clause_patterns]. by rewrite app_nil_r. }
    rewrite Hpv in I, Ho. pose proof Hsafe as Hsafe'. apply safe_not in Hsafe' as (NC & Hanch & Hins & Hall).
    apply apply_clause_not in Hr. unfold apply_not in Hr. rewrite <- vars_of_unified in Hr. set (U := vars_of (unified u (flat_map clause_vars cs))) in *.
    destruct (bind_unified _ _ _) as [t0| |] eqn:Et0; cbn [rbind] in Hr; try done. destruct (apply_clauses_with _ _ _ _) as [t1| |] eqn:Et1; cbn [rbind] in Hr; try done.
    apply bind_unified_spec in Et0; [|apply sorted_vars_nodup].
    assert (forall x, x ∈ ins -> x ∈ pvars cs -> x ∈ U) as HU.
    { intros x Hx Hp. unfold U, vars_of. apply elem_of_list_to_set, Hins; [done|]. clear - Hp. unfold pvars in Hp.
      apply elem_of_list_In, in_flat_map in Hp as (p & Hp & Hx%elem_of_list_In). apply in_flat_map in Hp as (cl & Hcl%elem_of_list_In & Hp%elem_of_list_In). apply (in_flat _ _ _ cl); [done|]. by eapply patterns_vars. }
    destruct (template_inv M O (pvars cs) rest c t0 U I Hne Et0 HU) as (I0 & P0 & S0). set (m := (lim M c).2) in *.
    assert (Forall (fun cl => forall c c', apply_clause k cl c = Ok c' -> step c c') cs) as Hstep. { eapply Forall_impl; [exact Hall|]. intros cl. apply stepping_clause. }
    pose proof (step_clauses k _ _ _ _ Hstep Et1) as [N1 _ P1 _ _]. specialize (P1 P0).
    assert (weighty t1) as W1 by (eapply (second_pass_weighty k _ cs NC Hstep (compared_clauses cs)); [exact Et1|by right; right]).
    assert (once L (pvars cs ++ [])) as Ho'. { rewrite app_nil_r. by apply once_app in Ho as [? _]. }
    destruct (clauses_ok sq k st G CO (Some m) L ins V HLI (apply_clause k) cs (okenv O (c_from c) c) [] t0 t1 (Hcs m) (or_intror I0) Ho' Et1) as [G1 S1].
    set (O' := okenv O (c_from c) c) in *.
    assert (forall E0 E σ, O E0 -> E ∈ product st (comp c) (c_from c) E0 -> sat c E σ -> O' E /\ (meets σ (CNot u cs) <-> ~ exists σ', Sat t1 E σ')) as Hnot.
    { intros E0 E σ HO HE Hs. assert (O' E) as HO'. { exists E0. split_and!; try done. apply Hs. } split; [done|]. rewrite meets_not.
      assert (forall P Q : Prop, (P <-> Q) -> (~ P <-> ~ Q)) as Hneg by tauto. apply Hneg. clear Hneg. f_equiv. intros σ'. rewrite (S1 E σ' HO'), (S0 E σ σ' Hs).
      unfold agree_on, U, vars_of. setoid_rewrite elem_of_list_to_set. split; (intros [H1 H2]; split; [|done]); intros x Hx; symmetry; auto. }
    assert (c_next c <= c_next t1)%nat as Hn. { rewrite (bt_next _ _ _ _ Et0) in N1. by destruct c as [[]]. }
    pose proof (inv_with_next sq k st M L ins V _ _ _ (c_next t1) c Hn I) as In.
    apply (inv_weaken _ _ _ _ _ _ _ _ _ rest) in In; [|intros x Hx; apply elem_of_app; by right].
    assert (c_from (with_next (c_next t1) c) = c_from c) as Hfrom by (by destruct c as [[]]).
    assert (comp (with_next (c_next t1) c) = comp c) as Hcw by (by destruct c as [[]]).
    assert ((forall E σ', ~ Sat t1 E σ') -> good M O rest (with_next (c_next t1) c) /\ forall E0 σ, O E0 -> Sat (with_next (c_next t1) c) E0 σ <-> Sat c E0 σ /\ meets σ (CNot u cs)) as Hdrop.
    { intros Hno. split; [right; by rewrite Hfrom|]. intros E0 σ HO. unfold P_QueryApply.Sat at 1 2. rewrite Hfrom, Hcw. setoid_rewrite sat_with_next. split; [|tauto].
      intros (E & HE & Hs). split; [by exists E|]. apply (Hnot E0 E σ HO HE Hs). intros [σ' Hs']. by apply (Hno E σ'). }
    destruct (c_empty t1) eqn:Ee1.
    { injection Hr as <-. apply Hdrop. intros E σ' H%Sat_ne. congruence. }
    destruct (process_required _) as [t2| |] eqn:Et2; cbn [rbind] in Hr; try done.
    pose proof (good_inv _ _ _ _ _ _ _ _ _ _ G1 Ee1) as I1. pose proof (i_computed I1) as Hcm1. cbn beta iota in Hcm1.
    pose proof (finish_ok sq st k (Some m) L ins V O' [] t1 t2 raw_rows view_rows I1 Ee1 P1 Et2) as Hfin.
    pose proof Hfin as [F1 F2 F3 F4 F5 F6 F7 F8 F9 F10 F11 F12 F13].
    destruct (c_empty t2) eqn:Ee2.
    { injection Hr as <-. apply Hdrop. intros E σ' (E' & HE' & Hs'). apply F12 in Hs' as [H' _ _ _ _ _ _]. congruence. }
    assert (is_nil (c_wheres t2) = false) as Hw. { destruct F9 as [ks Hks]. destruct W1 as [W1|W1]; [congruence|]. rewrite Hks. by destruct (c_wheres t1). }
    rewrite Hw in Hr. cbn [orb] in Hr. injection Hr as <-.
    pose proof (not_respects (Some m) O' t1 t2 Hcm1 Hfin) as Hresp.
    assert (lim M (with_next (c_next t1) c) = lim (Some m) t1) as Hlim by (unfold m; destruct c as [[]]; by destruct M).
    assert (c_computed t2 = []) as Hcm2 by (by rewrite F7).
    assert (comp t2 = comp t1) as Hc21 by (unfold P_QueryInv.comp; by rewrite F7).
    assert (c_from (add_where (KNotExists t2) (with_next (c_next t1) c)) = c_from c) as Hfrom' by (by destruct c as [[]]).
    assert (comp (add_where (KNotExists t2) (with_next (c_next t1) c)) = comp c) as Hca by (by destruct c as [[]]).
    split. { right. rewrite Hfrom'. apply inv_add_where; [|done]. by rewrite Hlim. }
    intros E0 σ HO. unfold P_QueryApply.Sat at 1 2. rewrite Hfrom', Hca. setoid_rewrite sat_add_where. setoid_rewrite sat_with_next.
    assert (forall E, E ∈ product st (comp c) (c_from c) E0 -> sat c E σ -> holds_in sq st E (KNotExists t2) = true <-> meets σ (CNot u cs)) as Hiff.
    { intros E HE Hs. destruct (Hnot E0 E σ HO HE Hs) as [HO' ->]. change (holds_in sq st E (KNotExists t2)) with (is_nil (select sq st E t2)). split.
      - intros Hnil [σ' (E' & HE' & Hs')]. destruct (select sq st E t2) as [|] eqn:Esel; [|done]. assert (E' ∈ select sq st E t2) as Hin; [|rewrite Esel in Hin; by apply elem_of_nil in Hin].
        apply select_elem; [by left|]. rewrite F1, Hc21. split; [done|]. apply F12 in Hs'. apply Hs'.
      - intros Hno. destruct (select sq st E t2) as [|E' l] eqn:Esel; [done|]. exfalso. apply Hno. assert (E' ∈ select sq st E t2) as Hin by (rewrite Esel; by left).
        exists (assigned t1 E'), E'. pose proof (F13 eq_refl E E' HO' Hin) as Hs'. apply F12 in Hs'. split; [|done]. apply select_elem in Hin as [Hin _]; [|by left]. by rewrite <- F1, <- Hc21. }
    split.
    - intros (E & HE & Hs & Hk). split; [by exists E|]. by apply (Hiff E HE Hs).
    - intros [(E & HE & Hs) Hm]. exists E. split_and!; try done. by apply (Hiff E HE Hs).
  Qed.

  Lemma or_ok M u arms : safe_clause (COr u arms) -> Forall (fun a => Forall (fun cl => okclause sq k st M L ins V (apply_clause k) cl) (arm_clauses a)) arms ->
    fspec sq k st M L ins V (apply_clause k) (COr u arms).
  Proof using G CO HLI.
    intros Hsafe Hcs. split.
    { intros c c' Hr. destruct (stepping_clause _ Hsafe c c' Hr). auto. }
    intros O rest c c' Hg Ho Hr. assert (validate_or u arms = true) as Hv. { cbn [apply_clause] in Hr. by destruct (validate_or u arms). }
    pose proof Hsafe as (NC & Hu & _). setoid_rewrite (meets_or_shared st (kn_schema k) _ u arms Hu).
    assert (pvars [COr u arms] = flat_map pattern_vars (flat_map arm_patterns arms)) as Hpv. { unfold pvars. cbn [flat_map clause_patterns]. by rewrite app_nil_r. }
    rewrite Hpv in Hg, Ho. destruct (or_applied u arms c Hsafe Hv) as [(a & -> & Ha & Hap)|(ps & -> & Hps & Hal & Hap)]; specialize (Hap c' Hr).
    - assert (flat_map pattern_vars (flat_map arm_patterns [a]) = pvars (arm_clauses a)) as Hpa. { unfold pvars. destruct a; cbn; by rewrite ?app_nil_r. }
      rewrite Hpa in Hg, Ho. apply Forall_cons_1 in Hcs as [Hcs _].
      assert (good M O rest c' /\ forall E0 σ, O E0 -> Sat c' E0 σ <-> Sat c E0 σ /\ Forall (meets σ) (arm_clauses a)) as [H1 H2].
      2:{ split; [done|]. intros E0 σ HO. rewrite (H2 E0 σ HO). split; (intros [Hs Hm]; split; [done|]); [exists a; split; [by left|done]|]. by destruct Hm as (b & ->%elem_of_list_singleton & Hm). }
      destruct a as [cl|cs]; cbn [arm_clauses] in *.
      + apply Forall_cons_1 in Hcs as [Hcs _]. setoid_rewrite Forall_singleton. destruct cl as [p|x t|nm ar|u' l|u' l].
        * destruct Ha as [Hri P]. assert (pvars [CPattern p] = pattern_vars p) as Hp1 by (unfold pvars; cbn; by rewrite app_nil_r). rewrite Hp1 in Hg, Ho.
          destruct (one_pattern_ok sq k st G CO NC M L ins V HLI O rest p c c' Hg Ho P Hri Hap) as [H1 H2]. split; [done|]. intros E0 σ _. apply H2.
        * assert (first_pass c (CType x t) = c') as Hc' by (by injection Hap). rewrite <- Hc'. clear Hap Hc' Hr.
          destruct (first_pass_ok sq k st M L ins V O rest (CType x t) c Hg Logic.I) as (A1 & A2 & A3 & A4 & AC & A5 & A6). split; [done|]. intros E0 σ _.
          unfold P_QueryApply.Sat, P_QueryInv.comp. rewrite AC, A2. setoid_rewrite A6. split; [intros (E & HE & Hs & Hf); split; [by exists E|done]|intros [(E & HE & Hs) Hf]; by exists E].
        * destruct Hcs as [_ Hcs]. by apply (Hcs O rest c c').
        * destruct Hcs as [_ Hcs]. by apply (Hcs O rest c c').
        * destruct Hcs as [_ Hcs]. by apply (Hcs O rest c c').
      + by apply (clauses_ok sq k st G CO M L ins V HLI (apply_clause k) cs O rest c c').
    - assert (flat_map arm_patterns (map pattern_arm ps) = ps) as Hpa. { clear. induction ps as [|p ps IH]; [done|]. cbn. by rewrite IH. }
      rewrite Hpa in Hg, Ho. destruct (alternatives_ok sq k st G CO NC M L ins V HLI O rest ps _ _ c c' Hg Ho Hps Hal Hap) as [H1 H2]. split; [done|]. intros E0 σ _. rewrite H2.
      split; (intros [Hs Hm]; split; [done|]).
      + destruct Hm as (p & Hp & Hm). exists (pattern_arm p). split; [apply elem_of_list_fmap; by exists p|]. cbn. by constructor.
      + destruct Hm as (a & (p & -> & Hp)%elem_of_list_fmap & Hm). exists p. split; [done|]. by apply Forall_cons_1 in Hm as [Hm _].
  Qed.

  Lemma okclause_safe M cl : safe_clause cl -> okclause sq k st M L ins V (apply_clause k) cl.
  Proof using G CO HLI.
    revert M. induction cl as [p|x t|nm ar|u cs IH|u arms IH] using clause_induction; intros M Hs; [done|done|by apply predicate_ok| |].
    - apply not_ok; [done|]. intros m. apply safe_not in Hs as (_ & _ & _ & Hall). rewrite Forall_forall in *. intros cl Hcl. apply IH; auto.
    - apply or_ok; [done|]. destruct Hs as (_ & _ & Harms). rewrite Forall_forall in IH |- *. intros a Ha. specialize (IH a Ha). rewrite Forall_forall in IH |- *. intros cl Hcl.
      apply IH; [done|]. destruct arms as [|b [|b' arms]]; [by apply elem_of_nil in Ha| |].
      + apply elem_of_list_singleton in Ha as ->. apply safe_arm_clauses in Harms. rewrite Forall_forall in Harms. auto.
      + destruct Harms as [(ps & _ & Heq & _) Hp]. pose proof Ha as Ha'. rewrite Heq in Ha'. apply elem_of_list_fmap in Ha' as (p & -> & _). cbn in Hcl. apply elem_of_list_singleton in Hcl as ->. by apply Hp.
  Qed.
  Lemma apply_clauses_ok M cs O rest c c' : Forall safe_clause cs -> good M O (pvars cs ++ rest) c -> once L (pvars cs ++ rest) -> apply_clauses k cs c = Ok c' ->
    good M O rest c' /\ step c c' /\ forall E0 σ, O E0 -> Sat c' E0 σ <-> Sat c E0 σ /\ Forall (meets σ) cs.
  Proof using G CO HLI.
    intros Hcs Hg Ho Hr.
    destruct (clauses_ok sq k st G CO M L ins V HLI (apply_clause k) cs O rest c c') as [H1 H2]; try done.
    { eapply Forall_impl; [exact Hcs|]. apply okclause_safe. }
    split_and!; try done. eapply step_clauses; [|exact Hr]. eapply Forall_impl; [exact Hcs|]. apply stepping_clause.
  Qed.
End main.

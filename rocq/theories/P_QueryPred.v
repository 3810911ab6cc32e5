(** Comparisons. *)
From Verif Require Import M_Query Spec_Query Spec_Value Spec_Sets Spec_Cache P_Value P_Sets P_QuerySql P_QuerySat P_QueryPat P_QueryInv P_QueryApply P_QueryClauses P_QueryFinish P_QueryStep.

Definition refop (op : inequality) : bool := match op with Unpermute | Differ | TxAfter | TxBefore => true | _ => false end.
Lemma related_iff nm op v w : inequality_of nm = Some op ->
  related nm v w <-> exists r, (if refop op then entities else amounts) v w = Some r /\ operator_holds op r = true.
Proof.
  intros Hop. assert (exists x, x ∈ [("<", LessThan); ("<=", LessThanOrEquals); (">", GreaterThan); (">=", GreaterThanOrEquals); ("!=", NotEquals);
     ("unpermute", Unpermute); ("differ", Differ); ("tx-after", TxAfter); ("tx-before", TxBefore)]%string /\ x = (nm, op)) as (x & Hin & ->).
  { unfold inequality_of in Hop. destruct (list_find _ _) as [[i [nm' op']]|] eqn:E; [|done]. apply list_find_Some in E as (E & Hnm & _). cbn in *. simplify_eq.
    eexists. split; [by eapply elem_of_list_lookup_2|done]. }
  clear Hop.
  repeat (apply elem_of_cons in Hin as [Hin|Hin]; [injection Hin as -> ->; cbn [related refop];
    (split; [intros H; repeat destruct H as [H|H]; (eexists; split; [exact H|done])|intros ([] & H & Hop); try done; auto])|]). by apply elem_of_nil in Hin.
Qed.
Lemma amounts_types v w r : amounts v w = Some r -> (tv_type v = VTInstant /\ tv_type w = VTInstant) \/ (is_numeric (tv_type v) = true /\ is_numeric (tv_type w) = true).
Proof. destruct v as [| | |[|kv]| | | |], w as [| | |[|kw]| | | |]; cbn; try done; auto. Qed.
Lemma entities_types v w r : entities v w = Some r -> tv_type v = VTRef /\ tv_type w = VTRef.
Proof. by destruct v, w. Qed.
(** SQL comparison of two values of one kind *)
Lemma sql_compare_numeric sq op v w : is_numeric (tv_type v) = true -> is_numeric (tv_type w) = true ->
  sql_compare sq op (sql_of v) (sql_of w) = true <-> exists r, amounts v w = Some r /\ operator_holds op r = true.
Proof.
  destruct v as [| |z|[|kv]| | | |], w as [| |z'|[|kw]| | | |]; cbn [tv_type is_numeric]; try done; intros _ _; unfold sql_of; cbn [to_sql_value_pair fst sql_compare];
    try (split; [done|intros (r & Hr & _); done]); unfold sql_cmp; cbn [sql_rank Z.compare number amounts quantity];
    (split; [intros H; eexists; by split|]); by intros (r & [= <-] & H).
Qed.
Lemma Zmult_compare n m p : 0 < p -> Z.compare (n * p) (m * p) = Z.compare n m.
Proof. intros H. symmetry. apply Zmult_compare_compat_r. lia. Qed.
Lemma micros_cmp a b : storable (TVInstant a) -> storable (TVInstant b) -> Z.compare (long_value (to_micros a)) (long_value (to_micros b)) = Z.compare a b.
Proof.
  assert (forall x, storable (TVInstant x) -> x = to_micros x * 1000) as H.
  { intros x [Hx _]. unfold to_micros. pose proof (Z.div_mod x 1000000000). pose proof (Z.div_mod (x mod 1000000000) 1000).
    assert ((x mod 1000000000) mod 1000 = 0); [|lia]. rewrite <- Hx. change 1000000000 with (1000 * 1000000). rewrite Z.rem_mul_r by lia. rewrite Z.mul_comm, Z.mod_add by lia. apply Z.mod_mod. lia. }
  intros Ha Hb. rewrite (H a Ha) at 2. rewrite (H b Hb) at 2. unfold long_value. rewrite !Zmult_compare by (try apply Z.pow_pos_nonneg; lia). done.
Qed.
Lemma sql_compare_instant sq op v w : storable v -> storable w -> tv_type v = VTInstant -> tv_type w = VTInstant ->
  sql_compare sq op (sql_of v) (sql_of w) = true <-> exists r, amounts v w = Some r /\ operator_holds op r = true.
Proof.
  destruct v as [| | | |i| | |], w as [| | | |j| | |]; try done; intros Hi Hj _ _. unfold sql_of; cbn [to_sql_value_pair fst sql_compare]. unfold sql_cmp; cbn [sql_rank Z.compare number amounts].
  rewrite micros_cmp by done. split; [intros H; eexists; by split|]. by intros (r & [= <-] & H).
Qed.
Lemma sql_compare_ref sq op v w : tv_type v = VTRef -> tv_type w = VTRef ->
  sql_compare sq op (sql_of v) (sql_of w) = true <-> exists r, entities v w = Some r /\ operator_holds op r = true.
Proof.
  destruct v as [i| | | | | | |], w as [j| | | | | | |]; try done; intros _ _. unfold sql_of; cbn [to_sql_value_pair fst sql_compare]. unfold sql_cmp; cbn [sql_rank Z.compare number entities].
  unfold long_value. rewrite Zmult_compare by (apply Z.pow_pos_nonneg; lia). split; [intros H; eexists; by split|]. by intros (r & [= <-] & H).
Qed.

Lemma narrow_same c x t ts : c_known c !! x = Some (vts_of_one t) -> vts_contains ts t = true -> narrow_type x ts c = c.
Proof.
  intros Hk Ht. unfold narrow_type. rewrite Hk. assert (vts_intersection ts (vts_of_one t) = vts_of_one t) as ->.
  { unfold vts_contains in Ht. apply negb_true_iff, N.eqb_neq in Ht. unfold vts_intersection, vts_of_one, vts_insert, vts_none in *. rewrite N.lor_0_l in *.
    apply N.bits_inj_iff. intros n. rewrite N.land_spec. destruct (N.testbit (N.shiftl 1 (vt_bit t)) n) eqn:E; [|by rewrite andb_false_r]. rewrite andb_true_r.
    destruct (N.testbit ts n) eqn:E'; [done|]. exfalso. apply Ht. apply N.bits_inj_iff. intros m. rewrite N.land_spec, N.bits_0.
    destruct (N.testbit (N.shiftl 1 (vt_bit t)) m) eqn:Em; [|by rewrite andb_false_r].
    rewrite N.shiftl_1_l, N.pow2_bits_eqb in E, Em. apply N.eqb_eq in E, Em. subst n m. by rewrite E'. }
  assert (vts_is_empty ts = false) as ->. { destruct (vts_is_empty ts) eqn:E; [|done]. by rewrite empty_contains in Ht. }
  assert (vts_is_empty (vts_of_one t) = false) as -> by (by destruct t). destruct c as [[] l w]. cbn in *. by rewrite insert_id.
Qed.
Lemma constrain_same c x t : c_known c !! x = Some (vts_of_one t) -> constrain_var x t c = c.
Proof. intros Hk. unfold constrain_var. rewrite Hk. assert (vts_contains (vts_of_one t) t = true) as -> by (by destruct t). destruct c as [[] l w]. cbn in *. by rewrite insert_id. Qed.

Lemma with_double_more ts t : vts_contains ts t = true -> vts_contains (with_double ts) t = true.
Proof. intros Ht. unfold with_double. destruct (vts_contains ts VTLong); [|done]. rewrite vts_contains_insert, Ht. by rewrite orb_true_r. Qed.
Lemma with_double_numeric ts t : vts_contains ts t = true -> is_numeric t = true -> vts_contains (with_double ts) VTDouble = true.
Proof. intros Ht Hn. destruct t; try done; [|by apply with_double_more]. unfold with_double. rewrite Ht, vts_contains_insert. done. Qed.
Lemma with_double_less ts t : vts_contains (with_double ts) t = true -> vts_contains ts t = true \/ (t = VTDouble /\ vts_contains ts VTLong = true).
Proof.
  unfold with_double. destruct (vts_contains ts VTLong) eqn:E; [|by left]. rewrite vts_contains_insert. intros [H|H]%orb_true_iff; [|by left]. apply bool_decide_eq_true in H. by right.
Qed.
Lemma only_numeric_some s : vts_is_empty s = false -> vts_is_only_numeric s = true -> exists u, is_numeric u = true /\ vts_contains s u = true.
Proof.
  intros Hn Ho. destruct (vts_contains s VTLong) eqn:E1; [by exists VTLong|]. destruct (vts_contains s VTDouble) eqn:E2; [by exists VTDouble|]. exfalso.
  unfold vts_contains in E1, E2. apply negb_false_iff, N.eqb_eq in E1, E2. unfold vts_is_only_numeric, vts_is_subset in Ho. apply N.eqb_eq in Ho. unfold vts_is_empty in Hn. apply N.eqb_neq in Hn. apply Hn.
  rewrite <- Ho. change vts_numeric with (N.lor (N.shiftl 1 (vt_bit VTLong)) (N.shiftl 1 (vt_bit VTDouble))). by rewrite N.land_lor_distr_r, E1, E2.
Qed.

Section pred.
  Context (sq : sqlite) (k : known) (st : store) (M : option nat) (L : string -> Prop) (ins : list string) (V : gmap string typed_value).
  Notation sat := (sat sq st).
  Notation inv := (inv sq k st M L ins V).
  Notation good := (good sq k st M L ins V).
  Notation Sat := (Sat sq st).
  Notation meets := (meets st (kn_schema k)).
  Notation arg_is := (arg_is (kn_schema k)).

  Definition arg_ok (a : farg) : Prop := match a with FVar x => ~ L x | FConst v => storable v | _ => True end.
  Section one.
    Context (O : env -> Prop) (rest : list string) (c : cc) (I : inv O rest (c_from c) c) (Hne : c_empty c = false).
    (** A variable that has a value or a column has one type. *)
    Lemma bound_type x q qs : ~ L x -> c_cols c !! x = Some (q :: qs) -> exists t, c_known c !! x = Some (vts_of_one t).
    Proof using I Hne.
      intros HL Hq. destruct (i_cols I Hne x _ Hq) as [_ [(t & Ht & _)|(al & _ & _ & _ & Ha & _)]]; [by exists t|]. by destruct (i_extracted I Hne x _ Ha) as [? _].
    Qed.
    Definition qbelow (v : qvalue) : Prop := match v with QColumn q => below (lim M c) q.1 | _ => True end.
    (** What an argument is resolved to, if its type satisfies [T] *)
    Definition resolved (T : value_type -> Prop) (a : farg) (r : cc * qvalue) : Prop :=
      r.1 = c /\ qbelow r.2 /\ forall E σ, sat c E σ -> exists w, arg_is σ a w /\ T (tv_type w) /\ storable w /\ eval_value E r.2 = Some (sql_of w) /\ forall w', arg_is σ a w' -> T (tv_type w') -> w' = w.
    Lemma resolved_var (T : value_type -> Prop) x t r : ~ L x -> c_known c !! x = Some (vts_of_one t) -> T t ->
      match c_vals c !! x with Some v => r = (c, QValue v) \/ (exists e, v = TVRef e /\ r = (c, QEntid e)) | None => first_column c x = Ok r end -> resolved T (FVar x) r.
    Proof using I Hne.
      intros HL Hk HT Hr.
      assert (forall E σ, sat c E σ -> T (tv_type (σ x))) as Hty. { intros E σ Hs. pose proof (sat_known _ _ _ _ _ Hs x _ Hk) as H. by apply one_contains_iff in H as ->. }
      destruct (c_vals c !! x) as [v|] eqn:Ev.
      - assert (forall E σ, sat c E σ -> σ x = v /\ storable v) as Hv. { intros E σ Hs. split; [by apply (sat_vals _ _ _ _ _ Hs)|by apply (i_vals I x)]. }
        destruct Hr as [->|(e & -> & ->)]; (split_and!; [done|done|]); intros E σ Hs; exists (σ x); destruct (Hv E σ Hs) as [Hx Hst];
          (split_and!; [done|by eapply Hty|by rewrite Hx|by rewrite Hx|by intros w' ->]).
      - unfold first_column in Hr. destruct (c_cols c !! x) as [[|q qs]|] eqn:Eq; try done. injection Hr as <-. split_and!; [done|cbn; apply (i_below I x _ _ Eq); by left|].
        intros E σ Hs. exists (σ x). pose proof (sat_cols _ _ _ _ _ Hs x _ q Eq ltac:(by left)) as He. split_and!; [done|by eapply Hty|by eapply encodes_storable|by apply encodes_column|by intros w' ->].
    Qed.
    Lemma resolve_instant_ok a r : arg_ok a -> (forall x t, a = FVar x -> c_known c !! x = Some (vts_of_one t) -> t = VTInstant) -> resolve_instant c a = Ok r -> resolved (eq VTInstant) a r.
    Proof using I Hne.
      destruct a as [x|z|kw|v|]; cbn [resolve_instant arg_ok]; try done.
      - intros HL Ht Hr. destruct (c_vals c !! x) as [v|] eqn:Ev.
        + pose proof (i_vals_known I Hne x v Ev) as Hk. destruct v; try done. injection Hr as <-. eapply resolved_var; try done. rewrite Ev. by left.
        + assert (c_cols (constrain_var x VTInstant c) = c_cols c) as Hc by apply cols_constrain_var. pose proof Hr as Hr'. unfold first_column in Hr'. rewrite Hc in Hr'.
          destruct (c_cols c !! x) as [[|q qs]|] eqn:Eq; try done. destruct (bound_type x q qs HL Eq) as [t Hk]. pose proof (Ht x t eq_refl Hk) as ->.
          rewrite constrain_same in Hr by done. eapply resolved_var; try done. by rewrite Ev.
      - intros Hst _ Hr. destruct v as [| | | |i| | |]; try done. injection Hr as <-. split_and!; [done|done|]. intros E σ _. exists (TVInstant i). split_and!; try done; by intros w' ->.
    Qed.
    Lemma resolve_numeric_ok a r : arg_ok a -> (forall x t, a = FVar x -> c_known c !! x = Some (vts_of_one t) -> is_numeric t = true) -> resolve_numeric c a = Ok r ->
      resolved (fun t => is_numeric t = true) a r.
    Proof using I Hne.
      destruct a as [x|z|kw|v|]; cbn [resolve_numeric arg_ok]; try done.
      - intros HL Ht Hr. destruct (c_vals c !! x) as [v|] eqn:Ev.
        + pose proof (i_vals_known I Hne x v Ev) as Hk. destruct (is_numeric (tv_type v)) eqn:En; try done. injection Hr as <-. eapply resolved_var; try done. rewrite Ev. by left.
        + assert (c_cols (narrow_type x vts_numeric c) = c_cols c) as Hc. { unfold narrow_type. repeat case_match; by destruct c as [[]]. }
          pose proof Hr as Hr'. unfold first_column in Hr'. rewrite Hc in Hr'. destruct (c_cols c !! x) as [[|q qs]|] eqn:Eq; try done. destruct (bound_type x q qs HL Eq) as [t Hk]. pose proof (Ht x t eq_refl Hk) as Hn.
          rewrite (narrow_same c x t) in Hr; [|done|by destruct t]. eapply resolved_var; try done. by rewrite Ev.
      - intros _ _ [= <-]. split_and!; [done|done|]. intros E σ _. exists (TVLong z). split_and!; try done; [by left|]. by intros w' [->| ->].
      - intros Hst _ Hr. destruct v as [| | |d| | | |]; try done. injection Hr as <-. split_and!; [done|done|]. intros E σ _. exists (TVDouble d). split_and!; try done; by intros w' ->.
    Qed.
    Lemma resolve_ref_ok a r : arg_ok a -> (forall x t, a = FVar x -> c_known c !! x = Some (vts_of_one t) -> t = VTRef) -> resolve_ref k c a = Ok r -> resolved (eq VTRef) a r.
    Proof using I Hne.
      destruct a as [x|z|kw|v|]; cbn [resolve_ref arg_ok]; try done.
      - intros HL Ht Hr. assert (c_cols (constrain_var x VTRef c) = c_cols c /\ c_vals (constrain_var x VTRef c) = c_vals c) as [Hc Hv].
        { unfold constrain_var. repeat case_match; by destruct c as [[]]. }
        assert (is_Some (c_vals c !! x) \/ exists q qs, c_cols c !! x = Some (q :: qs)) as Hb.
        { rewrite Hv in Hr. destruct (c_vals c !! x); [left; by eexists|]. right. unfold first_column in Hr. rewrite Hc in Hr. destruct (c_cols c !! x) as [[|q qs]|]; try done. by eexists _, _. }
        assert (exists t, c_known c !! x = Some (vts_of_one t)) as [t Hk]. { destruct Hb as [[v Hb]|(q & qs & Hb)]; [eexists; by apply (i_vals_known I Hne x v)|by eapply bound_type]. }
        pose proof (Ht x t eq_refl Hk) as ->. rewrite constrain_same in Hr by done. eapply resolved_var; try done. destruct (c_vals c !! x) as [v|] eqn:Ev; [|done].
        pose proof (i_vals_known I Hne x v Ev) as Hk'. rewrite Hk in Hk'. assert (tv_type v = VTRef) as Hty by (by destruct (tv_type v)). destruct v; try done. injection Hr as <-. right. by eexists.
      - intros _ _ [= <-]. split_and!; [done|done|]. intros E σ _. exists (TVRef z). split_and!; try done; [by right|]. by intros w' [->| ->].
      - intros _ _ Hr. unfold kn_ident in Hr. destruct (sc_ident_map (kn_schema k) !! kw) as [e|] eqn:Ei; [|done]. injection Hr as <-. split_and!; [done|done|]. intros E σ _. exists (TVRef e). split_and!; try done; [by exists e|].
        intros w' (e' & He & ->). congruence.
    Qed.
    (** The types an argument may have *)
    Lemma potential_contains a ts op E σ w : sat c E σ -> potential_types k c a = Ok ts -> vts_is_empty (vts_intersection ts (supported_types op)) = false -> arg_is σ a w ->
      vts_contains (supported_types op) (tv_type w) = true -> vts_contains (vts_intersection ts (supported_types op)) (tv_type w) = true.
    Proof using Type.
      intros Hs Hp Hn Ha Ho. rewrite vts_inter_contains, Ho, andb_true_r. destruct a as [x|z|kw|v|]; cbn [potential_types Spec_Query.arg_is] in *; try done.
      - injection Hp as <-. subst w. unfold known_type_set. destruct (c_known c !! x) as [ts|] eqn:Ek; [by apply (sat_known _ _ _ _ _ Hs x)|]. by destruct (tv_type (σ x)).
      - injection Hp as <-. destruct Ha as [->| ->]; [by case_decide|]. case_decide; [done|]. exfalso. by destruct op.
      - injection Hp as <-. destruct Ha as (e & He & ->). unfold kn_ident. by rewrite He.
      - injection Hp as <-. subst v. by destruct (tv_type w).
    Qed.
  End one.

  Lemma respects_compare n op l r : (match l with QColumn q => below n q.1 | _ => True end) -> (match r with QColumn q => below n q.1 | _ => True end) -> respects sq st n (KCompare op l r).
  Proof using Type.
    intros Hl Hr E E' H. assert (forall v, (match v with QColumn q => below n q.1 | _ => True end) -> eval_value E v = eval_value E' v) as Hv.
    { intros [[al cl]| | |] Hb; try done. by apply H. }
    cbn [holds_in]. by rewrite (Hv l Hl), (Hv r Hr).
  Qed.
  Lemma predicate_ok nm ar : Forall arg_ok ar -> fspec sq k st M L ins V (apply_clause k) (CPred nm ar).
  Proof using Type.
    intros Har. split. { intros c c' Hr. destruct (step_predicate _ _ _ _ _ Hr) as [[] _]. auto. }
    intros O rest c c' Hg _ Hr. change (pvars [CPred nm ar] ++ rest) with rest in Hg. destruct (step_predicate _ _ _ _ _ Hr) as [[_ Hempty _ _ _] _].
    destruct (c_empty c) eqn:Hne.
    { specialize (Hempty eq_refl). split; [by left|]. intros E0 σ _. split; [intros H%Sat_ne; congruence|intros [H%Sat_ne _]; congruence]. }
    pose proof (good_inv _ _ _ _ _ _ _ _ _ _ Hg Hne) as I. clear Hg Hempty. cbn [apply_clause Spec_Query.meets] in *. unfold apply_predicate, apply_inequality in Hr.
    destruct (inequality_of nm) as [op|] eqn:Eop; [|done]. destruct ar as [|l [|r [|]]]; try done. apply Forall_cons_1 in Har as [Hl Har]. apply Forall_cons_1 in Har as [Hrr _].
    destruct (potential_types k c l) as [lt| |] eqn:El; cbn [rbind] in Hr; try done. destruct (vts_is_empty (vts_intersection lt _)) eqn:Nl; [done|].
    destruct (potential_types k c r) as [rt| |] eqn:Er; cbn [rbind] in Hr; try done. destruct (vts_is_empty (vts_intersection rt _)) eqn:Nr; [done|].
    set (lt' := vts_intersection lt (supported_types op)) in *. set (rt' := vts_intersection rt (supported_types op)) in *. set (sh := vts_intersection (with_double lt') (with_double rt')) in *.
    assert (forall v w, related nm v w -> vts_contains (supported_types op) (tv_type v) = true /\ vts_contains (supported_types op) (tv_type w) = true) as Hsup.
    { intros v w (x & Hx & _)%(related_iff _ _ _ _ Eop). destruct op; cbn [refop] in Hx; try (apply entities_types in Hx as [-> ->]; done).
      all: apply amounts_types in Hx as [[-> ->]|[H1 H2]]; [done|]; split; [by destruct (tv_type v)|by destruct (tv_type w)]. }
    assert (forall E σ v w, sat c E σ -> arg_is σ l v -> arg_is σ r w -> related nm v w ->
      (tv_type v = VTRef /\ tv_type w = VTRef /\ vts_contains sh VTRef = true) \/ (tv_type v = VTInstant /\ tv_type w = VTInstant /\ vts_contains sh VTInstant = true)
      \/ (is_numeric (tv_type v) = true /\ is_numeric (tv_type w) = true /\ vts_contains sh VTDouble = true)) as Hshare.
    { intros E σ v w Hs Hv Hw Hrel.
      destruct (Hsup v w Hrel) as [S1 S2]. pose proof (potential_contains c l lt op E σ v Hs El Nl Hv S1) as C1. pose proof (potential_contains c r rt op E σ w Hs Er Nr Hw S2) as C2. fold lt' in C1. fold rt' in C2.
      unfold sh. rewrite !vts_inter_contains. pose proof Hrel as (x & Hx & _)%(related_iff _ _ _ _ Eop). destruct (refop op).
      - apply entities_types in Hx as [Hx1 Hx2]. left. rewrite (with_double_more lt' VTRef), (with_double_more rt' VTRef) by congruence. done.
      - apply amounts_types in Hx as [[Hx1 Hx2]|[Hx1 Hx2]]; right.
        + left. rewrite (with_double_more lt' VTInstant), (with_double_more rt' VTInstant) by congruence. done.
        + right. by rewrite (with_double_numeric lt' _ C1 Hx1), (with_double_numeric rt' _ C2 Hx2). }
    assert (forall u, vts_contains sh u = true -> vts_contains (supported_types op) u = true \/ (u = VTDouble /\ refop op = false)) as Hsh.
    { intros u. unfold sh. rewrite vts_inter_contains. intros [H _]%andb_true_iff. apply with_double_less in H as [H|[-> H]]; unfold lt' in H; rewrite vts_inter_contains in H; apply andb_true_iff in H as [_ H];
        [by left|right]. split; [done|]. by destruct op. }
    assert (forall a x t u, a = l \/ a = r -> a = FVar x -> c_known c !! x = Some (vts_of_one t) -> vts_contains sh u = true -> u = t \/ (t = VTLong /\ u = VTDouble)) as Hun.
    { intros a x t u Ha -> Hk Hu. unfold sh in Hu. rewrite vts_inter_contains in Hu. apply andb_true_iff in Hu as [Hu1 Hu2].
      assert (potential_types k c (FVar x) = Ok (vts_of_one t)) as Hp. { cbn. unfold known_type_set. by rewrite Hk. }
      assert (forall ts, vts_contains (with_double (vts_intersection (vts_of_one t) ts)) u = true -> u = t \/ (t = VTLong /\ u = VTDouble)) as H.
      { intros ts. intros [H|[-> H]]%with_double_less; rewrite vts_inter_contains in H; apply andb_true_iff in H as [H _]; apply one_contains_iff in H; auto. }
      destruct Ha as [<-|<-]; [apply (H (supported_types op)); rewrite Hp in El; by injection El as <-|apply (H (supported_types op)); rewrite Hp in Er; by injection Er as <-]. }
    destruct (vts_is_empty sh) eqn:Ns.
    { injection Hr as <-. split; [left; by destruct c as [[]]|]. intros E0 σ _. split; [intros H%Sat_ne; by destruct c as [[]]|]. intros [(E & HE & Hs) (l' & r' & v & w & [= <- <-] & Hv & Hw & Hrel)]. exfalso.
      destruct (Hshare E σ v w Hs Hv Hw Hrel) as [(_ & _ & H)|[(_ & _ & H)|(_ & _ & H)]]; rewrite empty_contains in H by done; done. }
    (* the values compared *)
    assert (forall (T : value_type -> Prop) rs, (forall a u, arg_ok a -> (a = l \/ a = r) -> rs c a = Ok u -> resolved c T a u) ->
      (forall v w, T (tv_type v) -> T (tv_type w) -> storable v -> storable w -> sql_compare sq op (sql_of v) (sql_of w) = true <-> related nm v w) ->
      (forall v w, related nm v w -> (exists E σ, sat c E σ /\ arg_is σ l v /\ arg_is σ r w) -> T (tv_type v) /\ T (tv_type w)) ->
      (let! (c1, lv) := rs c l in let! (c2, rv) := rs c1 r in Ok (add_where (KCompare op lv rv) c2)) = Ok c' ->
      good O rest c' /\ forall E0 σ, O E0 -> Sat c' E0 σ <-> Sat c E0 σ /\ compares (kn_schema k) σ nm [l; r]) as Hmain.
    { clear Hr. intros T rs Hrs Hcmp HT Hr. destruct (rs c l) as [[c1 lv]| |] eqn:E1; cbn [rbind] in Hr; try done.
      destruct (Hrs l _ Hl ltac:(by left) E1) as (A1 & A2 & A3). cbn in A1, A2, A3. subst c1.
      destruct (rs c r) as [[c2 rv]| |] eqn:E2; cbn [rbind] in Hr; try done. destruct (Hrs r _ Hrr ltac:(by right) E2) as (B1 & B2 & B3). cbn in B1, B2, B3. subst c2. injection Hr as <-.
      assert (c_from (add_where (KCompare op lv rv) c) = c_from c) as Hf by (by destruct c as [[]]). assert (comp sq st (add_where (KCompare op lv rv) c) = comp sq st c) as Hc by (by destruct c as [[]]).
      split. { right. rewrite Hf. apply inv_add_where; [by apply respects_compare|done]. }
      intros E0 σ _. unfold P_QueryApply.Sat. rewrite Hf, Hc. setoid_rewrite sat_add_where.
      assert (forall E, sat c E σ -> holds_in sq st E (KCompare op lv rv) = true <-> compares (kn_schema k) σ nm [l; r]) as Hiff.
      { intros E Hs. destruct (A3 E σ Hs) as (v & V1 & V2 & V3 & V4 & V5). destruct (B3 E σ Hs) as (w & W1 & W2 & W3 & W4 & W5). cbn [holds_in]. rewrite V4, W4, (Hcmp v w) by done. split.
        - intros Hrel. by exists l, r, v, w.
        - intros (l' & r' & v' & w' & [= <- <-] & Hv & Hw & Hrel). destruct (HT v' w' Hrel) as [T1 T2]; [by exists E, σ|]. by rewrite <- (V5 v' Hv T1), <- (W5 w' Hw T2). }
      split.
      - intros (E & HE & Hs & Hk). split; [by exists E|]. by apply (Hiff E Hs).
      - intros [(E & HE & Hs) Hk]. exists E. split_and!; try done. by apply (Hiff E Hs). }
    destruct (N.eqb sh (vts_of_one VTInstant)) eqn:C1; [|destruct (vts_is_only_numeric sh) eqn:C2; [|destruct (N.eqb sh (vts_of_one VTRef)) eqn:C3; [|done]]].
    - apply N.eqb_eq in C1. assert (vts_contains sh VTInstant = true) as Hin by (by rewrite C1). assert (refop op = false) as Hrf. { destruct (Hsh _ Hin) as [H|[[=] _]]. by destruct op. }
      apply (Hmain (eq VTInstant) resolve_instant); [..|exact Hr].
      + intros a u Ha Hlr. apply (resolve_instant_ok O rest c I Hne a u Ha). intros x t -> Hk. by destruct (Hun _ x t VTInstant Hlr eq_refl Hk Hin) as [<-|[_ [=]]].
      + intros v w Hv Hw Sv Sw. rewrite sql_compare_instant, (related_iff nm op) by done. by rewrite Hrf.
      + intros v w Hrel (E & σ & Hs & Hv & Hw). rewrite C1 in Hshare. destruct (Hshare E σ v w Hs Hv Hw Hrel) as [(_ & _ & [=])|[(-> & -> & _)|(_ & _ & [=])]]. done.
    - destruct (only_numeric_some sh Ns C2) as (u & Hu & Hin). assert (refop op = false) as Hrf. { destruct (Hsh _ Hin) as [H|[_ H]]; [|done]. destruct u; by destruct op. }
      assert (vts_contains sh VTRef = false /\ vts_contains sh VTInstant = false) as [N1 N2].
      { unfold vts_is_only_numeric in C2. apply N.eqb_eq in C2. rewrite <- C2. change (N.land sh vts_numeric) with (vts_intersection sh vts_numeric). rewrite !vts_inter_contains. by rewrite !andb_false_r. }
      apply (Hmain (fun t => is_numeric t = true) resolve_numeric); [..|exact Hr].
      + intros a y Ha Hlr. apply (resolve_numeric_ok O rest c I Hne a y Ha). intros x t -> Hk. by destruct (Hun _ x t u Hlr eq_refl Hk Hin) as [<-|[-> _]].
      + intros v w Hv Hw Sv Sw. rewrite sql_compare_numeric, (related_iff nm op) by done. by rewrite Hrf.
      + intros v w Hrel (E & σ & Hs & Hv & Hw). destruct (Hshare E σ v w Hs Hv Hw Hrel) as [(_ & _ & H)|[(_ & _ & H)|(? & ? & _)]]; [congruence|congruence|done].
    - apply N.eqb_eq in C3. assert (vts_contains sh VTRef = true) as Hin by (by rewrite C3). assert (refop op = true) as Hrf. { destruct (Hsh _ Hin) as [H|[[=] _]]. by destruct op. }
      apply (Hmain (eq VTRef) (resolve_ref k)); [..|exact Hr].
      + intros a u Ha Hlr. apply (resolve_ref_ok O rest c I Hne a u Ha). intros x t -> Hk. by destruct (Hun _ x t VTRef Hlr eq_refl Hk Hin) as [<-|[_ [=]]].
      + intros v w Hv Hw Sv Sw. rewrite sql_compare_ref, (related_iff nm op) by done. by rewrite Hrf.
      + intros v w Hrel (E & σ & Hs & Hv & Hw). rewrite C3 in Hshare. destruct (Hshare E σ v w Hs Hv Hw Hrel) as [(-> & -> & _)|[(_ & _ & [=])|(_ & _ & [=])]]. done.
  Qed.
End pred.

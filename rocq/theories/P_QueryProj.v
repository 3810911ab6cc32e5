(** From the rows that meet the clauses to the results of a query. *)
From Coq Require Import Sorting.Sorted.
From stdpp Require Import sorting.
From Verif Require Import M_Query Spec_Query Spec_Value Spec_Sets P_Value P_Sets P_Perm P_QuerySql P_QuerySat.

(* ---------------------------------------------------------------- lists *)

Lemma rmapM_map {A B C} (f : B -> res C) (g : A -> B) (h : A -> C) (l : list A) : (forall x, x ∈ l -> f (g x) = Ok (h x)) -> rmapM f (map g l) = Ok (map h l).
Proof.
  induction l as [|x l IH]; intros H; [done|]. cbn [map rmapM]. rewrite (H x) by (by left). cbn [rbind]. rewrite IH by (intros y Hy; apply H; by right). done.
Qed.
Lemma list_choice {A B} (P : A -> Prop) (f : A -> B) (l : list B) : (forall y, y ∈ l -> exists x, P x /\ y = f x) -> exists xs, map f xs = l /\ Forall P xs.
Proof.
  induction l as [|y l IH]; intros H; [by exists []|]. destruct (H y ltac:(by left)) as (x & Hx & ->). destruct IH as (xs & <- & Hxs); [intros z Hz; apply H; by right|].
  exists (x :: xs). split; [done|by constructor].
Qed.
Lemma sorted_mapped {A B} (R : B -> B -> Prop) (f : A -> B) l : StronglySorted R (map f l) -> StronglySorted (fun x y => R (f x) (f y)) l.
Proof.
  induction l as [|x l IH]; intros H; [constructor|]. cbn [map] in H. apply StronglySorted_inv in H as [H1 H2]. constructor; [auto|]. rewrite Forall_forall in H2. apply Forall_forall. intros y Hy. apply H2. apply elem_of_list_fmap. by exists y.
Qed.
Lemma sorted_impl {A} (R R' : A -> A -> Prop) l : (forall x y, x ∈ l -> y ∈ l -> R x y -> R' x y) -> StronglySorted R l -> StronglySorted R' l.
Proof.
  intros H. induction 1 as [|x l Hl IH Hx]; [constructor|]. constructor; [apply IH; intros; apply H; [by right|by right|done]|].
  rewrite Forall_forall in Hx |- *. intros y Hy. apply H; [by left|by right|auto].
Qed.
Lemma sorted_filter {A} (R : A -> A -> Prop) (P : A -> Prop) `{forall x, Decision (P x)} l : StronglySorted R l -> StronglySorted R (filter P l).
Proof.
  induction 1 as [|x l Hl IH Hx]; [constructor|]. rewrite filter_cons. destruct (decide (P x)); [|done]. constructor; [done|].
  rewrite Forall_forall in Hx |- *. intros y Hy. apply elem_of_list_filter in Hy as [_ Hy]. auto.
Qed.
Section dedup.
  Context {A K : Type} (same : A -> A -> bool) (key : A -> K) (HK : forall x y, same x y = true <-> key x = key y).
  Lemma dedup_elem x l : x ∈ dedup same l -> x ∈ l.
  Proof using Type.
    induction l as [|y l IH]; cbn [dedup]; [done|]. intros [->|Hx]%elem_of_cons; [by left|]. apply elem_of_list_filter in Hx as [_ Hx]. right. auto.
  Qed.
  Lemma dedup_all x l : x ∈ l -> exists y, y ∈ dedup same l /\ same y x = true.
  Proof using HK.
    induction l as [|y l IH]; cbn [dedup]; [by intros H%elem_of_nil|]. destruct (same y x) eqn:E; [intros _; exists y; split; [by left|done]|].
    intros [->|Hx]%elem_of_cons. { assert (same y y = true) by (by apply HK). congruence. }
    destruct (IH Hx) as (z & Hz & Hs). exists z. split; [|done]. right. apply elem_of_list_filter. split; [|done]. destruct (same y z) eqn:E'; [|done].
    apply HK in E', Hs. assert (same y x = true) by (apply HK; congruence). congruence.
  Qed.
  Lemma dedup_nodup l : NoDup (map key (dedup same l)).
  Proof using HK.
    induction l as [|y l IH]; cbn [dedup map]; [constructor|]. constructor.
    - intros Hin. apply elem_of_list_fmap in Hin as (z & Hz & Hin). apply elem_of_list_filter in Hin as [Hf _]. assert (same y z = true) by (by apply HK). congruence.
    - revert IH. generalize (dedup same l). intros l'. induction l' as [|z l' IH']; [done|]. cbn [map]. intros Hn. apply NoDup_cons in Hn as [Hn1 Hn2]. rewrite filter_cons. destruct (decide _); [|auto].
      cbn [map]. constructor; [|auto]. intros Hin. apply Hn1. apply elem_of_list_fmap in Hin as (w & Hw & Hin). apply elem_of_list_filter in Hin as [_ Hin].
      apply elem_of_list_fmap. by exists w.
  Qed.
  Lemma dedup_head l : head (dedup same l) = head l.
  Proof using Type. by destruct l. Qed.
  Lemma dedup_sorted (R : A -> A -> Prop) l : StronglySorted R l -> StronglySorted R (dedup same l).
  Proof using Type.
    induction 1 as [|x l Hl IH Hx]; cbn [dedup]; [constructor|]. constructor; [by apply sorted_filter|].
    rewrite Forall_forall in Hx |- *. intros y Hy. apply elem_of_list_filter in Hy as [_ Hy]. apply Hx. by apply dedup_elem.
  Qed.
End dedup.

(* ---------------------------------------------------------------- values *)

Lemma same_values v w : storable v -> storable w -> vt_tag (tv_type v) = vt_tag (tv_type w) -> sql_same (sql_of v) (sql_of w) = true ->
  (forall a b, v = TVLong a -> w = TVDouble (DKey b) -> long_value a <> double_value b) -> (forall a b, w = TVLong a -> v = TVDouble (DKey b) -> long_value a <> double_value b) -> v = w.
Proof.
  intros Hv Hw Ht Hs H1 H2. destruct (decide (tv_type v = tv_type w)) as [E|E]; [by apply sql_same_typed in Hs|]. exfalso.
  destruct v as [?|?|xx|xx|?|?|?|?], w as [?|?|yy|yy|?|?|?|?]; try done.
  - destruct yy as [|yy]; [done|]. apply sql_same_key in Hs. cbn in Hs. injection Hs as Hs. by apply (H1 xx yy).
  - destruct xx as [|xx]; [done|]. apply sql_same_key in Hs. cbn in Hs. injection Hs as Hs. by apply (H2 yy xx).
Qed.
Lemma unit_one ts t u : vts_is_unit ts = true -> vts_exemplar ts = Some t -> vts_contains ts u = true -> u = t.
Proof.
  unfold vts_is_unit, vts_len, vts_exemplar. intros H1 H2 H3. apply vts_iter_spec in H3. destruct (vts_iter ts) as [|x [|y l]]; try done. injection H2 as ->. by apply elem_of_list_singleton in H3.
Qed.
Lemma string_cmp_refl s : string_cmp s s = Eq.
Proof. pose proof (string_cmp_opp s s). by destruct (string_cmp s s). Qed.
Lemma value_cmp_refl v : value_cmp v v = Eq.
Proof.
  unfold value_cmp. rewrite Z.compare_refl. destruct v as [| | |[|]| | | |]; try apply Z.compare_refl; try done; try (by apply string_cmp_refl). apply N.compare_refl.
Qed.
Lemma row_cmp_opp o x y : row_cmp o y x = CompOpp (row_cmp o x y).
Proof.
  induction o as [|[d i] o IH]; [done|]. cbn [row_cmp]. rewrite (sql_cmp_opp (default SNull (x !! i))). rewrite IH. destruct d; destruct (sql_cmp _ _); done.
Qed.
Lemma row_cmp_trans o x y z : row_cmp o x y <> Gt -> row_cmp o y z <> Gt -> row_cmp o x z <> Gt.
Proof.
  induction o as [|[d i] o IH]; [done|]. cbn [row_cmp].
  generalize (default SNull (x !! i)) (default SNull (y !! i)) (default SNull (z !! i)). intros a b c.
  assert (forall a b c, sql_cmp a b <> Gt -> sql_cmp b c <> Gt -> sql_cmp a c = Eq -> sql_cmp a b = Eq /\ sql_cmp b c = Eq) as Heq.
  { clear. intros a b c H1 H2 H3. assert (sql_cmp c a <> Gt) as H4 by (rewrite (sql_cmp_opp a c), H3; done).
    pose proof (sql_cmp_trans _ _ _ H2 H4) as H5. pose proof (sql_cmp_trans _ _ _ H4 H1) as H6. rewrite (sql_cmp_opp a b) in H5. rewrite (sql_cmp_opp b c) in H6.
    destruct (sql_cmp a b), (sql_cmp b c); done. }
  pose proof (sql_cmp_trans a b c) as T1. pose proof (Heq a b c) as E1.
  pose proof (sql_cmp_trans c b a) as T2. pose proof (Heq c b a) as E2.
  rewrite (sql_cmp_opp a b), (sql_cmp_opp b c), (sql_cmp_opp a c) in T2, E2.
  clear Heq. destruct d; destruct (sql_cmp a b), (sql_cmp b c), (sql_cmp a c); cbn [CompOpp] in *; try done; intros H1 H2; try (by apply IH);
    try (exfalso; by apply T1); try (exfalso; by apply T2);
    try (exfalso; destruct E1 as [? ?]; done); try (exfalso; destruct E2 as [? ?]; done).
Qed.
Global Instance row_le_total o : Total (row_le o).
Proof. intros x y. unfold row_le. rewrite (row_cmp_opp o x y). destruct (row_cmp o x y); [by left|by left|by right]. Qed.
Global Instance row_le_trans o : Transitive (row_le o).
Proof. intros x y z. apply row_cmp_trans. Qed.

Lemma project_vars_nodup c vs : forall seen i cols ixs, project_vars c seen i vs = Ok (cols, ixs) -> length ixs = length vs.
Proof.
  induction vs as [|v vs IH]; intros seen i cols ixs H; cbn [project_vars] in H; [by injection H as <- <-|]. destruct (decide _); [done|].
  destruct (project_var c v) as [[x ts]| |]; cbn [rbind] in H; try done. destruct (vts_unique_tag ts).
  - destruct (project_vars c (v :: seen) (i + 1) vs) as [[co ix]| |] eqn:E; cbn [rbind] in H; try done. injection H as <- <-. cbn. f_equal. by apply IH in E.
  - destruct (tag_column c v); cbn [rbind] in H; try done. destruct (project_vars c (v :: seen) (i + 2) vs) as [[co ix]| |] eqn:E; cbn [rbind] in H; try done. injection H as <- <-. cbn. f_equal. by apply IH in E.
Qed.

Section proj.
  Context (sq : sqlite) (st : store) (c : cc) (val : env -> string -> typed_value) (SQ : sqlite_ok sq).
  Notation sat := (sat sq st).
  Notation rows_of := (select sq st [] c).
  Context (Hsat : forall E, E ∈ rows_of -> sat c E (val E)).
  Context (Hstor : forall x v, c_vals c !! x = Some v -> storable v).

  Lemma project_var_ok v x ts E : project_var c v = Ok (x, ts) -> E ∈ rows_of ->
    eval_expr E x = sql_of (val E v) /\ storable (val E v) /\ vts_contains ts (tv_type (val E v)) = true.
  Proof using Hsat Hstor.
    intros Hp HE. pose proof (Hsat E HE) as Hs. unfold project_var in Hp. destruct (c_vals c !! v) as [y|] eqn:Ev.
    - injection Hp as <- <-. cbn [eval_expr]. rewrite (sat_vals _ _ _ _ _ Hs v y Ev). split_and!; [done|eauto|by apply one_contains_iff].
    - destruct (c_cols c !! v) as [[|q qs]|] eqn:Ec; try done. injection Hp as <- <-. pose proof (sat_cols _ _ _ _ _ Hs v _ q Ec ltac:(by left)) as Hq.
      cbn [eval_expr]. rewrite (encodes_column _ _ _ Hq). split_and!; [done|by eapply encodes_storable|]. unfold known_type_set.
      destruct (c_known c !! v) as [ts|] eqn:Ek; cbn [default]; [by apply (sat_known _ _ _ _ _ Hs v)|]. apply vts_any_contains.
  Qed.
  Lemma tag_column_ok v t E : tag_column c v = Ok t -> E ∈ rows_of -> t.1 = CVarTag v /\ eval_expr E t.2 = SInt (vt_tag (tv_type (val E v))).
  Proof using Hsat.
    intros Hp HE. unfold tag_column in Hp. destruct (c_extracted c !! v) as [q|] eqn:Ex; [|done]. injection Hp as <-. split; [done|]. cbn [snd eval_expr].
    destruct (sat_extracted _ _ _ _ _ (Hsat E HE) v q Ex) as [_ ->]. done.
  Qed.
  Definition col_good (E : env) (x : column * pexpr) : Prop :=
    match x.1 with
    | CVar v => eval_expr E x.2 = sql_of (val E v) /\ storable (val E v)
    | CVarTag v => eval_expr E x.2 = SInt (vt_tag (tv_type (val E v)))
    | _ => False
    end.
  (** A variable is there, with its tag unless that is known. *)
  Definition shown (cols : list (column * pexpr)) (v : string) : Prop :=
    (exists x, (CVar v, x) ∈ cols) /\ ((exists t, forall E, E ∈ rows_of -> vt_tag (tv_type (val E v)) = t) \/ exists x, (CVarTag v, x) ∈ cols).
  Lemma shown_app v cols more : shown cols v -> shown (cols ++ more) v.
  Proof using Type. intros [[x Hx] H]. split; [exists x; apply elem_of_app; by left|]. destruct H as [H|[y Hy]]; [by left|right]. exists y. apply elem_of_app. by left. Qed.
  Lemma shown_cons v y cols : shown cols v -> shown (y :: cols) v.
  Proof using Type. intros [[x Hx] H]. split; [exists x; by right|]. destruct H as [H|[z Hz]]; [by left|right]. exists z. by right. Qed.
  Lemma unique_tag_ok ts t u : vts_unique_tag ts = Some t -> vts_contains ts u = true -> vt_tag u = t.
  Proof using Type. intros H Hc. apply vts_unique_tag_spec in H as [_ H]. by apply H. Qed.

  Lemma project_vars_ok vs : forall seen i cols ixs, project_vars c seen i vs = Ok (cols, ixs) ->
    (forall E, E ∈ rows_of -> Forall (col_good E) cols /\
       forall pre post, length pre = i -> rmapM (typed_lookup (pre ++ map (fun x => eval_expr E x.2) cols ++ post)) ixs = Ok (map (val E) vs))
    /\ Forall (shown cols) vs /\ NoDup vs /\ (forall x, x ∈ vs -> x ∉ seen).
  Proof using Hsat Hstor.
    induction vs as [|v vs IH]; intros seen i cols ixs Hp; cbn [project_vars] in Hp.
    { injection Hp as <- <-. split_and!; try constructor. - constructor. - done. - by intros x ?%elem_of_nil. }
    destruct (decide (v ∈ seen)) as [|Hseen]; [done|]. destruct (project_var c v) as [[x ts]| |] eqn:Ev; cbn [rbind] in Hp; try done.
    pose proof (fun E => project_var_ok v x ts E Ev) as Hv. clear Ev. destruct (vts_unique_tag ts) as [t|] eqn:Et.
    - destruct (project_vars c (v :: seen) (i + 1) vs) as [[co ix]| |] eqn:E; cbn [rbind] in Hp; try done. injection Hp as <- <-. apply IH in E as (H1 & H2 & H3 & H4). split_and!.
      + intros E HE. destruct (H1 E HE) as [G1 G2]. destruct (Hv E HE) as (V1 & V2 & V3). split; [constructor; [done|done]|]. intros pre post Hpre. cbn [map rmapM snd fst].
        assert (typed_lookup (pre ++ eval_expr E x :: map (fun x => eval_expr E x.2) co ++ post) (IKnown i t) = Ok (val E v)) as Hl.
        { cbn [typed_lookup]. rewrite lookup_app_r by lia. rewrite Hpre, Nat.sub_diag. cbn. rewrite V1, <- (unique_tag_ok ts t _ Et V3). by apply decode_sql. }
        cbn [app] in Hl |- *. rewrite Hl. cbn [rbind]. specialize (G2 (pre ++ [eval_expr E x]) post ltac:(rewrite app_length; cbn; lia)). rewrite <- app_assoc in G2. cbn [app] in G2. by rewrite G2.
      + constructor; [split; [exists x; by left|left; exists t; intros E HE; destruct (Hv E HE) as (_ & _ & V3); by apply (unique_tag_ok ts)]|]. eapply Forall_impl; [exact H2|]. intros. by apply shown_cons.
      + constructor; [|done]. intros Hin. apply (H4 v Hin). by left.
      + intros y [->|Hy]%elem_of_cons; [done|]. intros Hy'. apply (H4 y Hy). by right.
    - destruct (tag_column c v) as [tc| |] eqn:Etc; cbn [rbind] in Hp; try done. pose proof (fun E => tag_column_ok v tc E Etc) as Htc.
      destruct (project_vars c (v :: seen) (i + 2) vs) as [[co ix]| |] eqn:E; cbn [rbind] in Hp; try done. injection Hp as <- <-. apply IH in E as (H1 & H2 & H3 & H4). split_and!.
      + intros E HE. destruct (H1 E HE) as [G1 G2]. destruct (Hv E HE) as (V1 & V2 & V3). destruct (Htc E HE) as [T1 T2]. split.
        { constructor; [done|]. constructor; [|done]. unfold col_good. by rewrite T1. }
        intros pre post Hpre. cbn [map rmapM snd fst].
        assert (typed_lookup (pre ++ eval_expr E x :: eval_expr E tc.2 :: map (fun x => eval_expr E x.2) co ++ post) (IUnknown i (i + 1)) = Ok (val E v)) as Hl.
        { cbn [typed_lookup]. rewrite !lookup_app_r by lia. replace (i - length pre)%nat with 0%nat by lia. replace (i + 1 - length pre)%nat with 1%nat by lia. cbn. rewrite V1, T2. by apply decode_sql. }
        cbn [app] in Hl |- *. rewrite Hl. cbn [rbind]. specialize (G2 (pre ++ [eval_expr E x; eval_expr E tc.2]) post ltac:(rewrite app_length; cbn; lia)). rewrite <- app_assoc in G2. cbn [app] in G2. by rewrite G2.
      + assert (tc.1 = CVarTag v) as T1. { unfold tag_column in Etc. destruct (c_extracted c !! v); [|done]. by injection Etc as <-. }
        constructor; [split; [exists x; by left|right; exists tc.2; replace (CVarTag v, tc.2) with tc by (destruct tc; cbn in T1 |- *; congruence); right; by left]|]. eapply Forall_impl; [exact H2|]. intros. by apply shown_cons, shown_cons.
      + constructor; [|done]. intros Hin. apply (H4 v Hin). by left.
      + intros y [->|Hy]%elem_of_cons; [done|]. intros Hy'. apply (H4 y Hy). by right.
  Qed.
  Lemma project_named_ok outer named : forall cols, project_named c outer named = Ok cols -> forall E, E ∈ rows_of -> Forall (col_good E) cols.
  Proof using Hsat Hstor.
    induction named as [|v named IH]; intros cols Hp E HE; cbn [project_named] in Hp; [injection Hp as <-; constructor|]. destruct (_ || _)%bool; [by apply IH|].
    destruct (project_var c v) as [[x ts]| |] eqn:Ev; cbn [rbind] in Hp; try done. destruct (project_var_ok v x ts E Ev HE) as (V1 & V2 & _).
    destruct (vts_has_unique_tag ts); cbn [rbind] in Hp.
    - destruct (project_named c outer named) as [co| |] eqn:En; cbn [rbind] in Hp; try done. injection Hp as <-. constructor; [done|]. by apply IH.
    - destruct (tag_column c v) as [tc| |] eqn:Etc; cbn [rbind] in Hp; try done. destruct (tag_column_ok v tc E Etc HE) as [T1 T2].
      destruct (project_named c outer named) as [co| |] eqn:En; cbn [rbind] in Hp; try done. injection Hp as <-. constructor; [done|]. constructor; [unfold col_good; by rewrite T1|]. by apply IH.
  Qed.

  (* -------------------------------------------------------------- order *)
  Context (cols : list (column * pexpr)) (Hcols : forall E, E ∈ rows_of -> Forall (col_good E) cols).
  Definition row_at (E : env) : list sqlval := map (fun x => eval_expr E x.2) cols.
  Lemma column_at E col i y : E ∈ rows_of -> list_find (fun x : column * pexpr => x.1 = col) cols = Some (i, y) ->
    match col with
    | CVar v => default SNull (row_at E !! i) = sql_of (val E v) /\ storable (val E v)
    | CVarTag v => default SNull (row_at E !! i) = SInt (vt_tag (tv_type (val E v)))
    | _ => False
    end.
  Proof using Hcols.
    intros HE Hf. apply list_find_Some in Hf as (Hi & <- & _). pose proof (Hcols E HE) as Hg. rewrite Forall_forall in Hg. specialize (Hg y ltac:(by eapply elem_of_list_lookup_2)).
    unfold row_at. change (map (fun x => eval_expr E x.2) cols) with ((fun x => eval_expr E x.2) <$> cols). rewrite list_lookup_fmap, Hi. cbn [fmap option_fmap option_map default]. exact Hg.
  Qed.
  Lemma order_ok l : forall order extra ois, simplify_order c l = Ok (order, extra) -> order_indices cols order = Some ois ->
    forall E E', E ∈ rows_of -> E' ∈ rows_of -> row_cmp ois (row_at E) (row_at E') = order_cmp l (val E) (val E').
  Proof using Hsat Hcols.
    induction l as [|[d v] l IH]; intros order extra ois Hs Ho E E' HE HE'; cbn [simplify_order] in Hs.
    { injection Hs as <- <-. cbn in Ho. injection Ho as <-. done. }
    cbn [order_cmp]. destruct (c_vals c !! v) as [y|] eqn:Ev; cbn [is_some] in Hs.
    { rewrite (sat_vals _ _ _ _ _ (Hsat E HE) v y Ev), (sat_vals _ _ _ _ _ (Hsat E' HE') v y Ev), value_cmp_refl.
      replace (match d with Asc => Eq | Desc => CompOpp Eq end) with Eq by (by destruct d). by eapply IH. }
    destruct (negb _); [done|]. destruct (simplify_order c l) as [[os vs]| |] eqn:El; cbn [rbind] in Hs; try done. injection Hs as <- <-.
    destruct (known_type c v) as [t|] eqn:Ek; cbn [is_some app] in Ho.
    - cbn [order_indices] in Ho. destruct (list_find _ cols) as [[i y]|] eqn:Ef; [|done]. destruct (order_indices cols os) as [ois'|] eqn:Eo; [|done]. injection Ho as <-. cbn [row_cmp].
      destruct (column_at E _ i y HE Ef) as [-> S1]. destruct (column_at E' _ i y HE' Ef) as [-> S2].
      assert (forall E, E ∈ rows_of -> tv_type (val E v) = t) as Ht.
      { intros E1 HE1. unfold known_type in Ek. destruct (c_known c !! v) as [ts|] eqn:Ets; [|done]. destruct (vts_is_unit ts) eqn:Eu; [|done].
        apply (unit_one ts t _ Eu Ek). by apply (sat_known _ _ _ _ _ (Hsat E1 HE1) v). }
      rewrite sql_cmp_typed by (rewrite ?(Ht E), ?(Ht E'); done). rewrite (IH _ _ _ eq_refl Eo E E' HE HE'). done.
    - cbn [order_indices] in Ho. destruct (list_find (fun x => x.1 = CVarTag v) cols) as [[i y]|] eqn:Ef; [|done].
      destruct (list_find (fun x => x.1 = CVar v) cols) as [[j z]|] eqn:Eg; [|done]. destruct (order_indices cols os) as [ois'|] eqn:Eo; [|done]. injection Ho as <-. cbn [row_cmp].
      pose proof (column_at E _ i y HE Ef) as ->. pose proof (column_at E' _ i y HE' Ef) as ->.
      destruct (column_at E _ j z HE Eg) as [-> S1]. destruct (column_at E' _ j z HE' Eg) as [-> S2].
      rewrite sql_cmp_tags, (IH _ _ _ eq_refl Eo E E' HE HE').
      destruct (Z.compare (vt_tag (tv_type (val E v))) (vt_tag (tv_type (val E' v)))) eqn:Ec.
      + apply Z.compare_eq in Ec. rewrite sql_cmp_typed by done. by destruct d.
      + unfold value_cmp. rewrite Ec. by destruct d.
      + unfold value_cmp. rewrite Ec. by destruct d.
  Qed.

  (* -------------------------------------------------------------- the rows *)
  Definition key_at (E : env) := map sql_key (row_at E).
  Lemma key_values vs v E E' : v ∈ vs -> Forall (shown cols) vs -> E ∈ rows_of -> E' ∈ rows_of -> key_at E = key_at E' ->
    (forall a b E E', E ∈ rows_of -> E' ∈ rows_of -> val E v = TVLong a -> val E' v = TVDouble (DKey b) -> long_value a <> double_value b) -> val E v = val E' v.
  Proof using Hcols.
    intros Hv Hs HE HE' Hk Htw. rewrite Forall_forall in Hs. destruct (Hs v Hv) as [[x Hx] Ht].
    assert (forall y, y ∈ cols -> sql_key (eval_expr E y.2) = sql_key (eval_expr E' y.2)) as Heq.
    { intros y Hy. unfold key_at, row_at in Hk. rewrite !map_map in Hk. clear - Hk Hy. induction cols as [|z l IH]; [by apply elem_of_nil in Hy|]. cbn [map] in Hk. injection Hk as H1 H2.
      apply elem_of_cons in Hy as [->|Hy]; [done|]. by apply IH. }
    pose proof (Hcols E HE) as G1. pose proof (Hcols E' HE') as G2. rewrite Forall_forall in G1, G2.
    pose proof (Heq _ Hx) as Hxk. destruct (G1 _ Hx) as [V1 S1]. destruct (G2 _ Hx) as [V2 S2]. cbn [snd] in *. rewrite V1, V2 in Hxk. apply sql_same_key in Hxk.
    apply same_values; try done.
    - destruct Ht as [[t Ht]|[y Hy]]; [by rewrite (Ht E HE), (Ht E' HE')|]. pose proof (Heq _ Hy) as Hyk. pose proof (G1 _ Hy) as T1. pose proof (G2 _ Hy) as T2. cbn in T1, T2. cbn [snd] in Hyk. rewrite T1, T2 in Hyk.
      apply sql_same_key in Hyk. cbn in Hyk. by apply Z.eqb_eq in Hyk.
    - intros a b Ha Hb. by eapply (Htw a b E E').
    - intros a b Ha Hb. by eapply (Htw a b E' E).
  Qed.

  (** The rows of the statement, without a limit *)
  Lemma rows_listed distinct ois : exists Es,
    (forall lim, sql_rows sq st distinct cols ois lim c = match lim with LFixed n => take n (map row_at Es) | _ => map row_at Es end)
    /\ Forall (fun E => E ∈ rows_of) Es /\ StronglySorted (fun E E' => row_cmp ois (row_at E) (row_at E') <> Gt) Es
    /\ (forall E, E ∈ rows_of -> exists E', E' ∈ Es /\ key_at E' = key_at E) /\ (distinct = true -> NoDup (map key_at Es)).
  Proof using SQ.
    assert (forall rows, sq_plan sq rows ≡ₚ rows) as HP by exact SQ.
    set (rows0 := map row_at rows_of). set (rows1 := if distinct then dedup row_same (sq_plan sq rows0) else rows0). set (S := merge_sort (row_le ois) (sq_plan sq rows1)).
    assert (forall r1 r2, row_same r1 r2 = true <-> map sql_key r1 = map sql_key r2) as HK by apply row_same_keys.
    assert (forall r, r ∈ rows1 -> r ∈ rows0) as H10. { unfold rows1. destruct distinct; [|done]. intros r Hr%dedup_elem. by rewrite HP in Hr. }
    assert (forall r, r ∈ rows0 -> exists r', r' ∈ rows1 /\ map sql_key r' = map sql_key r) as H01.
    { unfold rows1. destruct distinct; [|eauto]. intros r Hr. destruct (dedup_all row_same _ HK r (sq_plan sq rows0)) as (y & Hy & Hs); [by rewrite HP|]. exists y. split; [done|by apply HK]. }
    assert (Permutation S rows1) as HS. { unfold S. rewrite merge_sort_Permutation. apply HP. }
    destruct (list_choice (fun E => E ∈ rows_of) row_at S) as (Es & HEs & Hall).
    { intros r Hr. rewrite HS in Hr. apply H10 in Hr. unfold rows0 in Hr. apply elem_of_list_fmap in Hr as (E & -> & HE). by exists E. }
    exists Es. split_and!; [| done | | |].
    - intros lim. unfold sql_rows. fold rows0. fold rows1. fold S. rewrite HEs. done.
    - apply (sorted_mapped (row_le ois) row_at). rewrite HEs. apply StronglySorted_merge_sort; apply _.
    - intros E HE. destruct (H01 (row_at E)) as (r & Hr & Hk); [unfold rows0; apply elem_of_list_fmap; by exists E|]. rewrite <- HS, <- HEs in Hr.
      apply elem_of_list_fmap in Hr as (E' & -> & HE'). by exists E'.
    - intros ->. assert (map key_at Es = map (map sql_key) S) as ->. { rewrite <- HEs, map_map. done. }
      apply (Permutation_map (map sql_key)) in HS. rewrite HS. apply (dedup_nodup row_same (map sql_key) HK).
  Qed.
End proj.

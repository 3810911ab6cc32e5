(** What a query with aggregates returns. *)
From Coq Require Import Sorting.Sorted.
From stdpp Require Import sorting.
From Verif Require Import M_Aggregate M_Conn Spec_Aggregate Spec_Query Spec_Value Spec_Sets Spec_Tx Spec_Conn Spec_Transact Spec_Cache P_Value P_Sets P_Perm P_QuerySql P_QuerySat P_QueryPat P_QueryInv P_QueryApply
  P_QueryClauses P_QueryFinish P_QueryStep P_QueryOr P_QueryMain P_QueryProj Spec_Union P_QueryUnion P_QueryBranch P_QueryResult P_QueryConn.

(* ---------------------------------------------------------------- lists *)

Lemma filter_map {A B} (P : B -> Prop) `{forall x, Decision (P x)} (f : A -> B) l : filter P (map f l) = map f (filter (fun x => P (f x)) l).
Proof. induction l as [|x l IH]; [done|]. cbn [map]. rewrite !filter_cons. destruct (decide (P (f x))), (decide (P (f x))); try done; cbn [map]; by rewrite IH. Qed.
Lemma dedup_map {A B} (same : B -> B -> bool) (f : A -> B) l : dedup same (map f l) = map f (dedup (fun x y => same (f x) (f y)) l).
Proof. induction l as [|x l IH]; [done|]. cbn [map dedup]. by rewrite IH, filter_map. Qed.
Lemma filter_all {A} (P : A -> Prop) `{forall x, Decision (P x)} (l : list A) : (forall x, x ∈ l -> P x) -> filter P l = l.
Proof. induction l as [|x l IH]; intros H1; [done|]. rewrite filter_cons_True by (apply H1; by left). f_equal. apply IH. intros y Hy. apply H1. by right. Qed.
Lemma filter_same {A} (P Q : A -> Prop) `{forall x, Decision (P x)} `{forall x, Decision (Q x)} (l : list A) : (forall x, x ∈ l -> P x <-> Q x) -> filter P l = filter Q l.
Proof.
  induction l as [|x l IH]; intros Hl; [done|]. rewrite !filter_cons. rewrite IH by (intros y Hy; apply Hl; by right). pose proof (Hl x ltac:(by left)) as Hx.
  destruct (decide (P x)), (decide (Q x)); try done; tauto.
Qed.
Lemma rmapM_forall {A B} (f : A -> res B) l : forall out, rmapM f l = Ok out -> Forall2 (fun x y => f x = Ok y) l out.
Proof.
  induction l as [|x l IH]; intros out H; cbn [rmapM] in H; [injection H as <-; constructor|]. destruct (f x) as [y| |] eqn:E; cbn [rbind] in H; try done.
  destruct (rmapM f l) as [ys| |]; cbn [rbind] in H; try done. injection H as <-. constructor; [done|]. by apply IH.
Qed.
Lemma pick_row P cols (f : column * pexpr -> sqlval) : pick P cols (map f cols) = map f (filter (fun x => P x.1 = true) cols).
Proof.
  unfold pick. induction cols as [|x cols IH]; [done|]. cbn [map zip zip_with]. rewrite !filter_cons. cbn [fst].
  destruct (decide (P x.1 = true)), (decide (P x.1 = true)); try done; cbn [map snd]; by rewrite IH.
Qed.
Lemma map_same {A B} (f g : A -> B) l : map f l = map g l <-> forall x, x ∈ l -> f x = g x.
Proof.
  split.
  - induction l as [|y l IH]; intros H x Hx; [by apply elem_of_nil in Hx|]. cbn [map] in H. injection H as H1 H2. apply elem_of_cons in Hx as [->|Hx]; [done|auto].
  - intros H. apply map_ext_in. intros x Hx. apply H. by apply elem_of_list_In.
Qed.
Lemma first_vars_elem x l : x ∈ first_vars l <-> x ∈ l.
Proof.
  unfold first_vars. split; [apply dedup_elem|]. intros Hx.
  destruct (dedup_all (fun x y : var => bool_decide (x = y)) (fun x => x) ltac:(intros; apply bool_decide_eq_true) x l Hx) as (y & Hy & ->%bool_decide_eq_true). done.
Qed.
Lemma plain_elem v els : v ∈ plain_vars els <-> ElVar v ∈ els.
Proof.
  unfold plain_vars. rewrite elem_of_list_In, in_flat_map. split.
  - intros ([w|o w] & He & Hv); [|done]. destruct Hv as [->|[]]. by apply elem_of_list_In.
  - intros H. exists (ElVar v). split; [by apply elem_of_list_In|by left].
Qed.

(* ---------------------------------------------------------------- functions of SQLite *)

Lemma sql_best_max l x : sql_best Gt (x :: l) ∈ x :: l /\ forall y, y ∈ x :: l -> sql_cmp y (sql_best Gt (x :: l)) <> Gt.
Proof.
  cbn [sql_best]. revert x. induction l as [|z l IH]; intros x.
  - cbn. split; [by left|]. intros y ->%elem_of_list_singleton. pose proof (sql_cmp_opp x x). by destruct (sql_cmp x x).
  - cbn [fold_left]. destruct (sql_cmp z x) eqn:E.
    1,2: destruct (IH x) as [H1 H2]; split; [apply elem_of_cons in H1 as [->|H1]; [by left|right; by right]|];
      intros y [->|[->|Hy]%elem_of_cons]%elem_of_cons; [apply H2; by left|apply (sql_cmp_trans z x); [by rewrite E|apply H2; by left]|apply H2; by right].
    destruct (IH z) as [H1 H2]. split; [by right|]. intros y [->|Hy]%elem_of_cons; [|by apply H2]. apply (sql_cmp_trans x z); [rewrite (sql_cmp_opp z x), E; done|apply H2; by left].
Qed.
Lemma sql_best_min l x : sql_best Lt (x :: l) ∈ x :: l /\ forall y, y ∈ x :: l -> sql_cmp y (sql_best Lt (x :: l)) <> Lt.
Proof.
  assert (forall u v w, sql_cmp u v <> Lt -> sql_cmp v w <> Lt -> sql_cmp u w <> Lt) as T.
  { intros u v w H1 H2. pose proof (sql_cmp_trans w v u) as H. rewrite (sql_cmp_opp v w), (sql_cmp_opp u v), (sql_cmp_opp u w) in H.
    destruct (sql_cmp u v), (sql_cmp v w), (sql_cmp u w); try done; exfalso; by apply H. }
  cbn [sql_best]. revert x. induction l as [|z l IH]; intros x.
  - cbn. split; [by left|]. intros y ->%elem_of_list_singleton. pose proof (sql_cmp_opp x x). by destruct (sql_cmp x x).
  - cbn [fold_left]. destruct (sql_cmp z x) eqn:E.
    1,3: destruct (IH x) as [H1 H2]; split; [apply elem_of_cons in H1 as [->|H1]; [by left|right; by right]|];
      intros y [->|[->|Hy]%elem_of_cons]%elem_of_cons; [apply H2; by left|apply (T z x); [by rewrite E|apply H2; by left]|apply H2; by right].
    destruct (IH z) as [H1 H2]. split; [by right|]. intros y [->|Hy]%elem_of_cons; [|by apply H2]. apply (T x z); [rewrite (sql_cmp_opp z x), E; done|apply H2; by left].
Qed.
Lemma sql_sum_ok l : forall acc x, sql_sum acc l = Ok x -> exists zs, l = map SInt zs /\ x = SInt (acc + fold_right Z.add 0 zs).
Proof.
  induction l as [|y l IH]; intros acc x H; cbn [sql_sum] in H; [injection H as <-; exists []; split; [done|cbn; by rewrite Z.add_0_r]|].
  destruct y; try done. destruct (_ && _)%bool; [|done]. apply IH in H as (zs & -> & ->). exists (z :: zs). split; [done|]. cbn. f_equal. lia.
Qed.
Lemma sql_not_null v : storable v -> sql_of v <> SNull.
Proof. intros H E. pose proof (decode_sql v H) as D. rewrite E in D. by destruct v. Qed.
Lemma sql_int v z : storable v -> sql_of v = SInt z -> tv_type v = VTLong \/ tv_type v = VTDouble -> v = TVLong z.
Proof. intros _ E [H|H]; destruct v as [| | |[]| | | |]; try done; unfold sql_of in E; cbn in E; by injection E as ->. Qed.

Lemma numeric_contains ts u : vts_is_only_numeric ts = true -> vts_contains ts u = true -> u = VTLong \/ u = VTDouble.
Proof. intros H Hu. pose proof (subset_contains _ _ _ H Hu) as K. destruct u; try done; auto. Qed.
Lemma agg_type_tag o ts t u : agg_type o ts = Ok t -> o <> AggCount -> o <> AggAvg -> vts_contains ts u = true -> vt_tag u = vt_tag t.
Proof.
  unfold agg_type. destruct (vts_is_empty ts); [done|]. intros H Hc Ha Hu.
  assert (vts_is_only_numeric ts = true -> vt_tag u = vt_tag (if vts_contains ts VTDouble then VTDouble else VTLong)) as Hn.
  { intros Hn. destruct (numeric_contains _ _ Hn Hu) as [-> | ->]; by destruct (vts_contains ts VTDouble). }
  assert (vts_is_unit ts = true -> vts_exemplar ts = Some u) as H1.
  { intros E. unfold vts_is_unit, vts_len, vts_exemplar in *. apply vts_iter_spec in Hu. destruct (vts_iter ts) as [|x [|y l]]; try done. by apply elem_of_list_singleton in Hu as ->. }
  destruct o; try done.
  - destruct (vts_is_unit ts); [rewrite H1 in H by done|]; [destruct u; try done; by injection H as <-|]. destruct (vts_is_only_numeric ts); [|done]. injection H as <-. auto.
  - destruct (vts_is_unit ts); [rewrite H1 in H by done|]; [destruct u; try done; by injection H as <-|]. destruct (vts_is_only_numeric ts); [|done]. injection H as <-. auto.
  - destruct (vts_is_only_numeric ts); [|done]. injection H as <-. auto.
Qed.

(* ---------------------------------------------------------------- the statement *)

Section groups.
  Context (sq : sqlite) (st : store) (c : cc) (val : env -> string -> typed_value).
  Notation rows_of := (select sq st [] c).
  Context (Hsat : forall E, E ∈ rows_of -> sat sq st c E (val E)) (Hstor : forall x v, c_vals c !! x = Some v -> storable v).
  Context (vs : list var) (cols : list (column * pexpr)) (ixs : list tindex) (HP : project_vars c [] 0 vs = Ok (cols, ixs)).
  Notation row_at := (row_at cols).

  Lemma cols_good E : E ∈ rows_of -> Forall (col_good val E) cols.
  Proof using Hsat Hstor HP. intros HE. destruct (project_vars_ok sq st c val Hsat Hstor vs [] 0 cols ixs HP) as (H & _). apply (H E HE). Qed.
  Lemma cols_shown : Forall (shown sq st c val cols) vs.
  Proof using Hsat Hstor HP. by destruct (project_vars_ok sq st c val Hsat Hstor vs [] 0 cols ixs HP) as (_ & H & _). Qed.
  Lemma value_picked E v : E ∈ rows_of -> v ∈ vs -> default SNull (head (pick (value_column v) cols (row_at E))) = sql_of (val E v) /\ storable (val E v).
  Proof using Hsat Hstor HP.
    intros HE Hv. unfold row_at. rewrite pick_row. pose proof cols_shown as Hs. rewrite Forall_forall in Hs. destruct (Hs v Hv) as [[x Hx] _].
    pose proof (cols_good E HE) as Hg. rewrite Forall_forall in Hg. destruct (filter _ cols) as [|y l] eqn:Ef.
    - exfalso. assert ((CVar v, x) ∈ filter (fun x => value_column v x.1 = true) cols) as K by (apply elem_of_list_filter; split; [by apply bool_decide_eq_true|done]). rewrite Ef in K. by apply elem_of_nil in K.
    - assert (y ∈ filter (fun x => value_column v x.1 = true) cols) as K by (rewrite Ef; by left). apply elem_of_list_filter in K as [K1%bool_decide_eq_true K2].
      specialize (Hg y K2). unfold col_good in Hg. rewrite K1 in Hg. destruct Hg as [Hg1 Hg2]. cbn [map head default]. done.
  Qed.
  Lemma var_looked E v i j y : E ∈ rows_of -> list_find (fun x : var * tindex => x.1 = v) (zip vs ixs) = Some (j, (y, i)) -> typed_lookup (row_at E) i = Ok (val E v).
  Proof using Hsat Hstor HP.
    intros HE Hf. apply list_find_Some in Hf as (Hj & Hy & _). cbn in Hy. subst y. destruct (project_vars_ok sq st c val Hsat Hstor vs [] 0 cols ixs HP) as (H & _). destruct (H E HE) as [_ Hd].
    specialize (Hd [] [] eq_refl). rewrite app_nil_r in Hd. cbn [app] in Hd. fold (row_at E) in Hd. clear - Hd Hj. revert vs j Hd Hj. induction ixs as [|k ks IH]; intros [|w ws] j Hd Hj; try done.
    cbn [rmapM map] in Hd. destruct (typed_lookup (row_at E) k) as [z| |] eqn:Ek; cbn [rbind] in Hd; try done. destruct (rmapM _ ks) as [zs| |] eqn:Er; cbn [rbind] in Hd; try done. injection Hd as -> Hd.
    destruct j as [|j]; cbn in Hj; [by injection Hj as -> ->|]. apply (IH ws j); [congruence|done].
  Qed.

  (** One element of a group *)
  Lemma element_ok Gs e x : (forall E, E ∈ Gs -> E ∈ rows_of) -> el_var e ∈ vs -> (forall o v, e = ElAgg o v -> c_vals c !! v = None) ->
    (forall v E E', e = ElVar v -> E ∈ Gs -> E' ∈ Gs -> val E v = val E' v) ->
    agg_value c cols (zip vs ixs) (map row_at Gs) e = Ok x -> el_is (map val Gs) e x.
  Proof using Hsat Hstor HP.
    intros HG Hv Hn Hsame. destruct e as [v|o v]; cbn [agg_value].
    - destruct Gs as [|E Gs]; [done|]. cbn [map]. destruct (list_find _ _) as [[j [y i]]|] eqn:Ef; [|done]. rewrite (var_looked E v i j y) by (done || apply HG; by left). intros [= <-].
      intros σ Hσ. change (val E :: map val Gs) with (map val (E :: Gs)) in Hσ. apply elem_of_list_fmap in Hσ as (E' & -> & HE'). apply (Hsame v); [done|done|by left].
    - rewrite (Hn o v eq_refl). destruct (agg_type o (known_type_set c v)) as [t| |] eqn:Et; cbn [rbind]; try done.
      assert (forall E, E ∈ Gs -> vts_contains (known_type_set c v) (tv_type (val E v)) = true) as Hty.
      { intros E HE. unfold known_type_set. destruct (c_known c !! v) as [ts|] eqn:Ek; cbn [default]; [|apply vts_any_contains]. by apply (sat_known _ _ _ _ _ (Hsat E (HG E HE)) v). }
      assert (forall E, E ∈ Gs -> storable (val E v)) as Hst by (intros E HE; exact (proj2 (value_picked E v (HG E HE) Hv))).
      rewrite map_map. rewrite (map_ext_in _ (fun E => sql_of (val E v))) by (intros E HE%elem_of_list_In; exact (proj1 (value_picked E v (HG E HE) Hv))).
      cbn [el_var] in Hv. unfold agg_sql. rewrite filter_all.
      2:{ intros y Hy. apply elem_of_list_fmap in Hy as (E & -> & HE). by apply sql_not_null, Hst. }
      rewrite map_length.
      assert (forall z, from_sql_value_pair SNull z = Ok x -> False) as Hnull by (intros z K; discriminate K).
      destruct o; cbn [rbind]; try done.
      + cbn. assert (t = VTLong) as ->. { unfold agg_type in Et. destruct (vts_is_empty _); [done|]. by injection Et as <-. } cbn. intros [= <-]. by rewrite map_length.
      + assert (forall E, E ∈ Gs -> vt_tag (tv_type (val E v)) = vt_tag t) as Htag by (intros E HE; eapply agg_type_tag; [exact Et|intros K; discriminate K|intros K; discriminate K|by apply Hty]).
        destruct Gs as [|E0 Gs]; [intros K; by destruct (Hnull _ K)|]. cbn [map].
        destruct (sql_best_max (map (fun E => sql_of (val E v)) Gs) (sql_of (val E0 v))) as [B1 B2]. set (m := sql_best Gt _) in *.
        change (sql_of (val E0 v) :: map (fun E => sql_of (val E v)) Gs) with (map (fun E => sql_of (val E v)) (E0 :: Gs)) in B1, B2.
        change (val E0 :: map val Gs) with (map val (E0 :: Gs)). apply elem_of_list_fmap in B1 as (E & Hm & HE). rewrite Hm.
        rewrite <- (Htag E HE). rewrite decode_sql by (by apply Hst). intros [= <-]. split.
        * exists (val E). split; [apply elem_of_list_fmap; by exists E|done].
        * intros σ Hσ. apply elem_of_list_fmap in Hσ as (E' & -> & HE'). rewrite <- sql_cmp_typed; [rewrite <- Hm; apply B2; apply elem_of_list_fmap; by exists E'|by apply Hst|by apply Hst|].
          by rewrite (Htag E HE), (Htag E' HE').
      + assert (forall E, E ∈ Gs -> vt_tag (tv_type (val E v)) = vt_tag t) as Htag by (intros E HE; eapply agg_type_tag; [exact Et|intros K; discriminate K|intros K; discriminate K|by apply Hty]).
        destruct Gs as [|E0 Gs]; [intros K; by destruct (Hnull _ K)|]. cbn [map].
        destruct (sql_best_min (map (fun E => sql_of (val E v)) Gs) (sql_of (val E0 v))) as [B1 B2]. set (m := sql_best Lt _) in *.
        change (sql_of (val E0 v) :: map (fun E => sql_of (val E v)) Gs) with (map (fun E => sql_of (val E v)) (E0 :: Gs)) in B1, B2.
        change (val E0 :: map val Gs) with (map val (E0 :: Gs)). apply elem_of_list_fmap in B1 as (E & Hm & HE). rewrite Hm.
        rewrite <- (Htag E HE). rewrite decode_sql by (by apply Hst). intros [= <-]. split.
        * exists (val E). split; [apply elem_of_list_fmap; by exists E|done].
        * intros σ Hσ. apply elem_of_list_fmap in Hσ as (E' & -> & HE'). rewrite <- sql_cmp_typed; [rewrite <- Hm; apply B2; apply elem_of_list_fmap; by exists E'|by apply Hst|by apply Hst|].
          by rewrite (Htag E HE), (Htag E' HE').
      + assert (forall E, E ∈ Gs -> tv_type (val E v) = VTLong \/ tv_type (val E v) = VTDouble) as Hnum.
        { intros E HE. unfold agg_type in Et. destruct (vts_is_empty _); [done|]. destruct (vts_is_only_numeric _) eqn:En; [|done]. apply (numeric_contains _ _ En). by apply Hty. }
        assert (vt_tag t = 5) as Ht5. { unfold agg_type in Et. destruct (vts_is_empty _); [done|]. destruct (vts_is_only_numeric _) eqn:En; [|done]. injection Et as <-. by destruct (vts_contains _ _). }
        destruct (is_nil (map _ Gs)) eqn:Enil; cbn [rbind]; [intros K; by destruct (Hnull _ K)|].
        destruct (sql_sum 0 _) as [y| |] eqn:Es; cbn [rbind]; try done. apply sql_sum_ok in Es as (zs & Hzs & ->). rewrite Ht5. cbn. intros [= <-]. exists zs. split; [|done].
        clear - Hzs Hst Hnum. revert zs Hzs. induction Gs as [|E Gs IH]; intros [|z zs] Hzs; try done; [constructor|]. cbn [map] in *. injection Hzs as H1 H2. constructor.
        * apply sql_int; [apply Hst; by left|done|apply Hnum; by left].
        * apply IH; [intros; apply Hst; by right|intros; apply Hnum; by right|done].
  Qed.

  (** The columns of a group have the same values if the variables have. *)
  Lemma group_same gs E E' : (forall v, v ∈ gs -> v ∈ vs) -> E ∈ rows_of -> E' ∈ rows_of ->
    (forall v, v ∈ gs -> forall a b E E', E ∈ rows_of -> E' ∈ rows_of -> val E v = TVLong a -> val E' v = TVDouble (DKey b) -> long_value a <> double_value b) ->
    row_same (pick (group_column gs) cols (row_at E)) (pick (group_column gs) cols (row_at E')) = true <-> map (val E) gs = map (val E') gs.
  Proof using Hsat Hstor HP.
    intros Hgs HE HE' Htw. unfold row_at. rewrite !pick_row. set (fcols := filter (fun x => group_column gs x.1 = true) cols). rewrite row_same_keys.
    assert (forall E, E ∈ rows_of -> Forall (col_good val E) fcols) as Hfc.
    { intros E1 H1. pose proof (cols_good E1 H1) as Hg. rewrite Forall_forall in Hg |- *. intros y Hy. apply elem_of_list_filter in Hy as [_ Hy]. by apply Hg. }
    split.
    - intros Hk. apply map_same. intros v Hv. apply (key_values sq st c val fcols Hfc gs v E E' Hv); try done; [|by apply Htw].
      apply Forall_forall. intros w Hw. pose proof cols_shown as Hs. rewrite Forall_forall in Hs. destruct (Hs w (Hgs w Hw)) as [[x Hx] H].
      split; [exists x; apply elem_of_list_filter; split; [by apply bool_decide_eq_true|done]|]. destruct H as [H|[y Hy]]; [by left|right]. exists y. apply elem_of_list_filter. split; [by apply bool_decide_eq_true|done].
    - intros Hm. rewrite map_same in Hm. rewrite !map_map. apply map_same. intros y Hy. pose proof (Hfc E HE) as G1. pose proof (Hfc E' HE') as G2. rewrite Forall_forall in G1, G2. specialize (G1 y Hy). specialize (G2 y Hy).
      apply elem_of_list_filter in Hy as [Hy _]. unfold col_good in G1, G2. unfold group_column in Hy. destruct (y.1) as [| | | | |v|v]; try done; apply bool_decide_eq_true in Hy.
      + destruct G1 as [-> _], G2 as [-> _]. by rewrite (Hm v Hy).
      + by rewrite G1, G2, (Hm v Hy).
  Qed.
End groups.

Lemma zeros Gs els row c cols zs : Gs = [] -> (forall o v, ElAgg o v ∈ els -> c_vals c !! v = None) -> rmapM (agg_value c cols zs (map (row_at cols) Gs)) els = Ok row ->
  agg_dropped c els (map (row_at cols) Gs) = false -> only_counts els /\ row = map (fun _ => TVLong 0) els.
Proof.
  intros -> Hn H Hd. unfold agg_dropped in Hd. cbn [map is_nil andb] in Hd. apply rmapM_forall in H. induction H as [|e x els row Hx Hrest IH]; [split; [constructor|done]|].
  cbn [existsb] in Hd. apply orb_false_iff in Hd as [Hd1 Hd2]. destruct IH as [IH1 ->]; [intros o v Hin; apply (Hn o); by right|done|].
  destruct e as [v|o v]; [done|]. pose proof (Hn o v ltac:(by left)) as Hv. cbn [agg_value] in Hx. rewrite Hv in Hx, Hd1. destruct (agg_type o _) as [t| |] eqn:Et; cbn [rbind] in Hx; try done.
  destruct o; try done; cbn in Hx. assert (t = VTLong) as ->. { unfold agg_type in Et. destruct (vts_is_empty _); [done|]. by injection Et as <-. }
  cbn in Hx. injection Hx as <-. split; [|done]. constructor; [by exists v|done].
Qed.
Lemma results_shaped f rows : Forall (fun row => length row = length (ag_elements f)) rows -> ag_shaped f rows (ag_results f rows).
Proof.
  intros H. destruct f; cbn in *; try done.
  - induction H as [|row rows Hr Hrest IH]; [done|]. destruct row as [|x [|]]; try done. cbn. by rewrite IH.
  - destruct rows as [|row rows]; [done|]. apply Forall_cons_1 in H as [H _]. destruct row as [|x [|]]; done.
Qed.

Section top.
  Context (sq : sqlite) (k : known) (st : store) (g : agg_query) (vals : gmap var typed_value).
  Notation q := (ag_tuples g).
  Notation els := (ag_elements (ag_find g)).
  Context (G : store_good (sc_attribute_map (kn_schema k)) st) (CO : cache_ok k st) (SQ : sqlite_ok sq) (UN : uncached k).
  Context (SF : safe q vals) (WA : well_aggregated g).
  Context (CL : Forall (safe_clause k (loose q) (q_in q) vals) (q_where q) \/ (Forall (wide k (loose q) (q_in q) vals) (q_where q) /\ uncached k /\ open_find q)).
  Context (TW : twinless st \/ closed_find q).

  Lemma asked_vars v : v ∈ find_vars (q_find q) <-> v ∈ map el_var els \/ v ∈ ag_with g.
  Proof using Type.
    clear. cbn [ag_tuples q_find find_vars]. rewrite elem_of_app, first_vars_elem, elem_of_list_filter, sorted_vars_elem. unfold vars_of. rewrite elem_of_list_to_set.
    destruct (decide (v ∈ map el_var els)); tauto.
  Qed.
  Lemma inner_same c : (forall v, v ∉ ag_in g -> c_vals c !! v = None) -> inner_vars c els (ag_with g) = find_vars (q_find q).
  Proof using WA.
    intros Hn. unfold inner_vars. cbn [ag_tuples q_find find_vars]. f_equal. apply filter_same. intros v Hv. rewrite sorted_vars_elem in Hv. unfold vars_of in Hv. rewrite elem_of_list_to_set in Hv.
    rewrite first_vars_elem. split; [by intros [_ ?]|]. intros H. split; [|done]. apply Hn. by apply (wa_with _ WA).
  Qed.

  Theorem q_aggregate_ok r : q_aggregate sq k st g vals = Ok r ->
    exists l rows, listing st (kn_schema k) q vals l /\ aggregated (ag_limit (ag_find g)) els l rows /\ ag_shaped (ag_find g) rows r.
  Proof using All.
    unfold q_aggregate. destruct (negb _); [done|]. destruct (algebrize k q vals) as [a| |] eqn:Ea; cbn [rbind]; try done. destruct (bool_decide _); [|done]. intros Hr.
    assert (well_limited q vals) as WL by exact Logic.I.
    destruct (algebrize_ok sq k st q vals G CO SF WL CL a Ea) as (c1 & [A1 A2 A3 _ _]). unfold run_aggregate in Hr. set (c := aq_cc a) in *.
    destruct (c_empty c) eqn:Ee.
    { injection Hr as <-. exists [], []. split_and!; [|left; exists []; split_and!|by apply results_shaped].
      - split; try by (intros; constructor). + by intros σ ?%elem_of_nil. + intros σ Hs. by destruct (A1 eq_refl σ).
      - done.
      - constructor.
      - by intros σ ?%elem_of_nil.
      - unfold ag_limit. destruct (ag_unit _); constructor. }
    destruct (A2 eq_refl) as (I1 & Ee1 & Hfin & _). pose proof Hfin as [F1 F2 F3 F4 F5 F6 FC F7 F8 F9 F10 F11 F12].
    assert (forall v, v ∉ ag_in g -> c_vals c !! v = None) as Hown.
    { intros v Hv. rewrite F5. destruct (c_vals c1 !! v) as [y|] eqn:Ey; [|done]. exfalso. apply Hv. by apply (i_own I1 UN v y). }
    assert (forall o v, ElAgg o v ∈ els -> c_vals c !! v = None) as Hagg by (intros o v Hv; by apply Hown, (wa_open _ WA o)).
    rewrite (inner_same c Hown) in Hr. set (vs := find_vars (q_find q)) in *.
    assert (forall E, E ∈ select sq st [] c -> sat sq st c E (assigned c1 E)) as Hval by (intros E HE; by apply (F12 Ee [])).
    destruct (negb _); [done|]. destruct (negb _); [done|]. destruct (rmapM _ els) as [u| |] in Hr; cbn [rbind] in Hr; try done.
    destruct (project_vars c [] 0 vs) as [[cols ixs]| |] eqn:Ep; cbn [rbind] in Hr; try done.
    destruct (check_cc [] c); cbn [rbind] in Hr; try done. destruct (negb _); [done|].
    assert (forall x v, c_vals c !! x = Some v -> storable v) as Hstor. { intros x v. rewrite F5. apply (i_vals I1). }
    pose proof (cols_good sq st c (assigned c1) Hval Hstor vs cols ixs Ep) as Hcols. pose proof (cols_shown sq st c (assigned c1) Hval Hstor vs cols ixs Ep) as Hshown.
    destruct (rows_listed sq st c SQ cols true []) as (Es & Hrows & HEs & _ & Hall & Hnd). rewrite Hrows in Hr. specialize (Hnd eq_refl). rewrite Forall_forall in HEs.
    assert (forall x, x ∈ vs -> is_Some (c_vals c1 !! x) \/ exists p ps, c_cols c1 !! x = Some (p :: ps)) as Hvsb.
    { clear - Ep F3 F5. intros x Hx. assert (forall vs seen i cols ixs, project_vars c seen i vs = Ok (cols, ixs) -> x ∈ vs -> exists y, project_var c x = Ok y) as H.
      { clear. induction vs as [|v vs IH]; intros seen i cols ixs H Hx; [by apply elem_of_nil in Hx|]. cbn [project_vars] in H. destruct (decide _); [done|]. destruct (project_var c v) as [[y ts]| |] eqn:Ev; cbn [rbind] in H; try done.
        apply elem_of_cons in Hx as [->|Hx]; [by eexists|]. destruct (vts_unique_tag ts).
        - destruct (project_vars c (v :: seen) (i + 1) vs) as [[co ix]| |] eqn:E; cbn [rbind] in H; try done. by eapply IH.
        - destruct (tag_column c v); cbn [rbind] in H; try done. destruct (project_vars c (v :: seen) (i + 2) vs) as [[co ix]| |] eqn:E; cbn [rbind] in H; try done. by eapply IH. }
      destruct (H _ _ _ _ _ Ep Hx) as [y Hy]. unfold project_var in Hy. rewrite F3, F5 in Hy. destruct (c_vals c1 !! x); [left; by eexists|right]. destruct (c_cols c1 !! x) as [[|p ps]|]; try done. by exists p, ps. }
    assert (forall x, x ∈ vs -> forall a b E E', E ∈ select sq st [] c -> E' ∈ select sq st [] c -> assigned c1 E x = TVLong a -> assigned c1 E' x = TVDouble (DKey b) -> long_value a <> double_value b) as Htw.
    { intros x Hx. exact (no_twins sq k st q vals G TW c1 c x I1 Ee1 Hfin Ee Hx (Hvsb x Hx)). }
    assert (forall E σ x, E ∈ select sq st [] c -> sat sq st c E σ -> x ∈ vs -> σ x = assigned c1 E x) as Hbound.
    { intros E σ x HE Hs Hx. apply (bound_var sq k st q vals); [done|done|by apply Hvsb|by apply F11|]. apply F11. by apply Hval. }
    assert (listing st (kn_schema k) q vals (map (assigned c1) Es)) as HL.
    { split.
      - intros σ Hσ. apply elem_of_list_fmap in Hσ as (E & -> & HE). apply A3. exists E. apply HEs in HE. split; [done|]. by apply Hval.
      - intros σ Hs. apply A3 in Hs as (E & HE & Hs). destruct (Hall E HE) as (E' & HE' & Hk). exists (assigned c1 E'). split; [apply elem_of_list_fmap; by exists E'|].
        intros x Hx. fold vs in Hx. rewrite (Hbound E σ x HE Hs Hx). apply (key_values sq st c (assigned c1) cols Hcols vs x E' E Hx Hshown); [by apply HEs|done|done|by apply Htw].
      - rewrite map_map. apply (key_nodup (key_at cols)); [|done]. intros E E' HE HE' Heq. apply HEs in HE, HE'. unfold key_at, row_at. rewrite !map_map. apply map_ext_in. intros y Hy. apply elem_of_list_In in Hy. f_equal.
        destruct (cols_named _ _ _ _ _ _ Ep y Hy) as (v & Hv & Hn). pose proof (Hcols E HE) as G1. pose proof (Hcols E' HE') as G2. rewrite Forall_forall in G1, G2. specialize (G1 y Hy). specialize (G2 y Hy).
        fold vs in Heq. pose proof (proj1 (map_same _ _ _) Heq v Hv) as Hvv.
        unfold col_good in G1, G2. destruct Hn as [Hn|Hn]; rewrite Hn in G1, G2.
        + destruct G1 as [-> _], G2 as [-> _]. by rewrite Hvv.
        + rewrite G1, G2, Hvv. done.
      - clear. induction Es as [|E l IH]; cbn [map]; constructor; [done|]. apply Forall_forall. intros. done. }
    assert (forall e, e ∈ els -> el_var e ∈ vs) as Hels. { intros e He. apply asked_vars. left. apply elem_of_list_fmap. by exists e. }
    set (key := fun E => map (assigned c1 E) (plain_vars els)).
    set (gr := fun E => filter (fun E' => key E' = key E) Es).
    assert (exists Rs, (forall E, E ∈ Rs -> E ∈ Es) /\ NoDup (map key Rs) /\ (forall E, E ∈ Es -> exists E', E' ∈ Rs /\ key E' = key E)
      /\ (agg_groups c els cols (map (row_at cols) Es) = map (fun E => map (row_at cols) (gr E)) Rs
          \/ (Es = [] /\ agg_groups c els cols (map (row_at cols) Es) = [[]]))) as (Rs & R1 & R2 & R3 & R4).
    { unfold agg_groups. set (gs := filter (fun v => c_vals c !! v = None) (plain_vars els)).
      destruct (is_nil gs) eqn:Egs.
      - assert (plain_vars els = []) as Hnil.
        { destruct (wa_plain _ WA) as [?|(v & Hv & Hi)]; [done|]. assert (v ∈ gs) as K by (apply elem_of_list_filter; split; [by apply Hown|done]). destruct gs; [by apply elem_of_nil in K|done]. }
        assert (existsb (fun e => match e with ElAgg o v => negb (is_some (c_vals c !! v) && agg_nullable o) | ElVar _ => false end) els = true) as ->.
        { destruct (wa_some _ WA) as (o & v & Hin). apply existsb_exists. exists (ElAgg o v). split; [by apply elem_of_list_In|]. by rewrite (Hagg o v Hin). }
        assert (forall E E', key E = key E') as Hk. { intros E E'. unfold key. by rewrite Hnil. }
        destruct Es as [|E Es'] eqn:EEs.
        + exists []. split_and!; [done|constructor|by intros E ?%elem_of_nil|by right].
        + exists [E]. split_and!; [intros E' ->%elem_of_list_singleton; by left|apply NoDup_singleton|intros E' _; exists E; split; [by left|apply Hk]|left]. cbn [map]. f_equal.
          unfold gr. rewrite (filter_all (fun E' => key E' = key E)) by (intros; apply Hk). done.
      - set (same := fun r r' : list sqlval => row_same (pick (group_column gs) cols r) (pick (group_column gs) cols r')).
        assert (forall v, v ∈ gs -> v ∈ vs) as Hgv. { intros v Hv. apply elem_of_list_filter in Hv as [_ Hv]. apply plain_elem in Hv. by apply (Hels (ElVar v)). }
        assert (forall E E', E ∈ Es -> E' ∈ Es -> same (row_at cols E) (row_at cols E') = true <-> key E = key E') as Hsame.
        { intros E E' HE HE'. apply HEs in HE, HE'. unfold same. rewrite (group_same sq st c (assigned c1) Hval Hstor vs cols ixs Ep gs E E' Hgv HE HE'); [|intros v Hv; by apply Htw, Hgv].
          unfold key. rewrite !map_same. split; [|intros H v Hv; apply H; by apply elem_of_list_filter in Hv as [_ Hv]].
          intros H v Hv. destruct (c_vals c !! v) as [y|] eqn:Ey; [|apply H, elem_of_list_filter; done]. by rewrite (sat_vals _ _ _ _ _ (Hval E HE) v y Ey), (sat_vals _ _ _ _ _ (Hval E' HE') v y Ey). }
        rewrite dedup_map. set (Rs := dedup _ Es). assert (forall E, E ∈ Rs -> E ∈ Es) as HR by (intros E; apply dedup_elem).
        set (fk := fun E => map sql_key (pick (group_column gs) cols (row_at cols E))).
        assert (forall x y, same (row_at cols x) (row_at cols y) = true <-> fk x = fk y) as HK by (intros; apply row_same_keys).
        exists Rs. split_and!; [done| | |left].
        + apply (key_nodup fk); [|by apply (dedup_nodup _ fk)]. intros E E' HE HE' Hk. apply HK. apply Hsame; auto.
        + intros E HE. destruct (dedup_all _ fk HK E Es HE) as (E' & HE' & Hs). exists E'. split; [done|]. apply Hsame in Hs; auto.
        + rewrite map_map. apply map_same. intros E HE. unfold gr. rewrite filter_map. f_equal. apply filter_same. intros E' HE'. transitivity (key E = key E'); [apply (Hsame E E'); auto|]. split; by intros ->. }
    exists (map (assigned c1) Es). destruct (rmapM _ _) as [out| |] eqn:Eo in Hr; cbn [rbind] in Hr; try done. injection Hr as <-. exists out. split; [done|].
    apply rmapM_forall in Eo. destruct R4 as [R4|[-> R4]]; rewrite R4 in Eo.
    - assert (forall (n : option nat), (if ag_unit (ag_find g) then take 1 (map (fun E => map (row_at cols) (gr E)) Rs) else map (fun E => map (row_at cols) (gr E)) Rs)
        = map (fun E => map (row_at cols) (gr E)) (up_to (ag_limit (ag_find g)) Rs)) as Htake.
      { intros _. unfold ag_limit. destruct (ag_unit _); [|done]. cbn [up_to]. by destruct Rs as [|E [|]]. }
      rewrite (Htake None) in Eo. clear Htake. set (Ts := up_to (ag_limit (ag_find g)) Rs) in *.
      assert (forall E, E ∈ Ts -> E ∈ Es) as HT. { intros E HE. apply R1. unfold Ts, up_to in HE. destruct (ag_limit _) as [n|]; [|done]. apply elem_of_take in HE as (i & Hi & _). by eapply elem_of_list_lookup_2. }
      rewrite filter_all in Eo.
      2:{ intros rs Hin. apply elem_of_list_fmap in Hin as (E & -> & HE). unfold agg_dropped. assert (E ∈ gr E) as K by (apply elem_of_list_filter; auto). destruct (gr E); [by apply elem_of_nil in K|done]. }
      apply Forall2_fmap_l in Eo.
      assert (Forall2 (fun E row => Forall2 (el_is (map (assigned c1) (gr E))) els row) Ts out) as Hout.
      { clear - Eo HT HEs Hels Hagg Hval Hstor Ep. induction Eo as [|E row Ts out Hrow Hrest IH]; constructor; [|apply IH; intros; apply HT; by right].
        apply rmapM_forall in Hrow. assert (forall e, e ∈ els -> e ∈ els) as Hsub by done. revert Hrow Hsub. generalize els at 1 2 4. intros es Hrow. induction Hrow as [|e x es row Hx Hr IHr]; intros Hsub; constructor.
        - apply (element_ok sq st c (assigned c1) Hval Hstor vs cols ixs Ep (gr E) e x); try done.
          + intros E' HE'. apply elem_of_list_filter in HE' as [_ HE']. by apply HEs.
          + apply Hels, Hsub. by left.
          + intros o v ->. apply (Hagg o). apply Hsub. by left.
          + intros v E1 E2 -> H1 H2. apply elem_of_list_filter in H1 as [K1 _], H2 as [K2 _]. rewrite <- K2 in K1. unfold key in K1. apply (proj1 (map_same _ _ _) K1). apply plain_elem, Hsub. by left.
        - apply IHr. intros e' He'. apply Hsub. by right. }
      split.
      + left. exists (map (assigned c1) Rs). split_and!.
        * intros σ Hσ. apply elem_of_list_fmap in Hσ as (E & -> & HE). apply elem_of_list_fmap. exists E. auto.
        * by rewrite map_map.
        * intros σ Hσ. apply elem_of_list_fmap in Hσ as (E & -> & HE). destruct (R3 E HE) as (E' & HE' & Hk). exists (assigned c1 E'). split; [apply elem_of_list_fmap; by exists E'|done].
        * replace (up_to (ag_limit (ag_find g)) (map (assigned c1) Rs)) with (map (assigned c1) Ts) by (unfold Ts, up_to; destruct (ag_limit _); [apply fmap_take|done]).
          apply Forall2_fmap_l. eapply Forall2_impl; [exact Hout|]. intros E row H. cbn. unfold group_of. rewrite filter_map. exact H.
      + apply results_shaped. apply Forall_forall. intros row Hrow. apply elem_of_list_lookup_1 in Hrow as [i Hi]. destruct (Forall2_lookup_r _ _ _ _ _ Hout Hi) as (E & _ & H). symmetry. by eapply Forall2_length.
    - cbn [map] in Eo. replace (if ag_unit (ag_find g) then take 1 [[]] else [[]]) with [@nil (list sqlval)] in Eo by (by destruct (ag_unit _)).
      rewrite filter_cons in Eo. destruct (decide (agg_dropped c els [] = false)) as [Hd|Hd].
      + inversion Eo as [|? row ? rest Hrow Hrest]; subst. inversion Hrest; subst. destruct (zeros [] els row c cols _ eq_refl Hagg Hrow Hd) as [Hc ->].
        split; [right; done|]. apply results_shaped. constructor; [by rewrite map_length|constructor].
      + inversion Eo; subst. split; [|by apply results_shaped]. left. exists []. split_and!; [done|constructor|by intros σ ?%elem_of_nil|]. unfold ag_limit. destruct (ag_unit _); constructor.
  Qed.
End top.

Lemma uncached_aggregate mv c sq g vals r : clean mv c -> sqlite_ok sq -> all_readable (disk c) -> safe (ag_tuples g) vals -> Forall (branched (schema_of c) (ag_in g) vals) (ag_where g) ->
  well_aggregated g -> twinless (disk c) \/ closed_find (ag_tuples g) -> q_aggregated sq c g vals = Ok r ->
  exists l rows, listing (disk c) (schema_of c) (ag_tuples g) vals l /\ aggregated (ag_limit (ag_find g)) (ag_elements (ag_find g)) l rows /\ ag_shaped (ag_find g) rows r.
Proof.
  intros Hc SQ Hr SF Hn WA TW H. destruct (clean_good _ _ Hc Hr) as [G NE].
  assert (open_find (ag_tuples g)) as Hof.
  { destruct (wa_some _ WA) as (o & v & Hin). exists v. split; [|by apply (wa_open _ WA o)]. apply asked_vars. left. apply elem_of_list_fmap. by exists (ElAgg o v). }
  apply (q_aggregate_ok sq (Known (schema_of c) no_cache) (disk c) g vals G (cache_ok_none _ _) SQ); try done. right. split_and!; try done. by apply branched_wide.
Qed.

Lemma aggregate_all mv c sq v o ins ws vals r : clean mv c -> sqlite_ok sq -> all_readable (disk c) -> safe (Query (FRel [v]) ins ws [] LNone) vals ->
  Forall (branched (schema_of c) ins vals) ws -> v ∉ ins -> twinless (disk c) \/ closed_find (Query (FRel [v]) ins ws [] LNone) ->
  q_aggregated sq c (ag_all v o ins ws) vals = Ok r ->
  exists x, r = RScalar x /\ total o (answer (disk c) (schema_of c) (Query (FRel [v]) ins ws [] LNone) vals) x.
Proof.
  intros Hc SQ Hr SF Hn Hv TW H. assert (ag_tuples (ag_all v o ins ws) = Query (FRel [v]) ins ws [] LNone) as Eq by done.
  destruct (uncached_aggregate mv c sq (ag_all v o ins ws) vals r Hc SQ Hr) as (l & rows & HL & HA & HS); try done.
  { split; cbn [ag_find ag_all ag_elements ag_with].
    - exists o, v. by left.
    - intros o' v' [= -> ->]%elem_of_list_singleton. done.
    - by intros v' ?%elem_of_nil.
    - by left. }
  rewrite Eq in HL. set (A := answer _ _ _ _). cbn [ag_find ag_all ag_shaped ag_elements] in *. destruct r as [| | |x]; try done. exists x. split; [done|].
  assert (forall y, A [y] <-> exists σ, σ ∈ l /\ σ v = y) as HAl.
  { intros y. split.
    - intros (σ & Hs & E). cbn in E. injection E as ->. destruct (li_all _ _ _ _ _ HL σ Hs) as (σ' & Hin & Hag). exists σ'. split; [done|]. apply Hag. by left.
    - intros (σ & Hin & <-). exists σ. split; [by apply (li_solutions _ _ _ _ _ HL)|done]. }
  assert (NoDup (map (fun σ => σ v) l)) as Hnd.
  { apply (key_nodup (fun σ => map σ [v])); [|apply (li_once _ _ _ _ _ HL)]. intros σ σ' _ _ E. cbn. by rewrite E. }
  assert (l = [] -> forall y, ~ A [y]) as Hno. { intros -> y (σ & Hin & _)%HAl. by apply elem_of_nil in Hin. }
  assert (forall y, el_is l (ElAgg o v) y -> total o A (Some y)) as Htot.
  { intros y Hy. destruct o; cbn in Hy |- *; try done.
    - exists (map (fun σ => σ v) l). split; [done|]. split; [|by rewrite map_length]. intros z. rewrite HAl. rewrite elem_of_list_fmap. split; intros (σ & H1 & H2); exists σ; split; done.
    - destruct Hy as [Hy1 Hy2]. split; [by apply HAl|]. intros z (σ & Hin & <-)%HAl. by apply Hy2.
    - destruct Hy as [Hy1 Hy2]. split; [by apply HAl|]. intros z (σ & Hin & <-)%HAl. by apply Hy2.
    - destruct Hy as (zs & Hzs & ->). exists zs. assert (map (fun σ => σ v) l = map TVLong zs) as E. { clear - Hzs. induction Hzs as [|σ z l zs E _ IH]; [done|]. cbn [map]. by rewrite E, IH. }
      split; [|split; [|done]].
      + rewrite E in Hnd. clear - Hnd. induction zs as [|z zs IH]; [constructor|]. cbn [map] in Hnd. apply NoDup_cons in Hnd as [H1 H2]. constructor; [|auto]. intros Hz. apply H1. apply elem_of_list_fmap. by exists z.
      + intros z. rewrite HAl. transitivity (z ∈ map (fun σ => σ v) l); [rewrite elem_of_list_fmap; split; intros (σ & H1 & H2); exists σ; split; done|]. rewrite E, elem_of_list_fmap. split; intros (y & H1 & H2); exists y; split; done. }
  destruct HA as [(reps & R1 & R2 & R3 & R4)|(El & Hoc & ->)].
  - cbn [ag_limit ag_unit ag_all ag_find up_to plain_vars flat_map app] in *. destruct reps as [|σ reps].
    + cbn in R4. inversion R4; subst. destruct x; [done|]. cbn [total]. apply Hno. destruct l as [|σ l]; [done|]. destruct (R3 σ ltac:(by left)) as (σ' & K & _). by apply elem_of_nil in K.
    + cbn [take] in R4. inversion R4 as [|? row ? rest Hrow Hrest]; subst. inversion Hrow as [|? y ? ys Hy Hys]; subst. inversion Hys; subst. destruct x as [x|]; [|done]. cbn in HS. injection HS as ->.
      apply Htot. unfold group_of in Hy. cbn [plain_vars flat_map map] in Hy. by rewrite filter_all in Hy.
  - destruct x as [x|]; [|done]. cbn in HS. injection HS as ->. apply Htot. subst l. apply Forall_cons_1 in Hoc as [[w E] _]. injection E as -> _. done.
Qed.

(** Counting does not fail where listing gives something, and gives the number of rows. *)
Lemma count_rows mv c sq v ins ws vals rows : clean mv c -> sqlite_ok sq -> all_readable (disk c) -> safe (Query (FRel [v]) ins ws [] LNone) vals ->
  Forall (branched (schema_of c) ins vals) ws -> v ∉ ins -> twinless (disk c) \/ closed_find (Query (FRel [v]) ins ws [] LNone) ->
  q_uncached sq c (Query (FRel [v]) ins ws [] LNone) vals = Ok (RRel rows) -> rows <> [] ->
  q_aggregated sq c (ag_all v AggCount ins ws) vals = Ok (RScalar (Some (TVLong (Z.of_nat (length rows))))).
Proof.
  intros Hc SQ Hr SF Hn Hv TW Hq Hne. set (q := Query (FRel [v]) ins ws [] LNone) in *.
  assert (open_find q) as Hof. { exists v. split; [by left|done]. }
  assert (exists r, q_aggregated sq c (ag_all v AggCount ins ws) vals = Ok r) as [r Hag].
  { destruct (clean_good _ _ Hc Hr) as [G NE]. revert Hq. unfold q_uncached, q_once, q_aggregated, q_aggregate. set (k := Known _ _).
    replace (ag_tuples (ag_all v AggCount ins ws)) with q by done. cbn [ag_with ag_all ag_find]. rewrite bool_decide_eq_true_2 by constructor. cbn [negb].
    destruct (algebrize k q vals) as [a| |] eqn:Ea; cbn [rbind]; try done. destruct (bool_decide _); [|done].
    destruct (algebrize_ok sq k (disk c) q vals G (cache_ok_none _ _) SF Logic.I (or_intror (conj (branched_wide _ _ _ SF Hn) (conj (fun _ => conj eq_refl eq_refl) Hof))) a Ea) as (c1 & [_ A2 _ A4 _]).
    unfold run_algebrized, run_aggregate. set (d := aq_cc a) in *. destruct (c_empty d) eqn:Ee; [intros _; by eexists|].
    destruct (A2 eq_refl) as (I1 & Ee1 & Hfin & _). cbn [ag_elements find_vars q_find q].
    assert (c_vals d !! v = None) as Hnone.
    { rewrite (f_vals _ _ _ _ _ _ Hfin). destruct (c_vals c1 !! v) as [y|] eqn:Ey; [|done]. exfalso. apply Hv. by apply (i_own I1 (fun _ => conj eq_refl eq_refl) v y). }
    cbn [forallb]. rewrite Hnone. cbn [is_some andb]. rewrite andb_false_r.
    destruct A4 as (extra & Ho & Hna). cbn in Ho. injection Ho as Ho <-.
    assert (inner_vars d [ElAgg AggCount v] [] = [v]) as -> by done.
    destruct (project_vars d [] 0 [v]) as [[cols ixs]| |] eqn:Ep; cbn [rbind]; try (destruct (existsb _ _); done). rewrite Hna.
    replace (sorted_vars (vars_of [])) with (@nil var) by done. cbn [project_named rbind]. rewrite app_nil_r.
    destruct (check_cc [] d); cbn [rbind]; try done. destruct (negb (forallb _ cols)); [done|]. rewrite <- Ho. cbn [order_indices]. intros Hrows.
    assert (agg_type AggCount (known_type_set d v) = Ok VTLong) as Ht.
    { unfold agg_type. destruct (vts_is_empty (known_type_set d v)) eqn:Em; [|done]. exfalso. apply Hne.
      destruct (rows_listed sq (disk c) d SQ cols (negb (unit_limited (FRel [v])) && negb (is_fixed_one (aq_limit a))) []) as (Es & HEs & Hin & _). rewrite HEs in Hrows.
      destruct Es as [|E Es]; [destruct (aq_limit a) as [|n|]; cbn in Hrows; rewrite ?take_nil in Hrows; cbn in Hrows; by injection Hrows as <-|]. exfalso.
      apply Forall_cons_1 in Hin as [Hin _]. pose proof (f_assigned _ _ _ _ _ _ Hfin Ee [] E eq_refl Hin) as Hs.
      assert (vts_contains (known_type_set d v) (tv_type (assigned c1 E v)) = true) as Hcon.
      { unfold known_type_set. destruct (c_known d !! v) as [ts|] eqn:Ek; cbn [default]; [by apply (sat_known _ _ _ _ _ Hs v)|apply vts_any_contains]. }
      unfold vts_is_empty in Em. apply N.eqb_eq in Em. rewrite Em in Hcon. by destruct (tv_type _). }
    cbn [existsb negb orb plain_vars flat_map app]. rewrite bool_decide_eq_true_2 by constructor. cbn [negb rmapM]. rewrite Ht. cbn [rmap rbind].
    unfold agg_groups. cbn [plain_vars flat_map app filter list_filter is_nil existsb]. rewrite Hnone. cbn [is_some andb negb orb ag_unit take].
    rewrite filter_cons. replace (agg_dropped d [ElAgg AggCount v] _) with false by (unfold agg_dropped; cbn; by rewrite andb_false_r).
    rewrite decide_True by done. cbn [filter list_filter rmapM agg_value]. rewrite Ht. cbn [rbind]. rewrite Hnone. cbn. by eexists. }
  destruct (aggregate_all mv c sq v AggCount ins ws vals r Hc SQ Hr SF Hn Hv TW Hag) as (x & -> & Ht). rewrite Hag. do 2 f_equal.
  assert (gives (RRel rows) (answer (disk c) (schema_of c) q vals)) as [Gn Ga]. { apply (branched_gives mv c sq q vals); try done. by intros y ?%elem_of_nil. }
  assert (forall row, row ∈ rows -> exists y, row = [y]) as Hone. { intros row (σ & _ & ->)%Ga. by eexists. }
  destruct x as [x|]; cbn in Ht.
  - destruct Ht as (l & L1 & L2 & ->). do 3 f_equal. rewrite <- (map_length (fun y => [y]) l). apply Permutation_length. apply NoDup_Permutation; [|done|].
    + apply (NoDup_fmap_2 (fun y => [y])); done.
    + intros row. rewrite elem_of_list_fmap. split.
      * intros (y & -> & Hy). by apply Ga, L2.
      * intros Hrow. destruct (Hone row Hrow) as [y ->]. exists y. split; [done|]. by apply L2, Ga.
  - exfalso. destruct rows as [|row rows]; [done|]. destruct (Hone row ltac:(by left)) as [y ->]. apply (Ht y), Ga. by left.
Qed.

(** What a query returns. *)
From Coq Require Import Sorting.Sorted.
From stdpp Require Import sorting.
From Verif Require Import M_Query Spec_Query Spec_Value Spec_Sets Spec_Cache P_Value P_Sets P_Perm P_QuerySql P_QuerySat P_QueryPat P_QueryInv P_QueryApply P_QueryClauses
  P_QueryFinish P_QueryStep P_QueryOr P_QueryMain P_QueryProj Spec_Union P_QueryUnion P_QueryBranch.

(* ---------------------------------------------------------------- variables that occur once *)

Definition times (x : string) (l : list string) : nat := length (filter (fun y => y = x) l).
Lemma times_app x l l' : times x (l ++ l') = (times x l + times x l')%nat.
Proof. unfold times. by rewrite filter_app, app_length. Qed.
Lemma times_cons x l : times x (x :: l) = S (times x l).
Proof. unfold times. by rewrite filter_cons_True. Qed.
Lemma times_in x l : x ∈ l -> (1 <= times x l)%nat.
Proof. intros (l1 & l2 & ->)%elem_of_list_split. rewrite times_app, times_cons. lia. Qed.
Lemma times_out x l : times x l = 0%nat -> x ∉ l.
Proof. intros H Hin%times_in. lia. Qed.
Lemma times_not x l : x ∉ l -> times x l = 0%nat.
Proof. induction l as [|y l IH]; [done|]. rewrite not_elem_of_cons. intros [Hne Hx]. unfold times. rewrite filter_cons_False by done. by apply IH. Qed.
Lemma lone_times ps ins x : lone ps ins x -> times x (flat_map pattern_vars ps) = 1%nat.
Proof. intros (_ & l1 & l2 & -> & H1 & H2). rewrite times_app, times_cons, (times_not x l1), (times_not x l2) by done. done. Qed.
Lemma times_flat x ps p : p ∈ ps -> (times x (pattern_vars p) <= times x (flat_map pattern_vars ps))%nat.
Proof. intros (l1 & l2 & ->)%elem_of_list_split. rewrite flat_map_app. cbn [flat_map]. rewrite !times_app. lia. Qed.

(** The value of an open pattern, nowhere else *)
Definition loose (q : query) (x : string) : Prop :=
  lone (query_patterns q) (q_in q) x /\ exists p, p ∈ query_patterns q /\ open_pattern (q_in q) p /\ p_v p = VVar x.
Lemma loose_place q x p : loose q x -> p ∈ query_patterns q -> x ∉ place_vars p.
Proof.
  intros [Hl (p0 & Hp0 & _ & Hv)] Hp Hx. apply lone_times in Hl.
  assert (forall p, (times x (place_vars p) + times x (match p_v p with VVar y => [y] | _ => [] end) = times x (pattern_vars p))%nat) as Hsplit.
  { intros p'. unfold place_vars, pattern_vars. rewrite !times_app. destruct (p_v p'); cbn; lia. }
  apply times_in in Hx. pose proof (Hsplit p) as S1. pose proof (Hsplit p0) as S2. rewrite Hv, times_cons in S2.
  apply elem_of_list_split in Hp as (l1 & l2 & E). rewrite E in Hl, Hp0. rewrite flat_map_app in Hl. cbn [flat_map] in Hl. rewrite !times_app in Hl.
  apply elem_of_app in Hp0 as [Hp0|[<-|Hp0]%elem_of_cons]; [apply (times_flat x) in Hp0; lia| |apply (times_flat x) in Hp0; lia].
  rewrite Hv, times_cons in S1. lia.
Qed.
Lemma once_loose q ws : (forall x, x ∈ ws -> x ∈ q_in q) -> once (loose q) (pvars (q_where q) ++ ws).
Proof.
  intros Hws x l1 l2 E HL. pose proof HL as [Hl _]. assert (x ∉ q_in q) as Hin by apply Hl. apply lone_times in Hl.
  assert (times x (pvars (q_where q) ++ ws) = 1%nat) as Ht. { rewrite times_app, (times_not x ws) by (intros H; by apply Hin, Hws). unfold pvars. rewrite Nat.add_0_r. exact Hl. }
  rewrite E, times_app, times_cons in Ht. split; apply times_out; lia.
Qed.
Lemma psafe_pattern q vals p : safe q vals -> p ∈ query_patterns q -> psafe (loose q) (q_in q) vals p.
Proof.
  intros [_ Hs _] Hp. rewrite Forall_forall in Hs. destruct (Hs p Hp) as [H1 H2]. split; [done| |intros x Hx; by apply (loose_place q)].
  intros Ho. specialize (H2 Ho). destruct (p_v p) as [|x| | |] eqn:Ev; try done. destruct H2 as [H2|H2]; [left|by right]. split; [done|]. exists p. done.
Qed.

(* ---------------------------------------------------------------- algebrizing *)

Lemma process_required_empty c c' : c_empty c = true -> process_required (prune_extracted (expand_columns c)) = Ok c' -> c_empty c' = true.
Proof.
  intros He. assert (c_empty (prune_extracted (expand_columns c)) = true) as H1 by (unfold prune_extracted, expand_columns; by destruct c as [[]]).
  unfold process_required. rewrite H1. by intros [= <-].
Qed.

Section top.
  Context (sq : sqlite) (k : known) (st : store) (q : query) (vals : gmap var typed_value).
  Context (G : store_good (sc_attribute_map (kn_schema k)) st) (CO : cache_ok k st) (SQ : sqlite_ok sq).
  Context (SF : safe q vals) (WL : well_limited q vals).
  Context (CL : Forall (safe_clause k (loose q) (q_in q) vals) (q_where q) \/ (Forall (wide k (loose q) (q_in q) vals) (q_where q) /\ uncached k /\ open_find q)).
  Notation sat := (sat sq st).
  Notation O := (fun E : env => E = []).
  Notation inv := (inv sq k st None (loose q) (q_in q) vals).
  Notation solution := (solution st (kn_schema k) q vals).

  Lemma loose_in x : loose q x -> x ∉ q_in q.
  Proof using Type. by intros [[H _] _]. Qed.

  (** The clauses before any of those of the query *)
  Lemma start_ok : let c0 := match q_limit q with LVar v => constrain_var v VTLong (cc_with_inputs (q_in q) vals) | _ => cc_with_inputs (q_in q) vals end in
    (forall v, q_limit q = LVar v -> v ∈ q_in q) ->
    c0 = cc_with_inputs (q_in q) vals.
  Proof using WL.
    intros c0 Hin. unfold c0. unfold well_limited in WL. destruct (q_limit q) as [|n|v] eqn:El; try done. destruct WL as (n & Hn & _). specialize (Hin v eq_refl).
    unfold constrain_var. assert (c_known (cc_with_inputs (q_in q) vals) !! v = Some (vts_of_one VTLong)) as Hk.
    { cbn. rewrite lookup_fmap. assert (restrict (vars_of (q_in q)) vals !! v = Some (TVLong n)) as ->; [|done]. apply restrict_lookup. split; [done|]. by apply elem_of_list_to_set. }
    rewrite Hk. replace (vts_contains (vts_of_one VTLong) VTLong) with true by done. unfold cc_with_inputs. cbn. f_equal. f_equal. cbn in Hk. by apply insert_id.
  Qed.
  Lemma start_inv : inv O (pvars (q_where q) ++ q_in q) (c_from (cc_with_inputs (q_in q) vals)) (cc_with_inputs (q_in q) vals).
  Proof using SF.
    assert (forall x v, restrict (vars_of (q_in q)) vals !! x = Some v -> x ∈ q_in q /\ vals !! x = Some v) as Hr.
    { intros x v [H1 H2]%restrict_lookup. split; [by apply elem_of_list_to_set in H2|done]. }
    split; cbn; try done.
    - intros t al H. by apply elem_of_nil in H.
    - intros x. unfold vars_of. by rewrite elem_of_list_to_set.
    - intros x v H. apply Hr in H as [H1 H2]. destruct (sa_bound _ _ SF x H1) as (w & Hw & Hst). congruence.
    - intros x ts H. rewrite lookup_fmap in H. destruct (restrict _ _ !! x); [|done]. injection H as <-. by eexists.
    - intros _ x v H. rewrite lookup_fmap, H. done.
    - intros _ x HL Hx. pose proof (loose_in x HL) as Hn. rewrite lookup_fmap. destruct (restrict (vars_of (q_in q)) vals !! x) as [v|] eqn:E; [|done]. by apply Hr in E as [E _].
    - intros _ x _ Hx. destruct (sa_bound _ _ SF x Hx) as (v & Hv & _). exists v. split; [done|]. apply restrict_lookup. split; [done|]. by apply elem_of_list_to_set.
    - intros _ x v H. by apply Hr in H as [H _].
  Qed.
  Lemma start_sat σ : Sat sq st (cc_with_inputs (q_in q) vals) [] σ <-> forall x v, x ∈ q_in q -> vals !! x = Some v -> σ x = v.
  Proof using Type.
    unfold Sat. cbn [cc_with_inputs c_from c_scope s_from product]. split.
    - intros (E & ->%elem_of_list_singleton & Hs) x v Hx Hv. apply (sat_vals _ _ _ _ _ Hs). cbn. apply restrict_lookup. split; [done|]. by apply elem_of_list_to_set.
    - intros H. exists []. split; [by left|]. assert (forall x v, restrict (vars_of (q_in q)) vals !! x = Some v -> σ x = v) as Hr.
      { intros x v [H1 H2]%restrict_lookup. apply H; [by apply elem_of_list_to_set in H2|done]. }
      split; cbn; try done. intros x ts. rewrite lookup_fmap. destruct (restrict _ _ !! x) as [v|] eqn:E; [|done]. intros [= <-]. rewrite (Hr x v E). by apply one_contains_iff.
  Qed.

  Record algebrized (a : algebraic) (c1 : cc) : Prop := {
    al_empty : c_empty (aq_cc a) = true -> forall σ, ~ solution σ;
    al_inv : c_empty (aq_cc a) = false -> inv O (q_in q) (c_from c1) c1 /\ c_empty c1 = false /\ finished sq st None O c1 (aq_cc a)
      /\ (weighty c1 \/ (forall t al, (t, al) ∈ c_from c1 -> t = TDatoms \/ t = TAll) \/ exists x, x ∈ find_vars (q_find q) /\ c_vals c1 !! x = None);
    al_sat : forall σ, solution σ <-> exists E, E ∈ select sq st [] (aq_cc a) /\ sat (aq_cc a) E σ;
    al_order : exists extra, simplify_order (aq_cc a) (q_order q) = Ok (aq_order a, extra) /\ aq_named a = sorted_vars (vars_of extra);
    al_limit : c_empty (aq_cc a) = false -> aq_limit a = (if unit_limited (q_find q) then LFixed 1 else match limit_of q vals with Some n => LFixed n | None => LNone end) }.

  Lemma algebrize_ok a : algebrize k q vals = Ok a -> exists c1, algebrized a c1.
  Proof using G CO SF WL CL.
    unfold algebrize. intros Ha. destruct (negb (bool_decide (NoDup (q_in q)))); [done|].
    destruct (negb match q_limit q with LVar v => bool_decide (v ∈ q_in q) | _ => true end) eqn:El; [done|].
    assert (forall v, q_limit q = LVar v -> v ∈ q_in q) as Hlv. { intros v Hv. rewrite Hv in El. apply negb_false_iff in El. by apply bool_decide_eq_true in El. }
    pose proof (start_ok Hlv) as H0. cbn zeta in H0. rewrite H0 in Ha. clear H0.
    destruct (apply_clauses k (q_where q) (cc_with_inputs (q_in q) vals)) as [c1| |] eqn:E1; cbn [rbind] in Ha; try done.
    destruct (process_required (prune_extracted (expand_columns c1))) as [c2| |] eqn:E2; cbn [rbind] in Ha; try done.
    destruct (simplify_order c2 (q_order q)) as [[order extra]| |] eqn:E3; cbn [rbind] in Ha; try done.
    destruct (simplify_limit c2 _) as [lim| |] eqn:E4; cbn [rbind] in Ha; try done. injection Ha as <-.
    assert (pinned (cc_with_inputs (q_in q) vals)) as P0 by done.
    assert (good sq k st None (loose q) (q_in q) vals O (q_in q) c1 /\ pinned c1
      /\ (forall E0 σ, E0 = [] -> Sat sq st c1 E0 σ <-> Sat sq st (cc_with_inputs (q_in q) vals) E0 σ /\ Forall (meets st (kn_schema k) σ) (q_where q))
      /\ (c_empty c1 = false -> weighty c1 \/ (forall t al, (t, al) ∈ c_from c1 -> t = TDatoms \/ t = TAll) \/ exists x, x ∈ find_vars (q_find q) /\ c_vals c1 !! x = None)) as (Hg & Hpin & Hsat & Htab).
    { destruct CL as [HC|(HC & HN & x & Hx & Hnx)].
      - destruct (apply_clauses_ok sq k st G CO (loose q) (q_in q) vals loose_in None (q_where q) O (q_in q) _ c1 HC (or_intror start_inv) (once_loose q _ (fun x H => H)) E1) as (Hg & Hstep & Hsat).
        split_and!; try done; [by apply (st_pinned _ _ Hstep)|]. intros _. destruct (st_tables _ _ Hstep) as [H|H]; [by left|right; left]. intros t al Hin. apply H in Hin as [Hin|Hin]; [by apply elem_of_nil in Hin|done].
      - destruct (wide_clauses sq k st G CO HN (loose q) (q_in q) vals loose_in (q_where q) O (q_in q) _ c1 HC (or_intror start_inv) (once_loose q _ (fun x H => H)) E1) as (Hg & Hstep & Hsat).
        split_and!; try done; [by apply (ws_pinned _ _ Hstep)|]. intros Hne. right. right. exists x. split; [done|].
        destruct (c_vals c1 !! x) as [v|] eqn:Ev; [|done]. exfalso. apply Hnx. by apply (i_own (good_inv _ _ _ _ _ _ _ _ _ _ Hg Hne) HN x v). }
    assert (forall σ, solution σ <-> Sat sq st c1 [] σ) as Hsol. { intros σ. rewrite (Hsat [] σ eq_refl), start_sat. done. }
    exists c1. destruct (c_empty c1) eqn:Ee1.
    { pose proof (process_required_empty _ _ Ee1 E2) as Ee2. assert (forall σ, ~ solution σ) as Hno. { intros σ Hs. apply Hsol, Sat_ne in Hs. congruence. }
      split; cbn [aq_cc aq_order aq_named aq_limit]; try congruence; [done| |by exists extra].
      intros σ. split; [intros Hs; by destruct (Hno σ)|]. intros (E & _ & Hs). destruct Hs. congruence. }
    pose proof (good_inv _ _ _ _ _ _ _ _ _ _ Hg Ee1) as I1.
    pose proof (finish_ok sq st k None (loose q) (q_in q) vals O (q_in q) c1 c2 (raw_rows k st G) (view_rows k st G) I1 Ee1 Hpin E2) as Hfin.
    assert (forall σ, solution σ <-> exists E, E ∈ select sq st [] c2 /\ sat c2 E σ) as Hsol2.
    { intros σ. rewrite Hsol. unfold Sat. pose proof Hfin as [F1 F2 F3 F4 F5 F6 FC F7 F8 F9 F10 F11 F12]. split; intros (E & HE & Hs).
      - exists E. apply F11 in Hs. split; [|done]. apply select_elem; [by right|]. unfold comp in *. rewrite FC, F1. split; [done|]. apply Hs.
      - exists E. apply select_elem in HE as [HE _]; [|by right]. unfold comp in *. rewrite FC, F1 in HE. split; [done|]. by apply F11. }
    split; cbn [aq_cc aq_order aq_named aq_limit]; try done.
    - intros He σ Hs. apply Hsol2 in Hs as (E & _ & Hs). destruct Hs. congruence.
    - intros _. split_and!; try done. by apply Htab.
    - by exists extra.
    - intros Hne. destruct (unit_limited (q_find q)); [by injection E4 as <-|]. unfold limit_of, well_limited in *. destruct (q_limit q) as [|n|v]; [by injection E4 as <-|by injection E4 as <-|].
      cbn [simplify_limit] in E4. destruct (i_given I1 Ee1 v (Hlv v eq_refl) (Hlv v eq_refl)) as (w & Hw & Hw'). rewrite (f_vals _ _ _ _ _ _ Hfin), Hw' in E4. rewrite Hw.
      destruct WL as (n & Hn & Hpos). rewrite Hn in Hw. injection Hw as <-. destruct (decide (n <= 0)); [done|]. by injection E4 as <-.
  Qed.

  (* -------------------------------------------------------------- running *)
  Context (TW : twinless st \/ closed_find q) (WO : well_ordered q) (NE : exists d, d ∈ all_datoms st).

  Lemma rows_exist l F : (forall t al, (t, al) ∈ F -> t = TDatoms \/ t = TAll) -> forall E0, exists E, E ∈ product st l F E0.
  Proof using NE G.
    induction F as [|[t al] F IH]; intros HF E0; [exists E0; by left|]. destruct NE as [d Hd].
    assert (exists r, r ∈ table_rows st l t) as [r Hr].
    { destruct (HF t al ltac:(by left)) as [-> | ->]; cbn [table_rows].
      - destruct (sg_rows _ _ G d Hd) as [[_ H]|(_ & _ & _ & d' & H & _)]; eexists; apply elem_of_list_fmap; by eexists.
      - exists (RDatom d). apply elem_of_list_fmap. by exists d. }
    destruct (IH ltac:(intros t' al' H; apply (HF t' al'); by right) ((al, r) :: E0)) as [E HE]. exists E. cbn [product]. apply elem_of_list_In, in_flat_map. exists r. split; by apply elem_of_list_In.
  Qed.

  Lemma project_named_nil c outer named : (forall v, v ∈ named -> v ∈ outer) -> project_named c outer named = Ok [].
  Proof using Type.
    induction named as [|v named IH]; intros H; [done|]. cbn [project_named]. rewrite bool_decide_eq_true_2 by (apply H; by left). cbn [orb]. apply IH. intros w Hw. apply H. by right.
  Qed.
  Lemma order_extra c l : (forall x, x ∈ map snd l -> x ∈ find_vars (q_find q) \/ is_Some (c_vals c !! x)) -> forall order extra, simplify_order c l = Ok (order, extra) -> forall x, x ∈ extra -> x ∈ find_vars (q_find q).
  Proof using Type.
    induction l as [|[d v] l IH]; intros Hl order extra H; cbn [simplify_order] in H; [injection H as <- <-; by intros x ?%elem_of_nil|].
    assert (forall x, x ∈ map snd l -> x ∈ find_vars (q_find q) \/ is_Some (c_vals c !! x)) as Hl' by (intros x Hx; apply Hl; by right).
    destruct (is_some (c_vals c !! v)) eqn:Ev; [by eapply IH|]. destruct (negb _); [done|]. destruct (simplify_order c l) as [[os vs]| |] eqn:El; cbn [rbind] in H; try done. injection H as <- <-.
    intros x [->|Hx]%elem_of_cons; [|by eapply IH]. destruct (Hl v ltac:(by left)) as [?|[y Hy]]; [done|]. rewrite Hy in Ev. done.
  Qed.
  Lemma key_nodup {A B C} (key : A -> B) (g : A -> C) l : (forall x y, x ∈ l -> y ∈ l -> g x = g y -> key x = key y) -> NoDup (map key l) -> NoDup (map g l).
  Proof using Type.
    induction l as [|x l IH]; intros H Hn; [constructor|]. cbn [map] in *. apply NoDup_cons in Hn as [Hn1 Hn2]. constructor.
    - intros Hin. apply elem_of_list_fmap in Hin as (y & Hy & Hin). apply Hn1, elem_of_list_fmap. exists y. split; [|done]. apply H; [by left|by right|done].
    - apply IH; [|done]. intros y z Hy Hz. apply H; by right.
  Qed.
  Lemma cols_named vs : forall c seen i cols ixs, project_vars c seen i vs = Ok (cols, ixs) -> forall y, y ∈ cols -> exists v, v ∈ vs /\ (y.1 = CVar v \/ y.1 = CVarTag v).
  Proof using Type.
    induction vs as [|v vs IH]; intros c seen i cols ixs H y Hy; cbn [project_vars] in H; [injection H as <- <-; by apply elem_of_nil in Hy|]. destruct (decide _); [done|].
    destruct (project_var c v) as [[x ts]| |]; cbn [rbind] in H; try done. destruct (vts_unique_tag ts).
    - destruct (project_vars c (v :: seen) (i + 1) vs) as [[co ix]| |] eqn:E; cbn [rbind] in H; try done. injection H as <- <-.
      apply elem_of_cons in Hy as [->|Hy]; [exists v; split; [by left|by left]|]. destruct (IH _ _ _ _ _ E y Hy) as (w & Hw & ?). exists w. split; [by right|done].
    - destruct (tag_column c v) as [tc| |] eqn:Et; cbn [rbind] in H; try done. destruct (project_vars c (v :: seen) (i + 2) vs) as [[co ix]| |] eqn:E; cbn [rbind] in H; try done. injection H as <- <-.
      apply elem_of_cons in Hy as [->|Hy]; [exists v; split; [by left|by left]|]. apply elem_of_cons in Hy as [->|Hy].
      { exists v. split; [by left|]. right. unfold tag_column in Et. destruct (c_extracted c !! v); [|done]. by injection Et as <-. }
      destruct (IH _ _ _ _ _ E y Hy) as (w & Hw & ?). exists w. split; [by right|done].
  Qed.

  Lemma bound_var c1 E σ x : inv O (q_in q) (c_from c1) c1 -> c_empty c1 = false -> (is_Some (c_vals c1 !! x) \/ exists p ps, c_cols c1 !! x = Some (p :: ps)) -> sat c1 E σ -> sat c1 E (assigned c1 E) -> σ x = assigned c1 E x.
  Proof using Type.
    intros I Hne Hx Hs Ha. destruct (c_vals c1 !! x) as [v|] eqn:Ev; [by rewrite (sat_vals _ _ _ _ _ Hs x v Ev), (sat_vals _ _ _ _ _ Ha x v Ev)|].
    destruct Hx as [[? ?]|(p & ps & Hp)]; [done|]. apply (encodes_inj E p); [apply (sat_cols _ _ _ _ _ Hs x _ p Hp); by left|apply (sat_cols _ _ _ _ _ Ha x _ p Hp); by left|].
    destruct (i_cols I Hne x _ Hp) as [_ [(t & Ht & _)|(al & _ & _ & Hc & _)]]; [|rewrite Hc in Hp; by injection Hp as <- <-].
    pose proof (sat_known _ _ _ _ _ Hs x _ Ht) as K1. pose proof (sat_known _ _ _ _ _ Ha x _ Ht) as K2. apply one_contains_iff in K1, K2. destruct (p.2); try exact Logic.I; congruence.
  Qed.

  (** Numbers of two types in one column *)
  Lemma no_twins c1 c x : inv O (q_in q) (c_from c1) c1 -> c_empty c1 = false -> finished sq st None O c1 c -> c_empty c = false -> x ∈ find_vars (q_find q) ->
    (is_Some (c_vals c1 !! x) \/ exists p ps, c_cols c1 !! x = Some (p :: ps)) ->
    forall a b E E', E ∈ select sq st [] c -> E' ∈ select sq st [] c -> assigned c1 E x = TVLong a -> assigned c1 E' x = TVDouble (DKey b) -> long_value a <> double_value b.
  Proof using G TW.
    intros I Hne Hfin Hnec Hx Hb a b E E' HE HE' Ha Hb'. pose proof Hfin as [F1 F2 F3 F4 F5 F6 FC F7 F8 F9 F10 F11 F12].
    assert (forall E, E ∈ select sq st [] c -> okenv sq st O (c_from c1) c1 E /\ sat c1 E (assigned c1 E)) as Hok.
    { intros E1 H1. pose proof (F12 Hnec [] E1 eq_refl H1) as Hs. apply F11 in Hs. split; [|done]. apply select_elem in H1 as [H1 _]; [|by right]. unfold comp in *. rewrite FC, F1 in H1. exists []. split_and!; try done. apply Hs. }
    destruct (Hok E HE) as [O1 S1]. destruct (Hok E' HE') as [O2 S2].
    destruct (c_vals c1 !! x) as [v|] eqn:Ev. { rewrite (sat_vals _ _ _ _ _ S1 x v Ev) in Ha. rewrite (sat_vals _ _ _ _ _ S2 x v Ev) in Hb'. congruence. }
    destruct Hb as [[? ?]|(p & ps & Hp)]; [done|]. destruct (i_cols I Hne x _ Hp) as [_ [(t & Ht & _)|(al & Hlon)]].
    - pose proof (sat_known _ _ _ _ _ S1 x _ Ht) as K1. pose proof (sat_known _ _ _ _ _ S2 x _ Ht) as K2. apply one_contains_iff in K1, K2. rewrite Ha in K1. rewrite Hb' in K2. cbn in K1, K2. congruence.
    - pose proof Hlon as (_ & _ & Hc & He & Hd). destruct (i_extracted I Hne x _ He) as ([_ (p0 & Hp0 & Hop & Hv0)] & _ & _).
      destruct TW as [Htw|Hcl]; [|exfalso; apply (Hcl p0 x Hp0 Hop Hv0); [|done]; by destruct (i_extracted I Hne x _ He) as ([[? _] _] & _)].
      assert (forall E w, okenv sq st O (c_from c1) c1 E -> sat c1 E (assigned c1 E) -> assigned c1 E x = w -> vt_tag (tv_type w) <> 10 -> exists e a tx, datom_at st e a w tx) as Hdat.
      { intros E1 w Ho1 Hs1 Hw Hn. destruct (Hd E1 Ho1) as (d & Hrow & Hdd). pose proof (sat_cols _ _ _ _ _ Hs1 x _ (al, CV) Hc ltac:(by left)) as Henc. cbn in Henc. destruct Henc as (C1 & C2 & C3). rewrite Hw in *.
        destruct Hrow as [_ _ R3 _ R5]. rewrite R3 in C1. rewrite R5 in C2. injection C1 as C1. injection C2 as C2.
        assert (d ∈ all_datoms st) as Hin. { destruct Hdd as [?|[Hr _]]; [done|]. destruct (raw_rows k st G d Hr) as [?|Ht]; [done|congruence]. }
        exists (d_e d), (d_a d), (d_tx d), d. split_and!; try done. rewrite C1, C2. by apply decode_sql. }
      destruct (Hdat E _ O1 S1 Ha ltac:(done)) as (e & aa & tx & D1). destruct (Hdat E' _ O2 S2 Hb' ltac:(done)) as (e' & a' & tx' & D2). by apply (Htw e aa a tx e' a' b tx').
  Qed.

  Lemma take_head {A} n (l : list A) : (0 < n)%nat -> head (take n l) = head l.
  Proof using Type. destruct n, l; cbn; lia || done. Qed.
  Lemma head_map {A B} (f : A -> B) l : head (map f l) = f <$> head l.
  Proof using Type. by destruct l. Qed.

  Theorem q_once_ok r : q_once sq k st q vals = Ok r ->
    exists l, listing st (kn_schema k) q vals l /\ shaped (q_find q) (map (fun σ => map σ (find_vars (q_find q))) (up_to (limit_of q vals) l)) r.
  Proof using All.
    unfold q_once. destruct (algebrize k q vals) as [a| |] eqn:Ea; cbn [rbind]; try done. intros Hr. destruct (bool_decide _); [|done].
    destruct (algebrize_ok a Ea) as (c1 & [A1 A2 A3 A4 A5]). unfold run_algebrized in Hr. set (c := aq_cc a) in *. set (f := q_find q) in *. set (vs := find_vars f) in *.
    assert (match limit_of q vals with Some n => (0 < n)%nat | None => True end) as Hpos.
    { unfold limit_of, well_limited in *. destruct (q_limit q) as [|n|v]; try done. destruct WL as (n & -> & Hn). lia. }
    destruct (c_empty c) eqn:Ee.
    { injection Hr as <-. exists []. split; [split; try by (intros; constructor)|]; [by intros σ ?%elem_of_nil|intros σ Hs; by destruct (A1 eq_refl σ)|].
      replace (up_to (limit_of q vals) []) with (@nil (string -> typed_value)) by (unfold up_to; destruct (limit_of q vals) as [[]|]; done). unfold empty_results. fold f. by destruct f. }
    destruct (A2 eq_refl) as (I1 & Ee1 & Hfin & Htab). specialize (A5 eq_refl). pose proof Hfin as [F1 F2 F3 F4 F5 F6 FC F7 F8 F9 F10 F11 F12].
    assert (forall E, E ∈ select sq st [] c -> sat c E (assigned c1 E)) as Hval by (intros E HE; by apply (F12 Ee [])).
    assert (forall E σ x, E ∈ select sq st [] c -> sat c E σ -> (is_Some (c_vals c1 !! x) \/ exists p ps, c_cols c1 !! x = Some (p :: ps)) -> σ x = assigned c1 E x) as Hbound.
    { intros E σ x HE Hs Hx. apply bound_var; [done|done|done|by apply F11|]. apply F11. by apply Hval. }
    destruct (is_nil (c_wheres c) && forallb (fun v => is_some (c_vals c !! v)) vs)%bool eqn:Econst.
    { apply andb_true_iff in Econst as [Hw Hvs]. rewrite forallb_forall in Hvs.
      assert (forall x, x ∈ vs -> is_Some (c_vals c1 !! x)) as Hsome. { intros x Hx. specialize (Hvs x ltac:(by apply elem_of_list_In)). rewrite F5 in Hvs. destruct (c_vals c1 !! x); [by eexists|done]. }
      assert (c_wheres c = []) as Hw0 by (by destruct (c_wheres c)).
      assert (c_wheres c1 = []) as Hw1. { destruct F8 as [ks Hks]. rewrite Hw0 in Hks. by destruct (c_wheres c1). }
      assert (exists E, E ∈ select sq st [] c) as [E HE].
      { destruct Htab as [[?|?]|[Htab|(x & Hx & Hno)]]; [congruence|congruence| |destruct (Hsome x Hx); congruence]. destruct (rows_exist (comp sq st c) _ Htab []) as [E HE]. exists E. apply select_elem; [by right|]. rewrite F1, Hw0. done. }
      assert (map (fun v => default (TVRef 0) (c_vals c !! v)) vs = map (assigned c1 E) vs) as Hrow.
      { apply map_ext_in. intros x Hx. apply elem_of_list_In in Hx. destruct (Hsome x Hx) as [v Hv]. unfold assigned. by rewrite F5, Hv. }
      exists [assigned c1 E]. split.
      - split.
        + intros σ ->%elem_of_list_singleton. apply A3. exists E. split; [done|]. by apply Hval.
        + intros σ Hs. exists (assigned c1 E). split; [by left|]. intros x Hx. apply A3 in Hs as (E' & HE' & Hs). destruct (Hsome x Hx) as [v Hv].
          rewrite (sat_vals _ _ _ _ _ Hs x v); [|by rewrite F5]. unfold assigned. by rewrite Hv.
        + apply NoDup_singleton.
        + constructor; constructor.
      - rewrite Hrow in Hr. replace (up_to (limit_of q vals) [assigned c1 E]) with [assigned c1 E] by (unfold up_to; destruct (limit_of q vals) as [[]|]; [lia|cbn; by rewrite take_nil|done]).
        fold f. fold vs. cbn [map]. injection Hr as <-. unfold vs. destruct f; done. }
    destruct (project_vars c [] 0 vs) as [[cols ixs]| |] eqn:Ep; cbn [rbind] in Hr; try done.
    destruct A4 as (extra & Hord & Hnamed).
    assert (forall x, x ∈ aq_named a -> x ∈ vs) as Hnam.
    { intros x. rewrite Hnamed. rewrite sorted_vars_elem. unfold vars_of. rewrite elem_of_list_to_set. intros Hx. eapply (order_extra c (q_order q)); [|exact Hord|done].
      clear x Hx. intros x Hx. destruct (WO x Hx) as [?|Hin]; [by left|right]. rewrite F5. destruct (i_given I1 Ee1 x Hin Hin) as (v & _ & ->). by eexists. }
    rewrite (project_named_nil c vs _ Hnam) in Hr. cbn [rbind] in Hr. rewrite app_nil_r in Hr. destruct (check_cc [] c); cbn [rbind] in Hr; try done.
    destruct (negb _); [done|]. destruct (order_indices cols (aq_order a)) as [ois|] eqn:Eo; [|done].
    assert (forall x v, c_vals c !! x = Some v -> storable v) as Hstor. { intros x v. rewrite F5. apply (i_vals I1). }
    destruct (project_vars_ok sq st c (assigned c1) Hval Hstor vs [] 0 cols ixs Ep) as (Hproj & Hshown & _ & _).
    assert (forall E, E ∈ select sq st [] c -> Forall (col_good (assigned c1) E) cols) as Hcols by (intros E HE; apply (Hproj E HE)).
    assert (forall E, E ∈ select sq st [] c -> rmapM (typed_lookup (row_at cols E)) ixs = Ok (map (assigned c1 E) vs)) as Hdec.
    { intros E HE. destruct (Hproj E HE) as [_ H]. specialize (H [] [] eq_refl). rewrite app_nil_r in H. exact H. }
    set (distinct := (negb (unit_limited f) && negb (is_fixed_one (aq_limit a)))%bool) in *.
    destruct (rows_listed sq st c SQ cols distinct ois) as (Es & Hrows & HEs & Hsorted & Hall & Hnd). rewrite Hrows in Hr.
    set (Ds := if distinct then Es else dedup (fun E E' => row_same (row_at cols E) (row_at cols E')) Es).
    assert (forall x y, row_same (row_at cols x) (row_at cols y) = true <-> key_at cols x = key_at cols y) as HK by (intros; apply row_same_keys).
    assert (forall E, E ∈ Ds -> E ∈ Es) as HDE. { unfold Ds. destruct distinct; [done|]. intros E. apply dedup_elem. }
    rewrite Forall_forall in HEs.
    assert (NoDup (map (key_at cols) Ds)) as HnD. { unfold Ds. destruct distinct; [by apply Hnd|]. by apply (dedup_nodup _ (key_at cols)). }
    assert (forall E, E ∈ select sq st [] c -> exists E', E' ∈ Ds /\ key_at cols E' = key_at cols E) as HaD.
    { intros E HE. destruct (Hall E HE) as (E1 & H1 & K1). unfold Ds. destruct distinct; [by exists E1|]. destruct (dedup_all _ (key_at cols) HK E1 Es H1) as (E2 & H2 & K2). exists E2. split; [done|]. apply HK in K2. congruence. }
    assert (StronglySorted (fun E E' => row_cmp ois (row_at cols E) (row_at cols E') <> Gt) Ds) as HsD. { unfold Ds. destruct distinct; [done|]. by apply dedup_sorted. }
    assert (forall x, x ∈ vs -> is_Some (c_vals c1 !! x) \/ exists p ps, c_cols c1 !! x = Some (p :: ps)) as Hvsb.
    { clear - Ep F3 F5. intros x Hx. assert (forall vs seen i cols ixs, project_vars c seen i vs = Ok (cols, ixs) -> x ∈ vs -> exists y, project_var c x = Ok y) as H.
      { clear. induction vs as [|v vs IH]; intros seen i cols ixs H Hx; [by apply elem_of_nil in Hx|]. cbn [project_vars] in H. destruct (decide _); [done|]. destruct (project_var c v) as [[y ts]| |] eqn:Ev; cbn [rbind] in H; try done.
        apply elem_of_cons in Hx as [->|Hx]; [by eexists|]. destruct (vts_unique_tag ts).
        - destruct (project_vars c (v :: seen) (i + 1) vs) as [[co ix]| |] eqn:E; cbn [rbind] in H; try done. by eapply IH.
        - destruct (tag_column c v); cbn [rbind] in H; try done. destruct (project_vars c (v :: seen) (i + 2) vs) as [[co ix]| |] eqn:E; cbn [rbind] in H; try done. by eapply IH. }
      destruct (H _ _ _ _ _ Ep Hx) as [y Hy]. unfold project_var in Hy. rewrite F3, F5 in Hy. destruct (c_vals c1 !! x); [left; by eexists|right]. destruct (c_cols c1 !! x) as [[|p ps]|]; try done. by exists p, ps. }
    exists (map (assigned c1) Ds). split.
    - split.
      + intros σ Hσ. apply elem_of_list_fmap in Hσ as (E & -> & HE). apply A3. exists E. apply HDE, HEs in HE. split; [done|]. by apply Hval.
      + intros σ Hs. apply A3 in Hs as (E & HE & Hs). destruct (HaD E HE) as (E' & HE' & Hk). exists (assigned c1 E'). split; [apply elem_of_list_fmap; by exists E'|].
        intros x Hx. fold f in Hx. fold vs in Hx. rewrite (Hbound E σ x HE Hs (Hvsb x Hx)).
        apply (key_values sq st c (assigned c1) cols Hcols vs x E' E Hx Hshown); [by apply HEs, HDE|done|done|].
        apply (no_twins c1 c x I1 Ee1 Hfin Ee Hx (Hvsb x Hx)).
      + rewrite map_map. apply (key_nodup (key_at cols)); [|done]. intros E E' HE HE' Heq. apply HDE, HEs in HE, HE'. unfold key_at, row_at. rewrite !map_map. apply map_ext_in. intros y Hy. apply elem_of_list_In in Hy. f_equal.
        destruct (cols_named _ _ _ _ _ _ Ep y Hy) as (v & Hv & Hn). pose proof (Hcols E HE) as G1. pose proof (Hcols E' HE') as G2. rewrite Forall_forall in G1, G2. specialize (G1 y Hy). specialize (G2 y Hy).
        assert (assigned c1 E v = assigned c1 E' v) as Hvv. { fold f in Heq. fold vs in Heq. clear - Hv Heq. induction vs as [|w ws IH]; [by apply elem_of_nil in Hv|]. cbn [map] in Heq. injection Heq as H1 H2. apply elem_of_cons in Hv as [->|Hv]; [done|auto]. }
        unfold col_good in G1, G2. destruct Hn as [Hn|Hn]; rewrite Hn in G1, G2.
        * destruct G1 as [-> _], G2 as [-> _]. by rewrite Hvv.
        * rewrite G1, G2, Hvv. done.
      + assert (StronglySorted (fun E E' => no_later (q_order q) (assigned c1 E) (assigned c1 E')) Ds) as HsD'.
        { eapply sorted_impl; [|exact HsD]. intros E E' HE HE' H. unfold no_later. apply HDE, HEs in HE, HE'. by rewrite <- (order_ok sq st c (assigned c1) Hval cols Hcols (q_order q) _ _ _ Hord Eo E E' HE HE'). }
        clear - HsD'. induction HsD' as [|E l Hl IH Hx]; cbn [map]; constructor; [done|]. rewrite Forall_forall in Hx. apply Forall_forall. intros σ Hσ. apply elem_of_list_fmap in Hσ as (E' & -> & HE'). auto.
    - assert (head Ds = head Es) as Hhead. { unfold Ds. destruct distinct; [done|]. apply dedup_head. }
      assert (forall n, distinct = false -> n = 1%nat -> map (row_at cols) (take n Ds) = map (row_at cols) (take n Es)) as Htake1.
      { intros n Hd ->. clear - Hhead. destruct Ds, Es; cbn in *; try done. by injection Hhead as ->. }
      assert (unit_limited f = false -> match aq_limit a with LFixed n => take n (map (row_at cols) Es) | _ => map (row_at cols) Es end = map (row_at cols) (up_to (limit_of q vals) Ds)) as Hrow.
      { intros Hu. rewrite Hu in A5. assert (distinct = negb (is_fixed_one (aq_limit a))) as Hd by (unfold distinct; by rewrite Hu). rewrite A5 in Hd |- *.
        assert (distinct = true -> Ds = Es) as HDs by (unfold Ds; by intros ->). clearbody Ds distinct. destruct (limit_of q vals) as [n|] eqn:En; cbn [up_to].
        - change (map (row_at cols) (take n Ds)) with (row_at cols <$> take n Ds). change (map (row_at cols) Es) with (row_at cols <$> Es). rewrite <- fmap_take.
          destruct (decide (n = 1%nat)) as [->|Hn]; [symmetry; by apply Htake1|]. rewrite HDs; [done|]. rewrite Hd. by destruct n as [|[|n]].
        - by rewrite HDs by done. }
      set (Rs := up_to (limit_of q vals) Ds) in *. assert (up_to (limit_of q vals) (map (assigned c1) Ds) = map (assigned c1) Rs) as HRs.
      { unfold Rs, up_to. destruct (limit_of q vals) as [n|]; [|done]. change (take n (assigned c1 <$> Ds) = assigned c1 <$> take n Ds). by rewrite fmap_take. }
      assert (forall E, E ∈ Rs -> E ∈ select sq st [] c) as HRin.
      { intros E HE. apply HEs, HDE. unfold Rs, up_to in HE. destruct (limit_of q vals); [|done]. apply elem_of_take in HE as (i & Hi & _). by eapply elem_of_list_lookup_2. }
      assert (head Rs = head Es) as HhR. { rewrite <- Hhead. unfold Rs, up_to. destruct (limit_of q vals) as [n|]; [|done]. by apply take_head. }
      assert (unit_limited f = true -> head (match aq_limit a with LFixed n => take n (map (row_at cols) Es) | _ => map (row_at cols) Es end) = row_at cols <$> head Rs) as Hrow1.
      { intros Hu. rewrite Hu in A5. rewrite A5, HhR. rewrite take_head by lia. apply head_map. }
      rewrite HRs, map_map. fold f. fold vs. clearbody Rs. destruct f as [fv|fv|fv|fv] eqn:Ef; cbn [unit_limited] in *.
      + specialize (Hrow eq_refl). rewrite Hrow in Hr. rewrite (rmapM_map _ (row_at cols) (fun E => map (assigned c1 E) vs)) in Hr; [|intros E HE; by apply Hdec, HRin]. cbn [rmap] in Hr. by injection Hr as <-.
      + specialize (Hrow eq_refl). rewrite Hrow in Hr. unfold vs in *. cbn [find_vars] in *.
        assert (exists i, ixs = [i]) as [i ->]. { apply project_vars_nodup in Ep. destruct ixs as [|i [|]]; try done. by exists i. }
        rewrite (rmapM_map _ (row_at cols) (fun E => assigned c1 E fv)) in Hr.
        * cbn [rmap] in Hr. injection Hr as <-. cbn [shaped]. rewrite map_map. done.
        * intros E HE. pose proof (Hdec E (HRin E HE)) as H. cbn [rmapM map] in H. destruct (typed_lookup _ _) as [y| |]; cbn [rbind] in H; try done. by injection H as ->.
      + specialize (Hrow1 eq_refl). cbn [shaped]. rewrite head_map. destruct (match aq_limit a with LFixed n => take n (map (row_at cols) Es) | _ => map (row_at cols) Es end) as [|r0 rest].
        * injection Hr as <-. destruct (head Rs); [done|done].
        * destruct Rs as [|E Rs]; [done|]. cbn in Hrow1. injection Hrow1 as ->. rewrite (Hdec E) in Hr by (apply HRin; by left). cbn in Hr. injection Hr as <-. done.
      + specialize (Hrow1 eq_refl). cbn [shaped]. rewrite head_map. unfold vs in *. cbn [find_vars] in *.
        assert (exists i, ixs = [i]) as [i ->]. { apply project_vars_nodup in Ep. destruct ixs as [|i [|]]; try done. by exists i. }
        destruct (match aq_limit a with LFixed n => take n (map (row_at cols) Es) | _ => map (row_at cols) Es end) as [|r0 rest].
        * injection Hr as <-. destruct (head Rs); [done|done].
        * destruct Rs as [|E Rs]; [done|]. cbn in Hrow1. injection Hrow1 as ->. pose proof (Hdec E ltac:(apply HRin; by left)) as H. cbn [rmapM map] in H.
          destruct (typed_lookup _ _) as [y| |]; cbn [rbind] in H; try done. injection H as ->. cbn in Hr. injection Hr as <-. done.
  Qed.
End top.

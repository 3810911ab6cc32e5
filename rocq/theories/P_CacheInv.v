(** The invariants of connections and sessions with caches. *)
From Verif Require Import M_Cache Spec_Value Spec_Tx Spec_Conn Spec_Transact Spec_Cache.
From Verif Require Import P_Value P_Base P_Store P_Fill P_Step P_Meta P_Inv P_Conn P_Tx P_TxProps P_History P_TxThms P_Events P_Observer P_Cache.

(* ---------------------------------------------------------------- accumulating *)

Lemma accumulate_evs_Ok fb s b c x c' : accumulate_evs fb s b c x = Ok c' ->
  ca_rev c' = ca_rev c /\ ca_fwd c' = ca_fwd c /\ is_Some (sc_attribute_map s !! x.1).
Proof.
  destruct x as [a evs]. unfold accumulate_evs. destruct (sc_attribute_map s !! a) as [at_|] eqn:Ea; [|done].
  destruct (bool_decide (a ∈ ca_fwd c)), (bool_decide (a ∈ ca_rev c)); cbn [andb negb]; try done; intros [= <-];
    destruct (at_multival at_), (at_unique at_); cbn [ca_rev ca_fwd fst]; rewrite Ea; split_and!; done.
Qed.
Lemma l_cached_eq L c c' : ca_rev c' = ca_rev c -> ca_fwd c' = ca_fwd c -> l_cached L c' = l_cached L c.
Proof. unfold l_cached. by intros -> ->. Qed.

Lemma fold_cov L (H : lane_ok L) b l : forall m, l_cov L m (fold_left (l_op L b) l m).
Proof.
  induction l as [|x l IH]; intros m; cbn [fold_left]; [apply (lo_cov_refl _ H)|].
  eapply (lo_cov_trans _ H); [apply (lo_cov_op _ H b m x)|]. apply IH.
Qed.

Lemma accumulate_runs L (H : lane_ok L) fb s b rs : is_replacing b = false -> forall c c', rfold (accumulate_evs fb s b) c rs = Ok c' ->
  ca_rev c' = ca_rev c /\ ca_fwd c' = ca_fwd c
  /\ (forall a, a ∉ l_cached L c -> l_get L c' !! a = l_get L c !! a)
  /\ (forall a at_, sc_attribute_map s !! a = Some at_ -> l_kind L at_ = true -> a ∈ l_cached L c ->
       let F := l_fallback L b fb a in
       default F (l_get L c' !! a) = fold_left (l_op L b) (evs_of a rs) (default F (l_get L c !! a)))
  /\ (forall a, l_cov L (default (l_fallback L b fb a) (l_get L c !! a)) (default (l_fallback L b fb a) (l_get L c' !! a))).
Proof.
  intros Hb. induction rs as [|[a0 evs] rs IH]; intros c c' E; cbn [rfold] in E.
  - injection E as <-. split_and!; try done. intros a. apply (lo_cov_refl _ H).
  - apply rbind_Ok in E as (c1 & E1 & E). destruct (accumulate_evs_Ok _ _ _ _ _ _ E1) as (R1 & F1 & (at0 & Hat0)). cbn [fst] in Hat0.
    destruct (IH c1 c' E) as (R2 & F2 & N2 & A2 & V2). pose proof (l_cached_eq L _ _ R1 F1) as Ec.
    pose proof (lo_acc _ H _ _ _ _ _ _ _ _ E1 Hat0) as G1. rewrite Hb in G1.
    assert (forall a, a ∉ l_cached L c -> l_get L c1 !! a = l_get L c !! a) as N1.
    { intros a Ha. rewrite G1. destruct (l_kind L at0 && _) eqn:Ek; [|done]. apply andb_true_iff in Ek as [_ Ek%bool_decide_eq_true].
      rewrite lookup_insert_ne; [done|]. by intros ->. }
    split; [congruence|]. split; [congruence|]. split.
    { intros a Ha. rewrite N2 by (by rewrite Ec). by apply N1. }
    split.
    + intros a at_ Hat Hk Ha F. unfold F. rewrite (A2 a at_ Hat Hk) by (by rewrite Ec). unfold evs_of at 2. cbn [flat_map fst snd].
      rewrite fold_left_app. fold (evs_of a rs). f_equal. rewrite G1.
      destruct (decide (a0 = a)) as [->|Hne].
      * assert (at0 = at_) as -> by congruence. rewrite Hk, (bool_decide_eq_true_2 _ Ha). cbn [andb]. by rewrite lookup_insert.
      * cbn [fold_left]. destruct (l_kind L at0 && _); [|done]. by rewrite lookup_insert_ne.
    + intros a. eapply (lo_cov_trans _ H); [|apply V2]. rewrite G1.
      destruct (l_kind L at0 && _); [|apply (lo_cov_refl _ H)]. destruct (decide (a0 = a)) as [->|Hne].
      * rewrite lookup_insert. cbn [default from_option]. apply (fold_cov L H).
      * rewrite lookup_insert_ne by done. apply (lo_cov_refl _ H).
Qed.

(** The map that the session falls back to *)
Definition under (L : lane) (I : caches) (a : Z) : l_map L := default (l_emp L) (if decide (a ∈ l_cached L I) then l_get L I !! a else None).
Lemma update_lane L (H : lane_ok L) I s c rems adds c' : update_with_fallback (Some I) s c rems adds = Ok c' ->
  ca_rev c' = ca_rev c /\ ca_fwd c' = ca_fwd c
  /\ (forall a, a ∉ l_cached L c -> l_get L c' !! a = l_get L c !! a)
  /\ (forall a at_, sc_attribute_map s !! a = Some at_ -> l_kind L at_ = true -> a ∈ l_cached L c ->
       default (under L I a) (l_get L c' !! a) =
       fold_left (l_add L) (evs_of a (runs adds)) (fold_left (l_rem L) (evs_of a (runs rems)) (default (under L I a) (l_get L c !! a))))
  /\ (forall a, l_cov L (default (under L I a) (l_get L c !! a)) (default (under L I a) (l_get L c' !! a))).
Proof.
  intros E. unfold update_with_fallback in E. apply rbind_Ok in E as (c1 & E1 & E2).
  destruct (accumulate_runs L H _ _ BRemove _ eq_refl _ _ E1) as (R1 & F1 & N1 & A1 & V1).
  destruct (accumulate_runs L H _ _ (BAdd false) _ eq_refl _ _ E2) as (R2 & F2 & N2 & A2 & V2).
  pose proof (l_cached_eq L _ _ R1 F1) as Ec.
  split; [congruence|]. split; [congruence|]. split.
  { intros a Ha. rewrite N2 by (by rewrite Ec). by apply N1. }
  split.
  - intros a at_ Hat Hk Ha. specialize (A1 a at_ Hat Hk Ha). specialize (A2 a at_ Hat Hk ltac:(by rewrite Ec)).
    unfold l_fallback in A1, A2. cbn [is_replacing mbind option_bind l_op] in A1, A2. unfold under. rewrite A2. f_equal. exact A1.
  - intros a. eapply (lo_cov_trans _ H); [apply V1|apply V2].
Qed.

(* ---------------------------------------------------------------- repopulating *)

Lemma attribute_rows_facts m st s a at_ : datoms_ok m st -> m = sc_attribute_map s -> m !! a = Some at_ ->
  forall e p, (exists d, d ∈ attribute_rows st s a /\ d_e d = e /\ (d_v d, d_tag d) = p) <-> (e, a, p) ∈ facts st.
Proof.
  intros Hok -> Hat e p. unfold attribute_rows. rewrite Hat. setoid_rewrite merge_sort_Permutation.
  assert (forall d, d ∈ st_datoms st -> d_a d = a -> d_ft d = at_fulltext at_) as Hft.
  { intros d Hd Ha. destruct (Hok d Hd) as (at2 & Hat2 & _ & (_ & _ & F & _)). rewrite Ha in Hat2. congruence. }
  destruct (at_fulltext at_) eqn:Ef.
  - setoid_rewrite elem_of_list_filter. unfold facts. rewrite elem_of_list_fmap. split.
    + intros (d & [[Ha _] Hd] & <- & <-). exists d. by rewrite Ha.
    + intros (d & Ed & Hd). injection Ed as -> -> ->. exists d. split_and!; try done.
      unfold all_datoms in Hd. apply elem_of_list_In, in_flat_map in Hd as (d0 & Hd0 & Hd). apply elem_of_list_In in Hd0, Hd.
      destruct (d_ft d0) eqn:E0.
      * destruct (fts_text _ _); [|by apply elem_of_nil in Hd]. apply elem_of_list_singleton in Hd as ->. done.
      * apply elem_of_list_singleton in Hd as ->. by rewrite (Hft d0) in E0.
  - setoid_rewrite elem_of_list_filter. rewrite facts_elem_view. unfold view_fact. split.
    + intros (d & [Ha Hd] & <- & <-). exists d. split; [done|]. rewrite (Hft d Hd Ha). by rewrite Ha.
    + intros (d & Hd & Hv). exists d. destruct (d_ft d) eqn:E0.
      * destruct Hv as (t & _ & [= -> -> ->]). by rewrite (Hft d Hd) in E0.
      * injection Hv as -> -> ->. done.
Qed.

Lemma runs_one a l : Forall (fun r : aev => r.1.1 = a) l -> runs l = match l with [] => [] | _ => [(a, map (fun r : aev => (r.1.2, r.2)) l)] end.
Proof.
  induction l as [|[[a' e] v] l IH]; intros Hl; [done|]. apply Forall_cons in Hl as [Ha Hl]. cbn [fst] in Ha. subst a'. cbn [runs].
  rewrite (IH Hl). destruct l; [done|]. by rewrite decide_True.
Qed.

Lemma stored_iff st e a v : readable st a -> stored st e a v <-> storable v /\ holds st e a v.
Proof.
  intros Hr. split.
  - intros (p & Hp & E). destruct (Hr _ _ Hp) as (w & Hw & ->). pose proof (proj2 (codec_roundtrip_iff w) Hw) as Ew.
    assert (v = w) as -> by congruence. done.
  - intros [Hv Hh]. exists (to_sql_value_pair v). split; [done|]. by apply codec_roundtrip_iff.
Qed.

Lemma repopulate_Ok st s c a at_ c' : datoms_ok (sc_attribute_map s) st -> sc_attribute_map s !! a = Some at_ -> readable st a ->
  repopulate st s c a = Ok c' -> exists evs, (forall x, x ∈ evs <-> storable x.2 /\ holds st x.1 a x.2)
  /\ ca_rev c' = ca_rev c /\ ca_fwd c' = ca_fwd c
  /\ forall L, lane_ok L -> (forall a', a' <> a -> l_get L c' !! a' = l_get L c !! a')
     /\ (a ∉ l_cached L c -> l_get L c' !! a = l_get L c !! a)
     /\ (l_kind L at_ = true -> a ∈ l_cached L c ->
          (evs = [] /\ l_get L c' !! a = l_get L c !! a) \/ l_get L c' !! a = Some (fold_left (l_add L) evs (l_emp L))).
Proof.
  intros Hok Hat Hrd E. unfold repopulate in E. apply rbind_Ok in E as (rows & Er & E). apply rmapM_Ok in Er.
  exists (map (fun r : aev => (r.1.2, r.2)) rows).
  assert (Forall (fun r : aev => r.1.1 = a) rows) as Hall.
  { apply Forall_forall. intros r Hr. apply elem_of_list_lookup in Hr as (i & Hi). destruct (Forall2_lookup_r _ _ _ _ _ Er Hi) as (d & Hd & Ed).
    unfold row_to_aev in Ed. destruct (from_sql_value_pair _ _); try done. injection Ed as <-. cbn [fst].
    apply elem_of_list_lookup_2 in Hd. unfold attribute_rows in Hd. rewrite merge_sort_Permutation, Hat in Hd.
    destruct (at_fulltext at_); apply elem_of_list_filter in Hd; naive_solver. }
  split.
  { intros [e v]. cbn [fst snd]. rewrite <- (stored_iff st e a v Hrd). unfold stored.
    setoid_rewrite <- (attribute_rows_facts _ st s a at_ Hok eq_refl Hat). rewrite elem_of_list_fmap. split.
    - intros (r & Heq & Hr). apply elem_of_list_lookup in Hr as (i & Hi). destruct (Forall2_lookup_r _ _ _ _ _ Er Hi) as (d & Hd & Ed).
      exists (d_v d, d_tag d). split; [exists d; split; [by eapply elem_of_list_lookup_2|]|]; unfold row_to_aev in Ed;
        destruct (from_sql_value_pair (d_v d) (d_tag d)) eqn:Ef; try done; injection Ed as <-; cbn [fst snd] in Heq; injection Heq as -> ->; done.
    - intros (p & (d & Hd & He & <-) & Hv). cbn [fst snd] in Hv. apply elem_of_list_lookup in Hd as (i & Hi).
      destruct (Forall2_lookup_l _ _ _ _ _ Er Hi) as (r & Hr & Ed). exists r. split; [|by eapply elem_of_list_lookup_2].
      unfold row_to_aev in Ed. rewrite Hv in Ed. injection Ed as <-. cbn [fst snd]. by rewrite He. }
  unfold accumulate_into in E. rewrite (runs_one a rows Hall) in E. destruct rows as [|r rows].
  - injection E as <-. split; [done|]. split; [done|]. intros L HL. split; [done|]. split; [done|]. intros _ _. by left.
  - cbn [rfold] in E. apply rbind_Ok in E as (c1 & E1 & E). injection E as ->. destruct (accumulate_evs_Ok _ _ _ _ _ _ E1) as (R1 & F1 & _).
    split; [done|]. split; [done|]. intros L HL. pose proof (lo_acc _ HL _ _ _ _ _ _ _ _ E1 Hat) as G. cbn [is_replacing l_op] in G. split; [|split].
    + intros a' Hne. rewrite G. destruct (_ && _); [|done]. by rewrite lookup_insert_ne.
    + intros Hn. rewrite G, (bool_decide_eq_false_2 _ Hn), andb_false_r. done.
    + intros Hk Ha. right. rewrite G, Hk, (bool_decide_eq_true_2 _ Ha). cbn [andb]. by rewrite lookup_insert.
Qed.

(* ---------------------------------------------------------------- the invariants *)

Definition either (c : caches) (a : Z) : Prop := a ∈ ca_fwd c \/ a ∈ ca_rev c.
Definition common (st : store) (s : schema) (c : caches) : Prop := forall a, either c a -> is_Some (sc_attribute_map s !! a) /\ readable st a.
Record conn_lane (L : lane) (st : store) (s : schema) (c : caches) : Prop := {
  cl_none : forall a, a ∉ l_cached L c -> l_get L c !! a = None;
  cl_agrees : forall a at_, sc_attribute_map s !! a = Some at_ -> l_kind L at_ = true -> a ∈ l_cached L c ->
    agrees L st a (default (l_emp L) (l_get L c !! a)) }.

Definition base (L : lane) (o : overlaid) (a : Z) : l_map L := default (under L (ov_inner o) a) (l_get L (ov_overlay o) !! a).
Record ov_common (st : store) (s : schema) (o : overlaid) : Prop := {
  oc_f1 : forall a, a ∈ ca_fwd (ov_overlay o) -> a ∉ ov_unfwd o;
  oc_r1 : forall a, a ∈ ca_rev (ov_overlay o) -> a ∉ ov_unrev o;
  oc_f2 : forall a, a ∈ ca_fwd (ov_inner o) -> a ∉ ov_unfwd o -> a ∈ ca_fwd (ov_overlay o);
  oc_r2 : forall a, a ∈ ca_rev (ov_inner o) -> a ∉ ov_unrev o -> a ∈ ca_rev (ov_overlay o);
  oc_un : forall a, either (ov_inner o) a -> (a ∈ ov_unfwd o <-> a ∈ ov_unrev o);
  oc_f3 : forall a, either (ov_inner o) a -> a ∈ ca_fwd (ov_overlay o) -> a ∈ ca_fwd (ov_inner o);
  oc_r3 : forall a, either (ov_inner o) a -> a ∈ ca_rev (ov_overlay o) -> a ∈ ca_rev (ov_inner o);
  oc_common : common st s (ov_overlay o) }.
Record ov_lane (L : lane) (st : store) (s : schema) (o : overlaid) : Prop := {
  ol_inner : forall a, a ∉ l_cached L (ov_inner o) -> l_get L (ov_inner o) !! a = None;
  ol_none : forall a, a ∉ l_cached L (ov_overlay o) -> l_get L (ov_overlay o) !! a = None;
  ol_agrees : forall a at_, sc_attribute_map s !! a = Some at_ -> l_kind L at_ = true -> a ∈ l_cached L (ov_overlay o) -> agrees L st a (base L o a);
  ol_cov : forall a, l_cov L (under L (ov_inner o) a) (base L o a) }.

Lemma l_cached_either L c a : a ∈ l_cached L c -> either c a.
Proof. unfold l_cached, either. destruct (l_rev L); eauto. Qed.

Lemma begin_common st s c : common st s c -> ov_common st s (ov_from c).
Proof. intros H. by split; unfold ov_from; cbn [ov_inner ov_overlay ov_unfwd ov_unrev ca_fwd ca_rev]; try (intros; set_solver). Qed.
Lemma begin_lane L (H : lane_ok L) st s c : conn_lane L st s c -> ov_lane L st s (ov_from c).
Proof.
  intros [N A].
  assert (l_cached L (ov_overlay (ov_from c)) = l_cached L c) as Ec by (unfold l_cached; by destruct (l_rev L)).
  assert (forall a, base L (ov_from c) a = under L c a) as Eb.
  { intros a. unfold base. by rewrite (lo_from _ H), lookup_empty. }
  split.
  - exact N.
  - intros a _. by rewrite (lo_from _ H), lookup_empty.
  - intros a at_ Hat Hk Ha. rewrite Ec in Ha. rewrite Eb. unfold under. rewrite decide_True by done. by eapply A.
  - intros a. rewrite Eb. apply (lo_cov_refl _ H).
Qed.

Lemma under_no L I a : a ∉ l_cached L I -> under L I a = l_emp L.
Proof. intros H. unfold under. by rewrite decide_False. Qed.

(* ---------------------------------------------------------------- registering and unregistering *)

Lemma mark_sets c a f r : ca_fwd (mark c a f r) = (if f then ca_fwd c ∪ {[a]} else ca_fwd c) /\ ca_rev (mark c a f r) = (if r then ca_rev c ∪ {[a]} else ca_rev c).
Proof. done. Qed.
Lemma mark_cached L c a f r a' : a' <> a -> a' ∈ l_cached L (mark c a f r) <-> a' ∈ l_cached L c.
Proof. intros Hne. unfold l_cached, mark. cbn [ca_fwd ca_rev]. destruct (l_rev L), f, r; set_solver. Qed.

Lemma fresh_agrees L (H : lane_ok L) st s a at_ evs : one_value s st -> (l_rev L = true -> uniquely st s a) -> sc_attribute_map s !! a = Some at_ ->
  l_kind L at_ = true -> (forall x, x ∈ evs <-> storable x.2 /\ holds st x.1 a x.2) -> agrees L st a (fold_left (l_add L) evs (l_emp L)).
Proof.
  intros One Hu Hat Hk He e v. rewrite (lo_adds _ H); [apply (He (e, v))|]. eapply (lo_rows _ H); try done.
  intros Hr Hs e1 e2 p. by apply (Hu Hr at_).
Qed.
Lemma empty_agrees L (H : lane_ok L) st a : (forall x : ev, ~ (storable x.2 /\ holds st x.1 a x.2)) -> agrees L st a (l_emp L).
Proof. intros He e v. split; [by intros ?%(lo_emp _ H)|]. by intros ?%(He (e, v)). Qed.

Lemma ov_register_ok st s o a d o' at_ : datoms_ok (sc_attribute_map s) st -> one_value s st ->
  sc_attribute_map s !! a = Some at_ -> readable st a -> ~ either (ov_inner o) a -> ov_common st s o ->
  ov_register st s o a d = Ok o' -> ov_inner o' = ov_inner o /\ ov_common st s o'
  /\ forall L, lane_ok L -> (l_rev L = true -> uniquely st s a) -> ov_lane L st s o -> ov_lane L st s o'.
Proof.
  intros Hok One Hat Hrd Hni C E. unfold ov_register in E.
  set (fd := negb (goes_forward d) || ov_cached_forward o a) in *. set (rd := negb (goes_reverse d) || ov_cached_reverse o a) in *.
  destruct (fd && rd) eqn:Efr; [injection E as <-; done|]. apply rbind_Ok in E as (c' & E & [= <-]). cbn [ov_inner ov_overlay ov_unfwd ov_unrev].
  destruct (repopulate_Ok _ _ _ _ _ _ Hok Hat Hrd E) as (evs & Hevs & R1 & F1 & HL).
  destruct (mark_sets (ov_overlay o) a (negb fd) (negb rd)) as [F2 R2]. rewrite F2 in F1. rewrite R2 in R1.
  assert (fd = false -> goes_forward d = true) as Hfd by (unfold fd; by destruct (goes_forward d)).
  assert (rd = false -> goes_reverse d = true) as Hrd' by (unfold rd; by destruct (goes_reverse d)).
  split; [done|]. split.
  { split; cbn [ov_inner ov_overlay ov_unfwd ov_unrev].
    - intros a'. rewrite F1. destruct fd; cbn [negb].
      + intros Ha'%(oc_f1 _ _ _ C). destruct (goes_forward d); set_solver.
      + rewrite (Hfd eq_refl). intros [Ha'%(oc_f1 _ _ _ C)|Ha']%elem_of_union; set_solver.
    - intros a'. rewrite R1. destruct rd; cbn [negb].
      + intros Ha'%(oc_r1 _ _ _ C). destruct (goes_reverse d); set_solver.
      + rewrite (Hrd' eq_refl). intros [Ha'%(oc_r1 _ _ _ C)|Ha']%elem_of_union; set_solver.
    - intros a' Ha' Hn. assert (a' <> a) as Hne by (intros ->; apply Hni; by left).
      assert (a' ∉ ov_unfwd o) as Hn' by (destruct (goes_forward d); set_solver). pose proof (oc_f2 _ _ _ C _ Ha' Hn') as Hin.
      rewrite F1. destruct fd; set_solver.
    - intros a' Ha' Hn. assert (a' <> a) as Hne by (intros ->; apply Hni; by right).
      assert (a' ∉ ov_unrev o) as Hn' by (destruct (goes_reverse d); set_solver). pose proof (oc_r2 _ _ _ C _ Ha' Hn') as Hin.
      rewrite R1. destruct rd; set_solver.
    - intros a' Ha'. assert (a' <> a) as Hne by (by intros ->). pose proof (oc_un _ _ _ C a' Ha') as Hu.
      destruct (goes_forward d), (goes_reverse d); set_solver.
    - intros a' Ha'. assert (a' <> a) as Hne by (by intros ->). rewrite F1. intros Hin. apply (oc_f3 _ _ _ C a' Ha'). destruct fd; set_solver.
    - intros a' Ha'. assert (a' <> a) as Hne by (by intros ->). rewrite R1. intros Hin. apply (oc_r3 _ _ _ C a' Ha'). destruct rd; set_solver.
    - intros a' Ha'. destruct (decide (a' = a)) as [->|Hne]; [by split; [rewrite Hat; eauto|]|].
      apply (oc_common _ _ _ C). unfold either in *. rewrite F1, R1 in Ha'. destruct fd, rd; set_solver. }
  intros L HLo Hu Ho. destruct (HL L HLo) as (L1 & L2 & L3). rewrite (lo_mark _ HLo) in *.
  set (o' := Overlaid _ _ _ _).
  assert (l_cached L c' = l_cached L (mark (ov_overlay o) a (negb fd) (negb rd))) as Ec.
  { unfold l_cached. rewrite R1, F1. by destruct (l_rev L). }
  assert (under L (ov_inner o) a = l_emp L) as Eu by (apply under_no; intros Hc; by apply Hni, (l_cached_either L)).
  assert (forall a', a' <> a -> base L o' a' = base L o a') as Eb.
  { intros a' Hne. unfold base. unfold o'. cbn [ov_inner ov_overlay]. by rewrite (L1 a' Hne). }
  split.
  - apply (ol_inner _ _ _ _ Ho).
  - unfold o'; cbn [ov_overlay]. intros a' Ha'. rewrite Ec in Ha'. destruct (decide (a' = a)) as [->|Hne].
    + rewrite (L2 Ha'). apply (ol_none _ _ _ _ Ho). intros Hin. apply Ha'. unfold l_cached, mark in *. cbn [ca_fwd ca_rev].
      destruct (l_rev L), fd, rd; set_solver.
    + rewrite (L1 a' Hne). apply (ol_none _ _ _ _ Ho). by rewrite mark_cached in Ha'.
  - intros a' at' Hat' Hk Ha'. destruct (decide (a' = a)) as [->|Hne].
    + assert (at' = at_) as -> by congruence. unfold base, o'. cbn [ov_inner ov_overlay]. rewrite Eu. unfold o' in Ha'. cbn [ov_overlay] in Ha'. rewrite Ec in Ha'.
      destruct (L3 Hk Ha') as [[Hnil Hsame]| ->]; [|cbn [default from_option]; by apply (fresh_agrees L HLo st s a at_)].
      assert (forall x : ev, ~ (storable x.2 /\ holds st x.1 a x.2)) as Hno.
      { intros x Hx. apply Hevs in Hx. rewrite Hnil in Hx. by apply elem_of_nil in Hx. }
      rewrite Hsame. destruct (decide (a ∈ l_cached L (ov_overlay o))) as [Hin|Hnin].
      * pose proof (ol_agrees _ _ _ _ Ho a at_ Hat Hk Hin) as Hag. unfold base in Hag. by rewrite Eu in Hag.
      * rewrite (ol_none _ _ _ _ Ho a Hnin). by apply (empty_agrees L HLo).
    + rewrite (Eb a' Hne). apply (ol_agrees _ _ _ _ Ho a' at'); try done. unfold o' in Ha'. cbn [ov_overlay] in Ha'. rewrite Ec in Ha'. by rewrite mark_cached in Ha'.
  - intros a'. destruct (decide (a' = a)) as [->|Hne].
    + unfold o' at 1. cbn [ov_inner]. rewrite Eu. apply (lo_cov_emp _ HLo).
    + rewrite (Eb a' Hne). apply (ol_cov _ _ _ _ Ho).
Qed.

Lemma ov_unregister_ok st s o a : ov_common st s o -> ov_common st s (ov_unregister o a)
  /\ forall L, lane_ok L -> ov_lane L st s o -> ov_lane L st s (ov_unregister o a).
Proof.
  intros C. split.
  - destruct C as [f1 r1 f2 r2 un f3 r3 cm]. split; unfold ov_unregister, unregister_attribute; cbn [ov_inner ov_overlay ov_unfwd ov_unrev ca_fwd ca_rev].
    + intros a'. specialize (f1 a'). set_solver.
    + intros a'. specialize (r1 a'). set_solver.
    + intros a'. specialize (f2 a'). set_solver.
    + intros a'. specialize (r2 a'). set_solver.
    + intros a' Ha'. specialize (un a' Ha'). set_solver.
    + intros a' Ha'. specialize (f3 a' Ha'). set_solver.
    + intros a' Ha'. specialize (r3 a' Ha'). set_solver.
    + intros a' Ha'. apply cm. unfold either in *. cbn [ca_fwd ca_rev] in Ha'. set_solver.
  - intros L HL [oi on oa ov].
    assert (forall a', a' ∈ l_cached L (unregister_attribute (ov_overlay o) a) <-> a' ∈ l_cached L (ov_overlay o) /\ a' <> a) as Ec.
    { intros a'. unfold l_cached, unregister_attribute. cbn [ca_fwd ca_rev]. destruct (l_rev L); set_solver. }
    assert (forall a', a' <> a -> base L (ov_unregister o a) a' = base L o a') as Eb.
    { intros a' Hne. unfold base, ov_unregister. cbn [ov_inner ov_overlay]. rewrite (lo_unreg _ HL). by rewrite lookup_delete_ne. }
    split.
    + exact oi.
    + unfold ov_unregister; cbn [ov_overlay]. intros a'. rewrite Ec, (lo_unreg _ HL). intros Ha'. destruct (decide (a' = a)) as [->|Hne].
      * by rewrite lookup_delete.
      * rewrite lookup_delete_ne by done. apply on. intros Hin. by apply Ha'.
    + intros a' at_ Hat Hk Ha'. unfold ov_unregister in Ha'. cbn [ov_overlay] in Ha'. apply Ec in Ha' as [Ha' Hne]. rewrite (Eb a' Hne). by apply (oa a' at_).
    + intros a'. destruct (decide (a' = a)) as [->|Hne].
      * unfold base, ov_unregister. cbn [ov_inner ov_overlay]. rewrite (lo_unreg _ HL), lookup_delete. apply (lo_cov_refl _ HL).
      * rewrite (Eb a' Hne). apply ov.
Qed.

(* ---------------------------------------------------------------- a transaction *)

Lemma cached_overlay st s o a : ov_common st s o ->
  (ov_cached_forward o a = true <-> a ∈ ca_fwd (ov_overlay o)) /\ (ov_cached_reverse o a = true <-> a ∈ ca_rev (ov_overlay o)).
Proof.
  intros C. unfold ov_cached_forward, ov_cached_reverse, is_cached_forward, is_cached_reverse.
  rewrite !andb_true_iff, !negb_true_iff, !bool_decide_eq_false, !orb_true_iff, !bool_decide_eq_true.
  pose proof (oc_f1 _ _ _ C a). pose proof (oc_r1 _ _ _ C a). pose proof (oc_f2 _ _ _ C a). pose proof (oc_r2 _ _ _ C a). tauto.
Qed.
Lemma no_cached st s o a : ov_common st s o -> ov_has_cached o = false -> ~ either (ov_overlay o) a.
Proof.
  intros C H. unfold ov_has_cached in H. destruct (has_cached (ov_overlay o)) eqn:E; [done|]. unfold has_cached in E.
  apply orb_false_iff in E as [E1 E2]. apply negb_false_iff, bool_decide_eq_true in E1, E2. unfold either. rewrite E1, E2. set_solver.
Qed.

Lemma ov_watch_ok st st' s s' tx o w x o' : events_ok (sc_attribute_map s) st st' tx (wa_events w) -> one_value s st -> wa_done w = Some x ->
  let cached a := ov_cached_forward o a = true \/ ov_cached_reverse o a = true in
  gentle cached st s s' (wa_events w) -> ov_common st s o -> ov_watch o s w = Ok o' ->
  ov_inner o' = ov_inner o /\ ov_common st' s' o'
  /\ forall L, lane_ok L -> (l_rev L = true -> gentle_reverse (fun a => ov_cached_reverse o a = true) st st' s (wa_events w)) ->
     ov_lane L st s o -> ov_lane L st' s' o'.
Proof.
  intros E One Hd cached G C H. unfold ov_watch in H. rewrite Hd in H. apply rbind_Ok in H as (c' & Hu & [= <-]).
  set (t := if ov_has_cached o then wa_events w else []) in *.
  assert (forall a, either (ov_overlay o) a <-> cached a) as Hc.
  { intros a. unfold cached, either. destruct (cached_overlay st s o a C) as [-> ->]. done. }
  assert (forall k a x, either (ov_overlay o) a -> x ∈ evs_of a (runs (flatten (collect o k t))) <-> (k, x.1, a, x.2) ∈ wa_events w) as Hev.
  { intros k a [e v] Ha. rewrite evs_of_runs. cbn [fst snd]. rewrite told_rows. rewrite Hc in Ha.
    assert (ov_has_cached o = true) as Hh.
    { destruct (ov_has_cached o) eqn:Eh; [done|]. destruct (no_cached st s o a C Eh). by apply Hc. }
    unfold t. rewrite Hh. unfold cached in Ha. tauto. }
  assert (ca_rev c' = ca_rev (ov_overlay o) /\ ca_fwd c' = ca_fwd (ov_overlay o)) as [R1 F1].
  { destruct (update_lane _ single_ok _ _ _ _ _ _ Hu) as (? & ? & _). done. }
  assert (forall a at', either (ov_overlay o) a -> sc_attribute_map s' !! a = Some at' -> exists at_, sc_attribute_map s !! a = Some at_
    /\ at_multival at' = at_multival at_ /\ (is_Some (at_unique at') <-> is_Some (at_unique at_))) as Hkept.
  { intros a at' Ha Hat'. destruct (oc_common _ _ _ C a Ha) as [(at_ & Hat) _]. apply Hc in Ha.
    destruct (ge_kept _ _ _ _ _ G a at_ Ha Hat) as (at2 & Hat2 & Hm & Hu2). assert (at2 = at') as -> by congruence. exists at_. done. }
  split; [done|]. split.
  - destruct C as [f1 r1 f2 r2 un f3 r3 cm]. split; cbn [ov_inner ov_overlay ov_unfwd ov_unrev]; rewrite ?R1, ?F1; try done.
    intros a Ha. unfold either in Ha. rewrite R1, F1 in Ha. fold (either (ov_overlay o) a) in Ha. destruct (cm a Ha) as [(at_ & Hat) Hrd].
    pose proof (proj1 (Hc a) Ha) as Hca. split.
    + destruct (ge_kept _ _ _ _ _ G a at_ Hca Hat) as (at2 & Hat2 & _). by rewrite Hat2.
    + intros e p Hp. rewrite (eo_facts _ _ _ _ _ E e a p at_ Hat) in Hp.
      assert ((e, a, p) ∈ facts st \/ said (wa_events w) OAdd e a p) as [Hp'|(v & Hv & <-)] by (destruct (at_multival at_); tauto).
      * by apply (Hrd e p).
      * exists v. split; [|done]. by eapply (ge_storable _ _ _ _ _ G).
  - intros L HL R [oi on oa ov]. destruct (update_lane L HL _ _ _ _ _ _ Hu) as (_ & _ & N & A & V).
    pose proof (l_cached_eq L _ _ R1 F1) as Ec. split; cbn [ov_inner ov_overlay].
    + exact oi.
    + intros a Ha. rewrite Ec in Ha. rewrite (N a Ha). by apply on.
    + intros a at' Hat' Hk Ha. rewrite Ec in Ha. pose proof (l_cached_either L _ _ Ha) as Hea.
      destruct (Hkept a at' Hea Hat') as (at_ & Hat & Hm & Hq). rewrite (lo_kind _ HL at_ at' Hm Hq) in Hk.
      unfold base. cbn [ov_inner ov_overlay]. rewrite (A a at_ Hat Hk Ha).
      apply (lo_batch _ HL cached (fun a => ov_cached_reverse o a = true) st st' s s' tx (wa_events w) a at_); try done.
      * by apply Hc.
      * intros Hr. apply (cached_overlay st s o a C). unfold l_cached in Ha. by rewrite Hr in Ha.
      * intros y. by apply Hev.
      * intros y. by apply Hev.
      * by apply (oa a at_).
    + intros a. eapply (lo_cov_trans _ HL); [apply ov|]. apply V.
Qed.

(* ---------------------------------------------------------------- commit *)

Lemma unregister_fold_sets l : forall c, ca_fwd (fold_left unregister_attribute l c) = ca_fwd c ∖ list_to_set l
  /\ ca_rev (fold_left unregister_attribute l c) = ca_rev c ∖ list_to_set l.
Proof.
  induction l as [|a l IH]; intros c; cbn [fold_left list_to_set]; [split; set_solver|]. destruct (IH (unregister_attribute c a)) as [-> ->].
  unfold unregister_attribute. cbn [ca_fwd ca_rev]. split; set_solver.
Qed.
Lemma unregister_fold_get L (H : lane_ok L) l : forall c a, l_get L (fold_left unregister_attribute l c) !! a = if decide (a ∈ l) then None else l_get L c !! a.
Proof.
  induction l as [|a' l IH]; intros c a; cbn [fold_left]; [by rewrite decide_False by apply not_elem_of_nil|]. rewrite IH, (lo_unreg _ H).
  destruct (decide (a ∈ l)) as [Hin|Hn]; [by rewrite decide_True by (by right)|]. destruct (decide (a = a')) as [->|Hne].
  - rewrite decide_True by (by left). by rewrite lookup_delete.
  - rewrite lookup_delete_ne by done. rewrite decide_False; [done|]. rewrite elem_of_cons. tauto.
Qed.

Lemma commit_ok st s o c' : ov_common st s o -> commit_to o (ov_inner o) false = Ok c' ->
  common st s c' /\ (forall L, lane_ok L -> ov_lane L st s o -> conn_lane L st s c').
Proof.
  intros C H. unfold commit_to in H.
  assert (c' = ov_overlay o /\ (forall a, ~ either (ov_inner o) a)
    \/ c' = caches_absorb (fold_left unregister_attribute (elements (ov_unfwd o ∪ ov_unrev o)) (ov_inner o)) (ov_overlay o)) as [[-> Hno]| ->].
  { destruct (has_cached (ov_inner o)) eqn:Eh; cbn [negb] in H; injection H as <-; [by right|left]. split; [done|]. intros a.
    unfold has_cached in Eh. apply orb_false_iff in Eh as [E1 E2]. apply negb_false_iff, bool_decide_eq_true in E1, E2. unfold either. rewrite E1, E2. set_solver. }
  - split; [apply (oc_common _ _ _ C)|]. intros L HL Ho.
    assert (forall a, default (l_emp L) (l_get L (ov_overlay o) !! a) = base L o a) as Eb.
    { intros a. unfold base. rewrite under_no; [done|]. intros Ha. by apply (Hno a), (l_cached_either L). }
    split; [apply (ol_none _ _ _ _ Ho)|]. intros a at_ Hat Hk Ha. rewrite Eb. by apply (ol_agrees _ _ _ _ Ho a at_).
  - clear H. set (un := elements (ov_unfwd o ∪ ov_unrev o)). set (d := fold_left unregister_attribute un (ov_inner o)).
    destruct (unregister_fold_sets un (ov_inner o)) as [Fd Rd]. fold d in Fd, Rd.
    assert (forall a, a ∈ un <-> a ∈ ov_unfwd o \/ a ∈ ov_unrev o) as Hun by (intros a; unfold un; rewrite elem_of_elements; set_solver).
    assert (ca_fwd (caches_absorb d (ov_overlay o)) = ca_fwd (ov_overlay o)) as Ef.
    { unfold caches_absorb. cbn [ca_fwd]. rewrite Fd. apply set_eq. intros a. rewrite elem_of_union, elem_of_difference, elem_of_list_to_set, Hun.
      pose proof (oc_f2 _ _ _ C a). tauto. }
    assert (ca_rev (caches_absorb d (ov_overlay o)) = ca_rev (ov_overlay o)) as Er.
    { unfold caches_absorb. cbn [ca_rev]. rewrite Rd. apply set_eq. intros a. rewrite elem_of_union, elem_of_difference, elem_of_list_to_set, Hun.
      pose proof (oc_r2 _ _ _ C a). tauto. }
    split; [intros a; unfold either; rewrite Ef, Er; apply (oc_common _ _ _ C)|]. intros L HL Ho.
    pose proof (l_cached_eq L _ _ Er Ef) as Ec.
    assert (forall a, l_get L (caches_absorb d (ov_overlay o)) !! a =
      match l_get L d !! a, l_get L (ov_overlay o) !! a with Some m, Some m' => Some (l_abs L m m') | None, m' => m' | m, None => m end) as Eg.
    { intros a. rewrite (lo_absorb _ HL). unfold extend_by_absorbing. rewrite lookup_merge. unfold diag_None.
      by destruct (l_get L d !! a), (l_get L (ov_overlay o) !! a). }
    assert (forall a, l_get L d !! a = if decide (a ∈ un) then None else l_get L (ov_inner o) !! a) as Ed.
    { intros a. apply (unregister_fold_get L HL). }
    split.
    + intros a Ha. rewrite Ec in Ha. rewrite Eg, Ed, (ol_none _ _ _ _ Ho a Ha).
      destruct (decide (a ∈ un)) as [|Hnu]; [done|]. rewrite Hun in Hnu.
      assert (a ∉ l_cached L (ov_inner o)) as Hni.
      { intros Hi. apply Ha. unfold l_cached in *. destruct (l_rev L); [apply (oc_r2 _ _ _ C)|apply (oc_f2 _ _ _ C)]; tauto. }
      by rewrite (ol_inner _ _ _ _ Ho a Hni).
    + intros a at_ Hat Hk Ha. rewrite Ec in Ha. pose proof (ol_agrees _ _ _ _ Ho a at_ Hat Hk Ha) as Hag.
      assert (l_get L d !! a = if decide (a ∈ l_cached L (ov_inner o)) then l_get L (ov_inner o) !! a else None) as Eda.
      { rewrite Ed. destruct (decide (a ∈ l_cached L (ov_inner o))) as [Hi|Hni]; [|by rewrite (ol_inner _ _ _ _ Ho a Hni); destruct (decide _)].
        rewrite decide_False; [done|]. rewrite Hun. pose proof (oc_un _ _ _ C a (l_cached_either L _ _ Hi)) as Hu.
        unfold l_cached in Ha. destruct (l_rev L); [pose proof (oc_r1 _ _ _ C a Ha)|pose proof (oc_f1 _ _ _ C a Ha)]; tauto. }
      rewrite Eg. pose proof (ol_cov _ _ _ _ Ho a) as Hcov. unfold base, under in Hag, Hcov. rewrite <- Eda in Hag, Hcov. clear Eda Ed Eg.
      destruct (l_get L d !! a) as [mi|] eqn:Emi; [|destruct (l_get L (ov_overlay o) !! a); exact Hag].
      destruct (l_get L (ov_overlay o) !! a) as [mo|]; [|exact Hag]. cbn [default from_option] in *.
      intros e v. change (l_has L (l_abs L mi mo) (e, v) <-> storable v /\ holds st e a v). rewrite (lo_abs _ HL); [apply Hag|done].
Qed.

(* ---------------------------------------------------------------- calls *)

Definition applies (reverse : bool) (L : lane) : Prop := lane_ok L /\ (l_rev L = true -> reverse = true).
Definition session_ok (reverse : bool) (i : cinprog) : Prop := ig_ok (ci_ig i) /\ ov_common (ig_store (ci_ig i)) (ig_schema (ci_ig i)) (ci_cache i)
  /\ forall L, applies reverse L -> ov_lane L (ig_store (ci_ig i)) (ig_schema (ci_ig i)) (ci_cache i).
Definition caching_ok (reverse : bool) (c : cconn) : Prop := conn_ok (cc_conn c) /\ common (disk (cc_conn c)) (schema_of (cc_conn c)) (cc_cache c)
  /\ forall L, applies reverse L -> conn_lane L (disk (cc_conn c)) (schema_of (cc_conn c)) (cc_cache c).

Lemma db_ok_one st pm s : db_ok st pm s -> one_value s st.
Proof. intros H. destruct (ok_tx _ _ _ H) as (p & _ & H0 & _). exact (so_card _ _ _ H0 s eq_refl). Qed.
Lemma db_ok_datoms st pm s : db_ok st pm s -> datoms_ok (sc_attribute_map s) st.
Proof. intros H. destruct (ok_tx _ _ _ H) as (p & _ & H0 & _). exact (so_datoms _ _ _ H0). Qed.

Lemma attribute_for_ident_Ok s k a : attribute_for_ident s k = Ok a -> exists at_, sc_attribute_map s !! a = Some at_.
Proof.
  unfold attribute_for_ident, ok_or. destruct (sc_ident_map s !! k) as [a'|]; simpl; [|done].
  destruct (sc_attribute_map s !! a') as [at_|] eqn:E; [|done]. intros [= <-]. eauto.
Qed.

(** A call that succeeds was told about, if it is a transaction. *)
Lemma told_Ok mv ig o ig' : ig_ok ig -> (forall n, o <> OpRollbackTo n) -> ig_step mv ig o = (ig', Ok tt) -> never_uninstalled (st_log (ig_store ig')) ->
  (wa_done (told mv ig o) = None /\ wa_events (told mv ig o) = [] /\ ig_store ig' = ig_store ig /\ ig_schema ig' = ig_schema ig)
  \/ (is_Some (wa_done (told mv ig o)) /\ exists tx, events_ok (sc_attribute_map (ig_schema ig)) (ig_store ig) (ig_store ig') tx (wa_events (told mv ig o))).
Proof.
  intros Hok Hno H Hn. destruct o as [now es|now ts ids|n|n|n]; cbn [ig_step told] in *.
  - right. destruct (ig_transact mv now ig es) as [ig1 r] eqn:E. destruct r as [r| |]; try done. injection H as ->.
    unfold ig_transact in E. destruct (transact _ _ _ _ _ _ _) as [st' [x| |]] eqn:Et; try done.
    rewrite (watch_transact_Ok _ _ _ _ _ _ _ _ _ Et). cbn [wa_done wa_events]. split; [done|]. exists (rp_tx (tr_report x)).
    unfold ig_transacted in E. injection E as <- _. cbn [ig_store]. cbn [ig_store] in Hn. by eapply transact_events.
  - right. destruct (ig_transact_terms mv now ig ts ids) as [ig1 r] eqn:E. destruct r as [r| |]; try done. injection H as ->.
    unfold ig_transact_terms in E. destruct (transact_terms _ _ _ _ _ _ _ _ _) as [st' [x| |]] eqn:Et; try done.
    rewrite (watch_transact_terms_Ok _ _ _ _ _ _ _ _ _ _ Et). cbn [wa_done wa_events]. split; [done|]. exists (rp_tx (tr_report x)).
    unfold ig_transacted in E. injection E as <- _. cbn [ig_store]. cbn [ig_store] in Hn. by eapply transact_terms_events.
  - left. unfold ig_savepoint in H. injection H as <-. done.
  - by destruct (Hno n).
  - left. unfold ig_release_savepoint in H. destruct (savepoints_from _ _) as [[st l]|]; try done. by injection H as <-.
Qed.

Lemma ci_step_ok reverse mv i o : session_ok reverse i -> tame_call reverse mv (ov_inner (ci_cache i)) i o ->
  never_uninstalled (st_log (ig_store (ci_ig (ci_step mv i o).1))) ->
  session_ok reverse (ci_step mv i o).1 /\ ov_inner (ci_cache (ci_step mv i o).1) = ov_inner (ci_cache i).
Proof.
  intros (Hig & C & HL) [Hr Ht] Hn. destruct o as [o|k d register].
  - assert (forall n, o <> OpRollbackTo n) as Hno by (by intros n ->).
    assert (gentle (fun a => ov_cached_forward (ci_cache i) a = true \/ ov_cached_reverse (ci_cache i) a = true) (ig_store (ci_ig i)) (ig_schema (ci_ig i))
        (ig_schema (ci_ig (ci_step mv i (CiOp o)).1)) (wa_events (told mv (ci_ig i) o))
      /\ (reverse = true -> gentle_reverse (fun a => ov_cached_reverse (ci_cache i) a = true) (ig_store (ci_ig i))
            (ig_store (ci_ig (ci_step mv i (CiOp o)).1)) (ig_schema (ci_ig i)) (wa_events (told mv (ci_ig i) o)))) as [G R] by (by destruct o).
    clear Ht. revert Hr Hn G R. cbn [ci_step].
    destruct (ov_watch (ci_cache i) (ig_schema (ci_ig i)) (told mv (ci_ig i) o)) as [cache| |] eqn:Ew; [|done..].
    destruct (ig_step mv (ci_ig i) o) as [ig' r] eqn:Es. cbn [fst snd ci_ig ci_cache]. intros -> Hn G R.
    assert (ig_ok ig') as Hig'.
    { apply (ig_step_ok mv (ci_ig i) o ig' (Ok tt)); try done; [|by left]. destruct o; try done. by destruct (Hno n). }
    destruct (told_Ok mv (ci_ig i) o ig' Hig Hno Es Hn) as [(T1 & T2 & T3 & T4)|((x & T1) & tx & T2)].
    + unfold ov_watch in Ew. rewrite T1 in Ew. injection Ew as <-. split; [|done]. split; [done|]. cbn [ci_ig ci_cache]. rewrite T3, T4. done.
    + destruct (ov_watch_ok _ _ _ (ig_schema ig') _ _ _ _ _ T2 (db_ok_one _ _ _ Hig) T1 G C Ew) as (Ei & C' & HL').
      split; [|done]. split; [done|]. split; [done|]. intros L [HLo HLr]. apply HL'; [done| |by apply HL].
      intros Hrev. by apply R, HLr.
  - revert Hr Hn Ht. cbn [ci_step]. destruct (attribute_for_ident (ig_schema (ci_ig i)) k) as [a| |] eqn:Ea; [|done..].
    destruct (attribute_for_ident_Ok _ _ _ Ea) as (at_ & Hat). destruct register.
    + destruct (ov_register _ _ _ _ _) as [cache| |] eqn:Eg; [|done..]. cbn [fst snd ci_ig ci_cache]. intros _ Hn Ht.
      destruct (Ht a eq_refl) as (H1 & H2 & H3 & H4).
      assert (~ either (ov_inner (ci_cache i)) a) as Hne.
      { unfold is_cached_forward, is_cached_reverse in H1, H2. apply bool_decide_eq_false in H1, H2. unfold either. tauto. }
      destruct (ov_register_ok _ _ _ _ _ _ _ (db_ok_datoms _ _ _ Hig) (db_ok_one _ _ _ Hig) Hat H3 Hne C Eg) as (Ei & C' & HL').
      split; [|done]. split; [done|]. split; [done|]. intros L [HLo HLr]. apply HL'; [done| |by apply HL]. intros Hrev. by apply H4, HLr.
    + cbn [fst snd ci_ig ci_cache]. intros _ _ _. destruct (ov_unregister_ok _ _ _ a C) as [C' HL']. split; [|done].
      split; [done|]. split; [done|]. intros L [HLo HLr]. apply HL'; [done|]. by apply HL.
Qed.

Lemma ci_step_log reverse mv c0 i o : tame_call reverse mv c0 i o ->
  exists new, st_log (ig_store (ci_ig (ci_step mv i o).1)) = st_log (ig_store (ci_ig i)) ++ new.
Proof.
  intros [Hr Ht]. destruct o as [o|k d register].
  - assert (match o with OpRollbackTo _ => False | _ => True end) as Hno by (by destruct o).
    clear Ht. revert Hr. cbn [ci_step]. destruct (ov_watch _ _ _) as [cache| |]; [|done..].
    destruct (ig_step mv (ci_ig i) o) as [ig' r] eqn:Es. cbn [fst snd ci_ig ci_cache]. intros ->. by apply (ig_step_log _ _ _ _ _ Es); [|left].
  - exists []. rewrite app_nil_r. clear. cbn [ci_step]. destruct (attribute_for_ident _ _); [|done..]. destruct register; [|done].
    by destruct (ov_register _ _ _ _ _).
Qed.

(** What a sequence of calls all of which succeed leads to *)
Definition ci_after (mv : Z) (i : cinprog) (l : list cip_op) : cinprog := fold_left (fun i o => (ci_step mv i o).1) l i.
Lemma ci_calls_log reverse mv c0 l : forall i, tame_calls reverse mv c0 i l ->
  exists new, st_log (ig_store (ci_ig (ci_after mv i l))) = st_log (ig_store (ci_ig i)) ++ new.
Proof.
  induction l as [|o l IH]; intros i Ht; cbn [tame_calls] in Ht; unfold ci_after; cbn [fold_left].
  - exists []. by rewrite app_nil_r.
  - destruct Ht as [H1 H2]. destruct (ci_step_log _ _ _ _ _ H1) as (n1 & E1). destruct (IH _ H2) as (n2 & E2). unfold ci_after in E2.
    exists (n1 ++ n2). rewrite E2, E1. by rewrite app_assoc.
Qed.
Lemma ci_calls_ok reverse mv l : forall i, session_ok reverse i -> tame_calls reverse mv (ov_inner (ci_cache i)) i l ->
  never_uninstalled (st_log (ig_store (ci_ig (ci_after mv i l)))) ->
  session_ok reverse (ci_after mv i l) /\ ov_inner (ci_cache (ci_after mv i l)) = ov_inner (ci_cache i).
Proof.
  induction l as [|o l IH]; intros i H0 Ht Hn; cbn [tame_calls] in Ht; unfold ci_after in *; cbn [fold_left] in *.
  - done.
  - destruct Ht as [H1 H2]. destruct (ci_calls_log _ _ _ _ _ H2) as (new & E). unfold ci_after in E.
    assert (never_uninstalled (st_log (ig_store (ci_ig (ci_step mv i o).1)))) as Hn1.
    { rewrite E in Hn. by eapply never_uninstalled_app. }
    destruct (ci_step_ok reverse mv i o H0 H1 Hn1) as [H3 H4]. rewrite <- H4 in H2.
    destruct (IH _ H3 H2 Hn) as [H5 H6]. split; [done|]. congruence.
Qed.
Lemma ci_steps_after mv l : forall i i' rs, ci_steps mv i l = Ok (i', rs) -> i' = ci_after mv i l.
Proof.
  induction l as [|o l IH]; intros i i' rs H; cbn [ci_steps] in H; unfold ci_after; cbn [fold_left].
  - by injection H as <- _.
  - destruct (ci_step mv i o) as [i1 r]. cbn [fst].
    assert (exists rs', ci_steps mv i1 l = Ok (i', rs')) as (rs' & H').
    { destruct r; [| |done]; apply rbind_Ok in H as ([i2 rs2] & H & [= -> _]); eauto. }
    by apply IH in H'.
Qed.

Lemma begin_ok reverse c : caching_ok reverse c -> session_ok reverse (cc_begin c).
Proof.
  intros (H1 & H2 & H3). split; [exact H1|]. split; [by apply begin_common|]. intros L HL. apply begin_lane; [apply HL|]. by apply H3.
Qed.

Lemma cc_commit_ok reverse c i c' : caching_ok reverse c -> session_ok reverse i -> ov_inner (ci_cache i) = cc_cache c ->
  cc_commit c i false = (c', Ok tt) -> caching_ok reverse c' /\ disk (cc_conn c') = ig_store (ci_ig i).
Proof.
  intros H0 (Hig & C & HL) Ei H. unfold cc_commit in H.
  destruct (conn_commit (cc_conn c) (ci_ig i)) as [[c1 x]| |] eqn:E; [|done..].
  destruct (commit_to (ci_cache i) (cc_cache c) false) as [cache| |] eqn:Ec; [|done..]. injection H as <-.
  rewrite <- Ei in Ec. destruct (commit_ok _ _ _ _ C Ec) as [C' HL'].
  unfold conn_commit in E. case_decide; [|done]. injection E as <- _. split; [|done]. split; [exact Hig|]. split; [exact C'|].
  intros L [HLo HLr]. apply HL'; [done|]. by apply HL.
Qed.
Lemma cc_commit_fail c i : (cc_commit c i false).2 <> Ok tt -> (cc_commit c i false).1 = c.
Proof.
  unfold cc_commit. destruct (conn_commit (cc_conn c) (ci_ig i)) as [[c1 x]| |]; [|done..]. unfold commit_to.
  destruct (has_cached (cc_cache c)); cbn [negb]; done.
Qed.

Lemma cc_step_ok reverse mv c o : caching_ok reverse c -> tame reverse mv c o -> never_uninstalled (st_log (disk (cc_conn (cc_step mv c o).1))) ->
  caching_ok reverse (cc_step mv c o).1.
Proof.
  intros H0 Ht Hn. destruct o as [now es shared|l commit shared|k d register|].
  - destruct Ht as [-> Ht]. revert Ht Hn. cbn [cc_step]. destruct (ci_step mv (cc_begin c) (CiOp (OpTransact now es))) as [i r] eqn:Es.
    destruct r as [u| |]; [|done..]. intros Ht Hn. destruct (cc_commit c i false) as [c' r] eqn:Ec. cbn [fst snd] in *.
    destruct (decide (is_ok r = true)) as [Hr|Hr].
    + assert (r = Ok tt) as -> by (by destruct r as [[]| |]). specialize (Ht eq_refl).
      assert (i = ci_after mv (cc_begin c) [CiOp (OpTransact now es)]) as Ei by (unfold ci_after; cbn [fold_left]; by rewrite Es).
      assert (disk (cc_conn c') = ig_store (ci_ig i)) as Ed.
      { unfold cc_commit in Ec. destruct (conn_commit (cc_conn c) (ci_ig i)) as [[c1 x]| |] eqn:E; [|done..].
        destruct (commit_to _ _ _); [|done..]. injection Ec as <-. unfold conn_commit in E. case_decide; [|done]. by injection E as <- _. }
      rewrite Ed in Hn. rewrite Ei in Hn.
      destruct (ci_calls_ok reverse mv _ _ (begin_ok reverse c H0) Ht Hn) as [H1 H2]. rewrite <- Ei in H1, H2.
      by apply (cc_commit_ok reverse c i c').
    + pose proof (cc_commit_fail c i) as Hf. rewrite Ec in Hf. cbn [fst snd] in Hf. rewrite Hf; [done|]. by intros ->.
  - revert Ht Hn. unfold tame. cbn [cc_step]. unfold cc_session. destruct (ci_steps mv (cc_begin c) l) as [[i rs]| |] eqn:Es; [|done..].
    destruct commit; [|done]. intros Ht Hn. destruct (Ht eq_refl) as [-> Ht']. clear Ht. rename Ht' into Ht.
    destruct (cc_commit c i false) as [c' r] eqn:Ec. cbn [fst snd] in *.
    destruct (decide (is_ok r = true)) as [Hr|Hr].
    + assert (r = Ok tt) as -> by (by destruct r as [[]| |]). specialize (Ht eq_refl). pose proof (ci_steps_after _ _ _ _ _ Es) as Ei.
      assert (disk (cc_conn c') = ig_store (ci_ig i)) as Ed.
      { unfold cc_commit in Ec. destruct (conn_commit (cc_conn c) (ci_ig i)) as [[c1 x]| |] eqn:E; [|done..].
        destruct (commit_to _ _ _); [|done..]. injection Ec as <-. unfold conn_commit in E. case_decide; [|done]. by injection E as <- _. }
      rewrite Ed in Hn. rewrite Ei in Hn.
      destruct (ci_calls_ok reverse mv _ _ (begin_ok reverse c H0) Ht Hn) as [H1 H2]. rewrite <- Ei in H1, H2.
      by apply (cc_commit_ok reverse c i c').
    + pose proof (cc_commit_fail c i) as Hf. rewrite Ec in Hf. cbn [fst snd] in Hf. rewrite Hf; [done|]. by intros ->.
  - revert Ht Hn. unfold tame. cbn [cc_step]. destruct (attribute_for_ident (schema_of (cc_conn c)) k) as [a| |] eqn:Ea; [|done..].
    destruct (attribute_for_ident_Ok _ _ _ Ea) as (at_ & Hat). destruct H0 as (H1 & H2 & H3). destruct register.
    + destruct (cache_register _ _ _ _ _) as [cache| |] eqn:Eg; [|done..]. cbn [fst cc_conn]. intros Ht _. destruct (Ht a eq_refl) as [Hrd Hu].
      unfold cache_register in Eg.
      destruct (repopulate_Ok _ _ _ _ _ _ (db_ok_datoms _ _ _ H1) Hat Hrd Eg) as (evs & Hevs & R1 & F1 & HL).
      destruct (mark_sets (cc_cache c) a (goes_forward d) (goes_reverse d)) as [F2 R2]. rewrite F2 in F1. rewrite R2 in R1.
      split; [done|]. split.
      * intros a' Ha'. destruct (decide (a' = a)) as [->|Hne]; [by split; [exists at_; exact Hat|]|].
        apply H2. unfold either in *. cbn [cc_cache] in Ha'. rewrite F1, R1 in Ha'. destruct (goes_forward d), (goes_reverse d); set_solver.
      * intros L [HLo HLr]. cbn [cc_conn cc_cache]. destruct (HL L HLo) as (L1 & L2 & L3). rewrite (lo_mark _ HLo) in *. destruct (H3 L (conj HLo HLr)) as [N A].
        assert (l_cached L cache = l_cached L (mark (cc_cache c) a (goes_forward d) (goes_reverse d))) as Ec.
        { unfold l_cached. rewrite R1, F1. by destruct (l_rev L). }
        split.
        -- intros a' Ha'. rewrite Ec in Ha'. destruct (decide (a' = a)) as [->|Hne].
           ++ rewrite (L2 Ha'). apply N. intros Hin. apply Ha'. unfold l_cached, mark in *. cbn [ca_fwd ca_rev].
              destruct (l_rev L), (goes_forward d), (goes_reverse d); set_solver.
           ++ rewrite (L1 a' Hne). apply N. by rewrite mark_cached in Ha'.
        -- intros a' at' Hat' Hk Ha'. rewrite Ec in Ha'. destruct (decide (a' = a)) as [->|Hne].
           ++ assert (at' = at_) as -> by congruence.
              destruct (L3 Hk Ha') as [[Hnil Hsame]| ->].
              ** assert (forall x : ev, ~ (storable x.2 /\ holds (disk (cc_conn c)) x.1 a x.2)) as Hno.
                 { intros x Hx. apply Hevs in Hx. rewrite Hnil in Hx. by apply elem_of_nil in Hx. }
                 rewrite Hsame. destruct (decide (a ∈ l_cached L (cc_cache c))) as [Hin|Hnin].
                 { by apply (A a at_). }
                 { rewrite (N a Hnin). by apply (empty_agrees L HLo). }
              ** cbn [default from_option]. apply (fresh_agrees L HLo _ (schema_of (cc_conn c)) a at_); try done; [by apply (db_ok_one _ _ _ H1)|].
                 intros Hrev. by apply Hu, HLr.
           ++ rewrite (L1 a' Hne). apply (A a' at'); try done. by rewrite mark_cached in Ha'.
    + cbn [fst cc_conn]. intros _ _. split; [done|]. split.
      * intros a' Ha'. apply H2. unfold either in *. unfold unregister_attribute in Ha'. cbn [cc_cache ca_fwd ca_rev] in Ha'. set_solver.
      * intros L [HLo HLr]. cbn [cc_conn cc_cache]. destruct (H3 L (conj HLo HLr)) as [N A].
        assert (forall a', a' ∈ l_cached L (unregister_attribute (cc_cache c) a) <-> a' ∈ l_cached L (cc_cache c) /\ a' <> a) as Ec.
        { intros a'. unfold l_cached, unregister_attribute. cbn [ca_fwd ca_rev]. destruct (l_rev L); set_solver. }
        split.
        -- intros a'. rewrite Ec, (lo_unreg _ HLo). intros Ha'. destruct (decide (a' = a)) as [->|Hne]; [by rewrite lookup_delete|].
           rewrite lookup_delete_ne by done. apply N. intros Hin. by apply Ha'.
        -- intros a' at' Hat' Hk [Ha' Hne]%Ec. rewrite (lo_unreg _ HLo), lookup_delete_ne by done. by apply (A a' at').
  - pose proof (reopen_ok mv (cc_conn c) (proj1 H0)) as Hro. revert Ht Hro. unfold tame. cbn [cc_step conn_step].
    destruct (conn_open mv 0 (Some (cn_disk (cc_conn c)))) as [c1| |]; [|done..]. cbn [fst cc_conn]. intros Ht Hro.
    split; [by apply Hro|]. split; [intros a [Ha|Ha]; set_solver|]. intros L [HLo _]. cbn [cc_cache cc_conn]. split.
    + intros a _. by rewrite (lo_empty _ HLo), lookup_empty.
    + intros a at_ _ _ Ha. unfold l_cached, caches_empty in Ha. cbn [ca_fwd ca_rev] in Ha. destruct (l_rev L); set_solver.
Qed.

Lemma start_ok reverse mv c : clean mv c -> caching_ok reverse (CConn c caches_empty).
Proof.
  intros Hc. split; [by eapply clean_ok|]. split; [intros a [Ha|Ha]; set_solver|]. intros L [HLo _]. cbn [cc_cache cc_conn]. split.
  - intros a _. by rewrite (lo_empty _ HLo), lookup_empty.
  - intros a at_ _ _ Ha. unfold l_cached, caches_empty in Ha. cbn [ca_fwd ca_rev] in Ha. destruct (l_rev L); set_solver.
Qed.
Lemma caching_holds reverse mv c : caching reverse mv c -> caching_ok reverse c.
Proof. induction 1; [by eapply start_ok|by apply cc_step_ok]. Qed.

(* ---------------------------------------------------------------- what the lookups say *)

Lemma applies_forward reverse L : lane_ok L -> l_rev L = false -> applies reverse L.
Proof. intros H E. split; [done|]. rewrite E. done. Qed.

Lemma thm_forward reverse mv c : caching reverse mv c -> forward_agrees (disk (cc_conn c)) (schema_of (cc_conn c)) (cc_cache c).
Proof.
  intros (_ & Hc & HL)%caching_holds a at_ Hat Ha. apply bool_decide_eq_true in Ha. destruct (Hc a (or_introl Ha)) as [_ Hrd].
  destruct (at_multival at_) eqn:Em.
  - destruct (HL multi_lane (applies_forward _ _ multi_ok eq_refl)) as [N A]. pose proof (A a at_ Hat Em Ha) as Hag. intros e v.
    rewrite (stored_iff _ _ _ _ Hrd), <- (Hag e v). cbn [multi_lane l_has l_emp l_get l_map]. unfold get_values, values_pairs. rewrite Hat. simpl. rewrite Em.
    unfold multi_has. cbn [fst snd]. destruct (ca_multi (cc_cache c) !! a) as [m|]; [split; intros H; exact H|]. simpl. by setoid_rewrite lookup_empty.
  - destruct (HL single_lane (applies_forward _ _ single_ok eq_refl)) as [N A]. pose proof (A a at_ Hat ltac:(by simpl; rewrite Em) Ha) as Hag. intros e v.
    rewrite (stored_iff _ _ _ _ Hrd), <- (Hag e v). cbn [single_lane l_has l_emp l_get l_map]. unfold get_value, value_pairs. rewrite Hat. simpl. rewrite Em.
    unfold single_has. cbn [fst snd]. destruct (ca_single (cc_cache c) !! a) as [m|]; [split; intros H; exact H|]. simpl. by rewrite lookup_empty.
Qed.
Lemma thm_reverse mv c : caching true mv c -> reverse_agrees (disk (cc_conn c)) (schema_of (cc_conn c)) (cc_cache c).
Proof.
  intros (_ & Hc & HL)%caching_holds a at_ Hat Ha0. pose proof Ha0 as Ha. apply bool_decide_eq_true in Ha. destruct (Hc a (or_intror Ha)) as [_ Hrd].
  destruct (at_unique at_) eqn:Eu.
  - destruct (HL unique_lane (conj unique_ok (fun _ => eq_refl))) as [N A]. pose proof (A a at_ Hat ltac:(by simpl; rewrite Eu) Ha) as Hag. intros e v.
    rewrite (stored_iff _ _ _ _ Hrd), <- (Hag e v). cbn [unique_lane l_has l_emp l_get l_map]. unfold get_entid. rewrite Ha0.
    unfold unique_has. cbn [fst snd]. destruct (ca_unique (cc_cache c) !! a) as [m|]; [split; intros H; exact H|]. simpl. by rewrite lookup_empty.
  - destruct (HL nonunique_lane (conj nonunique_ok (fun _ => eq_refl))) as [N A]. pose proof (A a at_ Hat ltac:(by simpl; rewrite Eu) Ha) as Hag. intros e v.
    rewrite (stored_iff _ _ _ _ Hrd), <- (Hag e v). cbn [nonunique_lane l_has l_emp l_get l_map]. unfold get_entids. rewrite Ha0.
    unfold nonunique_has. cbn [fst snd]. destruct (ca_nonunique (cc_cache c) !! a) as [m|]; [split; intros H; exact H|]. simpl. by setoid_rewrite lookup_empty.
Qed.

Lemma under_get L st s o a : ov_lane L st s o -> under L (ov_inner o) a = default (l_emp L) (l_get L (ov_inner o) !! a).
Proof. intros H. unfold under. destruct (decide _) as [|Hn]; [done|]. by rewrite (ol_inner _ _ _ _ H a Hn). Qed.
(** Looking a key up in the overlay, then in the inner map *)
Lemma two_maps {K V} `{Countable K} (mo mi : option (gmap K V)) k : covers (default ∅ mi) (default (default ∅ mi) mo) ->
  match mo ≫= (.!! k) with Some v => Some v | None => mi ≫= (.!! k) end = default (default ∅ mi) mo !! k.
Proof.
  intros Hc. destruct mo as [mo|]; simpl in *.
  - destruct (mo !! k) eqn:E; [done|]. destruct mi as [mi|]; simpl in *; [|done]. specialize (Hc k). rewrite !elem_of_dom, E in Hc.
    destruct (mi !! k) eqn:E2; [|done]. destruct Hc as [? ?]; done.
  - destruct mi; simpl; [done|]. by rewrite lookup_empty.
Qed.

Lemma session_reads reverse mv c l i rs : caching reverse mv c -> tame_calls reverse mv (cc_cache c) (cc_begin c) l ->
  ci_steps mv (cc_begin c) l = Ok (i, rs) -> never_uninstalled (st_log (ig_store (ci_ig i))) -> session_ok reverse i.
Proof.
  intros Hc Ht Hs Hn. apply ci_steps_after in Hs as ->. apply (ci_calls_ok reverse mv l (cc_begin c)); try done.
  apply begin_ok. by eapply caching_holds.
Qed.
Lemma thm_session_forward reverse mv c l i rs : caching reverse mv c -> tame_calls reverse mv (cc_cache c) (cc_begin c) l ->
  ci_steps mv (cc_begin c) l = Ok (i, rs) -> never_uninstalled (st_log (ig_store (ci_ig i))) ->
  session_forward_agrees (ig_store (ci_ig i)) (ig_schema (ci_ig i)) (ci_cache i).
Proof.
  intros Hc Ht Hs Hn. destruct (session_reads _ _ _ _ _ _ Hc Ht Hs Hn) as (_ & C & HL). intros a at_ Hat Ha0.
  pose proof (proj1 (proj1 (cached_overlay _ _ _ a C)) Ha0) as Ha. destruct (oc_common _ _ _ C a (or_introl Ha)) as [_ Hrd].
  assert (a ∉ ov_unfwd (ci_cache i)) as Hnu by (by apply (oc_f1 _ _ _ C)).
  destruct (at_multival at_) eqn:Em.
  - pose proof (HL multi_lane (applies_forward _ _ multi_ok eq_refl)) as HM. pose proof (ol_agrees _ _ _ _ HM a at_ Hat Em Ha) as Hag.
    pose proof (ol_cov _ _ _ _ HM a) as Hcov. unfold base in Hag, Hcov. rewrite (under_get _ _ _ _ _ HM) in Hag, Hcov.
    intros e v. rewrite (stored_iff _ _ _ _ Hrd), <- (Hag e v). cbn [multi_lane l_has l_emp l_get l_map l_cov] in *. unfold ov_get_values.
    rewrite decide_False by done. unfold get_values, values_pairs. rewrite Hat. simpl. rewrite Em. unfold multi_has. cbn [fst snd].
    by rewrite (two_maps _ _ e Hcov).
  - pose proof (HL single_lane (applies_forward _ _ single_ok eq_refl)) as HM.
    pose proof (ol_agrees _ _ _ _ HM a at_ Hat ltac:(by simpl; rewrite Em) Ha) as Hag.
    pose proof (ol_cov _ _ _ _ HM a) as Hcov. unfold base in Hag, Hcov. rewrite (under_get _ _ _ _ _ HM) in Hag, Hcov.
    intros e v. rewrite (stored_iff _ _ _ _ Hrd), <- (Hag e v). cbn [single_lane l_has l_emp l_get l_map l_cov] in *. unfold ov_get_value.
    rewrite decide_False by done. unfold get_value_if_present, get_value, value_pairs. rewrite Hat. simpl. rewrite Em. unfold single_has. cbn [fst snd].
    rewrite <- (two_maps _ _ e Hcov). destruct (ca_single (ov_overlay (ci_cache i)) !! a) as [mo|]; simpl.
    + destruct (mo !! e) as [[w|]|]; simpl; try done. by destruct (ca_single (ov_inner (ci_cache i)) !! a).
    + by destruct (ca_single (ov_inner (ci_cache i)) !! a).
Qed.
Lemma thm_session_reverse mv c l i rs : caching true mv c -> tame_calls true mv (cc_cache c) (cc_begin c) l ->
  ci_steps mv (cc_begin c) l = Ok (i, rs) -> never_uninstalled (st_log (ig_store (ci_ig i))) ->
  session_reverse_agrees (ig_store (ci_ig i)) (ig_schema (ci_ig i)) (ci_cache i).
Proof.
  intros Hc Ht Hs Hn. destruct (session_reads _ _ _ _ _ _ Hc Ht Hs Hn) as (_ & C & HL). intros a at_ Hat Ha0.
  pose proof (proj1 (proj2 (cached_overlay _ _ _ a C)) Ha0) as Ha. destruct (oc_common _ _ _ C a (or_intror Ha)) as [_ Hrd].
  assert (a ∉ ov_unrev (ci_cache i)) as Hnu by (by apply (oc_r1 _ _ _ C)).
  assert (is_cached_reverse (ov_overlay (ci_cache i)) a = true) as HcO by (by apply bool_decide_eq_true).
  destruct (at_unique at_) eqn:Eu.
  - pose proof (HL unique_lane (conj unique_ok (fun _ => eq_refl))) as HM.
    pose proof (ol_agrees _ _ _ _ HM a at_ Hat ltac:(by simpl; rewrite Eu) Ha) as Hag.
    pose proof (ol_cov _ _ _ _ HM a) as Hcov. unfold base in Hag, Hcov. rewrite (under_get _ _ _ _ _ HM) in Hag, Hcov.
    intros e v. rewrite (stored_iff _ _ _ _ Hrd), <- (Hag e v). cbn [unique_lane l_has l_emp l_get l_map l_cov] in *. unfold ov_get_entid.
    rewrite decide_False by done. unfold get_entid_if_present, get_entid. rewrite HcO. unfold unique_has. cbn [fst snd].
    rewrite <- (two_maps _ _ v Hcov). destruct (ca_unique (ov_overlay (ci_cache i)) !! a ≫= _) as [x|] eqn:Ex; [by destruct x|].
    destruct (is_cached_reverse (ov_inner (ci_cache i)) a) eqn:EcI.
    + by destruct (ca_unique (ov_inner (ci_cache i)) !! a).
    + pose proof (ol_inner _ _ _ _ HM a) as Hin. cbn [unique_lane l_get l_map] in Hin. unfold l_cached in Hin. cbn [unique_lane l_rev] in Hin.
      rewrite Hin by (by apply bool_decide_eq_false in EcI). done.
  - pose proof (HL nonunique_lane (conj nonunique_ok (fun _ => eq_refl))) as HM.
    pose proof (ol_agrees _ _ _ _ HM a at_ Hat ltac:(by simpl; rewrite Eu) Ha) as Hag.
    pose proof (ol_cov _ _ _ _ HM a) as Hcov. unfold base in Hag, Hcov. rewrite (under_get _ _ _ _ _ HM) in Hag, Hcov.
    intros e v. rewrite (stored_iff _ _ _ _ Hrd), <- (Hag e v). cbn [nonunique_lane l_has l_emp l_get l_map l_cov] in *. unfold ov_get_entids.
    rewrite decide_False by done. unfold get_entids. rewrite HcO. unfold nonunique_has. cbn [fst snd].
    rewrite <- (two_maps _ _ v Hcov). destruct (ca_nonunique (ov_overlay (ci_cache i)) !! a ≫= _) as [x|] eqn:Ex; [done|].
    destruct (is_cached_reverse (ov_inner (ci_cache i)) a) eqn:EcI; [done|].
    pose proof (ol_inner _ _ _ _ HM a) as Hin. cbn [nonunique_lane l_get l_map] in Hin. unfold l_cached in Hin. cbn [nonunique_lane l_rev] in Hin.
    rewrite Hin by (by apply bool_decide_eq_false in EcI). done.
Qed.

Lemma commit_sets st s o c' : ov_common st s o -> commit_to o (ov_inner o) false = Ok c' ->
  ca_fwd c' = ca_fwd (ov_overlay o) /\ ca_rev c' = ca_rev (ov_overlay o).
Proof.
  intros C H. unfold commit_to in H. destruct (has_cached (ov_inner o)); cbn [negb] in H; injection H as <-; [|done].
  destruct (unregister_fold_sets (elements (ov_unfwd o ∪ ov_unrev o)) (ov_inner o)) as [Fd Rd].
  unfold caches_absorb. cbn [ca_fwd ca_rev]. rewrite Fd, Rd. split; apply set_eq; intros a;
    rewrite elem_of_union, elem_of_difference, elem_of_list_to_set, elem_of_elements, elem_of_union.
  - pose proof (oc_f2 _ _ _ C a). tauto.
  - pose proof (oc_r2 _ _ _ C a). tauto.
Qed.
Lemma thm_committed reverse mv c l i rs c' : caching reverse mv c -> tame_calls reverse mv (cc_cache c) (cc_begin c) l ->
  ci_steps mv (cc_begin c) l = Ok (i, rs) -> never_uninstalled (st_log (ig_store (ci_ig i))) ->
  cc_step mv c (CcSession l true false) = (c', Ok tt) ->
  forall a, is_cached_forward (cc_cache c') a = ov_cached_forward (ci_cache i) a /\ is_cached_reverse (cc_cache c') a = ov_cached_reverse (ci_cache i) a.
Proof.
  intros Hc Ht Hs Hn H a. cbn [cc_step] in H. unfold cc_session in H. rewrite Hs in H.
  pose proof (ci_steps_after _ _ _ _ _ Hs) as Ei. destruct (ci_calls_ok reverse mv l (cc_begin c)) as [(_ & C & _) Hin]; try done.
  { apply begin_ok. by eapply caching_holds. }
  { by rewrite <- Ei. }
  rewrite <- Ei in C, Hin. unfold cc_commit in H. destruct (conn_commit (cc_conn c) (ci_ig i)) as [[c1 x]| |]; [|done..].
  destruct (commit_to (ci_cache i) (cc_cache c) false) as [cache| |] eqn:Ec; [|done..]. injection H as <-. cbn [cc_cache].
  change (ov_inner (ci_cache (cc_begin c))) with (cc_cache c) in Hin. rewrite <- Hin in Ec. destruct (commit_sets _ _ _ _ C Ec) as [Ef Er].
  destruct (cached_overlay _ _ _ a C) as [H1 H2]. unfold is_cached_forward, is_cached_reverse. rewrite Ef, Er.
  split; apply eq_true_iff_eq; rewrite bool_decide_eq_true; by symmetry.
Qed.
Lemma thm_dropped mv c l shared : (cc_step mv c (CcSession l false shared)).1 = c.
Proof. cbn [cc_step]. unfold cc_session. by destruct (ci_steps mv (cc_begin c) l) as [[i rs]| |]. Qed.

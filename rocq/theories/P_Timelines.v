(** Rewinding. *)
From Verif Require Import M_Timelines Spec_Tx Spec_Conn Spec_Transact Spec_Timelines P_Base P_Partition P_Store P_Fill P_Value P_Step P_Meta P_Inv P_Upsert P_Resolve P_Conn P_TxProps.

(* ---------------------------------------------------------------- keys and facts *)

Lemma fact_iff_key m st f e a at_ tv v tag : datoms_ok m st -> extends (st_fts st) f -> m !! a = Some at_ -> stored_as f at_ tv v tag ->
  ((e, a, to_sql_value_pair tv) ∈ facts st <-> (e, a, tag, v) ∈ map d_key (st_datoms st)).
Proof.
  intros Hd Hx' Ha Hs. rewrite (facts_elem _ _ _ _ _ Hd), elem_of_list_fmap. split.
  - intros (d & at2 & tv2 & Hin & <- & <- & Ha2 & S2 & Ep). assert (at2 = at_) as -> by congruence.
    apply (stored_as_extends _ _ _ _ _ _ Hx') in S2. apply (stored_as_iff _ _ _ _ _ _ _ _ Hs S2) in Ep as [= -> ->].
    by exists d.
  - intros (d & [= -> -> -> ->] & Hin). destruct (Hd d Hin) as (at2 & Ha2 & (tv2 & S2) & _).
    assert (at2 = at_) as -> by congruence. exists d, at_, tv2. split_and!; try done.
    apply (stored_as_extends _ _ _ _ _ _ Hx') in S2. by apply (stored_as_iff _ _ _ _ _ _ _ _ Hs S2).
Qed.
(** Stores with the same keys have the same facts. *)
Lemma facts_of_keys m st st' f : datoms_ok m st -> datoms_ok m st' -> extends (st_fts st) f -> extends (st_fts st') f ->
  (forall k, k ∈ map d_key (st_datoms st) <-> k ∈ map d_key (st_datoms st')) -> forall x, x ∈ facts st <-> x ∈ facts st'.
Proof.
  intros H1 H2 X1 X2 Hk.
  assert (forall st st', datoms_ok m st -> datoms_ok m st' -> extends (st_fts st) f -> extends (st_fts st') f ->
    (forall k, k ∈ map d_key (st_datoms st) <-> k ∈ map d_key (st_datoms st')) -> forall x, x ∈ facts st -> x ∈ facts st') as K.
  { clear. intros st st' H1 H2 X1 X2 Hk [[e a] p] Hf. pose proof Hf as (d & at_ & tv & Hin & _ & _ & Ha & S & ->)%(facts_elem _ _ _ _ _ H1).
    apply (stored_as_extends _ _ _ _ _ _ X1) in S. apply (fact_iff_key m st' f e a at_ tv _ _ H2 X2 Ha S), Hk.
    by apply (fact_iff_key m st f e a at_ tv _ _ H1 X1 Ha S). }
  intros x. split; apply K; done.
Qed.

(* ---------------------------------------------------------------- the log as a history *)

(** The datom [k] is present after the transactions of [l]. *)
Definition live (l : list txrow) (k : Z * Z * Z * sqlval) : Prop := exists r, last (rows_of l k) = Some r /\ t_added r = true.
Definition live_one (m : gmap Z attribute) (l : list txrow) : Prop :=
  forall e a at_ t1 v1 t2 v2, m !! a = Some at_ -> at_multival at_ = false -> live l (e, a, t1, v1) -> live l (e, a, t2, v2) -> (t1, v1) = (t2, v2).
Definition rows_stored (m : gmap Z attribute) (f : list string) (l : list txrow) : Prop :=
  forall r, r ∈ l -> exists at_ tv, m !! t_a r = Some at_ /\ stored_as f at_ tv (t_v r) (t_tag r).

Lemma live_dec l k : live l k \/ ~ live l k.
Proof.
  unfold live. destruct (last (rows_of l k)) as [r|]; [|right; by intros (? & ? & _)].
  destruct (t_added r) eqn:E; [left; by exists r|right]. intros (r2 & [= <-] & ?). congruence.
Qed.
(** A transaction whose rows are effective *)
Lemma live_app l new k : NoDup (map t_key new) -> alternates true (map t_added (rows_of (l ++ new) k)) ->
  (live (l ++ new) k /\ ~ live l k <-> exists r, r ∈ new /\ t_key r = k /\ t_added r = true)
  /\ (live l k /\ ~ live (l ++ new) k <-> exists r, r ∈ new /\ t_key r = k /\ t_added r = false).
Proof.
  intros Hn Halt. unfold live. rewrite rows_of_app in *. destruct (rows_of_nodup new k Hn) as [E|(r & E & Hr & Hk)]; rewrite E in *.
  - rewrite app_nil_r in *. assert (forall b, ~ exists r, r ∈ new /\ t_key r = k /\ t_added r = b) as No.
    { intros b (r & Hr & Hk & _). assert (r ∈ rows_of new k) as K by by apply rows_of_elem. rewrite E in K. by apply elem_of_nil in K. }
    pose proof (No true). pose proof (No false). tauto.
  - rewrite last_snoc. rewrite map_app in Halt. apply alternates_snoc_inv in Halt. rewrite last_map in Halt.
    assert (forall b, (exists r0, r0 ∈ new /\ t_key r0 = k /\ t_added r0 = b) <-> t_added r = b) as Hb.
    { intros b. split; [|by exists r]. intros (r0 & Hr0 & Hk0 & <-). assert (r0 ∈ rows_of new k) as K by by apply rows_of_elem.
      rewrite E in K. by apply elem_of_list_singleton in K as ->. }
    rewrite !Hb.
    assert ((exists r0, Some r = Some r0 /\ t_added r0 = true) <-> t_added r = true) as Q2 by (split; [by intros (? & [= <-] & ?)|by exists r]).
    assert ((exists r0, last (rows_of l k) = Some r0 /\ t_added r0 = true) <-> t_added r = false) as Q0.
    { destruct (last (rows_of l k)) as [y|]; simpl in Halt; rewrite Halt.
      - rewrite negb_false_iff. split; [by intros (? & [= <-] & ?)|by exists y].
      - split; [by intros (? & ? & _)|done]. }
    rewrite Q2, Q0. destruct (t_added r); naive_solver.
Qed.
Lemma alternates_prefix l1 l2 : forall b, alternates b (l1 ++ l2) -> alternates b l1.
Proof. induction l1 as [|x l1 IH]; intros b; simpl; [done|]. intros [-> H]. split; [done|]. by apply IH. Qed.

(** The log [l] consists of [l1] and one segment per transaction (newest first). *)
Fixpoint built (m : gmap Z attribute) (f : list string) (from : Z) (l1 : list txrow) (segs : list (Z * list txrow)) (l : list txrow) : Prop :=
  match segs with
  | [] => l = l1 /\ live_one m l
  | (tx, new) :: segs => exists l0, built m f from l1 segs l0 /\ l = l0 ++ new /\ new <> []
      /\ (forall r, r ∈ new -> t_tx r = tx /\ t_timeline r = TIMELINE_MAIN) /\ from <= tx /\ (forall r, r ∈ l0 -> t_tx r < tx)
      /\ live_one m l /\ rows_stored m f new
  end.
Lemma built_live m f from l1 segs l : built m f from l1 segs l -> live_one m l.
Proof. destruct segs as [|[tx new] segs]; [by intros [_ ?]|]. by intros (l0 & _ & _ & _ & _ & _ & _ & ? & _). Qed.
Lemma built_mono m f g from l1 segs : extends f g -> forall l, built m f from l1 segs l -> built m g from l1 segs l.
Proof.
  intros Hx. induction segs as [|[tx new] segs IH]; intros l; [done|]. cbn [built].
  intros (l0 & H & -> & H1 & H2 & H3 & H4 & H5 & H6). exists l0. split_and!; try done; [by apply IH|].
  intros r Hr. destruct (H6 r Hr) as (at_ & tv & ? & ?). exists at_, tv. split; [done|]. by eapply stored_as_extends.
Qed.

(* ---------------------------------------------------------------- one transaction *)

Lemma reversed_terms_elem l ts : rmapM reversed_term l = Ok ts -> forall o e a v,
  Term o e a v ∈ ts <-> exists r, r ∈ l /\ t_e r = e /\ t_a r = a /\ from_sql_value_pair (t_v r) (t_tag r) = Ok v /\ o = (if t_added r then ORetract else OAdd).
Proof.
  intros H o e a v. apply rmapM_Ok in H. unfold reversed_term in H. split.
  - intros [i Hi]%elem_of_list_lookup. destruct (Forall2_lookup_r _ _ _ _ _ H Hi) as (r & Hr & E).
    apply rbind_Ok in E as (w & Hw & [= <- <- <- <-]). exists r. split_and!; try done. by eapply elem_of_list_lookup_2.
  - intros (r & Hr & <- & <- & Hv & ->). apply elem_of_list_lookup in Hr as [i Hi].
    destruct (Forall2_lookup_l _ _ _ _ _ H Hi) as (t & Ht & E). rewrite Hv in E. cbn [rbind] in E. injection E as <-.
    by eapply elem_of_list_lookup_2.
Qed.
Lemma reversed_terms_readable l ts r : rmapM reversed_term l = Ok ts -> r ∈ l -> exists v, from_sql_value_pair (t_v r) (t_tag r) = Ok v.
Proof.
  intros H Hr. apply rmapM_Ok in H. apply elem_of_list_lookup in Hr as [i Hi].
  destruct (Forall2_lookup_l _ _ _ _ _ H Hi) as (t & Ht & E). unfold reversed_term in E. apply rbind_Ok in E as (w & Hw & _). eauto.
Qed.

(** Terms without tempids are transacted as they are. *)
Lemma gen_from_inert s ts : gen_from s (map inert_term ts) = Ok (gen_empty, map inert_term ts).
Proof.
  unfold gen_from. change (map inert_term ts) with ([] ++ map inert_term ts) at 2. generalize (@nil term_t).
  induction ts as [|t ts IH]; intros acc; [by rewrite app_nil_r|]. cbn [map rfold gen_from_one inert_term tm_e tm_v rbind].
  rewrite IH. by rewrite <- app_assoc.
Qed.
Lemma resolve_inert mv st pm s ts ids r : resolve_terms mv st pm s (map inert_term ts) ids = Ok r ->
  rv_resolved r = [] /\ rv_allocated r = [] /\ rv_inert r = map inert_term ts.
Proof.
  unfold resolve_terms. rewrite gen_from_inert. cbn [rbind]. intros H. apply rbind_Ok in H as ([g tempids] & He & H).
  assert (g = gen_empty) as ->. { unfold evolve_fuel in He. simpl in He. by injection He as <- <-. }
  apply rbind_Ok in H as (labels & _ & H). apply rbind_Ok in H as ([start pm'] & _ & H).
  apply rbind_Ok in H as ([[up re] al] & Hf & H). unfold into_final_populations in Hf. simpl in Hf. injection Hf as <- <- <-.
  destruct (negb _); [done|]. destruct (negb _); [done|]. by injection H as <-.
Qed.
Lemma inert_term_inj t u : inert_term t = inert_term u -> t = u.
Proof. destruct t, u. unfold inert_term. simpl. by intros [= -> -> -> ->]. Qed.

Lemma NoDup_map_filter {A B} (g : A -> B) (Q : A -> Prop) `{forall x, Decision (Q x)} (l : list A) : NoDup (map g l) -> NoDup (map g (filter Q l)).
Proof.
  induction l as [|x l IH]; [done|]. cbn [map]. intros [Hx Hn]%NoDup_cons. rewrite filter_cons. destruct (decide (Q x)); [|by apply IH].
  cbn [map]. apply NoDup_cons. split; [|by apply IH]. intros (y & E & [_ Hy]%elem_of_list_filter)%elem_of_list_fmap. apply Hx. apply elem_of_list_fmap. by exists y.
Qed.
Lemma filter_swap {A} (P Q : A -> Prop) `{forall x, Decision (P x)} `{forall x, Decision (Q x)} (l : list A) : filter P (filter Q l) = filter Q (filter P l).
Proof. induction l as [|x l IH]; [done|]. rewrite !filter_cons. destruct (decide (Q x)), (decide (P x)); rewrite ?filter_cons, ?decide_True, ?decide_False by done; congruence. Qed.
Lemma datoms_unique_filter (Q : datom -> Prop) `{forall x, Decision (Q x)} ds : datoms_unique ds = true -> datoms_unique (filter Q ds) = true.
Proof.
  unfold datoms_unique. rewrite !andb_true_iff, !bool_decide_eq_true. intros [[H1 H2] H3]. split_and!.
  all: try rewrite (filter_swap _ Q); by apply NoDup_map_filter.
Qed.

Record rstate (m : gmap Z attribute) (f : list string) (l : list txrow) (st : store) : Prop := {
  rs_datoms : datoms_ok m st;
  rs_unique : datoms_unique (st_datoms st) = true;
  rs_fts : extends f (st_fts st);
  rs_live : forall k, k ∈ map d_key (st_datoms st) <-> live l k }.

Section rewind.
  Context (m : gmap Z attribute) (s : schema) (Hs : sc_attribute_map s = m) (Hi : instant_typed m).
  Context (mv now tx : Z) (l new : list txrow) (st st' : store) (pm : partition_map) (f : list string) (ts : list term_s) (r : txresult) (p : partition).
  Context (H0 : rstate m f (l ++ new) st) (Hone : live_one m l) (Hone' : live_one m (l ++ new)).
  Context (Hnew : NoDup (map t_key new)) (Halt : forall k, alternates true (map t_added (rows_of (l ++ new) k))).
  Context (Hst : rows_stored m (st_fts st) new) (Hdata : forall r, r ∈ new -> t_a r ∉ METADATA_LIST).
  Context (Hback : forall r v, r ∈ new -> from_sql_value_pair (t_v r) (t_tag r) = Ok v -> to_sql_value_pair v = (t_v r, t_tag r)).
  Context (Hp : pm !! ":db.part/tx" = Some p) (Htx : tx = pt_next p) (Hun : forall r, r ∈ l ++ new -> t_e r <> tx).
  Context (Hts : rmapM reversed_term new = Ok ts).

  Lemma row_plain r0 : r0 ∈ new -> exists at_ v, m !! t_a r0 = Some at_ /\ at_fulltext at_ = false
    /\ from_sql_value_pair (t_v r0) (t_tag r0) = Ok v /\ to_sql_value_pair v = (t_v r0, t_tag r0).
  Proof using Hst Hback Hts.
    intros Hr. destruct (Hst r0 Hr) as (at_ & tv & Ha & S). destruct (reversed_terms_readable _ _ _ Hts Hr) as (v & Hv).
    exists at_, v. split_and!; try done; [|by apply Hback]. destruct (at_fulltext at_) eqn:E; [|done]. destruct S as (T & Ee & Nn).
    destruct (enc_fulltext _ _ _ _ _ E Ee Nn) as (x & i & -> & _ & Ev & Et). rewrite Ev, Et in Hv. done.
  Qed.

  Lemma rewind_step : transact_terms mv now Materialize st pm s s (map rewrap ts) ∅ = (st', Ok r) ->
    rp_tx (tr_report r) = tx /\ tr_schema r = None /\ rstate m f l (remove_tx_from_datoms st' tx)
    /\ st_log st' = st_log st /\ st_parts st' = st_parts st.
  Proof using All.
    unfold transact_terms. destruct (pm_allocate pm ":db.part/tx" 1) as [[tx0 pm1]| |] eqn:Ep; [|done..]. intros H.
    apply tx_alloc in Ep as (p0 & Hp0 & E0 & _). assert (tx0 = tx) as -> by congruence. clear E0 Hp0 p0.
    apply transact_simple_Ok in H as (rv & tr & Hrv & Htr & Hwf & Hap & _ & Hrtx & _).
    apply (resolve_inert mv st pm1 s ts ∅ rv) in Hrv as (R1 & R2 & R3). rewrite R1, R2, R3 in Htr.
    apply into_aev_trie_Ok in Htr as (_ & _ & Hreq). clear R1 R2 R3.
    assert (forall o e a v, req tr o e a v <-> Term o e a v ∈ ts) as Hreq1.
    { intros o e a v. rewrite Hreq, !elem_of_nil. split.
      - intros [[]|[[]|(t & E%inert_term_inj & Ht)%elem_of_list_fmap]]. by subst.
      - intros Ht. right. right. apply elem_of_list_fmap. by eexists. }
    clear Hreq. apply apply_trie_Ok in Hap as (tr' & st1 & exact & inexact & st2 & rs & Hty & Hnc & Hins & Hf & Hm & He & _).
    destruct Hi as (ati & Hai & Hati).
    destruct (tx_instant_checks _ _ _ _ _ _ Hwf ltac:(intros x Hx; congruence) Hty (no_conflict_one_add _ _ Hwf Hnc) Hins) as [Hty' Hone2].
    destruct (tx_instant_Ok _ _ _ _ _ _ Hwf Hins) as (Hwf' & _ & Hreq & _ & _).
    apply fill_searches_Ok in Hf as (f' & Hfill). unfold materialize in Hm. pose proof (fi_st _ _ _ _ _ _ Hfill) as E1.
    assert (st_datoms st1 = st_datoms st) as Ed by by rewrite E1. rewrite Ed in Hm.
    destruct (search (st_datoms st) exact inexact) as [rs0| |] eqn:Hsearch; [|done..].
    apply with_st_Ok in Hm as (st3 & u & Hup & [= <- <-]). apply update_datoms_Ok in Hup as [E3 Huq]. rewrite Ed in E3.
    assert (existsb (fun r => might_update_metadata (r_a r)) (trie_reduced tr') = false) as Emeta.
    { apply not_true_iff_false. intros (x & Hx & Hmx)%existsb_elem. apply bool_decide_eq_true in Hmx.
      apply trie_reduced_elem in Hx as (en & Hen & _ & Hv).
      assert (req tr' (if r_added x then OAdd else ORetract) (r_e x) (r_a x) (r_v x)) as Hq by (exists en; split; [done|]; by destruct (r_added x)).
      apply Hreq in Hq as [Hq|(_ & _ & E & _)].
      - apply Hreq1, (reversed_terms_elem _ _ Hts) in Hq as (r0 & Hr0 & _ & E & _). rewrite <- E in Hmx. by eapply Hdata.
      - rewrite E in Hmx. revert Hmx. clear. unfold METADATA_LIST. rewrite !elem_of_cons, elem_of_nil. naive_solver. }
    rewrite Emeta in He. injection He as <- <-. clear Emeta.
    assert (st_datoms st3 = after_delete (st_datoms st) rs0 ++ map (datom_of_search tx) (added_rows rs0)) as Eds by by rewrite E3.
    assert (st_fts st3 = f') as Ef by by rewrite E3, E1.
    pose proof (datoms_unique_key _ (rs_unique _ _ _ _ H0)) as Hkeys. pose proof (rs_datoms _ _ _ _ H0) as Hdat.
    pose proof (fi_ext _ _ _ _ _ _ Hfill) as Hx.
    assert (datoms_ok m st3) as Hdat3.
    { intros d Hd. rewrite Eds in Hd. rewrite Ef. eapply step_ok; eauto. }
    split; [done|]. split; [done|]. split; [|split; by rewrite E3, E1].
    (* requests are rows *)
    assert (forall o e a q, e <> tx -> asked tr' o e a q -> exists r0, r0 ∈ new /\ t_e r0 = e /\ t_a r0 = a /\ q = (t_v r0, t_tag r0)
      /\ o = (if t_added r0 then ORetract else OAdd)) as Hask.
    { intros o e a q Hne (v & Hv & <-). apply Hreq in Hv as [Hv|(_ & E & _)]; [|done].
      apply Hreq1, (reversed_terms_elem _ _ Hts) in Hv as (r0 & Hr0 & <- & <- & Hv & ->). exists r0. split_and!; try done. by apply Hback. }
    assert (forall r0, r0 ∈ new -> asked tr' (if t_added r0 then ORetract else OAdd) (t_e r0) (t_a r0) (t_v r0, t_tag r0)) as Hask'.
    { intros r0 Hr0. destruct (row_plain r0 Hr0) as (at_ & v & _ & _ & Hv & Hpv). exists v. split; [|done]. apply Hreq. left.
      apply Hreq1, (reversed_terms_elem _ _ Hts). by exists r0. }
    (* the effect on a key *)
    assert (forall e a tag v at_ tv, e <> tx -> m !! a = Some at_ -> stored_as f' at_ tv v tag ->
      ((e, a, tag, v) ∈ map d_key (st_datoms st3) <-> live l (e, a, tag, v))) as Hkey.
    { intros e a tag v at_ tv Hne Ha S.
      rewrite <- (fact_iff_key m st3 f' e a at_ tv v tag Hdat3 ltac:(rewrite Ef; apply extends_refl) Ha S).
      rewrite (facts_step m s Hs st st1 tx tr' f' exact inexact rs0 Hwf' Hty' Hfill Hsearch Hdat Hkeys st3 e a (to_sql_value_pair tv) at_ Eds Ef Ha).
      pose proof (fact_iff_key m st f' e a at_ tv v tag Hdat Hx Ha S) as Hold. rewrite (rs_live _ _ _ _ H0) in Hold.
      destruct (live_app l new (e, a, tag, v) Hnew (Halt _)) as [LA LR].
      assert (forall b, asked tr' (if b : bool then ORetract else OAdd) e a (to_sql_value_pair tv) <->
        exists r0, r0 ∈ new /\ t_key r0 = (e, a, tag, v) /\ t_added r0 = b) as HR.
      { intros b. split.
        - intros (r0 & Hr0 & <- & <- & Ev & Eb)%Hask; [|done]. exists r0. split; [done|]. split; [|by destruct (t_added r0), b].
          destruct (row_plain r0 Hr0) as (at2 & _ & Ha2 & Hft & _). assert (at2 = at_) as -> by congruence.
          destruct S as (_ & Ee & _). rewrite enc_plain, Ev in Ee by done. injection Ee as -> ->. done.
        - intros (r0 & Hr0 & Hk & <-). unfold t_key in Hk. injection Hk as <- <- <- <-.
          destruct (row_plain r0 Hr0) as (at2 & _ & Ha2 & Hft & _). assert (at2 = at_) as -> by congruence.
          destruct S as (_ & Ee & _). rewrite enc_plain in Ee by done. rewrite <- Ee. by apply Hask'. }
      pose proof (HR true) as HRt. pose proof (HR false) as HRf. cbn beta iota in HRt, HRf. rewrite <- HRt in LA. rewrite <- HRf in LR.
      destruct (live_dec l (e, a, tag, v)) as [D|D], (live_dec (l ++ new) (e, a, tag, v)) as [D'|D'];
        destruct (at_multival at_) eqn:Emv; rewrite Hold; try tauto.
      - (* kept *) split; [done|]. intros _. left. split; [done|]. split.
        + intros q (r0 & Hr0 & He0 & Ha0 & -> & Eo)%Hask; [|done].
          assert (t_added r0 = true) as Hadd by by destruct (t_added r0).
          destruct (live_app l new (t_key r0) Hnew (Halt _)) as [LA0 _].
          destruct (proj2 LA0) as [L1 L2]; [by exists r0|]. unfold t_key in L1, L2. rewrite He0, Ha0 in L1, L2.
          pose proof (Hone' _ _ _ _ _ _ _ Ha Emv D' L1) as [= Et Ev]. rewrite <- Et, <- Ev in L2. done.
        + intros q (r0 & Hr0 & He0 & Ha0 & -> & Eo)%Hask; [|done].
          assert (t_added r0 = false) as Hadd by by destruct (t_added r0).
          destruct (live_app l new (t_key r0) Hnew (Halt _)) as [_ LR0].
          destruct (proj2 LR0) as [L1 L2]; [by exists r0|]. unfold t_key in L1, L2. rewrite He0, Ha0 in L1, L2.
          pose proof (Hone _ _ _ _ _ _ _ Ha Emv D L1) as [= Et Ev]. rewrite <- Et, <- Ev in L2. done.
      - split; [|done]. intros [(_ & Hno & _)|[_ ?]]; [|done]. exfalso. apply (Hno (to_sql_value_pair tv)). by apply LA. }
    assert (forall k, live l k -> k.1.1.1 <> tx) as Hlun.
    { intros k (r0 & Hl & _). apply last_elem, rows_of_elem in Hl as [Hr0 <-]. apply Hun. set_solver. }
    split.
    - intros d Hd. apply elem_of_list_filter in Hd as [_ Hd]. exact (Hdat3 d Hd).
    - by apply datoms_unique_filter.
    - change (extends f (st_fts st3)). rewrite Ef. eapply extends_trans; [apply H0|done].
    - intros [[[e a] tag] v].
      assert ((e, a, tag, v) ∈ map d_key (st_datoms (remove_tx_from_datoms st3 tx)) <-> (e, a, tag, v) ∈ map d_key (st_datoms st3) /\ e <> tx) as ->.
      { unfold remove_tx_from_datoms, set_datoms. cbn [st_datoms]. rewrite !elem_of_list_fmap. split.
        - intros (d & Hk & [Hne Hd]%elem_of_list_filter). unfold d_key in Hk. injection Hk as -> -> -> ->. split; [|done]. by exists d.
        - intros [(d & Hk & Hd) Hne]. exists d. split; [done|]. apply elem_of_list_filter. split; [|done]. unfold d_key in Hk. injection Hk as -> -> -> ->. done. }
      split.
      + intros [Hk Hne]. pose proof Hk as (d & E & Hd)%elem_of_list_fmap. destruct (Hdat3 d Hd) as (at_ & Ha & (tv & S) & _).
        unfold d_key in E. injection E as -> -> -> ->. rewrite Ef in S. by apply (Hkey _ _ _ _ at_ tv).
      + intros Hl. pose proof (Hlun _ Hl) as Hne. cbn [fst] in Hne. split; [|done].
        assert (exists at_ tv, m !! a = Some at_ /\ stored_as f' at_ tv v tag) as (at_ & tv & Ha & S); [|by apply (Hkey _ _ _ _ at_ tv)].
        destruct (live_dec (l ++ new) (e, a, tag, v)) as [D'|D'].
        * apply (rs_live _ _ _ _ H0), elem_of_list_fmap in D' as (d & E & Hd). destruct (Hdat d Hd) as (at_ & Ha & (tv & S) & _).
          unfold d_key in E. injection E as -> -> -> ->. exists at_, tv. split; [done|]. by eapply stored_as_extends.
        * destruct (live_app l new (e, a, tag, v) Hnew (Halt _)) as [_ LR]. destruct (proj1 LR) as (r0 & Hr0 & Hk & _); [done|].
          unfold t_key in Hk. injection Hk as <- <- <- <-. destruct (Hst r0 Hr0) as (at_ & tv & Ha & S). exists at_, tv. split; [done|]. by eapply stored_as_extends.
  Qed.
End rewind.

(* ---------------------------------------------------------------- all transactions *)

Lemma built_rows m f from l1 segs : forall l, built m f from l1 segs l -> forall r, r ∈ l <-> r ∈ l1 \/ exists tx new, (tx, new) ∈ segs /\ r ∈ new.
Proof.
  induction segs as [|[tx new] segs IH]; intros l; cbn [built].
  - intros [-> _] r. split; [by left|]. intros [?|(? & ? & H & _)]; [done|by apply elem_of_nil in H].
  - intros (l0 & H & -> & _) r. rewrite elem_of_app, (IH _ H). split.
    + intros [[?|(t & n & Hin & Hr)]|Hr]; [by left|right; exists t, n; split; [by right|done]|right; exists tx, new; split; [by left|done]].
    + intros [?|(t & n & Hin & Hr)]; [by left; left|]. apply elem_of_cons in Hin as [[= -> ->]|Hin]; [by right|left; right; eauto].
Qed.
Lemma built_segs m f from l1 segs : forall l, built m f from l1 segs l -> forall tx new, (tx, new) ∈ segs ->
  new <> [] /\ (forall r, r ∈ new -> t_tx r = tx /\ t_timeline r = TIMELINE_MAIN) /\ from <= tx.
Proof.
  induction segs as [|[tx new] segs IH]; intros l; cbn [built]; [by intros _ ? ? ?%elem_of_nil|].
  intros (l0 & H & -> & Hn & Hr & Hf & _) t n [[= -> ->]|Hin]%elem_of_cons; [done|]. by eapply IH.
Qed.
Lemma filter_none_of {A} (P : A -> Prop) `{forall x, Decision (P x)} (l : list A) : (forall x, x ∈ l -> ~ P x) -> filter P l = [].
Proof.
  induction l as [|x l IH]; intros Hl; [done|]. rewrite filter_cons, decide_False by (apply Hl; by left). apply IH. intros y Hy. apply Hl. by right.
Qed.
Lemma filter_all_of {A} (P : A -> Prop) `{forall x, Decision (P x)} (l : list A) : (forall x, x ∈ l -> P x) -> filter P l = l.
Proof.
  induction l as [|x l IH]; intros Hl; [done|]. rewrite filter_cons, decide_True by (apply Hl; by left). f_equal. apply IH. intros y Hy. apply Hl. by right.
Qed.
Lemma built_filter m f from l1 segs : (forall r, r ∈ l1 -> t_tx r < from) -> forall l, built m f from l1 segs l -> forall tx new, (tx, new) ∈ segs ->
  filter (fun r => t_tx r = tx /\ t_timeline r = TIMELINE_MAIN) l = new.
Proof.
  intros Hl1. induction segs as [|[tx new] segs IH]; intros l; cbn [built]; [by intros _ ? ? ?%elem_of_nil|].
  intros (l0 & H & -> & Hn & Hr & Hf & Hlt & _) t n Hin. rewrite filter_app. apply elem_of_cons in Hin as [[= -> ->]|Hin].
  - rewrite filter_none_of by (intros r Hr0 [E _]; apply Hlt in Hr0; lia). by apply filter_all_of.
  - rewrite (IH _ H _ _ Hin). rewrite filter_none_of; [by rewrite app_nil_r|]. intros r Hr0 [E _].
    destruct (built_segs _ _ _ _ _ _ H _ _ Hin) as (Hne & Hrn & _). destruct n as [|r1 n]; [done|].
    assert (t_tx r1 < tx) as H1. { apply Hlt, (built_rows _ _ _ _ _ _ H). right. exists t, (r1 :: n). split; [done|by left]. }
    destruct (Hrn r1) as [E1 _]; [by left|]. destruct (Hr r Hr0) as [E2 _]. lia.
Qed.

Lemma StronglySorted_snoc {A} (R : A -> A -> Prop) (l : list A) x : StronglySorted R l -> (forall y, y ∈ l -> R y x) -> StronglySorted R (l ++ [x]).
Proof.
  induction l as [|y l IH]; intros Hs Hx; [by repeat constructor|]. inversion_clear Hs as [|? ? Hs' Hy]. simpl. constructor.
  - apply IH; [done|]. intros z Hz. apply Hx. by right.
  - apply Forall_app. split; [done|]. constructor; [|done]. apply Hx. by left.
Qed.
Lemma built_txs m f from l1 segs : forall l, built m f from l1 segs l -> StronglySorted Z.lt (rev (map fst segs)).
Proof.
  induction segs as [|[tx new] segs IH]; intros l; cbn [built]; [constructor|]. intros (l0 & H & -> & Hn & Hr & Hf & Hlt & _).
  cbn [map fst rev]. apply StronglySorted_snoc; [by eapply IH|]. intros t Ht.
  apply elem_of_list_In, in_rev, elem_of_list_In, elem_of_list_fmap in Ht as ([t' n] & -> & Hin). cbn [fst].
  destruct (built_segs _ _ _ _ _ _ H _ _ Hin) as (Hne & Hrn & _). destruct n as [|r1 n]; [done|]. destruct (Hrn r1) as [E1 _]; [by left|]. rewrite <- E1.
  apply Hlt, (built_rows _ _ _ _ _ _ H). right. exists t', (r1 :: n). split; [done|by left].
Qed.
Lemma collect_built m f from l1 segs st txs : (forall r, r ∈ l1 -> t_tx r < from) -> built m f from l1 segs (st_log st) ->
  collect_ordered_txs_to_move st from TIMELINE_MAIN = Ok txs -> txs = map fst segs.
Proof.
  intros Hl1 Hb H. unfold collect_ordered_txs_to_move in H.
  set (l := merge_sort _ _) in H.
  assert (l = rev (map fst segs)) as El.
  { pose proof (built_txs _ _ _ _ _ _ Hb) as Hss.
    assert (forall x, x ∈ l <-> x ∈ rev (map fst segs)) as Hel.
    { intros x. unfold l. rewrite merge_sort_elem, elem_of_remove_dups, elem_of_list_fmap. rewrite (elem_of_list_In (rev _)), <- in_rev, <- elem_of_list_In, elem_of_list_fmap. split.
      - intros (r & -> & [[Hf _] Hr]%elem_of_list_filter). apply (built_rows _ _ _ _ _ _ Hb) in Hr as [Hr|(tx & new & Hin & Hr)]; [apply Hl1 in Hr; lia|].
        exists (tx, new). split; [|done]. destruct (built_segs _ _ _ _ _ _ Hb _ _ Hin) as (_ & Hrn & _). by apply Hrn.
      - intros ([tx new] & -> & Hin). destruct (built_segs _ _ _ _ _ _ Hb _ _ Hin) as (Hne & Hrn & Hf). destruct new as [|r1 n]; [done|].
        destruct (Hrn r1) as [E1 E2]; [by left|]. exists r1. split; [done|]. apply elem_of_list_filter. split; [split; [lia|done]|].
        apply (built_rows _ _ _ _ _ _ Hb). right. exists tx, (r1 :: n). split; [done|by left]. }
    assert (NoDup (rev (map fst segs))) as Hnd.
    { clear -Hss. induction Hss as [|x l Hs IH Hx]; constructor; [|done]. intros Hin. rewrite Forall_forall in Hx. specialize (Hx _ Hin). lia. }
    apply (Sorted_unique Z.le).
    - unfold l. apply Sorted_merge_sort; apply _.
    - apply StronglySorted_Sorted. clear -Hss. induction Hss as [|x l Hs IH Hx]; constructor; [done|]. eapply Forall_impl; [exact Hx|]. simpl. lia.
    - apply NoDup_Permutation; [|done|done]. unfold l. rewrite merge_sort_Permutation. apply NoDup_remove_dups. }
  rewrite El, rev_involutive in H. destruct (map fst segs); [done|]. by injection H as <-.
Qed.

Lemma rewind_all_ok m s mv now pm p f from l1 : sc_attribute_map s = m -> instant_typed m -> pm !! ":db.part/tx" = Some p ->
  (forall r, r ∈ l1 -> t_tx r < from) ->
  forall segs l st last st' sc, built m f from l1 segs l -> rstate m f l st ->
  (forall k, alternates true (map t_added (rows_of l k))) -> NoDup (map (fun r => (t_tx r, t_key r)) l) ->
  (forall r, r ∈ l -> from <= t_tx r -> t_a r ∉ METADATA_LIST) ->
  (forall r v, r ∈ l -> from <= t_tx r -> from_sql_value_pair (t_v r) (t_tag r) = Ok v -> to_sql_value_pair v = (t_v r, t_tag r)) ->
  (forall r, r ∈ l -> t_e r <> pt_next p) ->
  (forall tx new, (tx, new) ∈ segs -> filter (fun r => t_tx r = tx /\ t_timeline r = TIMELINE_MAIN) (st_log st) = new) ->
  rewind_all mv now st s pm (map fst segs) last = (st', Ok sc) ->
  rstate m f l1 st' /\ st_log st' = st_log st /\ st_parts st' = st_parts st /\ (last = None -> sc = None).
Proof.
  intros Hs Hi Hp Hl1. induction segs as [|[tx new] segs IH]; intros l st last st' sc Hb H0 Halt Hnd Hdata Hback Hun Hseg H.
  - destruct Hb as [-> _]. cbn [map rewind_all] in H. by injection H as <- <-.
  - cbn [map fst rewind_all] in H. apply with_st_Ok in H as (st1 & sc1 & H1 & H). pose proof (built_live _ _ _ _ _ _ Hb) as Hone'.
    cbn [built] in Hb. destruct Hb as (l0 & Hb & -> & Hne & Hr & Hf & Hlt & _ & Hrs).
    unfold rewind_one in H1. unfold reversed_terms_for in H1. rewrite (Hseg tx new) in H1 by by left.
    destruct (rmapM reversed_term new) as [ts| |] eqn:Ets; [|done..]. apply with_st_Ok in H1 as (st2 & r & Ht & [= <- <-]).
    assert (NoDup (map t_key new)) as Hkn.
    { rewrite map_app in Hnd. apply NoDup_app in Hnd as (_ & _ & Hnd).
      assert (map (fun r => (t_tx r, t_key r)) new = map (pair tx) (map t_key new)) as E.
      { rewrite map_map. apply map_ext_in. intros r0 Hr0%elem_of_list_In. by destruct (Hr r0 Hr0) as [-> _]. }
      rewrite E in Hnd. by apply NoDup_fmap_1 in Hnd. }
    assert (forall r, r ∈ new -> r ∈ l0 ++ new /\ from <= t_tx r) as Hin.
    { intros r0 Hr0. split; [set_solver|]. destruct (Hr r0 Hr0) as [-> _]. done. }
    destruct (rewind_step m s Hs Hi mv now (pt_next p) l0 new st st2 pm f ts r p H0 (built_live _ _ _ _ _ _ Hb) Hone' Hkn Halt) as (E1 & E2 & H2 & E3 & E4); try done.
    { intros r0 Hr0. destruct (Hrs r0 Hr0) as (at_ & tv & ? & ?). exists at_, tv. split; [done|]. eapply stored_as_extends; [apply H0|done]. }
    { intros r0 Hr0. apply Hdata; by apply Hin. }
    { intros r0 v Hr0. apply Hback; by apply Hin. }
    rewrite E1, E2 in H.
    destruct (IH l0 (remove_tx_from_datoms st2 (pt_next p)) None st' sc Hb H2) as (G1 & G2 & G3 & G4); try done.
    + intros k. specialize (Halt k). rewrite rows_of_app, map_app in Halt. by eapply alternates_prefix.
    + rewrite map_app in Hnd. by apply NoDup_app in Hnd as [? _].
    + intros r0 Hr0. apply Hdata. set_solver.
    + intros r0 v Hr0. apply Hback. set_solver.
    + intros r0 Hr0. apply Hun. set_solver.
    + intros t n Hin'. change (st_log (remove_tx_from_datoms st2 (pt_next p))) with (st_log st2). rewrite E3. apply Hseg. by right.
    + split; [done|]. split; [by rewrite G2|]. split; [by rewrite G3|]. intros _. by apply G4.
Qed.

(* ---------------------------------------------------------------- histories are built of transactions *)

Lemma no_quads s : exists rep, update_schema_from_entid_quadruples s [] = Ok (s, rep).
Proof. destruct s. eexists. unfold update_schema_from_entid_quadruples. cbn [rfold rbind]. reflexivity. Qed.

Lemma m_schema m : exists s, sc_attribute_map s = m.
Proof. by exists (Schema ∅ ∅ m []). Qed.
Lemma live_one_store m st n : store_ok m st n -> transactions st = st_log st -> live_one m (st_log st).
Proof.
  intros H Et e a at_ t1 v1 t2 v2 Ha Hm L1 L2. rewrite <- Et in L1, L2.
  assert (forall t v, live (transactions st) (e, a, t, v) -> exists tv, stored_as (st_fts st) at_ tv v t /\ (e, a, to_sql_value_pair tv) ∈ facts st) as K.
  { intros t v L. pose proof L as Hk%(last_true_present st _ (so_log _ _ _ H)). pose proof Hk as (d & E & Hd)%elem_of_list_fmap.
    destruct (so_datoms _ _ _ H d Hd) as (at2 & Ha2 & (tv & S) & _). unfold d_key in E. injection E as -> -> -> ->.
    assert (at2 = at_) as -> by congruence. exists tv. split; [done|].
    by apply (fact_iff_key m st (st_fts st) _ _ at_ tv _ _ (so_datoms _ _ _ H) (extends_refl _) Ha S). }
  destruct (K _ _ L1) as (tv1 & S1 & F1). destruct (K _ _ L2) as (tv2 & S2 & F2).
  destruct (m_schema m) as (s & Hs).
  pose proof (so_card _ _ _ H s Hs e a at_ _ _ ltac:(by rewrite Hs) Hm F1 F2) as E.
  apply (stored_as_iff _ _ _ _ _ _ _ _ S1 S2) in E. congruence.
Qed.

Lemma transactions_all st : (forall r, r ∈ st_log st -> t_timeline r = TIMELINE_MAIN) -> transactions st = st_log st.
Proof. intros H. unfold transactions. by apply filter_all_of. Qed.

(** A transaction about data only *)
Lemma transact_data mv now st pm pm1 s tx ts ids st' r from l1 segs :
  db_ok st pm s -> pm_allocate pm ":db.part/tx" 1 = Ok (tx, pm1) ->
  transact_simple_terms mv now MaterializeAndCommit st pm1 s s tx ts ids = (st', Ok r) ->
  (forall x, x ∈ st_log st' -> x ∈ l1 \/ from <= t_tx x) ->
  (forall x, x ∈ st_log st' -> from <= t_tx x -> t_a x ∉ METADATA_LIST) ->
  built (sc_attribute_map s) (st_fts st) from l1 segs (st_log st) ->
  default s (tr_schema r) = s /\ extends (st_fts st) (st_fts st') /\ exists segs', built (sc_attribute_map s) (st_fts st') from l1 segs' (st_log st').
Proof.
  intros H Hal Ht Hsince Hdata Hb. pose proof (ok_instant _ _ _ H) as (ati & Hai & Hati). destruct H as [(p & Hp & H0 & _) _ _ _ _ _].
  apply tx_alloc in Hal as (p0 & Hp0 & -> & _). assert (p0 = p) as -> by congruence.
  apply transact_simple_Ok in Ht as (rv & tr & _ & _ & Hwf & Hap & _).
  apply apply_trie_Ok in Hap as (tr' & st1 & exact & inexact & st2 & rs & Hty & Hnc & Hins & Hf & Hm & He & _).
  destruct (tx_instant_checks _ _ _ _ _ _ Hwf ltac:(intros x Hx; congruence) Hty (no_conflict_one_add _ _ Hwf Hnc) Hins) as [Hty' Hone'].
  destruct (tx_instant_Ok _ _ _ _ _ _ Hwf Hins) as (Hwf' & _ & _).
  apply fill_searches_Ok in Hf as (f & Hfill).
  destruct (materialize_ok _ s st st1 st2 (pt_next p) tr' f exact inexact rs eq_refl H0 Hwf' Hty' Hone' Hfill Hm) as (H2 & Ef & _ & _ & _ & Hs & Ed & El).
  pose proof (fi_ext _ _ _ _ _ _ Hfill) as Hx. rewrite <- Ef in Hx.
  assert (st_log st' = st_log st2) as Elog.
  { destruct (existsb _ _); [|by injection He as <- _]. unfold evolve_metadata in He. destruct (rbind _ _) as [[new rep]| |]; [|done..].
    case_decide; [by injection He as <- _|]. apply with_st_Ok in He as (st3 & u & Hum & [= <- _]).
    pose proof (update_metadata_log st2 new rep) as Hl. by rewrite Hum in Hl. }
  rewrite Elog in *. set (new := log_adds (pt_next p) rs ++ log_retracts (pt_next p) rs) in *.
  assert (forall x, x ∈ new -> t_tx x = pt_next p /\ t_timeline x = TIMELINE_MAIN) as Hnew.
  { intros x [Hr|Hr]%elem_of_app.
    - apply log_adds_elem in Hr as (t & _ & ->). done.
    - unfold log_retracts in Hr. apply distinct_elem, elem_of_list_omap in Hr as (y & _ & Hy).
      destruct (sr_retracts y); [|done]. apply fmap_Some in Hy as (d & _ & ->). done. }
  assert (forall x, x ∈ new -> from <= pt_next p) as Hge.
  { intros x Hx'. destruct (Hnew x Hx') as [E _]. destruct (Hsince x) as [Hl|?]; [rewrite El; set_solver| |lia].
    assert (x ∈ st_log st) as Hin by (apply (built_rows _ _ _ _ _ _ Hb); by left). apply (so_tx _ _ _ H0) in Hin. lia. }
  assert (st' = st2 /\ tr_schema r = None) as [-> Esc].
  { destruct (existsb _ _); [|by injection He as <- <-]. unfold evolve_metadata in He.
    assert (committed_metadata_assertions st2 (pt_next p) = Ok []) as Eq.
    { unfold committed_metadata_assertions. rewrite filter_none_of; [done|]. intros x [_ Hin]%elem_of_list_filter [E Hmd].
      rewrite El in Hin. apply elem_of_app in Hin as [Hin|Hin]; [apply (so_tx _ _ _ H0) in Hin; lia|].
      apply (Hdata x); [rewrite El; set_solver| |done]. apply Hge in Hin. lia. }
    rewrite Eq in He. cbn [rbind] in He. destruct (no_quads s) as (rep & Es). rewrite Es in He. rewrite decide_True in He by done. by injection He as <- <-. }
  rewrite Esc. split; [done|]. split; [done|].
  apply (built_mono _ _ _ _ _ _ Hx) in Hb. destruct new as [|x0 new'] eqn:En.
  - exists segs. by rewrite El, app_nil_r.
  - rewrite <- En in *. exists ((pt_next p, new) :: segs). cbn [built]. exists (st_log st). split_and!; try done.
    + by rewrite En.
    + apply (Hge x0). rewrite En. by left.
    + apply (so_tx _ _ _ H0).
    + apply (live_one_store _ _ _ H2). apply transactions_all, H2.
    + intros x Hx'. exact (row_stored _ st st2 (pt_next p) new H0 H2 Hx El Hnew x Hx').
Qed.

Definition grown (f0 : list string) (m : gmap Z attribute) (from : Z) (l1 : list txrow) (st : store) (s : schema) : Prop :=
  sc_attribute_map s = m /\ extends f0 (st_fts st) /\ exists segs, built m (st_fts st) from l1 segs (st_log st).
Definition data_log (from : Z) (l1 l : list txrow) : Prop :=
  (forall x, x ∈ l -> x ∈ l1 \/ from <= t_tx x) /\ (forall x, x ∈ l -> from <= t_tx x -> t_a x ∉ METADATA_LIST).
Lemma data_log_app from l1 l new : data_log from l1 (l ++ new) -> data_log from l1 l.
Proof. intros [H1 H2]. split; intros x Hx; [apply H1|apply H2]; set_solver. Qed.

Lemma transact_simple_grown mv now st pm pm1 s tx ts ids st' r f0 m from l1 :
  db_ok st pm s -> pm_allocate pm ":db.part/tx" 1 = Ok (tx, pm1) ->
  transact_simple_terms mv now MaterializeAndCommit st pm1 s s tx ts ids = (st', Ok r) -> data_log from l1 (st_log st') ->
  grown f0 m from l1 st s -> grown f0 m from l1 st' (default s (tr_schema r)).
Proof.
  intros H0 Hal Ht [D1 D2] (Hm & Hx0 & segs & Hb). rewrite <- Hm in Hb. destruct (transact_data _ _ _ _ _ _ _ _ _ _ _ _ _ _ H0 Hal Ht D1 D2 Hb) as (-> & Hx1 & segs' & Hb').
  split; [done|]. split; [by eapply extends_trans|]. rewrite Hm in Hb'. by exists segs'.
Qed.
Lemma ig_step_grown mv ig o ig' r f0 m from l1 : ig_ok ig -> ig_step mv ig o = (ig', r) -> (match o with OpRollbackTo _ => False | _ => True end) ->
  r = Ok tt \/ ig_store ig' = ig_store ig -> data_log from l1 (st_log (ig_store ig')) ->
  grown f0 m from l1 (ig_store ig) (ig_schema ig) -> grown f0 m from l1 (ig_store ig') (ig_schema ig').
Proof.
  intros H0 H Ho Hr Hd Hg. destruct o as [now es|now ts ids|n|n|n]; simpl in H; try done.
  - unfold ig_transact, ig_transacted in H.
    destruct (ig_watch_same ig (watch_transact mv now (ig_store ig) (ig_parts ig) (ig_schema ig) es)) as (W1 & W2 & W3 & _).
    destruct (transact _ _ _ _ _ _ _) as [st' [x| |]] eqn:Et; simplify_eq/=.
    + rewrite W3. unfold transact in Et. destruct (pm_allocate (ig_parts ig) ":db.part/tx" 1) as [[tx pm1]| |] eqn:Ep; [|done..].
      destruct (entities_to_terms _ _ _ _ _ _) as [[ts ids]| |] eqn:Ee; [|done..]. by eapply transact_simple_grown.
    + destruct Hr as [?|Hr]; [done|]. rewrite W3. by rewrite Hr.
    + destruct Hr as [?|Hr]; [done|]. rewrite W3. by rewrite Hr.
  - unfold ig_transact_terms, ig_transacted in H.
    destruct (ig_watch_same ig (watch_transact_terms mv now (ig_store ig) (ig_parts ig) (ig_schema ig) ts ids)) as (W1 & W2 & W3 & _).
    destruct (transact_terms _ _ _ _ _ _ _ _ _) as [st' [x| |]] eqn:Et; simplify_eq/=.
    + rewrite W3. unfold transact_terms in Et. destruct (pm_allocate (ig_parts ig) ":db.part/tx" 1) as [[tx pm1]| |] eqn:Ep; [|done..]. by eapply transact_simple_grown.
    + destruct Hr as [?|Hr]; [done|]. rewrite W3. by rewrite Hr.
    + destruct Hr as [?|Hr]; [done|]. rewrite W3. by rewrite Hr.
  - unfold ig_savepoint in H. simplify_eq/=. done.
  - unfold ig_release_savepoint in H. destruct (savepoints_from _ _) as [[st l]|]; simplify_eq/=; done.
Qed.
Lemma ig_steps_grown mv f0 m from l1 l : forall ig ig' rs, ig_ok ig -> ig_steps mv ig l = Ok (ig', rs) -> clean_calls mv ig l ->
  never_uninstalled (st_log (ig_store ig')) -> data_log from l1 (st_log (ig_store ig')) ->
  grown f0 m from l1 (ig_store ig) (ig_schema ig) -> grown f0 m from l1 (ig_store ig') (ig_schema ig').
Proof.
  induction l as [|o l IH]; intros ig ig' rs H0 H Hc Hn Hd Hg; cbn [ig_steps clean_calls] in H, Hc.
  - by injection H as <- <-.
  - destruct (ig_step mv ig o) as [ig1 r] eqn:Eo. destruct Hc as (Hno & Hr & Hc).
    assert (exists rs', ig_steps mv ig1 l = Ok (ig', rs')) as (rs' & H').
    { destruct r; [| |done]; apply rbind_Ok in H as ([ig2 rs'] & H & [= -> <-]); eauto. }
    destruct (ig_steps_log _ _ _ _ _ H' Hc) as (new & E).
    apply (IH ig1 ig' rs'); try done.
    + apply (ig_step_ok mv ig o ig1 r); try done. rewrite E in Hn. by eapply never_uninstalled_app.
    + apply (ig_step_grown mv ig o ig1 r); try done. rewrite E in Hd. by eapply data_log_app.
Qed.
Lemma conn_step_grown mv f0 m from l1 c o : conn_ok c -> clean_step mv c o -> never_uninstalled (st_log (cn_disk (conn_step mv c o).1)) ->
  data_log from l1 (st_log (cn_disk (conn_step mv c o).1)) ->
  grown f0 m from l1 (disk c) (schema_of c) -> grown f0 m from l1 (disk (conn_step mv c o).1) (schema_of (conn_step mv c o).1).
Proof.
  intros H0 Hc Hn Hd Hg. destruct o as [now es|l commit|].
  - cbn [conn_step] in Hn, Hd |- *. destruct (conn_transact mv now c es) as [c' r] eqn:E. cbn [fst] in Hn, Hd |- *. destruct r as [x| |].
    + apply conn_transact_Ok in E as (y & Et & _ & Em). rewrite Em. cbn [md_schema].
      unfold transact in Et. destruct (pm_allocate (md_parts (cn_md c)) ":db.part/tx" 1) as [[tx pm1]| |] eqn:Ep; [|done..].
      destruct (entities_to_terms _ _ _ _ _ _) as [[ts ids]| |] eqn:Ee; [|done..]. by eapply transact_simple_grown.
    + by apply conn_transact_fail in E as ->.
    + by apply conn_transact_fail in E as ->.
  - cbn [conn_step] in Hn, Hd |- *. destruct (ig_steps mv (conn_begin c) l) as [[ig rs]| |] eqn:E; try done.
    destruct commit; [|done]. unfold conn_commit in *. case_decide; [|done]. simpl in Hn, Hd |- *.
    eapply ig_steps_grown in E; [exact E|done|by apply Hc|done|done|done].
  - destruct Hg as [Hm Hb]. split; [by rewrite Hc|].
    assert (disk (conn_step mv c CReopen).1 = disk c) as ->; [|done]. unfold conn_step, conn_open.
    destruct (rbind _ _) as [c'| |] eqn:E; [|done..]. by apply rbind_Ok in E as ([pm sc] & _ & [= <-]).
Qed.
Lemma conn_run_grown mv f0 m from l1 l : forall c, conn_ok c -> clean_history mv c l -> never_uninstalled (st_log (disk (conn_run mv c l))) ->
  data_log from l1 (st_log (disk (conn_run mv c l))) ->
  grown f0 m from l1 (disk c) (schema_of c) -> grown f0 m from l1 (disk (conn_run mv c l)) (schema_of (conn_run mv c l)).
Proof.
  induction l as [|o l IH]; intros c H0 Hc Hn Hd Hg; cbn [conn_run fold_left clean_history] in *; [done|].
  destruct Hc as [Ho Hc]. destruct (conn_run_log mv l _ Hc) as (new & E). unfold conn_run in E.
  assert (clean_step mv c o) as Hs by by destruct o.
  assert (never_uninstalled (st_log (disk (conn_step mv c o).1))) as Hn1 by (rewrite E in Hn; by eapply never_uninstalled_app).
  apply IH; [by apply conn_step_ok|done|done|done|]. apply conn_step_grown; try done. rewrite E in Hd. by eapply data_log_app.
Qed.

(* ---------------------------------------------------------------- the theorem *)

Lemma map_id_in' {A} (g : A -> A) (l : list A) : (forall x, x ∈ l -> g x = x) -> map g l = l.
Proof. induction l as [|x l IH]; intros H; [done|]. cbn [map]. rewrite H by by left. f_equal. apply IH. intros y Hy. apply H. by right. Qed.

Lemma thm_rewound mv now c1 l c2 from timeline st' sc pm' :
  clean mv c1 -> clean_history mv c1 l -> c2 = conn_run mv c1 l -> never_uninstalled (st_log (disk c2)) ->
  since from c1 c2 -> only_data from c2 -> reads_back from c2 -> next_tx_unused c2 ->
  move_from_main_timeline mv now (disk c2) (schema_of c2) (parts_of c2) from timeline = (st', Ok (sc, pm')) ->
  rewound from timeline c1 c2 st' /\ sc = None /\ read_partition_map (disk c1) = Ok pm'.
Proof.
  intros Hc1 Hl Ec2 Hn [Hs1 Hs2] Hdata Hback Hun H. pose proof (clean_ok _ _ Hc1) as H1.
  assert (conn_ok c2) as H2 by (rewrite Ec2 in *; by apply conn_run_ok).
  pose proof H1 as [(p1 & Hp1 & S1 & _) _ _ _ Hk1 _]. pose proof H2 as [(p2 & Hp2 & S2 & _) _ _ _ Hk2 _].
  pose proof (transactions_all _ (so_main _ _ _ S1)) as T1. pose proof (transactions_all _ (so_main _ _ _ S2)) as T2.
  assert (grown (st_fts (disk c1)) (sc_attribute_map (schema_of c1)) from (st_log (disk c1)) (disk c2) (schema_of c2)) as (Em & Hx & segs & Hb).
  { rewrite Ec2 in *. apply conn_run_grown; try done. split; [done|]. split; [apply extends_refl|]. exists []. split; [done|]. by eapply live_one_store. }
  set (m := sc_attribute_map (schema_of c1)) in *.
  unfold move_from_main_timeline in H. case_decide as Htl; [done|]. destruct (negb _); [done|].
  destruct (collect_ordered_txs_to_move _ _ _) as [txs| |] eqn:Ec; [|done..]. apply (collect_built _ _ _ _ _ _ _ Hs1 Hb) in Ec as ->.
  apply with_st_Ok in H as (st1 & last & Hrw & H). apply with_st_Ok in H as (st2 & u & Hmv & H). injection H as <- Hrd.
  apply rbind_Ok in Hrd as (pm & Hrd & Eo). injection Eo as Ea Eb. rewrite Eb in Hrd. rewrite Ea in Hrw. clear Ea Eb.
  rewrite Em in S2.
  assert (rstate m (st_fts (disk c2)) (st_log (disk c2)) (disk c2)) as R2.
  { split; [apply S2|apply S2|apply extends_refl|]. intros k. rewrite <- T2. apply last_true_present, S2. }
  pose proof (so_min _ _ _ S2) as [Halt Hnd]. rewrite T2 in Halt, Hnd.
  assert (instant_typed m) as Hi by (apply core_instant; apply H1).
  destruct (rewind_all_ok m (schema_of c2) mv now (parts_of c2) p2 (st_fts (disk c2)) from (st_log (disk c1)) Em Hi Hp2 Hs1
    segs (st_log (disk c2)) (disk c2) None st1 sc Hb R2 Halt Hnd Hdata Hback) as (R1 & El & Ep & Esc); try done.
  { intros r Hr. by apply Hun. }
  { by apply (built_filter _ _ _ _ _ Hs1 _ Hb). }
  unfold move_transactions_to in Hmv. destruct (mv <? _); [done|]. injection Hmv as <- _.
  assert (map (fun r => if decide (t_tx r ∈ map fst segs) then on_timeline timeline r else r) (st_log st1) = map (moved from timeline) (st_log (disk c2))) as Elog.
  { rewrite El. apply map_ext_in. intros r Hr%elem_of_list_In. unfold moved.
    assert (t_tx r ∈ map fst segs <-> from <= t_tx r) as Hiff.
    { apply (built_rows _ _ _ _ _ _ Hb) in Hr as [Hr|(tx & new & Hin & Hr)].
      - apply Hs1 in Hr. split; [|lia]. intros ([tx new] & E & Hin)%elem_of_list_fmap. destruct (built_segs _ _ _ _ _ _ Hb _ _ Hin) as (_ & _ & ?). cbn [fst] in E. lia.
      - destruct (built_segs _ _ _ _ _ _ Hb _ _ Hin) as (_ & Hrn & Hf). destruct (Hrn r Hr) as [E _]. split; [lia|]. intros _.
        apply elem_of_list_fmap. exists (tx, new). by rewrite E. }
    destruct (decide (t_tx r ∈ map fst segs)), (decide (from <= t_tx r)); naive_solver. }
  assert (transactions (set_log st1 (map (moved from timeline) (st_log (disk c2)))) = transactions (disk c1)) as Etr.
  { unfold transactions, set_log. cbn [st_log]. clear -Hb Hs1 Htl S1. revert Hb. generalize (st_log (disk c2)), (st_fts (disk c2)). intros l f. revert l.
    induction segs as [|[tx new] segs IH]; intros l; cbn [built].
    - intros [-> _]. f_equal. apply map_id_in'. intros r Hr. unfold moved. rewrite decide_False; [done|]. apply Hs1 in Hr. lia.
    - intros (l0 & H & -> & _ & Hr & Hf & _). rewrite map_app, filter_app, (IH _ H). rewrite (filter_none_of _ (map (moved from timeline) new)); [by rewrite app_nil_r|].
      intros x (r & -> & Hr0)%elem_of_list_fmap. unfold moved. destruct (Hr r Hr0) as [E _]. rewrite decide_True by lia. cbn [t_timeline]. exact Htl. }
  rewrite Elog in Hrd |- *. split; [|split; [by apply Esc|]].
  - split; [|done|done]. apply (facts_of_keys m _ _ (st_fts st1)).
    + apply R1.
    + apply S1.
    + apply extends_refl.
    + eapply extends_trans; [|apply R1]. exact Hx.
    + intros k. change (st_datoms (set_log st1 (map (moved from timeline) (st_log (disk c2))))) with (st_datoms st1).
      rewrite (rs_live _ _ _ _ R1), (last_true_present _ _ (so_log _ _ _ S1)), T1. done.
  - rewrite <- Hrd. unfold read_partition_map. rewrite Etr. change (st_parts (set_log st1 _)) with (st_parts st1). by rewrite Ep, Hk1, Hk2.
Qed.

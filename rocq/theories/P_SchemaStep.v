(** The schema in memory, the facts and the materialized views, along transactions. *)
From Verif Require Import M_Conn Spec_Value Spec_Partition Spec_Tx Spec_Conn Spec_Schema
  P_Base P_Value P_Partition P_Store P_Fill P_Step P_Meta P_Inv P_Schema.

(** The types of the attributes that define the schema *)
Definition meta_type (a : Z) : value_type :=
  if decide (a = DB_IDENT) then VTKeyword
  else if decide (a ∈ [DB_VALUE_TYPE; DB_CARDINALITY; DB_UNIQUE]) then VTRef else VTBoolean.
(** What is needed of them *)
Definition core_flat (m : gmap Z attribute) : Prop :=
  forall a, a ∈ METADATA_LIST -> exists at_, m !! a = Some at_ /\ at_type at_ = meta_type a /\ at_multival at_ = false
    /\ at_fulltext at_ = false /\ (a = DB_IDENT -> is_Some (at_unique at_)).

(** The rows of the schema view, as facts *)
Definition view_facts (st : store) (x : fact) : Prop := (x.1.1, x.1.2, x.2.1, x.2.2) ∈ st_schema st.

(** The schema [s] is the one that the facts of [st] define, and the views from which it is read on opening say the same. *)
Record meta_ok (st : store) (s : schema) : Prop := {
  mt_agrees : schema_agrees (fun x => x ∈ facts st) s;
  mt_known : known (fun x => x ∈ facts st);
  mt_view : attributes_agree (view_facts st) (sc_attribute_map s);
  mt_view_functional : functional (view_facts st);
  mt_view_known : known (view_facts st);
  mt_view_only : forall e a p, view_facts st (e, a, p) -> a ∈ SCHEMA_LIST;
  mt_view_nodup : NoDup (map (fun r : mrow => (r.1.1.1, r.1.1.2)) (st_schema st));
  mt_idents : forall e a v t, (e, a, v, t) ∈ st_idents st <-> a = DB_IDENT /\ (e, a, (v, t)) ∈ facts st }.

Lemma ident_meta : DB_IDENT ∈ METADATA_LIST.
Proof. apply metadata_split. by left. Qed.
Lemma schema_meta a : a ∈ SCHEMA_LIST -> a ∈ METADATA_LIST.
Proof. intros. apply metadata_split. by right. Qed.

Lemma tidy_app l new : tidy (l ++ new) -> tidy l.
Proof.
  intros (T1 & T2 & T3 & T4 & T5). split_and!.
  - by eapply extends_never_uninstalled.
  - intros r Hr. apply T2. set_solver.
  - intros r1 r2 H1 H2. apply T3; set_solver.
  - split; [intros r Hr; apply T4; set_solver|]. intros r1 r2 H1 H2. apply T5; set_solver.
Qed.

Section Facts.
  Context (m : gmap Z attribute) (st : store) (n : Z) (H0 : store_ok m st n) (Hcore : core_flat m).
  Notation F := (fun x => x ∈ facts st).

  Lemma facts_dec x : F x \/ ~ F x.
  Proof using. destruct (decide (x ∈ facts st)); auto. Qed.
  Lemma facts_functional a e p q : a ∈ METADATA_LIST -> F (e, a, p) -> F (e, a, q) -> p = q.
  Proof using H0 Hcore.
    intros Ha Hp Hq. destruct (Hcore a Ha) as (at_ & Hm & _ & Hmu & _).
    exact (so_card _ _ _ H0 (Schema ∅ ∅ m []) eq_refl e a at_ p q Hm Hmu Hp Hq).
  Qed.
  Lemma facts_are_functional : functional F.
  Proof using H0 Hcore. intros e a p q Ha. apply facts_functional. by apply schema_meta. Qed.
  Lemma facts_one e k1 k2 : named F e k1 -> named F e k2 -> k1 = k2.
  Proof using H0 Hcore.
    intros [S1 F1] [S2 F2]. apply storable_text_inj; try done. eapply facts_functional; [apply ident_meta|done|done].
  Qed.
  Lemma facts_inj e1 e2 k : named F e1 k -> named F e2 k -> e1 = e2.
  Proof using H0 Hcore.
    intros [S1 F1] [S2 F2]. destruct (Hcore DB_IDENT ident_meta) as (at_ & Hm & _ & _ & _ & Hu).
    eapply (values_unique_of m (Schema ∅ ∅ m []) st); [done|apply H0|apply H0|exact Hm|by apply Hu|done|done].
  Qed.
  Lemma meta_fact_typed e a p : a ∈ METADATA_LIST -> F (e, a, p) -> exists v, tv_type v = meta_type a /\ p = to_sql_value_pair v.
  Proof using H0 Hcore.
    intros Ha Hf. destruct (Hcore a Ha) as (at_ & Hm & Ht & _).
    apply (well_typed_of m (Schema ∅ ∅ m []) st eq_refl (so_datoms _ _ _ H0)) in Hf as (at2 & v & Hm2 & Htv & ->).
    simpl in Hm2. exists v. split; [congruence|done].
  Qed.
  (** The datom of a fact about a schema attribute *)
  Lemma meta_fact_datom e a p : a ∈ METADATA_LIST ->
    (F (e, a, p) <-> exists d, d ∈ st_datoms st /\ d_e d = e /\ d_a d = a /\ p = (d_v d, d_tag d)).
  Proof using H0 Hcore.
    intros Ha. destruct (Hcore a Ha) as (at_ & Hm & Ht & _ & Hft & _). rewrite facts_elem_view. split.
    - intros (d & Hd & V). destruct (so_datoms _ _ _ H0 d Hd) as (at2 & Hm2 & _ & (_ & _ & Hfd & _)).
      assert (d_a d = a) as Hda.
      { unfold view_fact in V. destruct (d_ft d); [destruct V as (? & _ & V)|]; congruence. }
      assert (at2 = at_) as -> by congruence. unfold view_fact in V. rewrite Hfd, Hft in V. injection V as -> -> ->. eauto.
    - intros (d & Hd & <- & <- & ->). exists d. split; [done|].
      destruct (so_datoms _ _ _ H0 d Hd) as (at2 & Hm2 & _ & (_ & _ & Hfd & _)).
      assert (at2 = at_) as -> by congruence. unfold view_fact. by rewrite Hfd, Hft.
  Qed.
  (** The row that put it there *)
  Lemma meta_fact_row e a p : a ∈ METADATA_LIST -> F (e, a, p) ->
    exists r, r ∈ st_log st /\ t_e r = e /\ t_a r = a /\ t_added r = true /\ p = (t_v r, t_tag r).
  Proof using H0 Hcore.
    intros Ha (d & Hd & <- & <- & ->)%meta_fact_datom; [|done].
    destruct (proj1 (so_log _ _ _ H0 (d_key d) (d_tx d))) as (r & Hr & Had & _); [by exists d|].
    apply last_elem, rows_of_elem in Hr as [Hr Hk]. exists r. unfold t_key, d_key in Hk. injection Hk as -> -> -> ->.
    split_and!; try done. unfold transactions in Hr. by apply elem_of_list_filter in Hr as [_ Hr].
  Qed.
  Lemma ident_fact_named e p : idents_tidy (st_log st) -> F (e, DB_IDENT, p) -> exists k, p = keyword_value k /\ named F e k.
  Proof using H0 Hcore.
    intros [T _] Hf. pose proof Hf as (r & Hr & _ & Ha & _ & ->)%meta_fact_row; [|apply ident_meta].
    destruct (T r Hr Ha) as (k & Hs & Hv). pose proof Hf as (v & Hty & Hp)%meta_fact_typed; [|apply ident_meta].
    exists k. assert ((t_v r, t_tag r) = keyword_value k) as E; [|split; [done|split; [done|by rewrite <- E]]].
    destruct v; try done. simpl in *. congruence.
  Qed.
End Facts.

(** A typed schema value is the one read back. *)
Lemma meta_value_read a v w l : a ∈ METADATA_LIST -> tv_type v = meta_type a ->
  (a = DB_IDENT -> exists k, storable_keyword k /\ (to_sql_value_pair v).1 = SText (kw_to_string k)) -> l = to_sql_value_pair v ->
  from_sql_value_pair l.1 l.2 = Ok w -> to_sql_value_pair w = to_sql_value_pair v /\ (a = DB_IDENT -> exists k, w = TVKeyword k /\ storable_keyword k).
Proof.
  intros Ha Ht Hk -> Hr. unfold meta_type in Ht. destruct (decide (a = DB_IDENT)) as [->|Hne].
  - destruct (Hk eq_refl) as (k & Hs & Hv). destruct v as [| | | | | |k0|]; try done.
    assert (kw_to_string k0 = kw_to_string k) as Hkk by (change (SText (kw_to_string k0) = SText (kw_to_string k)) in Hv; congruence).
    change (rmap TVKeyword (to_namespaced_keyword (kw_to_string k0)) = Ok w) in Hr. rewrite Hkk, (keyword_roundtrip k Hs) in Hr. injection Hr as <-.
    split; [|intros _; by exists k]. change ((SText (kw_to_string k), 13) = (SText (kw_to_string k0), 13)). congruence.
  - destruct (decide _); destruct v; try done; cbn [to_sql_value_pair fst snd] in *.
    + cbn in Hr. injection Hr as <-. done.
    + destruct b; cbn in Hr; injection Hr as <-; done.
Qed.

Lemma committed_quads_from st tx quads r : committed_metadata_assertions st tx = Ok quads ->
  r ∈ transactions st -> t_tx r = tx -> t_a r ∈ METADATA_LIST ->
  exists v, from_sql_value_pair (t_v r) (t_tag r) = Ok v /\ (t_e r, t_a r, v, t_added r) ∈ quads.
Proof.
  unfold committed_metadata_assertions. intros H%rmapM_Ok Hr Htx Ha.
  assert ((t_e r, t_a r, t_v r, t_tag r, t_added r) ∈ merge_sort mdrow_le
      (map (fun r => (t_e r, t_a r, t_v r, t_tag r, t_added r)) (filter (fun r => t_tx r = tx /\ t_a r ∈ METADATA_LIST) (transactions st)))) as Hin.
  { apply merge_sort_elem, elem_of_list_fmap. exists r. split; [done|]. by apply elem_of_list_filter. }
  apply elem_of_list_lookup in Hin as [i Hi]. destruct (Forall2_lookup_l _ _ _ _ _ H Hi) as (q & Hq & Hqr).
  unfold quad_of_row in Hqr. apply rbind_Ok in Hqr as (v & Hv & [= <-]). exists v. split; [done|]. by eapply elem_of_list_lookup_2.
Qed.

Lemma committed_quads_nodup st tx quads (H : committed_metadata_assertions st tx = Ok quads) :
  (forall r1 r2, r1 ∈ transactions st -> r2 ∈ transactions st -> t_tx r1 = tx -> t_tx r2 = tx -> t_a r1 ∈ METADATA_LIST ->
     t_e r1 = t_e r2 -> t_a r1 = t_a r2 -> t_added r1 = t_added r2 -> (t_tx r1, t_key r1) = (t_tx r2, t_key r2)) ->
  NoDup (map (fun r => (t_tx r, t_key r)) (transactions st)) ->
  NoDup (map (fun q : quad => (q.1.1, q.2)) quads).
Proof.
  unfold committed_metadata_assertions in H. apply rmapM_Ok in H. intros Hone Hn.
  assert (map (fun q : quad => (q.1.1, q.2)) quads = map (fun r : mdrow => (r.1.1.1, r.2)) (merge_sort mdrow_le
      (map (fun r => (t_e r, t_a r, t_v r, t_tag r, t_added r)) (filter (fun r => t_tx r = tx /\ t_a r ∈ METADATA_LIST) (transactions st))))) as ->.
  { clear -H. induction H as [|row q l ql Hq H IH]; [done|]. simpl. rewrite IH. f_equal. unfold quad_of_row in Hq. destruct row as [[[[e a] v] t] b].
    apply rbind_Ok in Hq as (w & _ & [= <-]). done. }
  rewrite merge_sort_Permutation. rewrite map_map. cbn [fst snd].
  clear H. induction (transactions st) as [|r l IH]; [constructor|]. rewrite filter_cons. cbn [map] in Hn. apply NoDup_cons in Hn as [Hr Hn].
  assert (NoDup (map (fun r => (t_e r, t_a r, t_added r)) (filter (fun r => t_tx r = tx /\ t_a r ∈ METADATA_LIST) l))) as IH'.
  { apply IH; [|done]. intros r1 r2 H1 H2. apply Hone; by right. }
  destruct (decide (t_tx r = tx /\ t_a r ∈ METADATA_LIST)) as [[Htx Ha]|]; [|done]. cbn [map]. constructor; [|done].
  intros (r2 & Heq & Hin)%elem_of_list_fmap. apply elem_of_list_filter in Hin as [[Htx2 Ha2] Hin]. injection Heq as E1 E2 E3.
  apply Hr. apply elem_of_list_fmap. exists r2. split; [|done]. apply Hone; try done; [by left|by right].
Qed.

Section Evolve.
  Context (m : gmap Z attribute) (st st2 : store) (tx i : Z) (tr tr' : trie).
  Context (H0 : store_ok m st tx) (H2 : store_ok m st2 (tx + 1)) (Hap : applied m st st2 tx i tr tr').
  Context (Hcore : core_flat m) (Htidy : tidy (st_log st2)).
  Context (quads : list quad) (Hq : committed_metadata_assertions st2 tx = Ok quads).
  Notation F := (fun x => x ∈ facts st).
  Notation F' := (fun x => x ∈ facts st2).

  Lemma tx_rows_new : exists new, st_log st2 = st_log st ++ new /\ (forall r, r ∈ new -> t_tx r = tx) /\ forall r, r ∈ st_log st2 -> t_tx r = tx -> r ∈ new.
  Proof using H0 Hap.
    destruct (ap_log _ _ _ _ _ _ _ Hap) as (new & El & Hnew). exists new. split_and!; [done|intros r Hr; by apply Hnew|].
    intros r Hr Htx. rewrite El in Hr. apply elem_of_app in Hr as [Hr|Hr]; [|done]. apply (so_tx _ _ _ H0) in Hr. lia.
  Qed.
  (** Rows of the transaction about the schema attributes are the changes *)
  Lemma tx_row_changed e a p b : a ∈ METADATA_LIST ->
    (exists r, r ∈ st_log st2 /\ t_tx r = tx /\ t_e r = e /\ t_a r = a /\ t_added r = b /\ p = (t_v r, t_tag r)) <-> chg F F' b (e, a, p).
  Proof using H0 Hap Hcore.
    intros Ha. destruct tx_rows_new as (new & El & Hnew & Hold). destruct (Hcore a Ha) as (at_ & Hm & _ & _ & Hft & _).
    pose proof (ap_rows _ _ _ _ _ _ _ Hap new El e a p b) as R. unfold changed in R. change (chg F F' b (e, a, p)) with
      (if b then (e, a, p) ∉ facts st /\ (e, a, p) ∈ facts st2 else (e, a, p) ∈ facts st /\ (e, a, p) ∉ facts st2). rewrite <- R. split.
    - intros (r & Hr & Htx & <- & <- & <- & ->). exists r. split_and!; auto. exists at_. split; [done|]. by rewrite Hft.
    - intros (r & Hr & <- & <- & <- & at2 & Hm2 & Hp). exists r. assert (at2 = at_) as -> by congruence. rewrite Hft in Hp.
      split_and!; auto. rewrite El. apply elem_of_app. by right.
  Qed.
  Lemma quad_row e a v b : (e, a, v, b) ∈ quads -> a ∈ METADATA_LIST /\ exists r, r ∈ st_log st2 /\ t_tx r = tx /\ t_e r = e /\ t_a r = a /\ t_added r = b
      /\ to_sql_value_pair v = (t_v r, t_tag r) /\ chg F F' b (e, a, to_sql_value_pair v)
      /\ (a = DB_IDENT -> exists k, v = TVKeyword k /\ storable_keyword k).
  Proof using All.
    intros Hin. destruct (committed_quads_elem _ _ _ _ _ _ _ Hq Hin) as (r & Hr & He & Har & Hb & Htx & Hv & Ha). split; [done|].
    assert (chg F F' b (e, a, (t_v r, t_tag r))) as Hc by (apply tx_row_changed; [done|]; by exists r).
    assert (exists w, tv_type w = meta_type a /\ (t_v r, t_tag r) = to_sql_value_pair w) as (w & Hw & Hp).
    { unfold chg in Hc. destruct b; [eapply (meta_fact_typed m st2)|eapply (meta_fact_typed m st)]; try done; apply Hc. }
    destruct (meta_value_read a w v (t_v r, t_tag r)) as [E K]; try done.
    { intros ->. destruct Htidy as (_ & _ & _ & Hk & _). destruct (Hk r Hr Har) as (k & Hs & Hvk). exists k. split; [done|]. by rewrite <- Hp. }
    rewrite <- Hp in E. exists r. split_and!; try done. by rewrite E.
  Qed.
  Lemma quad_of e a p b : a ∈ METADATA_LIST -> chg F F' b (e, a, p) -> exists v, p = to_sql_value_pair v /\ (e, a, v, b) ∈ quads.
  Proof using All.
    intros Ha Hc. apply tx_row_changed in Hc as (r & Hr & Htx & <- & <- & <- & ->); [|done].
    destruct (committed_quads_from _ _ _ r Hq) as (v & Hv & Hin); try done.
    { unfold transactions. apply elem_of_list_filter. split; [|done]. by apply (so_main _ _ _ H2). }
    exists v. split; [|done]. assert (chg F F' (t_added r) (t_e r, t_a r, (t_v r, t_tag r))) as Hc by (apply tx_row_changed; [done|]; by exists r).
    assert (exists w, tv_type w = meta_type (t_a r) /\ (t_v r, t_tag r) = to_sql_value_pair w) as (w & Hw & Hp).
    { unfold chg in Hc. destruct (t_added r); [eapply (meta_fact_typed m st2)|eapply (meta_fact_typed m st)]; try done; apply Hc. }
    destruct (meta_value_read (t_a r) w v (t_v r, t_tag r)) as [E K]; try done.
    { intros Hid. destruct Htidy as (_ & _ & _ & Hk & _). destruct (Hk r Hr Hid) as (k & Hs & Hvk). exists k. split; [done|]. by rewrite <- Hp. }
    congruence.
  Qed.
  Lemma quads_distinct : NoDup (map (fun q : quad => (q.1.1, q.2)) quads).
  Proof using All.
    eapply committed_quads_nodup; [exact Hq| |apply (so_min _ _ _ H2)].
    intros r1 r2 [_ H1]%elem_of_list_filter [_ Hr2]%elem_of_list_filter T1 T2 Ha He Hae Hb. f_equal; [congruence|].
    assert (chg F F' (t_added r1) (t_e r1, t_a r1, (t_v r1, t_tag r1))) as C1 by (apply tx_row_changed; [done|]; by exists r1).
    assert (chg F F' (t_added r1) (t_e r1, t_a r1, (t_v r2, t_tag r2))) as C2.
    { apply tx_row_changed; [done|]. exists r2. by rewrite He, Hae, Hb. }
    assert ((t_v r1, t_tag r1) = (t_v r2, t_tag r2)) as [= E1 E2].
    { unfold chg in C1, C2. destruct (t_added r1); [apply (facts_functional m st2 (tx + 1) H2 Hcore (t_a r1) (t_e r1))|apply (facts_functional m st tx H0 Hcore (t_a r1) (t_e r1))]; tauto. }
    unfold t_key. congruence.
  Qed.
  Lemma quads_no_pass e1 e2 k : (e1, DB_IDENT, TVKeyword k, true) ∈ quads -> (e2, DB_IDENT, TVKeyword k, false) ∉ quads.
  Proof using All.
    intros (_ & r1 & R1 & T1 & _ & A1 & B1 & V1 & _)%quad_row (_ & r2 & R2' & T2 & _ & A2 & B2 & V2 & _)%quad_row.
    destruct Htidy as (_ & _ & _ & _ & Hp). eapply (Hp r1 r2); try done; [congruence|]. rewrite V1 in V2. congruence.
  Qed.
  Lemma quads_unique s : schema_agrees F s -> forall e at_, sc_attribute_map s !! e = Some at_ ->
    (exists a v, (e, a, v, true) ∈ quads /\ a ∈ [DB_CARDINALITY; DB_INDEX; DB_IS_COMPONENT]) ->
    at_unique at_ = None.
  Proof using All.
    intros Hs e at_ Hm (a & v & Hin & Ha). destruct (at_unique at_) as [u|] eqn:Eu; [exfalso|done].
    destruct (sa_attributes _ _ Hs) as [Hst _]. apply (sd_unique _ _ _ (Hst e at_ Hm)) in Eu.
    destruct (meta_fact_row m st tx H0 Hcore _ _ _ (schema_meta _ in_unique) Eu) as (r1 & R1 & E1 & A1 & B1 & _).
    apply quad_row in Hin as (_ & r2 & R2' & T2 & E2 & A2 & _ & _).
    destruct Htidy as (_ & _ & Hu & _). pose proof (so_tx _ _ _ H0 r1 R1) as Hlt.
    assert (t_tx r2 <= t_tx r1); [|lia]. apply Hu; try done; [|congruence|by rewrite A2].
    destruct (ap_log _ _ _ _ _ _ _ Hap) as (new & -> & _). apply elem_of_app. by left.
  Qed.
End Evolve.

Lemma same_core_facts st st' : st_fts st' = st_fts st -> Forall2 same_core (st_datoms st) (st_datoms st') ->
  forall x, x ∈ facts st' <-> x ∈ facts st.
Proof.
  intros Ef Hc x. rewrite !facts_elem_view, Ef.
  assert (forall d d', same_core d d' -> (view_fact (st_fts st) d' x <-> view_fact (st_fts st) d x)) as Hv.
  { intros d d' (C1 & C2 & C3 & C4 & _ & _ & C7). unfold view_fact. by rewrite C1, C2, C3, C4, C7. }
  split.
  - intros (d' & [i Hi]%elem_of_list_lookup & V). destruct (Forall2_lookup_r _ _ _ _ _ Hc Hi) as (d & Hdi & HR).
    exists d. split; [by eapply elem_of_list_lookup_2|]. by apply (Hv d d').
  - intros (d & [i Hi]%elem_of_list_lookup & V). destruct (Forall2_lookup_l _ _ _ _ _ Hc Hi) as (d' & Hdi & HR).
    exists d'. split; [by eapply elem_of_list_lookup_2|]. by apply (Hv d d').
Qed.

Section Views.
  Context (m : gmap Z attribute) (st : store) (n : Z) (H0 : store_ok m st n) (Hcore : core_flat m).

  Lemma idents_view_elem e a v t : (e, a, v, t) ∈ idents_view (st_datoms st) <-> a = DB_IDENT /\ (e, a, (v, t)) ∈ facts st.
  Proof using H0 Hcore.
    unfold idents_view. rewrite elem_of_list_fmap. split.
    - intros (d & [= -> -> -> ->] & [Ha Hd]%elem_of_list_filter). split; [done|].
      apply (meta_fact_datom m st n H0 Hcore); [rewrite Ha; apply ident_meta|]. by exists d.
    - intros [-> Hf]. apply (meta_fact_datom m st n H0 Hcore) in Hf as (d & Hd & <- & Ha & [= -> ->]); [|apply ident_meta].
      exists d. rewrite <- Ha. split; [done|]. by apply elem_of_list_filter.
  Qed.
  Lemma schema_view_elem m' e a v t : attributes_agree (fun x => x ∈ facts st) m' ->
    (e, a, v, t) ∈ schema_view (st_datoms st) <-> a ∈ SCHEMA_LIST /\ (e, a, (v, t)) ∈ facts st.
  Proof using H0 Hcore.
    intros [A1 A2]. unfold schema_view. etransitivity; [apply elem_of_list_In|]. rewrite in_flat_map. setoid_rewrite <- elem_of_list_In. split.
    - intros (s & Hs & Hin). apply elem_of_list_fmap in Hin as (d & [= -> -> -> ->] & [[He Ha] Hd]%elem_of_list_filter). split; [done|].
      apply (meta_fact_datom m st n H0 Hcore); [by apply schema_meta|]. by exists d.
    - intros [Ha Hf]. destruct (A2 e a (v, t) Hf Ha) as [at_ Hat]. pose proof (sd_type _ _ _ (A1 e at_ Hat)) as Ht.
      apply (meta_fact_datom m st n H0 Hcore) in Ht as (s & Hs & Hse & Hsa & _); [|apply schema_meta, in_type].
      apply (meta_fact_datom m st n H0 Hcore) in Hf as (d & Hd & <- & <- & [= -> ->]); [|by apply schema_meta].
      exists s. split; [by apply elem_of_list_filter|]. apply elem_of_list_fmap. exists d. split; [done|]. apply elem_of_list_filter.
      split; [|done]. by rewrite Hse.
  Qed.
  Lemma schema_view_nodup : NoDup (map (fun r : mrow => (r.1.1.1, r.1.1.2)) (schema_view (st_datoms st))).
  Proof using H0 Hcore.
    assert (forall d1 d2, d1 ∈ st_datoms st -> d2 ∈ st_datoms st -> d_a d1 ∈ SCHEMA_LIST -> d_e d1 = d_e d2 -> d_a d1 = d_a d2 -> d1 = d2) as Hone.
    { intros d1 d2 Hd1 Hd2 Ha He Hae. apply (NoDup_map_inj d_key (st_datoms st)); [apply datoms_unique_key, H0|done|done|].
      assert ((d_v d1, d_tag d1) = (d_v d2, d_tag d2)) as [= E1 E2]; [|unfold d_key; congruence].
      apply (facts_functional m st n H0 Hcore (d_a d1) (d_e d1)); [by apply schema_meta|..];
        apply (meta_fact_datom m st n H0 Hcore); try (by apply schema_meta); [by exists d1|exists d2; by rewrite He, Hae]. }
    assert (NoDup (st_datoms st)) as Hnd by (eapply NoDup_fmap_1, datoms_unique_key, H0).
    revert Hone Hnd. clear H0. generalize (st_datoms st). intros ds Hone Hnd. unfold schema_view.
    assert (forall (l : list datom), NoDup l -> (forall s, s ∈ l -> s ∈ ds /\ d_a s = DB_VALUE_TYPE) ->
      NoDup (map (fun r : mrow => (r.1.1.1, r.1.1.2)) (flat_map (fun s => map (fun d => (d_e d, d_a d, d_v d, d_tag d))
        (filter (fun d => d_e d = d_e s /\ d_a d ∈ SCHEMA_LIST) ds)) l))) as K.
    { induction l as [|s l IH]; intros Hl Hin; [constructor|]. apply NoDup_cons in Hl as [Hs Hl]. cbn [flat_map]. rewrite map_app. apply NoDup_app. split_and!.
      - rewrite map_map. cbn [fst snd]. assert (NoDup (filter (fun d => d_e d = d_e s /\ d_a d ∈ SCHEMA_LIST) ds)) as Hf by (by apply NoDup_filter).
        revert Hf. assert (forall d, d ∈ filter (fun d => d_e d = d_e s /\ d_a d ∈ SCHEMA_LIST) ds -> d ∈ ds /\ d_a d ∈ SCHEMA_LIST) as Hsub.
        { intros d Hd. apply elem_of_list_filter in Hd. tauto. }
        revert Hsub. generalize (filter (fun d => d_e d = d_e s /\ d_a d ∈ SCHEMA_LIST) ds). induction l0 as [|d l0 IH0]; intros Hsub Hf; [constructor|].
        apply NoDup_cons in Hf as [Hd Hf]. cbn [map]. constructor; [|apply IH0; [|done]; intros; apply Hsub; by right].
        intros (d2 & [= E1 E2] & Hd2)%elem_of_list_fmap. apply Hd. rewrite (Hone d d2); [done| | | |done|done]; apply Hsub; try by left. by right.
      - intros [e a] (x & [= -> ->] & Hx)%elem_of_list_fmap (y & [= E1 E2] & Hy)%elem_of_list_fmap.
        apply elem_of_list_fmap in Hx as (d & -> & [[Hd1 Hd2] Hd]%elem_of_list_filter). cbn [fst snd] in *.
        apply elem_of_list_In, in_flat_map in Hy as (s2 & Hs2%elem_of_list_In & Hy%elem_of_list_In).
        apply elem_of_list_fmap in Hy as (d' & -> & [[Hd1' Hd2'] Hd']%elem_of_list_filter). cbn [fst snd] in *.
        assert (s = s2) as ->; [|done]. destruct (Hin s) as [S1 S2]; [by left|]. destruct (Hin s2) as [S3 S4]; [by right|].
        apply Hone; [done|done|rewrite S2; apply in_type|congruence|congruence].
      - apply IH; [done|]. intros. apply Hin. by right. }
    apply K; [by apply NoDup_filter|]. intros s Hs. apply elem_of_list_filter in Hs. tauto.
  Qed.
End Views.

Lemma stated_ext (F F' : fact -> Prop) e at_ : (forall a p, a ∈ SCHEMA_LIST -> F' (e, a, p) <-> F (e, a, p)) -> stated F e at_ -> stated F' e at_.
Proof.
  intros Hx [S1 S2 S3 S4 S5 S6 S7]. split.
  - apply Hx; [apply in_type|done].
  - rewrite Hx by apply in_card. done.
  - intros u. rewrite Hx by apply in_unique. done.
  - rewrite Hx by apply in_index. done.
  - rewrite Hx by apply in_fulltext. done.
  - rewrite Hx by apply in_component. done.
  - done.
Qed.
Lemma attributes_agree_ext (F F' : fact -> Prop) m : (forall e a p, a ∈ SCHEMA_LIST -> F' (e, a, p) <-> F (e, a, p)) ->
  attributes_agree F m -> attributes_agree F' m.
Proof.
  intros Hx [A1 A2]. split.
  - intros e at_ Hm. eapply stated_ext; [|by apply A1]. intros. by apply Hx.
  - intros e a p Hf Ha. apply Hx in Hf; [|done]. by eapply A2.
Qed.
Lemma idents_agree_ext (F F' : fact -> Prop) s : (forall e p, F' (e, DB_IDENT, p) <-> F (e, DB_IDENT, p)) ->
  idents_agree F s -> idents_agree F' s.
Proof. intros Hx [I1 I2]. unfold idents_agree, named in *. split; intros; rewrite Hx; [apply I1|apply I2]. Qed.
Lemma schema_agrees_ext (F F' : fact -> Prop) s : (forall e a p, a ∈ METADATA_LIST -> F' (e, a, p) <-> F (e, a, p)) ->
  schema_agrees F s -> schema_agrees F' s.
Proof.
  intros Hx [A I C]. split; [| |done].
  - eapply attributes_agree_ext; [|exact A]. intros. by apply Hx, schema_meta.
  - eapply idents_agree_ext; [|exact I]. intros. apply Hx, ident_meta.
Qed.
Lemma known_ext (F F' : fact -> Prop) : (forall e a p, a ∈ SCHEMA_LIST -> F' (e, a, p) <-> F (e, a, p)) -> known F -> known F'.
Proof. intros Hx H e a p Ha Hf. apply Hx in Hf; [|done]. by apply (H e a p). Qed.
Lemma functional_ext (F F' : fact -> Prop) : (forall e a p, a ∈ SCHEMA_LIST -> F' (e, a, p) <-> F (e, a, p)) -> functional F -> functional F'.
Proof. intros Hx H e a p q Ha Hp Hq. apply Hx in Hp, Hq; [|done..]. by eapply H. Qed.

(** Only the facts about schema attributes matter. *)
Lemma meta_ok_ext st st' s : (forall e a p, a ∈ METADATA_LIST -> (e, a, p) ∈ facts st' <-> (e, a, p) ∈ facts st) ->
  st_idents st' = st_idents st -> st_schema st' = st_schema st -> meta_ok st s -> meta_ok st' s.
Proof.
  intros Hx Ei Es [A K V1 V2 V3 V4 V5 I]. split; unfold view_facts in *; rewrite ?Es; try done.
  - eapply schema_agrees_ext; [|exact A]. done.
  - eapply known_ext; [|exact K]. intros. by apply Hx, schema_meta.
  - intros e a v t. rewrite Ei, I. split; intros [-> H]; (split; [done|]); apply Hx; try done; apply ident_meta.
Qed.

Section Evolve2.
  Context (m : gmap Z attribute) (st st2 : store) (tx i : Z) (tr tr' : trie).
  Context (H0 : store_ok m st tx) (H2 : store_ok m st2 (tx + 1)) (Hap : applied m st st2 tx i tr tr').
  Context (Hcore : core_flat m) (Htidy : tidy (st_log st2)).
  Context (Ei : st_idents st2 = st_idents st) (Es : st_schema st2 = st_schema st).
  Notation F := (fun x => x ∈ facts st).
  Notation F' := (fun x => x ∈ facts st2).

  Lemma unasked_facts e a p : (forall o v, ~ req tr' o e a v) -> is_Some (m !! a) -> F' (e, a, p) <-> F (e, a, p).
  Proof using Hap.
    intros Hno [at_ Hm]. assert (forall o q, ~ asked tr' o e a q) as Hna by (intros o q (v & Hv & _); by eapply Hno).
    rewrite (ap_facts _ _ _ _ _ _ _ Hap e a p at_ Hm). destruct (at_multival at_); naive_solver.
  Qed.

  Lemma evolve_meta smut rs st' sc : meta_ok st smut ->
    (if existsb (fun r => might_update_metadata (r_a r)) (trie_reduced tr')
     then evolve_metadata MaterializeAndCommit st2 smut tx rs else (st2, Ok None)) = (st', Ok sc) ->
    meta_ok st' (default smut sc) /\ same_tables st2 st' /\ forall x, x ∈ facts st' <-> x ∈ facts st2.
  Proof using All.
    intros Hmeta H. destruct (existsb _ _) eqn:Eex.
    2:{ injection H as <- <-. split; [|done]. simpl. apply (meta_ok_ext st st2); try done. intros e a p Ha. apply unasked_facts.
        - intros o v (en & Hen & Hv). apply not_true_iff_false in Eex. apply Eex. apply existsb_exists.
          exists (Reduced e a (te_attr en) v (match o with OAdd => true | ORetract => false end)).
          split; [|simpl; unfold might_update_metadata; by apply bool_decide_eq_true].
          apply elem_of_list_In, trie_reduced_elem. exists en. split_and!; try done. by destruct o.
        - destruct (Hcore a Ha) as (at_ & -> & _). eauto. }
    unfold evolve_metadata in H. destruct (rbind _ _) as [[new rep]| |] eqn:Eq; try done.
    apply rbind_Ok in Eq as (quads & Hq & Hup).
    destruct Hmeta as [A K V1 V2 V3 V4 V5 I].
    assert (no_type_retraction quads) as Hnt by (eapply committed_no_type_retraction; [apply Htidy|done]).
    destruct (step_schema F F' (facts_dec st) (facts_dec st2) (facts_are_functional m st tx H0 Hcore)
      (facts_are_functional m st2 (tx + 1) H2 Hcore) K (facts_one m st2 (tx + 1) H2 Hcore) (facts_one m st tx H0 Hcore)
      (facts_inj m st2 (tx + 1) H2 Hcore) quads) with (s := smut) (s' := new) (rep := rep) as (S1 & S2 & S3 & S4); try done.
    { intros e a v b Hin. destruct (quad_row m st st2 tx i tr tr' H0 H2 Hap Hcore Htidy quads Hq e a v b Hin) as (Ha & r & _ & _ & _ & _ & _ & _ & Hc & Hk). done. }
    { intros e a p b. apply (quad_of m st st2 tx i tr tr' H0 H2 Hap Hcore Htidy quads Hq). }
    { apply (quads_distinct m st st2 tx i tr tr' H0 H2 Hap Hcore Htidy quads Hq). }
    { apply (quads_no_pass m st st2 tx i tr tr' H0 H2 Hap Hcore Htidy quads Hq). }
    { intros e at_ Hm Hex _. by apply (quads_unique m st st2 tx i tr tr' H0 H2 Hap Hcore Htidy quads Hq smut A e at_ Hm). }
    destruct (decide (new = smut)) as [->|Hne].
    - injection H as <- <-. simpl. split; [|done]. split; unfold view_facts in *; rewrite ?Es; try done.
      intros e a v t. rewrite Ei, I. assert (forall p, F' (e, DB_IDENT, p) <-> F (e, DB_IDENT, p)) as Hid.
      { intros p. destruct (sa_idents _ _ A) as [_ IA], (sa_idents _ _ S1) as [_ IB]. split.
        - intros Hf. destruct (ident_fact_named m st2 (tx + 1) H2 Hcore e p) as (k & -> & Hn); [apply Htidy|done|].
          by apply IB, IA in Hn as [_ Hn].
        - intros Hf. destruct (ident_fact_named m st tx H0 Hcore e p) as (k & -> & Hn); [|done|].
          { destruct (ap_log _ _ _ _ _ _ _ Hap) as (nw & El & _). rewrite El in Htidy. apply tidy_app in Htidy. apply Htidy. }
          by apply IA, IB in Hn as [_ Hn]. }
      split; intros [-> Hf]; (split; [done|]); by apply Hid.
    - apply with_st_Ok in H as (st3 & u & Hum & [= <- <-]). simpl.
      apply update_schema_evolve in Hup as He; [|done].
      apply update_metadata_Ok in Hum as (T & Ei' & Es' & U & HF & C); [|apply He|apply H2].
      destruct T as [Tl Tf Tp].
      assert (forall x, x ∈ facts st3 <-> x ∈ facts st2) as Hfacts.
      { apply same_core_facts; [done|]. eapply Forall2_impl; [exact HF|]. by intros ?? [? _]. }
      split; [|done]. split.
      + eapply schema_agrees_ext; [|exact S1]. intros. apply Hfacts.
      + eapply known_ext; [|exact S2]. intros. apply Hfacts.
      + unfold view_facts. rewrite Es'. destruct (_ && _ && _)%bool eqn:En.
        * apply andb_true_iff in En as [En _]. rewrite (S3 En), Es. exact V1.
        * eapply attributes_agree_ext; [|apply S1]. intros e a [v t] Ha. simpl. rewrite (schema_view_elem m st2 (tx + 1) H2 Hcore _ _ _ _ _ (sa_attributes _ _ S1)). tauto.
      + unfold view_facts. rewrite Es'. destruct (_ && _ && _)%bool eqn:En; [rewrite Es; exact V2|].
        eapply functional_ext; [|exact (facts_are_functional m st2 (tx + 1) H2 Hcore)].
        intros e a [v t] Ha. simpl. rewrite (schema_view_elem m st2 (tx + 1) H2 Hcore _ _ _ _ _ (sa_attributes _ _ S1)). tauto.
      + unfold view_facts. rewrite Es'. destruct (_ && _ && _)%bool eqn:En; [rewrite Es; exact V3|].
        eapply known_ext; [|exact S2].
        intros e a [v t] Ha. simpl. rewrite (schema_view_elem m st2 (tx + 1) H2 Hcore _ _ _ _ _ (sa_attributes _ _ S1)). tauto.
      + unfold view_facts. rewrite Es'. intros e a [v t]. simpl. destruct (_ && _ && _)%bool eqn:En; [rewrite Es; apply (V4 e a (v, t))|].
        rewrite (schema_view_elem m st2 (tx + 1) H2 Hcore _ _ _ _ _ (sa_attributes _ _ S1)). tauto.
      + rewrite Es'. destruct (_ && _ && _)%bool eqn:En; [by rewrite Es|]. by apply (schema_view_nodup m st2 (tx + 1)).
      + intros e a v t. rewrite Ei', Hfacts. destruct (is_nil (mr_idents rep)) eqn:En.
        * rewrite Ei, I. specialize (S4 eq_refl). split; intros [-> Hf]; (split; [done|]); by apply S4.
        * apply (idents_view_elem m st2 (tx + 1) H2 Hcore).
  Qed.
End Evolve2.

(* ---------------------------------------------------------------- the attributes that define the schema stay *)

Lemma type_entid_inj t u : type_entid t = type_entid u -> t = u.
Proof. destruct t, u; done. Qed.
Lemma stated_unique F e x y : functional F -> stated F e x -> stated F e y -> x = y.
Proof.
  intros Hf X Y. assert (forall b c : bool, (b = true <-> c = true) -> b = c) as Hb.
  { intros [] []; naive_solver. }
  pose proof (Hf _ _ _ _ in_type (sd_type _ _ _ X) (sd_type _ _ _ Y)) as T. apply to_sql_ref_inj, type_entid_inj in T.
  assert (at_unique x = at_unique y) as U.
  { destruct (at_unique x) as [u|] eqn:E.
    - symmetry. by apply (sd_unique _ _ _ Y), (sd_unique _ _ _ X).
    - destruct (at_unique y) as [u|] eqn:E2; [|done]. apply (sd_unique _ _ _ Y), (sd_unique _ _ _ X) in E2. congruence. }
  assert (at_multival x = at_multival y) as M by (apply Hb; by rewrite (sd_card _ _ _ X), (sd_card _ _ _ Y)).
  assert (at_index x = at_index y) as I by (apply Hb; by rewrite (sd_index _ _ _ X), (sd_index _ _ _ Y)).
  assert (at_fulltext x = at_fulltext y) as FT by (apply Hb; by rewrite (sd_fulltext _ _ _ X), (sd_fulltext _ _ _ Y)).
  assert (at_component x = at_component y) as C by (apply Hb; by rewrite (sd_component _ _ _ X), (sd_component _ _ _ Y)).
  pose proof (sd_history _ _ _ X) as NX. pose proof (sd_history _ _ _ Y) as NY.
  destruct x, y; simpl in *. congruence.
Qed.
Lemma attributes_agree_unique F m m' : functional F -> attributes_agree F m -> attributes_agree F m' -> m = m'.
Proof.
  intros Hf [A1 A2] [B1 B2]. apply map_eq. intros e. destruct (m !! e) as [x|] eqn:E.
  - pose proof (A1 e x E) as Hx. destruct (B2 e _ _ (sd_type _ _ _ Hx) in_type) as [y Hy]. rewrite Hy. f_equal.
    eapply stated_unique; [exact Hf|exact Hx|by apply B1].
  - destruct (m' !! e) as [y|] eqn:E2; [|done]. destruct (A2 e _ _ (sd_type _ _ _ (B1 e y E2)) in_type) as [x Hx]. congruence.
Qed.
Lemma idents_agree_unique F s s' : idents_agree F s -> idents_agree F s' -> sc_entid_map s = sc_entid_map s' /\ sc_ident_map s = sc_ident_map s'.
Proof.
  intros [A1 A2] [B1 B2]. split; apply map_eq.
  - intros e. apply option_eq. intros k. by rewrite A1, B1.
  - intros k. apply option_eq. intros e. by rewrite A2, B2.
Qed.
Lemma schema_agrees_unique F s s' : functional F -> schema_agrees F s -> schema_agrees F s' -> s = s'.
Proof.
  intros Hf [A I C] [A' I' C']. pose proof (attributes_agree_unique _ _ _ Hf A A') as Ha. destruct (idents_agree_unique _ _ _ I I') as [E1 E2].
  destruct s, s'; simpl in *. congruence.
Qed.

Lemma core_flat_kept (m m' : gmap Z attribute) st st2 tx i tr tr' :
  store_ok m st tx -> store_ok m st2 (tx + 1) -> applied m st st2 tx i tr tr' -> core_flat m -> core_untouched (st_log st2) ->
  (forall r, r ∈ st_log st -> TX0 <= t_tx r) ->
  attributes_agree (fun x => x ∈ facts st) m -> attributes_agree (fun x => x ∈ facts st2) m' ->
  forall a, a ∈ METADATA_LIST -> m' !! a = m !! a.
Proof.
  intros H0 H2 Hap Hcore Hun Hr [A1 A2] [B1 B2] a Ha. destruct (Hcore a Ha) as (at_ & Hm & _). pose proof (A1 a at_ Hm) as Hst.
  assert (stated (fun x => x ∈ facts st2) a at_) as Hst2.
  { eapply stated_ext; [|exact Hst]. intros a' p Ha'. simpl.
    assert (forall b, ~ chg (fun x => x ∈ facts st) (fun x => x ∈ facts st2) b (a, a', p)) as Hno.
    { intros b Hc. apply (tx_row_changed m st st2 tx i tr tr' H0 Hap Hcore) in Hc as (r & R & T & E & A & _); [|by apply schema_meta].
      destruct (meta_fact_row m st tx H0 Hcore _ _ _ (schema_meta _ in_type) (sd_type _ _ _ Hst)) as (r1 & R1 & _).
      pose proof (so_tx _ _ _ H0 r1 R1). pose proof (Hr r1 R1).
      assert (t_tx r = TX0); [|lia]. apply Hun; [done|by rewrite E|by rewrite A; apply schema_meta]. }
    pose proof (Hno true) as N1. pose proof (Hno false) as N2. simpl in N1, N2.
    destruct (facts_dec st (a, a', p)), (facts_dec st2 (a, a', p)); tauto. }
  destruct (B2 a _ _ (sd_type _ _ _ Hst2) in_type) as [y Hy]. rewrite Hy, Hm. f_equal.
  eapply stated_unique; [exact (facts_are_functional m st2 (tx + 1) H2 Hcore)|by apply B1|exact Hst2].
Qed.
Lemma core_flat_ext m m' : (forall a, a ∈ METADATA_LIST -> m' !! a = m !! a) -> core_flat m -> core_flat m'.
Proof. intros He H a Ha. destruct (H a Ha) as (at_ & Hm & Hr). exists at_. by rewrite He. Qed.

(* ---------------------------------------------------------------- transactions *)

Record schema_ok (st : store) (s : schema) : Prop := {
  sk_meta : meta_ok st s;
  sk_core : core_flat (sc_attribute_map s) }.

Lemma evolve_log (b : bool) st smut tx rs st' sc :
  (if b then evolve_metadata MaterializeAndCommit st smut tx rs else (st, Ok None)) = (st', Ok sc) -> st_log st' = st_log st.
Proof.
  intros He. destruct b; [|by injection He as <- _]. unfold evolve_metadata in He. destruct (rbind _ _) as [[new rep]| |]; try done.
  case_decide; [by injection He as <- <-|]. apply with_st_Ok in He as (st3 & u & Hum & [= <- <-]).
  pose proof (update_metadata_log st new rep) as Hl. by rewrite Hum in Hl.
Qed.

Lemma transact_simple_schema mv now st pm pm1 s tx ts ids st' r :
  db_ok st pm s -> schema_ok st s -> pm_allocate pm ":db.part/tx" 1 = Ok (tx, pm1) ->
  transact_simple_terms mv now MaterializeAndCommit st pm1 s s tx ts ids = (st', Ok r) ->
  tidy (st_log st') -> schema_ok st' (default s (tr_schema r)).
Proof.
  intros [(p & Hp & H0 & Hst & Hend & Hnx) Hi Htl Hr Hk Hpo] [Hmeta Hcore] Hal H Hti.
  apply tx_alloc in Hal as (p0 & Hp0 & -> & _). assert (p0 = p) as -> by congruence.
  apply transact_simple_Ok in H as (rv & tr & _ & _ & Hwf & Hap & _).
  apply (applied_trie_ok _ _ _ _ _ _ _ _ _ _ _ H0 (core_instant _ Hi) Hwf) in Hap as (st2 & rs & tr' & H2 & Happ & _ & _ & Ei & Es & He & _).
  assert (tidy (st_log st2)) as Hti2 by (rewrite <- (evolve_log _ _ _ _ _ _ _ He); done).
  destruct (evolve_meta _ _ _ _ _ _ _ H0 H2 Happ Hcore Hti2 Ei Es _ _ _ _ Hmeta He) as (M & T & Hf).
  split; [done|]. eapply core_flat_ext; [|exact Hcore]. intros a Ha.
  apply (core_flat_kept _ _ _ _ _ _ _ _ H0 H2 Happ Hcore (proj1 (proj2 Hti2)) Hr); [apply Hmeta| |done].
  eapply attributes_agree_ext; [|apply M]. intros. by rewrite Hf.
Qed.
Lemma transact_schema mv now st pm s es st' r : db_ok st pm s -> schema_ok st s ->
  transact mv now st pm s s es = (st', Ok r) -> tidy (st_log st') -> schema_ok st' (default s (tr_schema r)).
Proof.
  intros H0 Hs H Hn. unfold transact in H. destruct (pm_allocate pm ":db.part/tx" 1) as [[tx pm1]| |] eqn:Ep; try done.
  destruct (entities_to_terms _ _ _ _ _ _) as [[ts ids]| |] eqn:Ee; try done. by eapply transact_simple_schema.
Qed.
Lemma transact_terms_schema mv now st pm s ts ids st' r : db_ok st pm s -> schema_ok st s ->
  transact_terms mv now MaterializeAndCommit st pm s s ts ids = (st', Ok r) -> tidy (st_log st') ->
  schema_ok st' (default s (tr_schema r)).
Proof.
  intros H0 Hs H Hn. unfold transact_terms in H. destruct (pm_allocate pm ":db.part/tx" 1) as [[tx pm1]| |] eqn:Ep; try done.
  by eapply transact_simple_schema.
Qed.

(* ---------------------------------------------------------------- bootstrap *)

Lemma bootstrap_core_flat s : bootstrap_schema_res = Ok s -> core_flat (sc_attribute_map s).
Proof.
  assert (match bootstrap_schema_res with
          | Ok s => forallb (fun a => match sc_attribute_map s !! a with
              | Some at_ => (bool_decide (at_type at_ = meta_type a) && negb (at_multival at_) && negb (at_fulltext at_)
                             && (negb (bool_decide (a = DB_IDENT)) || is_some (at_unique at_)))%bool
              | None => false end) METADATA_LIST
          | _ => false end = true) as H by (vm_compute; reflexivity).
  intros Hs. rewrite Hs in H. clear Hs. intros a Ha. rewrite forallb_forall in H. apply elem_of_list_In in Ha. specialize (H _ Ha).
  destruct (sc_attribute_map s !! a) as [at_|] eqn:E; [|done]. exists at_. split; [done|].
  apply andb_true_iff in H as [H H4]. apply andb_true_iff in H as [H H3]. apply andb_true_iff in H as [H1 H2].
  apply bool_decide_eq_true in H1. apply negb_true_iff in H2, H3. split_and!; try done. intros Hid. rewrite bool_decide_true in H4 by done.
  simpl in H4. destruct (at_unique at_); [eauto|done].
Qed.

Definition empty_store : store := Store [] [] [] [] [] bootstrap_known_parts.
(** The bootstrap transaction asserts some schema: it says that :db/ident is a keyword. *)
Lemma bootstrap_asserts mv s tx pm1 ts ids rv tr : bootstrap_schema_res = Ok s ->
  pm_allocate bootstrap_partition_map ":db.part/tx" 1 = Ok (tx, pm1) ->
  entities_to_terms mv empty_store pm1 s tx bootstrap_entities = Ok (ts, ids) ->
  resolve_terms mv empty_store pm1 s ts ids = Ok rv -> into_aev_trie s (rv_resolved rv) (rv_allocated rv) (rv_inert rv) = Ok tr ->
  req tr OAdd DB_IDENT DB_VALUE_TYPE (TVRef DB_TYPE_KEYWORD).
Proof.
  intros H1 H2 H3 H4 H5. assert (match bootstrap_schema_res with Ok s =>
    match pm_allocate bootstrap_partition_map ":db.part/tx" 1 with Ok (tx, pm1) =>
    match entities_to_terms mv empty_store pm1 s tx bootstrap_entities with Ok (ts, ids) =>
    match resolve_terms mv empty_store pm1 s ts ids with Ok rv =>
    match into_aev_trie s (rv_resolved rv) (rv_allocated rv) (rv_inert rv) with Ok tr =>
      match tr !! (DB_VALUE_TYPE, DB_IDENT) with Some en => bool_decide (TVRef DB_TYPE_KEYWORD ∈ te_add en) | None => false end
    | _ => false end | _ => false end | _ => false end | _ => false end | _ => false end = true) as H by (vm_compute; reflexivity).
  rewrite H1 in H. rewrite H2 in H. rewrite H3 in H. rewrite H4 in H. rewrite H5 in H. clear H1 H2 H3 H4 H5.
  destruct (tr !! _) as [en|] eqn:E; [|done]. exists en. split; [done|]. by apply bool_decide_eq_true in H.
Qed.

Lemma meta_ok_empty : meta_ok empty_store schema_default.
Proof.
  assert (forall x, x ∉ facts empty_store) as Hn by (intros x; apply not_elem_of_nil).
  assert (forall x, ~ view_facts empty_store x) as Hv by (intros x; apply not_elem_of_nil).
  assert (sc_attribute_map schema_default = ∅) as E1 by done. assert (sc_entid_map schema_default = ∅) as E2 by done.
  assert (sc_ident_map schema_default = ∅) as E3 by done.
  split.
  - split; [split| |done].
    + intros e at_ He. by rewrite E1, lookup_empty in He.
    + intros e a p Hf. by apply Hn in Hf.
    + split; intros; rewrite ?E2, ?E3, lookup_empty; (split; [done|]); intros [_ Hf]; by apply Hn in Hf.
  - intros e a p _ Hf. by apply Hn in Hf.
  - split; [intros e at_ He; by rewrite E1, lookup_empty in He|]. intros e a p Hf. by apply Hv in Hf.
  - intros e a p q _ Hf. by apply Hv in Hf.
  - intros e a p _ Hf. by apply Hv in Hf.
  - intros e a p Hf. by apply Hv in Hf.
  - constructor.
  - intros e a v t. split; [intros Hf; by apply elem_of_nil in Hf|]. intros [_ Hf]. by apply Hn in Hf.
Qed.

Lemma create_schema_ok mv now d : create_current_version mv now = Ok d -> tidy (st_log (db_store d)) -> schema_ok (db_store d) (db_schema d).
Proof.
  unfold create_current_version. intros H Hti. apply rbind_Ok in H as (s & Hs & H).
  pose proof (bootstrap_core s Hs) as Hcty. pose proof (core_instant _ Hcty) as Hi. pose proof (bootstrap_core_flat s Hs) as Hcore.
  pose proof (fun tx pm1 ts ids rv tr => bootstrap_asserts mv s tx pm1 ts ids rv tr Hs) as Has. clear Hs.
  change (Store [] [] [] [] [] bootstrap_known_parts) with empty_store in H.
  revert H Has. generalize bootstrap_entities, bootstrap_partition_map. intros bes bpm H Has.
  pose proof meta_ok_empty as Hme. assert (sc_attribute_map schema_default = ∅) as Hsd by done. revert H Hme Hsd. generalize schema_default. intros sd H Hme Hsd.
  destruct (transact _ _ _ _ _ _ _) as [st' [r| |]] eqn:Et; [|discriminate H..].
  assert (d = Db st' (tr_parts r) s /\ (tr_schema r = None \/ tr_schema r = Some s)) as [-> Hsc].
  { destruct (tr_schema r) as [s'|]; [|injection H as <-; split; [done|by left]].
    destruct (decide (s' = s)) as [->|]; [|done]. injection H as <-. split; [done|by right]. }
  clear H. cbn [db_store db_schema] in *. unfold transact in Et. destruct (pm_allocate _ _ _) as [[tx pm1]| |] eqn:Ep; try done.
  destruct (entities_to_terms _ _ _ _ _ _) as [[ts ids]| |] eqn:Ee; try done.
  apply transact_simple_Ok in Et as (rv & tr & Hrv & Htr & Hwf & Hap & _).
  pose proof (Has _ _ _ _ _ _ eq_refl Ee Hrv Htr) as Hreq. clear Has Ee Hrv Htr.
  assert (store_ok (sc_attribute_map s) empty_store tx) as H0 by apply store_ok_empty.
  apply (applied_trie_ok _ _ _ _ _ _ _ _ _ _ _ H0 Hi Hwf) in Hap as (st2 & rs & tr' & H2 & Happ & _ & _ & Ei & Es & He & _).
  assert (tidy (st_log st2)) as Hti2 by (rewrite <- (evolve_log _ _ _ _ _ _ _ He); done).
  destruct (evolve_meta _ _ _ _ _ _ _ H0 H2 Happ Hcore Hti2 Ei Es _ _ _ _ Hme He) as (M & T & Hf).
  assert (tr_schema r = Some s) as Er.
  { destruct Hsc as [Hn|]; [exfalso|done]. rewrite Hn in M. simpl in M.
    assert ((DB_IDENT, DB_VALUE_TYPE, ref_value DB_TYPE_KEYWORD) ∈ facts st') as Hin.
    { apply Hf. destruct (Hcore DB_VALUE_TYPE (schema_meta _ in_type)) as (at_ & Hm & _ & Hmu & _).
      apply (ap_facts _ _ _ _ _ _ _ Happ _ _ _ at_ Hm). rewrite Hmu. right. split; [|apply not_elem_of_nil].
      exists (TVRef DB_TYPE_KEYWORD). split; [|done]. apply (ap_req _ _ _ _ _ _ _ Happ). by left. }
    destruct (sa_attributes _ _ (mt_agrees _ _ M)) as [_ A2]. destruct (A2 _ _ _ Hin in_type) as [x Hx]. by rewrite Hsd, lookup_empty in Hx. }
  rewrite Er in M. split; done.
Qed.

(** The theorems about accepted transactions, assembled. *)
From Verif Require Import M_Conn Spec_Value Spec_Partition Spec_Tx Spec_Conn Spec_Upsert Spec_Entity Spec_Transact.
From Verif Require Import P_Base P_Value P_Partition P_Store P_Fill P_Step P_Meta P_Inv P_Conn P_Upsert P_Resolve P_Entity P_Nested P_Tx P_TxProps P_Panic P_History.

Lemma accepted_outcome mv now c es c' r : accepted mv now c es c' r ->
  conn_ok c /\ exists l ts σ τ rv tr tr', outcome now c c' es r l ts σ τ rv tr tr'.
Proof. intros (Hc & H & Hn). split; [by eapply clean_ok|by eapply conn_transact_outcome]. Qed.
Lemma accepted_clean mv now c es c' r : accepted mv now c es c' r -> clean mv c'.
Proof. intros (Hc & H & Hn). by eapply transact_clean. Qed.

(* ---------------------------------------------------------------- C01, C02 *)

Lemma replay_facts c : conn_ok c -> forall e a p, (e, a, p) ∈ facts (disk c) <->
  exists row, row ∈ transactions (disk c) /\ replay (transactions (disk c)) (t_key row) = Some (t_tx row)
    /\ t_e row = e /\ t_a row = a /\ row_value (sc_attribute_map (schema_of c)) (disk c) row p.
Proof.
  intros Hc e a p. destruct (conn_store_ok _ Hc) as (n & Hs). rewrite facts_elem_view. split.
  - intros (d & Hd & Hv). destruct (so_datoms _ _ _ Hs d Hd) as (at_ & Ha & _ & _ & _ & Hft & _).
    destruct (proj1 (so_log _ _ _ Hs (d_key d) (d_tx d))) as (row & Hr & Had & Htx); [by exists d|].
    assert (row ∈ rows_of (transactions (disk c)) (d_key d)) as Hin by by apply last_Some_elem_of.
    apply elem_of_list_filter in Hin as [Hk Hin]. exists row. split; [done|]. split; [apply replay_last; exists row; by rewrite Hk|].
    unfold t_key, d_key in Hk. injection Hk as Ee Ea Et Ev. unfold view_fact in Hv. unfold row_value. rewrite Ee, Ea, Et, Ev.
    rewrite Hft in Hv. destruct (at_fulltext at_) eqn:E.
    + destruct Hv as (txt & Ht & [= -> -> ->]). split; [done|]. split; [done|]. exists at_. split; [done|]. rewrite E. by exists txt.
    + injection Hv as -> -> ->. split; [done|]. split; [done|]. exists at_. split; [done|]. by rewrite E.
  - intros (row & Hin & Hr & <- & <- & at_ & Ha & Hv). apply replay_last in Hr as (row2 & Hl & Hadd & Htx).
    destruct (proj2 (so_log _ _ _ Hs (t_key row) (t_tx row2))) as (d & Hd & Hk & _); [by exists row2|].
    unfold t_key, d_key in Hk. injection Hk as Ee Ea Et Ev. exists d. split; [done|].
    destruct (so_datoms _ _ _ Hs d Hd) as (at2 & Ha2 & _ & _ & _ & Hft & _). assert (at2 = at_) as -> by congruence.
    unfold view_fact. rewrite Hft, Ee, Ea, Et, Ev. destruct (at_fulltext at_).
    + destruct Hv as (txt & Ht & ->). by exists txt.
    + by rewrite Hv.
Qed.

Section thms.
  Context {mv now : Z} {c c' : conn} {es : list entity} {r : txreport}.
  Context (H : accepted mv now c es c' r).
  Notation m := (sc_attribute_map (schema_of c)).

  Lemma thm_rows : exists new, st_log (disk c') = st_log (disk c) ++ new
    /\ (forall row, row ∈ new -> t_tx row = rp_tx r /\ t_timeline row = TIMELINE_MAIN /\ exists p, row_value m (disk c') row p)
    /\ forall e a p b, (exists row, row ∈ new /\ t_e row = e /\ t_a row = a /\ t_added row = b /\ row_value m (disk c') row p)
         <-> changed (disk c) (disk c') b (e, a, p).
  Proof using H.
    destruct (accepted_outcome _ _ _ _ _ _ H) as (Hc & l & ts & σ & τ & rv & tr & tr' & O). pose proof (out_applied _ _ _ _ _ _ _ _ _ _ _ _ O) as A.
    destruct (ap_log _ _ _ _ _ _ _ A) as (new & E & Hn). exists new. split; [done|]. split.
    - intros row Hr. destruct (Hn _ Hr) as [? ?]. split; [done|]. split; [done|]. by apply (ap_valued _ _ _ _ _ _ _ A new).
    - intros e a p b. by apply (ap_rows _ _ _ _ _ _ _ A new).
  Qed.

  (* -------------------------------------------------------------- C08 *)

  Lemma thm_tx : (forall row, row ∈ st_log (disk c) -> t_tx row < rp_tx r) /\ TX0 <= rp_tx r <= I64_MAX.
  Proof using H.
    destruct (accepted_outcome _ _ _ _ _ _ H) as (Hc & l & ts & σ & τ & rv & tr & tr' & O).
    destruct (out_next _ _ _ _ _ _ _ _ _ _ _ _ O) as (p & Hp & ->). destruct (ok_tx _ _ _ Hc) as (q & Hq & Hs & _ & _ & Hr).
    assert (p = q) as -> by congruence. split; [apply (so_tx _ _ _ Hs)|done].
  Qed.
  Lemma thm_instant : exists l ts σ, understood c es r l ts σ
    /\ (holds (disk c') (rp_tx r) DB_TX_INSTANT (TVInstant (rp_instant r))
        \/ holds (disk c) (rp_tx r) DB_TX_INSTANT (TVInstant (rp_instant r)) /\ exists w, asks ts σ ORetract (rp_tx r) DB_TX_INSTANT w)
    /\ (rp_instant r = now \/ asks ts σ OAdd (rp_tx r) DB_TX_INSTANT (TVInstant (rp_instant r))).
  Proof using H.
    destruct (accepted_outcome _ _ _ _ _ _ H) as (Hc & l & ts & σ & τ & rv & tr & tr' & O). exists l, ts, σ.
    split; [exact (out_read _ _ _ _ _ _ _ _ _ _ _ _ O)|]. split; [exact (outcome_instant Hc O)|].
    destruct (out_given _ _ _ _ _ _ _ _ _ _ _ _ O) as [[? _]|Hq]; [by left|]. right. by apply (req_asks O).
  Qed.

  (* -------------------------------------------------------------- C09, C10, C12 *)

  Lemma thm_add : exists l ts σ, understood c es r l ts σ /\ forall t e a v, t ∈ ts -> subst σ t = Some (Term OAdd e a v) ->
    holds (disk c') e a v \/ upserting c ts σ t
    \/ holds (disk c) e a v /\ exists w, w <> v /\ asks ts σ ORetract e a w /\ (card_many_attr (schema_of c) a -> to_sql_value_pair w = to_sql_value_pair v).
  Proof using H.
    destruct (accepted_outcome _ _ _ _ _ _ H) as (Hc & l & ts & σ & τ & rv & tr & tr' & O). exists l, ts, σ.
    split; [exact (out_read _ _ _ _ _ _ _ _ _ _ _ _ O)|]. intros t e a v. exact (outcome_add O t e a v).
  Qed.
  Lemma thm_retract : exists l ts σ, understood c es r l ts σ
    /\ (forall e a v, asks ts σ ORetract e a v -> holds (disk c') e a v ->
          ~ holds (disk c) e a v
          /\ ((exists w, w <> v /\ asks ts σ OAdd e a w /\ to_sql_value_pair w = to_sql_value_pair v) \/ is_instant r e a (to_sql_value_pair v)))
    /\ (forall e a p, changed (disk c) (disk c') false (e, a, p) ->
          (exists w, asks ts σ ORetract e a w /\ (card_many_attr (schema_of c) a -> to_sql_value_pair w = p))
          \/ (card_one_attr (schema_of c) a /\ exists w, to_sql_value_pair w <> p /\ holds (disk c') e a w
              /\ (asks ts σ OAdd e a w \/ is_instant r e a (to_sql_value_pair w))))
    /\ (forall e a p, changed (disk c) (disk c') true (e, a, p) ->
          (exists w, asks ts σ OAdd e a w /\ to_sql_value_pair w = p) \/ is_instant r e a p).
  Proof using H.
    destruct (accepted_outcome _ _ _ _ _ _ H) as (Hc & l & ts & σ & τ & rv & tr & tr' & O). exists l, ts, σ.
    split; [exact (out_read _ _ _ _ _ _ _ _ _ _ _ _ O)|]. split; [intros e a v; exact (outcome_retract O e a v)|].
    split; [intros e a p [? ?]; by apply (outcome_gone Hc O)|intros e a p [? ?]; by apply (outcome_new O)].
  Qed.
  Lemma thm_noop : exists l ts σ, understood c es r l ts σ
    /\ ((forall t, t ∈ ts -> exists e a v, subst σ t = Some (Term OAdd e a v) /\ holds (disk c) e a v) ->
        (forall e a p, (e, a) <> (rp_tx r, DB_TX_INSTANT) -> (e, a, p) ∈ facts (disk c') <-> (e, a, p) ∈ facts (disk c))
        /\ exists new, st_log (disk c') = st_log (disk c) ++ new /\ forall x, x ∈ new -> t_e x = rp_tx r /\ t_a x = DB_TX_INSTANT).
  Proof using H.
    destruct (accepted_outcome _ _ _ _ _ _ H) as (Hc & l & ts & σ & τ & rv & tr & tr' & O). exists l, ts, σ.
    split; [exact (out_read _ _ _ _ _ _ _ _ _ _ _ _ O)|]. exact (outcome_noop Hc O).
  Qed.

  (* -------------------------------------------------------------- C05 *)

  Lemma thm_typed : exists l ts σ, understood c es r l ts σ /\ forall t o e a v, t ∈ ts -> subst σ t = Some (Term o e a v) ->
    (exists at_, m !! a = Some at_ /\ tv_type v = at_type at_) \/ upserting c ts σ t.
  Proof using H.
    destruct (accepted_outcome _ _ _ _ _ _ H) as (Hc & l & ts & σ & τ & rv & tr & tr' & O). exists l, ts, σ.
    split; [exact (out_read _ _ _ _ _ _ _ _ _ _ _ _ O)|]. intros t o e a v. exact (outcome_typed O t o e a v).
  Qed.

  (* -------------------------------------------------------------- flat entities of the input *)

  Lemma flat_term x : x ∈ es -> flat x -> exists l ts σ t, understood c es r l ts σ /\ t ∈ ts /\ reads (disk c) (parts_of c) (schema_of c) (rp_tx r) x t.
  Proof using H.
    intros Hx Hf. destruct (accepted_outcome _ _ _ _ _ _ H) as (Hc & l & ts & σ & τ & rv & tr & tr' & O).
    pose proof (out_read _ _ _ _ _ _ _ _ _ _ _ _ O) as U. destruct (un_notation _ _ _ _ _ _ U) as (own & Hu & _).
    pose proof (flat_kept _ _ _ _ _ Hu Hf Hx) as Hl. destruct (read_as_elem _ _ _ _ _ (un_terms _ _ _ _ _ _ U) Hl) as (t & Ht & Hr).
    by exists l, ts, σ, t.
  Qed.
  Lemma thm_literal o e a v : EntAdd o e a (VPAtom v) ∈ es -> written_backward a = false ->
    exists n at_, reads_name (schema_of c) a n /\ m !! n = Some at_
      /\ ((exists tv, reads_literal (schema_of c) v (at_type at_) tv) \/ (at_type at_ = VTRef /\ is_Some (as_tempid v))).
  Proof using H.
    intros Hx Hb. destruct (flat_term _ Hx I) as (l & ts & σ & t & U & Ht & Hr). simpl in Hr. rewrite Hb in Hr.
    destruct Hr as (at_ & Hn & Ha & _ & _ & Hv). exists (tm_a t), at_. split; [done|]. split; [done|]. simpl in Hv.
    destruct (at_type at_) eqn:E; try (destruct Hv as (tv & _ & ?); left; by exists tv).
    destruct (as_tempid v) as [y|]; [right; by split; [|exists y]|]. destruct Hv as (tv & _ & ?). left; by exists tv.
  Qed.
  Lemma thm_unallocated o e a v : EntAdd o (EPEntid (EEntid e)) a v ∈ es -> flat (EntAdd o (EPEntid (EEntid e)) a v) -> written_backward a = false ->
    allocated (parts_of c) e \/ e = rp_tx r.
  Proof using H.
    intros Hx Hf Hb. destruct (flat_term _ Hx Hf) as (l & ts & σ & t & U & Ht & Hr). simpl in Hr. rewrite Hb in Hr.
    by destruct Hr as (at_ & _ & _ & _ & [_ He] & _).
  Qed.
  Lemma thm_lookup o b w a v : EntAdd o (EPLookup b w) a v ∈ es -> flat (EntAdd o (EPLookup b w) a v) -> written_backward a = false ->
    exists e, reads_lookup (disk c) (schema_of c) b w e /\ (forall e', reads_lookup (disk c) (schema_of c) b w e' -> e' = e)
      /\ exists l ts σ t, understood c es r l ts σ /\ t ∈ ts /\ tm_op t = o /\ tm_e t = inl e /\ reads_name (schema_of c) a (tm_a t).
  Proof using H.
    intros Hx Hf Hb. destruct (flat_term _ Hx Hf) as (l & ts & σ & t & U & Ht & Hr). simpl in Hr. rewrite Hb in Hr.
    destruct Hr as (at_ & Hn & _ & Ho & (e & He & Hl) & _). exists e. split; [done|].
    split; [intros e' He'; apply (reads_lookup_fun c b w); [by apply (accepted_outcome _ _ _ _ _ _ H)|done..]|]. by exists l, ts, σ, t.
  Qed.
  Lemma thm_lookup_value o e a b w : EntAdd o e a (VPLookup b w) ∈ es -> written_backward a = false ->
    exists e', reads_lookup (disk c) (schema_of c) b w e' /\ (forall e2, reads_lookup (disk c) (schema_of c) b w e2 -> e2 = e')
      /\ exists l ts σ t, understood c es r l ts σ /\ t ∈ ts /\ tm_op t = o /\ tm_v t = inl (TVRef e') /\ reads_name (schema_of c) a (tm_a t).
  Proof using H.
    intros Hx Hb. destruct (flat_term _ Hx I) as (l & ts & σ & t & U & Ht & Hr). simpl in Hr. rewrite Hb in Hr.
    destruct Hr as (at_ & Hn & _ & Ho & _ & Hv). simpl in Hv. destruct Hv as (_ & e' & He & Hl). exists e'. split; [done|].
    split; [intros e2 He2; apply (reads_lookup_fun c b w); [by apply (accepted_outcome _ _ _ _ _ _ H)|done..]|]. by exists l, ts, σ, t.
  Qed.
  (** An assertion about an entity named by number, of a literal that is not a tempid *)
  Lemma thm_plain_add e a n at_ v tv : EntAdd OAdd (EPEntid (EEntid e)) a (VPAtom v) ∈ es -> written_backward a = false ->
    reads_name (schema_of c) a n -> m !! n = Some at_ -> reads_literal (schema_of c) v (at_type at_) tv ->
    as_tempid v = None \/ at_type at_ <> VTRef ->
    holds (disk c') e n tv
    \/ holds (disk c) e n tv /\ exists l ts σ w, understood c es r l ts σ /\ w <> tv /\ asks ts σ ORetract e n w /\ (at_multival at_ = true -> to_sql_value_pair w = to_sql_value_pair tv).
  Proof using H.
    intros Hx Hb Hn Ha Hl Hnt. destruct (accepted_outcome _ _ _ _ _ _ H) as (Hc & l & ts & σ & τ & rv & tr & tr' & O).
    pose proof (out_read _ _ _ _ _ _ _ _ _ _ _ _ O) as U. destruct (un_notation _ _ _ _ _ _ U) as (own & Hu & _).
    pose proof (flat_kept _ _ _ _ (EntAdd OAdd (EPEntid (EEntid e)) a (VPAtom v)) Hu I Hx) as Hin. destruct (read_as_elem _ _ _ _ _ (un_terms _ _ _ _ _ _ U) Hin) as (t & Ht & Hr).
    simpl in Hr. rewrite Hb in Hr. destruct Hr as (at2 & Hn2 & Ha2 & Ho & (He & _) & Hv).
    pose proof (reads_name_fun _ _ _ _ Hn Hn2) as ->. assert (at2 = at_) as -> by congruence.
    assert (tm_v t = inl tv) as Ev.
    { simpl in Hv. destruct (at_type at_) eqn:E; try (destruct Hv as (tv2 & -> & Hl2); f_equal; by eapply reads_literal_fun).
      destruct (as_tempid v); [by destruct Hnt|]. destruct Hv as (tv2 & -> & Hl2); f_equal; by eapply reads_literal_fun. }
    assert (subst σ t = Some (Term OAdd e (tm_a t) tv)) as Hs by (unfold subst; by rewrite He, Ev, Ho).
    destruct (outcome_add O _ _ _ _ Ht Hs) as [?|[(y & e2 & (_ & Hy & _) & _)|(Hh & w & Hw & Hq & Hcm)]]; [by left|congruence|].
    right. split; [done|]. exists l, ts, σ, w. split_and!; try done. intros Hm. apply Hcm. by exists at_.
  Qed.
  (** [:db/add e :ns/_name v] *)
  Lemma thm_backward e k v : EntAdd OAdd e (EIdent k) v ∈ es -> flat (EntAdd OAdd e (EIdent k) v) -> kw_is_backward k = true ->
    exists l ts σ t k' r', understood c es r l ts σ /\ t ∈ ts /\ kw_unreversed k = Ok (Some k') /\ sc_ident_map (schema_of c) !! k' = Some (tm_a t)
      /\ tm_op t = OAdd /\ reads_value (disk c) (schema_of c) (rp_tx r) v VTRef (as_value (tm_e t))
      /\ reads_entity (disk c) (parts_of c) (schema_of c) (rp_tx r) e r' /\ tm_v t = as_value r'.
  Proof using H.
    intros Hx Hf Hb. destruct (flat_term _ Hx Hf) as (l & ts & σ & t & U & Ht & Hr). simpl in Hr. rewrite Hb in Hr.
    destruct Hr as (k' & at_ & r' & Hk & Hi & _ & _ & Ho & Hv & He & Hr). by exists l, ts, σ, t, k', r'.
  Qed.

  (* -------------------------------------------------------------- C13, C14, C16 *)

  Lemma thm_tempids : exists l ts σ, understood c es r l ts σ /\ (forall t, t ∈ ts -> is_Some (subst σ t))
    /\ forall n, is_Some (rp_tempids r !! n) <-> exists t, t ∈ ts /\ TExternal n ∈ tempids_of t.
  Proof using H.
    destruct (accepted_outcome _ _ _ _ _ _ H) as (Hc & l & ts & σ & τ & rv & tr & tr' & O). exists l, ts, σ.
    pose proof (out_read _ _ _ _ _ _ _ _ _ _ _ _ O) as U. split; [done|]. split; [exact (out_some _ _ _ _ _ _ _ _ _ _ _ _ O)|].
    intros n. rewrite (un_report _ _ _ _ _ _ U). apply (un_tempids _ _ _ _ _ _ U).
  Qed.
  Lemma thm_upsert : exists l ts σ, understood c es r l ts σ
    /\ (forall t x v e at_, t ∈ ts -> identity_add (schema_of c) t x -> tm_v t = inl v -> m !! tm_a t = Some at_ -> at_index at_ = true ->
         holds (disk c) e (tm_a t) v -> σ !! x = Some e)
    /\ (forall t x v e e1, t ∈ ts -> identity_add (schema_of c) t x -> subst_v σ (tm_v t) = Some v -> σ !! x = Some e1 ->
         holds (disk c) e (tm_a t) v -> e1 = e \/ upserting c ts σ t \/ ~ holds (disk c') e (tm_a t) v \/ holds (disk c) e1 (tm_a t) v).
  Proof using H.
    destruct (accepted_outcome _ _ _ _ _ _ H) as (Hc & l & ts & σ & τ & rv & tr & tr' & O). exists l, ts, σ.
    split; [exact (out_read _ _ _ _ _ _ _ _ _ _ _ _ O)|]. split; [intros t x v e at_; exact (outcome_upsert Hc O t x v e at_)|].
    intros t x v e e1. exact (outcome_upsert_any O t x v e e1).
  Qed.
  Lemma thm_fresh : exists l ts σ, understood c es r l ts σ
    /\ (forall x e, σ !! x = Some e -> names c ts σ x e \/ ~ allocated (parts_of c) e /\ allocated (parts_of c') e)
    /\ (forall x y e, σ !! x = Some e -> σ !! y = Some e -> names c ts σ x e \/ names c ts σ y e \/ rtsc (shares (schema_of c) ts σ) x y)
    /\ (forall t u x y v, t ∈ ts -> u ∈ ts -> identity_add (schema_of c) t x -> identity_add (schema_of c) u y -> tm_a t = tm_a u ->
         tm_v t = inl v -> tm_v u = inl v -> σ !! x = σ !! y \/ exists z e, (z = x \/ z = y) /\ σ !! z = Some e /\ names c ts σ z e).
  Proof using H.
    destruct (accepted_outcome _ _ _ _ _ _ H) as (Hc & l & ts & σ & τ & rv & tr & tr' & O). exists l, ts, σ.
    split; [exact (out_read _ _ _ _ _ _ _ _ _ _ _ _ O)|]. split; [intros x e; exact (outcome_fresh Hc O x e)|].
    split; [intros x y e; exact (outcome_same O x y e)|]. intros t u x y v. exact (outcome_share O t u x y v).
  Qed.

  (* -------------------------------------------------------------- C20 *)

  Lemma thm_conflicts : exists l ts σ, understood c es r l ts σ
    /\ (forall t u e a v w, t ∈ ts -> u ∈ ts -> subst σ t = Some (Term OAdd e a v) -> subst σ u = Some (Term OAdd e a w) ->
         card_one_attr (schema_of c) a -> v = w \/ upserting c ts σ t \/ upserting c ts σ u)
    /\ (forall t e a v, t ∈ ts -> subst σ t = Some (Term OAdd e a v) -> asks ts σ ORetract e a v -> upserting c ts σ t).
  Proof using H.
    destruct (accepted_outcome _ _ _ _ _ _ H) as (Hc & l & ts & σ & τ & rv & tr & tr' & O). exists l, ts, σ.
    split; [exact (out_read _ _ _ _ _ _ _ _ _ _ _ _ O)|]. split; [intros t u e a v w; exact (outcome_card_conflict O t u e a v w)|].
    intros t e a v. exact (outcome_op_conflict O t e a v).
  Qed.

  (* -------------------------------------------------------------- C51: the above, with one reading of the input *)

  Lemma thm_notation : exists l own ts σ, understood c es r l ts σ /\ unfolds (schema_of c) es l own /\ NoDup own /\ Forall flat l
    /\ (forall t, t ∈ ts -> is_Some (subst σ t))
    /\ (forall t e a v, t ∈ ts -> subst σ t = Some (Term OAdd e a v) ->
          holds (disk c') e a v \/ upserting c ts σ t
          \/ holds (disk c) e a v /\ exists w, w <> v /\ asks ts σ ORetract e a w /\ (card_many_attr (schema_of c) a -> to_sql_value_pair w = to_sql_value_pair v))
    /\ (forall e a v, asks ts σ ORetract e a v -> holds (disk c') e a v ->
          ~ holds (disk c) e a v
          /\ ((exists w, w <> v /\ asks ts σ OAdd e a w /\ to_sql_value_pair w = to_sql_value_pair v) \/ is_instant r e a (to_sql_value_pair v)))
    /\ (forall e a p, changed (disk c) (disk c') false (e, a, p) ->
          (exists w, asks ts σ ORetract e a w /\ (card_many_attr (schema_of c) a -> to_sql_value_pair w = p))
          \/ (card_one_attr (schema_of c) a /\ exists w, to_sql_value_pair w <> p /\ holds (disk c') e a w
              /\ (asks ts σ OAdd e a w \/ is_instant r e a (to_sql_value_pair w))))
    /\ (forall e a p, changed (disk c) (disk c') true (e, a, p) ->
          (exists w, asks ts σ OAdd e a w /\ to_sql_value_pair w = p) \/ is_instant r e a p)
    /\ (forall t x v e at_, t ∈ ts -> identity_add (schema_of c) t x -> tm_v t = inl v -> sc_attribute_map (schema_of c) !! tm_a t = Some at_ ->
          at_index at_ = true -> holds (disk c) e (tm_a t) v -> σ !! x = Some e)
    /\ (forall x e, σ !! x = Some e -> names c ts σ x e \/ ~ allocated (parts_of c) e /\ allocated (parts_of c') e)
    /\ (forall x y e, σ !! x = Some e -> σ !! y = Some e -> names c ts σ x e \/ names c ts σ y e \/ rtsc (shares (schema_of c) ts σ) x y).
  Proof using H.
    destruct (accepted_outcome _ _ _ _ _ _ H) as (Hc & l & ts & σ & τ & rv & tr & tr' & O). pose proof (out_read _ _ _ _ _ _ _ _ _ _ _ _ O) as U.
    destruct (un_notation _ _ _ _ _ _ U) as (own & Hu & Hnd). exists l, own, ts, σ. split; [done|]. split; [done|]. split; [done|].
    split; [by eapply unfolds_all_flat|]. split; [exact (out_some _ _ _ _ _ _ _ _ _ _ _ _ O)|].
    split; [intros t e a v; exact (outcome_add O t e a v)|]. split; [intros e a v; exact (outcome_retract O e a v)|].
    split; [intros e a p [? ?]; by apply (outcome_gone Hc O)|]. split; [intros e a p [? ?]; by apply (outcome_new O)|].
    split; [intros t x v e at_; exact (outcome_upsert Hc O t x v e at_)|]. split; [intros x e; exact (outcome_fresh Hc O x e)|].
    intros x y e; exact (outcome_same O x y e).
  Qed.

End thms.

(* ---------------------------------------------------------------- C17 *)

Lemma clean_installed mv c : clean mv c -> never_uninstalled (st_log (disk c)).
Proof. by intros (now & c0 & l & _ & _ & _ & H). Qed.
Lemma thm_kept mv now c l es c' r e : clean mv c -> allocated (parts_of c) e -> (exists row, row ∈ st_log (disk c) /\ t_e row = e) ->
  clean_history mv c l -> accepted mv now (conn_run mv c l) es c' r ->
  exists l1 ts σ, understood (conn_run mv c l) es r l1 ts σ /\ forall x, σ !! x = Some e -> names (conn_run mv c l) ts σ x e.
Proof.
  intros Hc Ha Hl Hh H. destruct (conn_run_kept mv l e c (clean_ok _ _ Hc) Hh (clean_installed _ _ (proj1 H)) (conj Ha Hl)) as [Ha2 _].
  destruct (thm_fresh H) as (l1 & ts & σ & U & Hf & _). exists l1, ts, σ. split; [done|]. intros x Hx. by destruct (Hf _ _ Hx) as [?|[? _]].
Qed.

(* ---------------------------------------------------------------- C14 *)

(** Two identity attributes cannot pull a tempid to different entities. *)
Lemma thm_upsert_agree mv now c es c' r : accepted mv now c es c' r -> exists l ts σ, understood c es r l ts σ
  /\ forall t u x v w e1 e2 at1 at2, t ∈ ts -> u ∈ ts -> identity_add (schema_of c) t x -> identity_add (schema_of c) u x ->
     tm_v t = inl v -> tm_v u = inl w -> sc_attribute_map (schema_of c) !! tm_a t = Some at1 -> sc_attribute_map (schema_of c) !! tm_a u = Some at2 ->
     at_index at1 = true -> at_index at2 = true -> holds (disk c) e1 (tm_a t) v -> holds (disk c) e2 (tm_a u) w -> e1 = e2.
Proof.
  intros H. destruct (thm_upsert H) as (l & ts & σ & U & Hu & _). exists l, ts, σ. split; [done|].
  intros t u x v w e1 e2 at1 at2 Ht Hu' It Iu Vt Vu At Au X1 X2 H1 H2.
  pose proof (Hu _ _ _ _ _ Ht It Vt At X1 H1). pose proof (Hu _ _ _ _ _ Hu' Iu Vu Au X2 H2). congruence.
Qed.

(* ---------------------------------------------------------------- C06 *)

Lemma thm_dropped mv c l : (conn_step mv c (CSession l false)).1 = c.
Proof. simpl. by destruct (ig_steps _ _ _) as [[ig rs]| |]. Qed.

(** The invariants of a store under transactions. *)
From Verif Require Import Spec_Partition M_Store M_Tx M_Meta M_Boot Spec_Tx Spec_Conn P_Base P_Partition P_Store P_Fill P_Step P_Meta.

(* ---------------------------------------------------------------- the log *)

Lemma alternates_snoc l : forall b x,
  alternates b l -> x = match last l with None => b | Some y => negb y end -> alternates b (l ++ [x]).
Proof.
  induction l as [|y l IH]; intros b x H Hx; [done|].
  destruct H as [-> H]. split; [done|]. apply IH; [done|]. rewrite last_cons in Hx. by destruct (last l).
Qed.

Lemma rows_of_app l1 l2 k : rows_of (l1 ++ l2) k = rows_of l1 k ++ rows_of l2 k.
Proof. apply filter_app. Qed.
Lemma rows_of_elem l k r : r ∈ rows_of l k <-> r ∈ l /\ t_key r = k.
Proof. unfold rows_of. rewrite elem_of_list_filter. tauto. Qed.
Lemma rows_of_nodup l k : NoDup (map t_key l) -> rows_of l k = [] \/ exists r, rows_of l k = [r] /\ r ∈ l /\ t_key r = k.
Proof.
  induction l as [|r l IH]; simpl; intros Hn; [by left|]. apply NoDup_cons in Hn as [Hr Hn].
  unfold rows_of in *. rewrite filter_cons. destruct (decide (t_key r = k)) as [<-|Hk].
  - right. exists r. split_and!; [|by left|done]. f_equal. destruct (IH Hn) as [->|(r2 & E & Hin & Hk)]; [done|].
    exfalso. apply Hr. rewrite <- Hk. by apply elem_of_list_fmap_1.
  - destruct (IH Hn) as [->|(r2 & E & Hin & Hk2)]; [by left|]. right. exists r2. split_and!; [done|by right|done].
Qed.

Lemma last_map {A B} (f : A -> B) l : last (map f l) = f <$> last l.
Proof. induction l as [|x [|y l] IH]; simpl in *; done. Qed.

Lemma last_elem {A} (l : list A) x : last l = Some x -> x ∈ l.
Proof. intros H. apply last_Some in H as [l' ->]. set_solver. Qed.

(* ---------------------------------------------------------------- a conforming store *)

Record store_ok (m : gmap Z attribute) (st : store) (next_tx : Z) : Prop := {
  so_uniq : datoms_unique (st_datoms st) = true;
  so_datoms : datoms_ok m st;
  so_card : forall s, sc_attribute_map s = m -> card_one s st;
  so_log : log_determines st;
  so_min : log_minimal st;
  so_main : forall r, r ∈ st_log st -> t_timeline r = TIMELINE_MAIN;
  so_tx : forall r, r ∈ st_log st -> t_tx r < next_tx }.

(* ---------------------------------------------------------------- materialization *)

Lemma transactions_app st l new : st_log st = l ++ new -> (forall r, r ∈ new -> t_timeline r = TIMELINE_MAIN) ->
  transactions st = filter (fun r => t_timeline r = TIMELINE_MAIN) l ++ new.
Proof.
  intros Hl Hnew. unfold transactions. rewrite Hl, filter_app. f_equal. clear Hl.
  induction new as [|r new IH]; [done|]. rewrite filter_cons, decide_True by (apply Hnew; by left).
  f_equal. apply IH. intros. apply Hnew. by right.
Qed.

Lemma materialize_ok m s st0 st1 st2 tx tr f exact inexact rs :
  sc_attribute_map s = m -> store_ok m st0 tx -> trie_wf s tr -> trie_all entry_typed tr = true ->
  one_add s tr -> filled st0 st1 (trie_reduced tr) exact inexact f ->
  materialize MaterializeAndCommit st1 tx exact inexact = (st2, Ok rs) ->
  store_ok m st2 (tx + 1)
  /\ st_fts st2 = f /\ st_parts st2 = st_parts st0 /\ st_idents st2 = st_idents st0 /\ st_schema st2 = st_schema st0
  /\ search (st_datoms st0) exact inexact = Ok rs
  /\ st_datoms st2 = after_delete (st_datoms st0) rs ++ map (datom_of_search tx) (added_rows rs)
  /\ st_log st2 = st_log st0 ++ log_adds tx rs ++ log_retracts tx rs.
Proof.
  intros Hs H0 Hwf Hty Hnc Hfill Hm. unfold materialize in Hm.
  pose proof (fi_st _ _ _ _ _ _ Hfill) as E1.
  assert (st_datoms st1 = st_datoms st0) as Ed by by rewrite E1. rewrite Ed in Hm.
  destruct (search (st_datoms st0) exact inexact) as [rs0| |] eqn:Hsearch; try done.
  apply with_st_Ok in Hm as (st3 & u & Hup & [= <- <-]).
  apply update_datoms_Ok in Hup as [E3 Huq]. rewrite Ed in E3.
  assert (st_datoms (insert_transaction st3 tx rs0) = after_delete (st_datoms st0) rs0 ++ map (datom_of_search tx) (added_rows rs0)) as Eds.
  { by rewrite E3. }
  assert (st_log (insert_transaction st3 tx rs0) = st_log st0 ++ log_adds tx rs0 ++ log_retracts tx rs0) as Elog.
  { by rewrite E3, E1. }
  assert (st_fts (insert_transaction st3 tx rs0) = f) as Efts by by rewrite E3, E1.
  pose proof (datoms_unique_key _ (so_uniq _ _ _ H0)) as Hkeys.
  pose proof (so_datoms _ _ _ H0) as Hdat.
  pose proof (log_rows_nodup m s Hs st0 st1 tx tr f exact inexact rs0 Hwf Hty Hfill Hsearch (so_datoms _ _ _ H0) ) as Hnodup.
  assert (forall r, r ∈ log_adds tx rs0 ++ log_retracts tx rs0 -> t_timeline r = TIMELINE_MAIN /\ t_tx r = tx) as Hnew.
  { intros r [Hr|Hr]%elem_of_app.
    - apply log_adds_elem in Hr as (t & _ & ->). done.
    - eapply log_retracts_elem in Hr; eauto. naive_solver. }
  split; [split|split_and!; try done; by rewrite E3, E1].
  - rewrite Eds. by rewrite E3 in Huq.
  - intros d Hd. rewrite Eds in Hd. rewrite Efts. eapply step_ok; eauto.
  - intros s' Hs'. unfold card_one. rewrite Hs', <- Hs. change (card_one s (insert_transaction st3 tx rs0)).
    eapply card_one_step; eauto. by apply H0.
  - intros k tx'. rewrite (transactions_app _ _ _ Elog) by naive_solver.
    fold (transactions st0). rewrite rows_of_app. rewrite Eds.
    pose proof (so_log _ _ _ H0 k tx') as Hold.
    setoid_rewrite (step_elem st0 tx rs0).
    destruct (rows_of_nodup _ k Hnodup) as [E|(r & E & Hr & Hk)].
    + rewrite E, app_nil_r, <- Hold.
      assert (k ∉ deleted_keys rs0) as Hndel.
      { intros Hdel. assert (TxRow k.1.1.1 k.1.1.2 k.2 k.1.2 tx false TIMELINE_MAIN ∈ rows_of (log_adds tx rs0 ++ log_retracts tx rs0) k) as K.
        - apply rows_of_elem. destruct k as [[[]]]. split; [|done]. apply elem_of_app. right. eapply log_retracts_elem; eauto.
        - rewrite E in K. by apply elem_of_nil in K. }
      split.
      * intros (d & [[Hd _]|(t & Ht & ->)] & Hdk & Htx); [by exists d|]. exfalso.
        assert (TxRow k.1.1.1 k.1.1.2 k.2 k.1.2 tx true TIMELINE_MAIN ∈ rows_of (log_adds tx rs0 ++ log_retracts tx rs0) k) as K.
        -- apply rows_of_elem. rewrite <- Hdk. split; [|done]. apply elem_of_app. left. apply log_adds_elem. exists t. done.
        -- rewrite E in K. by apply elem_of_nil in K.
      * intros (d & Hd & Hdk & Htx). exists d. split_and!; try done. left. split; [done|]. by rewrite Hdk.
    + rewrite E, last_snoc. apply elem_of_app in Hr as [Hr|Hr].
      * apply log_adds_elem in Hr as (t & Ht & ->). split.
        -- intros (d & [[Hd Hnd]|(t2 & Ht2 & ->)] & Hdk & Htx).
           ++ exfalso. eapply added_absent; eauto. apply elem_of_list_fmap. exists d. split; [|done]. rewrite Hdk, <- Hk. done.
           ++ eexists. split_and!; [done|done|]. by rewrite <- Htx.
        -- intros (r & [= <-] & _ & Htx). exists (datom_of_search tx t). split_and!; [right; eauto|by rewrite <- Hk|done].
      * eapply log_retracts_elem in Hr; eauto. destruct Hr as (Hdel & Htx & Hadd & _). split.
        -- intros (d & [[Hd Hnd]|(t2 & Ht2 & ->)] & Hdk & _).
           ++ exfalso. apply Hnd. by rewrite Hdk, <- Hk.
           ++ exfalso. eapply added_absent; eauto. rewrite <- (datom_of_search_key tx), Hdk, <- Hk. eapply deleted_present; eauto.
        -- intros (r2 & [= <-] & Hadd2 & _). congruence.
  - split.
    + intros k. rewrite (transactions_app _ _ _ Elog) by naive_solver. fold (transactions st0). rewrite rows_of_app, map_app.
      pose proof (proj1 (so_min _ _ _ H0) k) as Halt.
      destruct (rows_of_nodup _ k Hnodup) as [E|(r & E & Hr & Hk)]; rewrite E; [by rewrite app_nil_r|].
      simpl. apply alternates_snoc; [done|]. rewrite last_map. pose proof (so_log _ _ _ H0 k) as Hold.
      apply elem_of_app in Hr as [Hr|Hr].
      * apply log_adds_elem in Hr as (t & Ht & ->). simpl.
        destruct (last (rows_of (transactions st0) k)) as [r2|] eqn:El; simpl; [|done].
        destruct (t_added r2) eqn:Ha; [|done]. exfalso. destruct (proj2 (Hold (t_tx r2))) as (d & Hd & Hdk & _); [by exists r2|].
        eapply added_absent; eauto. apply elem_of_list_fmap. exists d. split; [|done]. rewrite Hdk, <- Hk. done.
      * eapply log_retracts_elem in Hr; eauto. destruct Hr as (Hdel & Htx & -> & _).
        eapply deleted_present in Hdel; eauto. apply elem_of_list_fmap in Hdel as (d & Hdk & Hd).
        destruct (proj1 (Hold (d_tx d))) as (r2 & -> & Ha & _); [exists d; split_and!; congruence|]. simpl. by rewrite Ha.
    + rewrite (transactions_app _ _ _ Elog) by naive_solver. fold (transactions st0). rewrite map_app. apply NoDup_app. split_and!.
      * apply H0.
      * intros x (r & -> & Hr)%elem_of_list_fmap (r2 & Hx & Hr2)%elem_of_list_fmap.
        apply elem_of_list_filter in Hr as [_ Hr]. apply (so_tx _ _ _ H0) in Hr. apply Hnew in Hr2. injection Hx as Hx _. lia.
      * assert (forall l : list txrow, NoDup (map t_key l) -> NoDup (map (fun r => (t_tx r, t_key r)) l)) as K; [|by apply K].
        intros l Hl. apply (NoDup_fmap_1 snd). rewrite <- list_fmap_compose. done.
  - intros r. rewrite Elog. intros [Hr|Hr]%elem_of_app; [by eapply so_main|]. by apply Hnew.
  - intros r. rewrite Elog. intros [Hr|Hr]%elem_of_app.
    + apply (so_tx _ _ _ H0) in Hr. lia.
    + apply Hnew in Hr. lia.
Qed.

(* ---------------------------------------------------------------- metadata *)

Lemma committed_quads_elem st tx quads e a v b : committed_metadata_assertions st tx = Ok quads ->
  (e, a, v, b) ∈ quads -> exists r, r ∈ st_log st /\ t_e r = e /\ t_a r = a /\ t_added r = b /\ t_tx r = tx
    /\ from_sql_value_pair (t_v r) (t_tag r) = Ok v /\ a ∈ METADATA_LIST.
Proof.
  unfold committed_metadata_assertions. intros H%rmapM_Ok Hin. apply elem_of_list_lookup in Hin as [i Hi].
  destruct (Forall2_lookup_r _ _ _ _ _ H Hi) as (row & Hrow & Hq). apply elem_of_list_lookup_2 in Hrow.
  apply merge_sort_elem, elem_of_list_fmap in Hrow as (r & -> & Hr). apply elem_of_list_filter in Hr as [[Htx Ha] Hr].
  apply elem_of_list_filter in Hr as [_ Hr]. unfold quad_of_row in Hq. apply rbind_Ok in Hq as (tv & Htv & [= <- <- <- <-]).
  by exists r.
Qed.

Lemma committed_no_type_retraction st tx quads : never_uninstalled (st_log st) ->
  committed_metadata_assertions st tx = Ok quads -> no_type_retraction quads.
Proof.
  intros Hn H e v Hin. eapply committed_quads_elem in Hin as (r & Hr & _ & Ha & Hadd & _); [|exact H].
  by apply (Hn r Hr).
Qed.

(** A conforming store still conforms after its flags have been brought in line with the new schema. *)
Lemma store_ok_evolve m m' rep st st' n :
  store_ok m st n -> attrs_evolve m m' rep -> same_tables st st' -> datoms_unique (st_datoms st') = true ->
  Forall2 (fun d d' =>
       same_core d d' /\ (d_a d ∉ (mr_altered rep).*1 -> d' = d)
       /\ forall alts, (d_a d, alts) ∈ mr_altered rep -> exists at_, m' !! d_a d = Some at_ /\ flags_after (d_a d) at_ alts d d')
     (st_datoms st) (st_datoms st') ->
  (forall e alts, (e, alts) ∈ mr_altered rep -> AltCardinality ∈ alts -> exists at_, m' !! e = Some at_ /\ at_multival at_ = true) ->
  store_ok m' st' n /\ (forall x, x ∈ facts st' <-> x ∈ facts st).
Proof.
  intros H0 He [El Ef Ep] Hu HF Hc.
  assert (forall a at_, m !! a = Some at_ -> exists at', m' !! a = Some at' /\ at_type at' = at_type at_
     /\ at_fulltext at' = at_fulltext at_ /\ (at_multival at' = false -> at_multival at_ = false)) as Hm.
  { intros a at_ Ha. destruct (decide (a ∈ (mr_altered rep).*1)) as [Hin|Hin].
    - apply elem_of_list_fmap in Hin as ([e muts] & -> & Hin). destruct (ae_altered _ _ _ He _ _ Hin) as (x & x' & Hx & Hx' & Hmu).
      simpl in *. assert (x = at_) as -> by congruence. exists x'. split_and!; [done|apply Hmu..|].
      intros Hf. destruct (at_multival at_) eqn:Em; [|done]. exfalso.
      destruct (Hc e muts Hin) as (at2 & Hat2 & Hm2); [|congruence]. apply (mu_card _ _ _ Hmu). congruence.
    - destruct (decide (a ∈ mr_installed rep)) as [Hin2|Hin2].
      + destruct (ae_installed _ _ _ He a Hin2) as [? _]. congruence.
      + exists at_. rewrite (ae_other _ _ _ He) by done. done. }
  assert (forall d d', d ∈ st_datoms st ->
     (same_core d d' /\ (d_a d ∉ (mr_altered rep).*1 -> d' = d)
       /\ forall alts, (d_a d, alts) ∈ mr_altered rep -> exists at_, m' !! d_a d = Some at_ /\ flags_after (d_a d) at_ alts d d') ->
     datom_ok m' (st_fts st') d') as Hd.
  { intros d d' Hd (Hcore & Hnone & Hsome). destruct (so_datoms _ _ _ H0 d Hd) as (at_ & Ha & (tv & T & E & N) & (F1 & F2 & F3 & F4)).
    destruct (Hm _ _ Ha) as (at' & Ha' & Ht & Hf & _). exists at'. pose proof Hcore as (C1 & C2 & C3 & C4 & C5 & C6 & C7).
    split_and!.
    - by rewrite C2.
    - exists tv. rewrite C3, C4, Ef. split_and!; [congruence| |done]. unfold enc in *. by rewrite Hf.
    - assert (d_avet d' = at_index at' /\ d_uq d' = is_some (at_unique at')) as [G1 G2].
      { destruct (decide (d_a d ∈ (mr_altered rep).*1)) as [Hin|Hin].
        - apply elem_of_list_fmap in Hin as ([e muts] & Hda & Hin). simpl in Hda.
          destruct (ae_altered _ _ _ He _ _ Hin) as (x & x' & Hx & Hx' & Hmu).
          assert (x = at_) as -> by congruence. assert (x' = at') as -> by congruence.
          rewrite <- Hda in Hin. destruct (Hsome _ Hin) as (at3 & Ha3 & (_ & A3 & U3)).
          assert (at3 = at') as -> by congruence. split.
          + rewrite A3. clear U3. case_decide as Hdec; [done|]. rewrite F1. destruct (decide (at_index at' = at_index at_)) as [->|]; [done|].
            exfalso. apply Hdec. split; [done|]. by apply (mu_index _ _ _ Hmu).
          + rewrite U3. clear A3. case_decide as Hdec; [done|]. rewrite F4. destruct (decide (at_unique at' = at_unique at_)) as [->|]; [done|].
            exfalso. apply Hdec. split; [done|]. by apply (mu_unique _ _ _ Hmu).
        - rewrite (Hnone Hin). destruct (decide (d_a d ∈ mr_installed rep)) as [Hin2|Hin2].
          + destruct (ae_installed _ _ _ He _ Hin2) as [? _]. congruence.
          + rewrite (ae_other _ _ _ He) in Ha' by done. assert (at_ = at') as -> by congruence. done. }
      unfold flags_ok. rewrite C6, C7, Hf, Ht. done. }
  assert (Forall2 same_core (st_datoms st) (st_datoms st')) as Hcore.
  { eapply Forall2_impl; [exact HF|]. by intros ?? [? _]. }
  assert (datoms_ok m' st') as Hok'.
  { intros d' [i Hi]%elem_of_list_lookup. destruct (Forall2_lookup_r _ _ _ _ _ HF Hi) as (d & Hdi & HR).
    eapply Hd; [by eapply elem_of_list_lookup_2|done]. }
  assert (forall x, x ∈ facts st' <-> x ∈ facts st) as Hfacts.
  { intros x. rewrite !facts_elem_view, Ef.
    assert (forall d d', same_core d d' -> (view_fact (st_fts st) d' x <-> view_fact (st_fts st) d x)) as Hv.
    { intros d d' (-> & -> & -> & -> & _ & _ & ->)  || intros d d' (C1 & C2 & C3 & C4 & _ & _ & C7).
      unfold view_fact. by rewrite C1, C2, C3, C4, C7. }
    split.
    - intros (d' & [i Hi]%elem_of_list_lookup & V). destruct (Forall2_lookup_r _ _ _ _ _ Hcore Hi) as (d & Hdi & HR).
      exists d. split; [by eapply elem_of_list_lookup_2|]. by apply (Hv d d').
    - intros (d & [i Hi]%elem_of_list_lookup & V). destruct (Forall2_lookup_l _ _ _ _ _ Hcore Hi) as (d' & Hdi & HR).
      exists d'. split; [by eapply elem_of_list_lookup_2|]. by apply (Hv d d'). }
  split; [|done]. split.
  - done.
  - done.
  - intros s' Hs' e a at' p q Ha' Hmu Hp Hq. apply Hfacts in Hp, Hq. rewrite Hs' in Ha'.
    apply (facts_elem m) in Hp as Hp'; [|apply H0]. destruct Hp' as (_ & at_ & _ & _ & _ & _ & Ha & _).
    destruct (Hm _ _ Ha) as (at2 & Ha2 & _ & _ & Hmu2). assert (at2 = at') as -> by congruence.
    eapply (so_card _ _ _ H0 (Schema ∅ ∅ m [])); [done|exact Ha|by apply Hmu2|done|done].
  - intros k tx. unfold transactions. rewrite El. fold (transactions st). rewrite <- (so_log _ _ _ H0 k tx). split.
    + intros (d' & [i Hi]%elem_of_list_lookup & Hk & Htx). destruct (Forall2_lookup_r _ _ _ _ _ Hcore Hi) as (d & Hdi & HR).
      exists d. split_and!; [by eapply elem_of_list_lookup_2|by rewrite <- (same_core_key _ _ HR)|]. unfold same_core in HR. naive_solver congruence.
    + intros (d & [i Hi]%elem_of_list_lookup & Hk & Htx). destruct (Forall2_lookup_l _ _ _ _ _ Hcore Hi) as (d' & Hdi & HR).
      exists d'. split_and!; [by eapply elem_of_list_lookup_2|by rewrite (same_core_key _ _ HR)|]. unfold same_core in HR. naive_solver congruence.
  - unfold log_minimal, transactions. rewrite El. apply H0.
  - rewrite El. apply H0.
  - rewrite El. apply H0.
Qed.

Lemma evolve_metadata_ok s st st' tx rs sc n :
  store_ok (sc_attribute_map s) st n -> never_uninstalled (st_log st) ->
  evolve_metadata MaterializeAndCommit st s tx rs = (st', Ok sc) ->
  store_ok (sc_attribute_map (default s sc)) st' n /\ same_tables st st' /\ (forall x, x ∈ facts st' <-> x ∈ facts st).
Proof.
  intros H0 Hn H. unfold evolve_metadata in H.
  destruct (rbind _ _) as [[new rep]| |] eqn:Eq; try done.
  apply rbind_Ok in Eq as (quads & Hq & Hup).
  case_decide as Hsame.
  - injection H as <- <-. simpl. done.
  - apply with_st_Ok in H as (st1 & u & Hum & [= <- <-]).
    apply update_schema_evolve in Hup as He; [|by eapply committed_no_type_retraction].
    apply update_metadata_Ok in Hum as (T & _ & _ & U & F & C); [|apply He|apply H0].
    simpl. destruct (store_ok_evolve _ _ rep st st1 n H0 He T U F C). done.
Qed.

(* ---------------------------------------------------------------- a whole transaction *)

(** What a successful application of a trie consists of. *)
Lemma apply_trie_Ok mv now act st smut s tx tr st' i sc ev :
  apply_trie mv now act st smut s tx tr = (st', Ok (i, sc, ev)) ->
  exists tr' st1 exact inexact st2 rs,
    trie_all entry_typed tr = true /\ trie_all entry_no_conflict tr = true
    /\ get_or_insert_tx_instant s now tx tr = Ok (i, tr')
    /\ fill_searches mv st (trie_reduced tr') = (st1, Ok (exact, inexact))
    /\ materialize act st1 tx exact inexact = (st2, Ok rs)
    /\ (if existsb (fun r => might_update_metadata (r_a r)) (trie_reduced tr')
        then evolve_metadata act st2 smut tx rs else (st2, Ok None)) = (st', Ok sc)
    /\ ev = map reduced_event (trie_reduced tr').
Proof.
  unfold apply_trie. intros H. destruct (trie_all entry_typed tr) eqn:E1; simpl in H; [|done].
  destruct (trie_all entry_no_conflict tr) eqn:E2; simpl in H; [|done].
  destruct (get_or_insert_tx_instant s now tx tr) as [[i' tr']| |] eqn:E3; try done.
  apply with_st_Ok in H as (st1 & [exact inexact] & H1 & H).
  apply with_st_Ok in H as (st2 & rs & H2 & H).
  apply with_st_Ok in H as (st3 & sc' & H3 & [= <- <- <- <-]).
  by exists tr', st1, exact, inexact, st2, rs.
Qed.


(** What every transaction does: the requests are those of the trie plus the transaction's instant; facts change as they ask; the
    log grows by rows of this transaction. *)
Record applied (m : gmap Z attribute) (st st' : store) (tx i : Z) (tr tr' : trie) : Prop := {
  ap_req : forall o e a v, req tr' o e a v <-> req tr o e a v \/ (o = OAdd /\ e = tx /\ a = DB_TX_INSTANT /\ v = TVInstant i);
  ap_facts : forall e a p at_, m !! a = Some at_ ->
    ((e, a, p) ∈ facts st' <->
     if at_multival at_ then
       ((e, a, p) ∈ facts st /\ ~ asked tr' ORetract e a p) \/ (asked tr' OAdd e a p /\ (e, a, p) ∉ facts st)
     else
       ((e, a, p) ∈ facts st /\ (forall q, ~ asked tr' ORetract e a q) /\ (forall q, asked tr' OAdd e a q -> q = p))
       \/ (asked tr' OAdd e a p /\ (e, a, p) ∉ facts st));
  ap_known : forall e a p, (e, a, p) ∈ facts st' -> is_Some (m !! a);
  ap_log : exists new, st_log st' = st_log st ++ new /\ forall r, r ∈ new -> t_tx r = tx /\ t_timeline r = TIMELINE_MAIN;
  ap_rows : forall new, st_log st' = st_log st ++ new -> forall e a p b,
    (exists r, r ∈ new /\ t_e r = e /\ t_a r = a /\ t_added r = b /\ row_value m st' r p) <-> changed st st' b (e, a, p);
  ap_valued : forall new r, st_log st' = st_log st ++ new -> r ∈ new -> exists p, row_value m st' r p;
  ap_unique : forall s, sc_attribute_map s = m -> values_unique s st' }.

(* ---------------------------------------------------------------- log rows and changes *)

Lemma alternates_snoc_inv l : forall b x, alternates b (l ++ [x]) -> x = match last l with None => b | Some y => negb y end.
Proof.
  induction l as [|y l IH]; intros b x; [by intros [-> _]|]. cbn [app alternates]. intros [-> H]. rewrite (IH _ _ H), last_cons.
  by destruct (last l).
Qed.

Lemma last_true_present st k : log_determines st ->
  k ∈ map d_key (st_datoms st) <-> exists r, last (rows_of (transactions st) k) = Some r /\ t_added r = true.
Proof.
  intros H. rewrite elem_of_list_fmap. split.
  - intros (d & -> & Hd). destruct (proj1 (H (d_key d) (d_tx d))) as (r & ? & ? & _); [by exists d|]. by exists r.
  - intros (r & Hr & Ha). destruct (proj2 (H k (t_tx r))) as (d & ? & ? & _); [by exists r|]. by exists d.
Qed.

Section rows.
  Context (m : gmap Z attribute) (st st2 : store) (tx : Z) (new : list txrow).
  Context (H0 : store_ok m st tx) (H2 : store_ok m st2 (tx + 1)) (Hx : extends (st_fts st) (st_fts st2)).
  Context (El : st_log st2 = st_log st ++ new) (Hnew : forall r, r ∈ new -> t_tx r = tx /\ t_timeline r = TIMELINE_MAIN).

  Lemma new_keys : NoDup (map t_key new).
  Proof using El Hnew H2.
    pose proof (proj2 (so_min _ _ _ H2)) as Hn. rewrite (transactions_app _ _ _ El) in Hn by (intros; by apply Hnew).
    rewrite map_app in Hn. apply NoDup_app in Hn as (_ & _ & Hn).
    assert (map (fun r => (t_tx r, t_key r)) new = map (pair tx) (map t_key new)) as E.
    { rewrite map_map. apply map_ext_in. intros r Hr%elem_of_list_In. by destruct (Hnew r Hr) as [-> _]. }
    rewrite E in Hn. by apply NoDup_fmap_1 in Hn.
  Qed.
  Lemma key_rows k b : (exists r, r ∈ new /\ t_key r = k /\ t_added r = b) <->
    (if b then k ∉ map d_key (st_datoms st) /\ k ∈ map d_key (st_datoms st2)
     else k ∈ map d_key (st_datoms st) /\ k ∉ map d_key (st_datoms st2)).
  Proof using El Hnew H0 H2.
    pose proof (last_true_present st2 k (so_log _ _ _ H2)) as P2. pose proof (last_true_present st k (so_log _ _ _ H0)) as P0.
    pose proof (proj1 (so_min _ _ _ H2) k) as Halt.
    rewrite (transactions_app _ _ _ El) in Halt, P2 by (intros; by apply Hnew).
    change (filter (fun r => t_timeline r = TIMELINE_MAIN) (st_log st)) with (transactions st) in *. rewrite rows_of_app in *.
    destruct (rows_of_nodup new k new_keys) as [E|(r & E & Hr & Hk)]; rewrite E in *.
    - rewrite app_nil_r in *. split.
      + intros (r & Hr & Hk & _). assert (r ∈ rows_of new k) as K by by apply rows_of_elem. rewrite E in K. by apply elem_of_nil in K.
      + destruct b; tauto.
    - rewrite last_snoc in P2. rewrite map_app in Halt. apply alternates_snoc_inv in Halt. rewrite last_map in Halt.
      assert ((exists r0, r0 ∈ new /\ t_key r0 = k /\ t_added r0 = b) <-> t_added r = b) as ->.
      { split; [|by exists r]. intros (r0 & Hr0 & Hk0 & <-). assert (r0 ∈ rows_of new k) as K by by apply rows_of_elem.
        rewrite E in K. by apply elem_of_list_singleton in K as ->. }
      assert (k ∈ map d_key (st_datoms st2) <-> t_added r = true) as Q2.
      { rewrite P2. split; [by intros (? & [= <-] & ?)|by exists r]. }
      assert (k ∈ map d_key (st_datoms st) <-> t_added r = false) as Q0.
      { rewrite P0. destruct (last (rows_of (transactions st) k)) as [y|]; simpl in Halt; rewrite Halt.
        - rewrite negb_false_iff. split; [by intros (? & [= <-] & ?)|by exists y].
        - split; [by intros (? & ? & _)|done]. }
      clear -Q2 Q0. destruct (t_added r), b; naive_solver.
  Qed.
  Lemma fact_key e a at_ tv v tag : m !! a = Some at_ -> stored_as (st_fts st2) at_ tv v tag ->
    ((e, a, to_sql_value_pair tv) ∈ facts st <-> (e, a, tag, v) ∈ map d_key (st_datoms st))
    /\ ((e, a, to_sql_value_pair tv) ∈ facts st2 <-> (e, a, tag, v) ∈ map d_key (st_datoms st2)).
  Proof using H0 H2 Hx.
    intros Ha Hs.
    assert (forall st', store_ok m st' tx \/ store_ok m st' (tx + 1) -> extends (st_fts st') (st_fts st2) ->
      (e, a, to_sql_value_pair tv) ∈ facts st' <-> (e, a, tag, v) ∈ map d_key (st_datoms st')) as K.
    { intros st' Hok Hx'. assert (datoms_ok m st') as Hd by (destruct Hok as [Hok|Hok]; apply Hok).
      rewrite (facts_elem _ _ _ _ _ Hd), elem_of_list_fmap. split.
      - intros (d & at2 & tv2 & Hin & <- & <- & Ha2 & S2 & Ep). assert (at2 = at_) as -> by congruence.
        apply (stored_as_extends _ _ _ _ _ _ Hx') in S2. apply (stored_as_iff _ _ _ _ _ _ _ _ Hs S2) in Ep as [= -> ->].
        by exists d.
      - intros (d & [= -> -> -> ->] & Hin). destruct (Hd d Hin) as (at2 & Ha2 & (tv2 & S2) & _).
        assert (at2 = at_) as -> by congruence. exists d, at_, tv2. split_and!; try done.
        apply (stored_as_extends _ _ _ _ _ _ Hx') in S2. by apply (stored_as_iff _ _ _ _ _ _ _ _ Hs S2). }
    split; apply K; auto. apply extends_refl.
  Qed.
  Lemma stored_row_value at_ tv r p : m !! t_a r = Some at_ -> stored_as (st_fts st2) at_ tv (t_v r) (t_tag r) ->
    row_value m st2 r p <-> p = to_sql_value_pair tv.
  Proof using Type.
    intros Ha (T & E & N). unfold row_value. destruct (at_fulltext at_) eqn:Hf.
    - destruct (enc_fulltext _ _ _ _ _ Hf E N) as (txt & i & -> & Hi & Ev & Et). rewrite Ev, Et. apply fts_rowid_text in Hi. split.
      + intros (at2 & Ha2 & Hp). assert (at2 = at_) as -> by congruence. rewrite Hf in Hp. destruct Hp as (txt2 & H & ->).
        simpl. congruence.
      + intros ->. exists at_. split; [done|]. rewrite Hf. by exists txt.
    - rewrite enc_plain in E by done. split.
      + intros (at2 & Ha2 & Hp). assert (at2 = at_) as -> by congruence. rewrite Hf in Hp. congruence.
      + intros ->. exists at_. split; [done|]. by rewrite Hf.
  Qed.
  Lemma row_stored r : r ∈ new -> exists at_ tv, m !! t_a r = Some at_ /\ stored_as (st_fts st2) at_ tv (t_v r) (t_tag r).
  Proof using El Hnew H0 H2 Hx.
    intros Hr. pose proof (proj1 (key_rows (t_key r) (t_added r))) as Hk. lapply Hk; [clear Hk; intros Hk|by exists r].
    destruct (t_added r); destruct Hk as [K1 K2].
    - apply elem_of_list_fmap in K2 as (d & E & Hd). unfold t_key, d_key in E. injection E as _ -> -> ->.
      destruct (so_datoms _ _ _ H2 d Hd) as (at_ & ? & (tv & ?) & _). by exists at_, tv.
    - apply elem_of_list_fmap in K1 as (d & E & Hd). unfold t_key, d_key in E. injection E as _ -> -> ->.
      destruct (so_datoms _ _ _ H0 d Hd) as (at_ & ? & (tv & ?) & _). exists at_, tv. split; [done|]. by eapply stored_as_extends.
  Qed.
  Lemma row_valued r : r ∈ new -> exists p, row_value m st2 r p.
  Proof using El Hnew H0 H2 Hx.
    intros Hr. destruct (row_stored r Hr) as (at_ & tv & Ha & Hs). exists (to_sql_value_pair tv).
    by apply (stored_row_value _ _ _ _ Ha Hs).
  Qed.
  Lemma rows_changed e a p b :
    (exists r, r ∈ new /\ t_e r = e /\ t_a r = a /\ t_added r = b /\ row_value m st2 r p) <-> changed st st2 b (e, a, p).
  Proof using El Hnew H0 H2 Hx.
    split.
    - intros (r & Hr & <- & <- & Hb & Hv). pose proof (proj1 (key_rows (t_key r) b)) as Hk. lapply Hk; [clear Hk; intros Hk|by exists r].
      destruct (row_stored r Hr) as (at_ & tv & Ha & Hs).
      apply (stored_row_value _ _ _ _ Ha Hs) in Hv as ->. destruct (fact_key (t_e r) _ _ _ _ _ Ha Hs) as [F1 F2].
      unfold changed. destruct b; rewrite F1, F2; exact Hk.
    - intros Hc.
      assert (exists at_ tv v tag, m !! a = Some at_ /\ stored_as (st_fts st2) at_ tv v tag /\ p = to_sql_value_pair tv)
        as (at_ & tv & v & tag & Ha & Hs & ->).
      { destruct b; destruct Hc as [C1 C2].
        - apply (facts_elem _ _ _ _ _ (so_datoms _ _ _ H2)) in C2 as (d & at_ & tv & _ & _ & _ & ? & ? & ->). eauto 8.
        - apply (facts_elem _ _ _ _ _ (so_datoms _ _ _ H0)) in C1 as (d & at_ & tv & _ & _ & _ & ? & ? & ->).
          exists at_, tv, (d_v d), (d_tag d). split_and!; try done. by eapply stored_as_extends. }
      destruct (fact_key e _ _ _ _ _ Ha Hs) as [F1 F2]. assert (exists r, r ∈ new /\ t_key r = (e, a, tag, v) /\ t_added r = b) as (r & Hr & Hk & Hb).
      { apply key_rows. destruct b; unfold changed in Hc; by rewrite F1, F2 in Hc. }
      unfold t_key in Hk. injection Hk as <- <- <- <-. exists r. split_and!; try done.
      by apply (stored_row_value _ _ _ _ Ha Hs).
  Qed.
End rows.

Definition attr_typed (a : Z) (vt : value_type) (m : gmap Z attribute) : Prop :=
  exists at_, m !! a = Some at_ /\ at_type at_ = vt.
Definition instant_typed : gmap Z attribute -> Prop := attr_typed DB_TX_INSTANT VTInstant.
(** The types of the attributes that the transactor itself uses *)
Definition core_types : list (Z * value_type) :=
  [(DB_IDENT, VTKeyword); (DB_VALUE_TYPE, VTRef); (DB_CARDINALITY, VTRef); (DB_UNIQUE, VTRef); (DB_INDEX, VTBoolean);
   (DB_FULLTEXT, VTBoolean); (DB_IS_COMPONENT, VTBoolean); (DB_NO_HISTORY, VTBoolean); (DB_TX_INSTANT, VTInstant)].
Definition core_typed (m : gmap Z attribute) : Prop := forall a vt, (a, vt) ∈ core_types -> attr_typed a vt m.

(** Each transaction of the log is an entity of the log. *)
Definition tx_logged (st : store) : Prop := forall r, r ∈ st_log st -> exists r', r' ∈ st_log st /\ t_e r' = t_tx r.

Lemma attrs_evolve_typed a vt m m' rep : attrs_evolve m m' rep -> attr_typed a vt m -> attr_typed a vt m'.
Proof.
  intros He (at_ & Ha & Ht). destruct (decide (a ∈ (mr_altered rep).*1)) as [Hin|Hin].
  - apply elem_of_list_fmap in Hin as ([e muts] & Hd & Hin). destruct (ae_altered _ _ _ He _ _ Hin) as (x & x' & Hx & Hx' & Hmu).
    simpl in Hd. subst e. assert (x = at_) as -> by congruence. exists x'. split; [done|]. rewrite (mu_type _ _ _ Hmu). done.
  - destruct (decide (a ∈ mr_installed rep)) as [Hin2|Hin2].
    + destruct (ae_installed _ _ _ He _ Hin2) as [? _]. congruence.
    + exists at_. by rewrite (ae_other _ _ _ He).
Qed.
Lemma evolve_metadata_typed s st st' tx rs sc : never_uninstalled (st_log st) ->
  evolve_metadata MaterializeAndCommit st s tx rs = (st', Ok sc) ->
  forall a vt, attr_typed a vt (sc_attribute_map s) -> attr_typed a vt (sc_attribute_map (default s sc)).
Proof.
  intros Hn H a vt Hi. unfold evolve_metadata in H. destruct (rbind _ _) as [[new rep]| |] eqn:Eq; try done.
  apply rbind_Ok in Eq as (quads & Hq & Hup). case_decide as Hsame; [by injection H as <- <-|].
  apply with_st_Ok in H as (st1 & u & Hum & [= <- <-]). simpl. eapply attrs_evolve_typed; [|exact Hi].
  eapply update_schema_evolve; [|exact Hup]. by eapply committed_no_type_retraction.
Qed.

(** Facts are logged. *)
Lemma facts_logged m st n e a p : store_ok m st n -> (e, a, p) ∈ facts st -> exists r, r ∈ st_log st /\ t_e r = e.
Proof.
  intros H0 Hf. apply (facts_elem m) in Hf as (d & at_ & tv & Hd & He & _); [|apply H0].
  destruct (proj1 (so_log _ _ _ H0 (d_key d) (d_tx d))) as (r & Hr & _); [by exists d|].
  apply last_elem, rows_of_elem in Hr as [Hr Hk]. exists r. split.
  - unfold transactions in Hr. by apply elem_of_list_filter in Hr as [_ Hr].
  - unfold t_key, d_key in Hk. congruence.
Qed.

Lemma applied_trie_ok mv now st smut s tx tr st' i sc ev :
  store_ok (sc_attribute_map s) st tx -> instant_typed (sc_attribute_map s) -> trie_wf s tr ->
  apply_trie mv now MaterializeAndCommit st smut s tx tr = (st', Ok (i, sc, ev)) ->
  exists st2 rs tr', store_ok (sc_attribute_map s) st2 (tx + 1)
    /\ applied (sc_attribute_map s) st st2 tx i tr tr'
    /\ get_or_insert_tx_instant s now tx tr = Ok (i, tr')
    /\ st_parts st2 = st_parts st /\ st_idents st2 = st_idents st /\ st_schema st2 = st_schema st
    /\ (if existsb (fun r => might_update_metadata (r_a r)) (trie_reduced tr')
        then evolve_metadata MaterializeAndCommit st2 smut tx rs else (st2, Ok None)) = (st', Ok sc)
    /\ ev = map reduced_event (trie_reduced tr').
Proof.
  intros H0 (at_ & Ha & Ht) Hwf H. apply apply_trie_Ok in H as (tr' & st1 & exact & inexact & st2 & rs & Hty & Hnc & Hi & Hf & Hm & He & Hev).
  destruct (tx_instant_checks _ _ _ _ _ _ Hwf ltac:(intros x Hx; congruence) Hty (no_conflict_one_add _ _ Hwf Hnc) Hi) as [Hty' Hone'].
  destruct (tx_instant_Ok _ _ _ _ _ _ Hwf Hi) as (Hwf' & _ & Hreq & _ & _).
  apply fill_searches_Ok in Hf as (f & Hfill).
  destruct (materialize_ok _ s st st1 st2 tx tr' f exact inexact rs eq_refl H0 Hwf' Hty' Hone' Hfill Hm)
    as (H2 & Ef & Ep & Ei & Es & Hs & Ed & El).
  exists st2, rs, tr'. split_and!; try done.
  assert (forall r, r ∈ log_adds tx rs ++ log_retracts tx rs -> t_tx r = tx /\ t_timeline r = TIMELINE_MAIN) as Hnew.
  { intros r [Hr|Hr]%elem_of_app.
    - apply log_adds_elem in Hr as (t & _ & ->). done.
    - unfold log_retracts in Hr. apply distinct_elem, elem_of_list_omap in Hr as (x & _ & Hx).
      destruct (sr_retracts x); [|done]. apply fmap_Some in Hx as (d & _ & ->). done. }
  split; [done| | | | | |].
  2:{ intros e a p Hf. apply (well_typed_of _ s st2 eq_refl (so_datoms _ _ _ H2)) in Hf as (x & _ & Hx & _). eauto. }
  - intros e a p at2 Ha2.
    apply (facts_step _ s eq_refl st st1 tx tr' f exact inexact rs Hwf' Hty' Hfill Hs (so_datoms _ _ _ H0)
       (datoms_unique_key _ (so_uniq _ _ _ H0)) st2 e a p at2); done.
  - by exists (log_adds tx rs ++ log_retracts tx rs).
  - intros new El2. rewrite El in El2. apply app_inv_head in El2 as <-. apply (rows_changed _ _ _ tx); try done.
    rewrite Ef. apply Hfill.
  - intros new r El2. rewrite El in El2. apply app_inv_head in El2 as <-. apply (row_valued _ st _ tx (log_adds tx rs ++ log_retracts tx rs)); try done.
    rewrite Ef. apply Hfill.
  - intros s' Hs'. eapply values_unique_of; [done|apply H2|apply H2].
Qed.

Lemma apply_alteration_log e at_ st alt : st_log (apply_alteration e at_ st alt).1 = st_log st.
Proof. unfold apply_alteration. destruct alt; repeat case_match; done. Qed.
Lemma apply_alterations_log e at_ alts : forall st, st_log (apply_alterations e at_ st alts).1 = st_log st.
Proof.
  induction alts as [|alt alts IH]; intros st; simpl; [done|]. pose proof (apply_alteration_log e at_ st alt) as H.
  destruct (apply_alteration e at_ st alt) as [st1 [u| |]]; simpl in *; try done. by rewrite IH.
Qed.
Lemma apply_altered_log sc l : forall st, st_log (apply_altered sc st l).1 = st_log st.
Proof.
  induction l as [|[e alts] l IH]; intros st; simpl; [done|]. destruct (require_attribute sc e) as [at_| |]; try done.
  pose proof (apply_alterations_log e at_ alts st) as H.
  destruct (apply_alterations e at_ st alts) as [st1 [u| |]]; simpl in *; try done. by rewrite IH.
Qed.
Lemma update_metadata_log st sc rep : st_log (update_metadata st sc rep).1 = st_log st.
Proof. unfold update_metadata. rewrite apply_altered_log. by destruct (is_nil (mr_idents rep)), (_ && _ && _)%bool. Qed.

Lemma extends_never_uninstalled l new : never_uninstalled (l ++ new) -> never_uninstalled l.
Proof. intros H r Hr. apply H. set_solver. Qed.

Lemma changed_facts st st2 st3 b x : (x ∈ facts st3 <-> x ∈ facts st2) -> changed st st2 b x <-> changed st st3 b x.
Proof. unfold changed. destruct b; tauto. Qed.

Lemma apply_trie_ok mv now st s tx tr st' i sc ev :
  store_ok (sc_attribute_map s) st tx -> instant_typed (sc_attribute_map s) -> tx_logged st -> trie_wf s tr ->
  apply_trie mv now MaterializeAndCommit st s s tx tr = (st', Ok (i, sc, ev)) ->
  never_uninstalled (st_log st') ->
  exists tr', get_or_insert_tx_instant s now tx tr = Ok (i, tr')
    /\ applied (sc_attribute_map s) st st' tx i tr tr'
    /\ ev = map reduced_event (trie_reduced tr')
    /\ store_ok (sc_attribute_map (default s sc)) st' (tx + 1)
    /\ (forall a vt, attr_typed a vt (sc_attribute_map s) -> attr_typed a vt (sc_attribute_map (default s sc)))
    /\ tx_logged st' /\ st_parts st' = st_parts st.
Proof.
  intros H0 Hi Htl Hwf H Hn. pose proof (applied_trie_ok _ _ _ _ _ _ _ _ _ _ _ H0 Hi Hwf H) as (st2 & rs & tr' & H2 & Hap & Hins & Ep & _ & _ & He & Hev).
  assert (tx_logged st2) as Htl2.
  { intros r Hr. destruct (ap_log _ _ _ _ _ _ _ Hap) as (new & El & Hnew). rewrite El in Hr. apply elem_of_app in Hr as [Hr|Hr].
    - destruct (Htl r Hr) as (r' & Hr' & Heq). exists r'. rewrite El. split; [set_solver|done].
    - destruct (Hnew r Hr) as [-> _]. destruct Hi as (at_ & Ha & Ht).
      assert (forall w, asked tr' OAdd tx DB_TX_INSTANT w <-> w = to_sql_value_pair (TVInstant i)) as Hask.
      { intros w. destruct (tx_instant_Ok _ _ _ _ _ _ Hwf Hins) as (_ & _ & _ & _ & Huq). split.
        - intros (v & Hv & <-). apply Huq in Hv as ->. done.
        - intros ->. exists (TVInstant i). split; [by apply Huq|done]. }
      destruct (decide ((tx, DB_TX_INSTANT, to_sql_value_pair (TVInstant i)) ∈ facts st)) as [Hin|Hin].
      + eapply facts_logged in Hin as (r' & Hr' & Heq); [|done]. exists r'. rewrite El. split; [set_solver|done].
      + assert ((tx, DB_TX_INSTANT, to_sql_value_pair (TVInstant i)) ∈ facts st2) as Hin2.
        { apply (ap_facts _ _ _ _ _ _ _ Hap _ _ _ at_ Ha). destruct (at_multival at_); right; split; try done; by apply Hask. }
        by eapply facts_logged in Hin2. }
  exists tr'. destruct (existsb _ _) eqn:Eex.
  - assert (never_uninstalled (st_log st2)) as Hn2.
    { unfold evolve_metadata in He. destruct (rbind _ _) as [[new rep]| |] eqn:Eq; try done.
      case_decide; [by injection He as <- <-|]. apply with_st_Ok in He as (st3 & u & Hum & [= <- <-]).
      assert (st_log st3 = st_log st2) as El3; [|by rewrite <- El3].
      pose proof (update_metadata_log st2 new rep) as Hl. by rewrite Hum in Hl. }
    destruct (evolve_metadata_ok _ _ _ _ _ _ _ H2 Hn2 He) as (H3 & T & Hfacts).
    pose proof (evolve_metadata_typed _ _ _ _ _ _ Hn2 He) as Hi'.
    destruct T as [Tl Tf Tp]. split_and!; try done.
    + destruct Hap as [A B K C R V U]. split; [done| | | | | |].
      * intros e a p at_ Ha. rewrite Hfacts. by apply B.
      * intros e a p. rewrite Hfacts. apply K.
      * by rewrite Tl.
      * intros new. rewrite Tl. intros El e a p b. rewrite <- (changed_facts _ _ _ _ _ (Hfacts _)). unfold row_value. rewrite Tf. by apply R.
      * intros new r. rewrite Tl. unfold row_value. rewrite Tf. apply V.
      * intros s' Hs' e1 e2 a at_ p Ha Hu. rewrite !Hfacts. by eapply U.
    + unfold tx_logged. by rewrite Tl.
    + congruence.
  - injection He as <- <-. simpl. done.
Qed.

(* ---------------------------------------------------------------- transactions *)

(** The partitions are those of the bootstrap, with their boundaries. *)
Definition parts_ok (pm : partition_map) : Prop := forall k,
  match bootstrap_partition_map !! k, pm !! k with
  | Some p0, Some p => pt_start p = pt_start p0 /\ pt_end p = pt_end p0 /\ pt_start p <= pt_next p <= pt_end p
  | None, None => True
  | _, _ => False
  end.
Lemma bootstrap_parts_cases k p : bootstrap_partition_map !! k = Some p -> (k, p) ∈ V1_PARTS.
Proof. unfold bootstrap_partition_map. apply elem_of_list_to_map_2. Qed.
Lemma bootstrap_parts_get k p : (k, p) ∈ V1_PARTS -> bootstrap_partition_map !! k = Some p.
Proof.
  unfold bootstrap_partition_map. apply elem_of_list_to_map_1. apply (bool_decide_eq_true_1 (NoDup _)). vm_compute. reflexivity.
Qed.
Lemma parts_ok_allocate pm k n x pm' : 0 <= n -> parts_ok pm -> pm_allocate pm k n = Ok (x, pm') -> parts_ok pm'.
Proof.
  intros Hn H (p & Hp & -> & Hr & ->)%pm_allocate_Ok k'. specialize (H k'). destruct (decide (k = k')) as [<-|Hne].
  - rewrite Hp in H. rewrite lookup_insert. destruct (bootstrap_partition_map !! k); [|done]. simpl. lia.
  - by rewrite lookup_insert_ne.
Qed.
Lemma parts_ok_get pm k p0 : parts_ok pm -> (k, p0) ∈ V1_PARTS ->
  exists p, pm !! k = Some p /\ pt_start p = pt_start p0 /\ pt_end p = pt_end p0 /\ pt_start p <= pt_next p <= pt_end p.
Proof.
  intros H Hk%bootstrap_parts_get. specialize (H k). rewrite Hk in H. destruct (pm !! k) as [p|]; [|done]. eauto.
Qed.
Lemma parts_ok_wf pm : parts_ok pm -> wf_parts pm.
Proof.
  intros H. split.
  - intros k p Hp. specialize (H k). rewrite Hp in H. destruct (bootstrap_partition_map !! k); [|done]. tauto.
  - intros k1 k2 p1 p2 H1 H2 Hne. pose proof (H k1) as P1. pose proof (H k2) as P2. rewrite H1 in P1. rewrite H2 in P2.
    destruct (bootstrap_partition_map !! k1) as [q1|] eqn:E1; [|done]. destruct (bootstrap_partition_map !! k2) as [q2|] eqn:E2; [|done].
    apply bootstrap_parts_cases in E1, E2. destruct P1 as (-> & -> & _), P2 as (-> & -> & _).
    unfold V1_PARTS in E1, E2. rewrite !elem_of_cons, elem_of_nil in E1, E2. unfold USER0, TX0, I64_MAX in *.
    destruct E1 as [[= -> ->]|[[= -> ->]|[[= -> ->]|[]]]], E2 as [[= -> ->]|[[= -> ->]|[[= -> ->]|[]]]]; simpl; try done; lia.
Qed.
Lemma bootstrap_parts_ok : parts_ok bootstrap_partition_map.
Proof.
  intros k. destruct (bootstrap_partition_map !! k) as [p|] eqn:E; [|done]. apply bootstrap_parts_cases in E. split; [done|]. split; [done|].
  unfold V1_PARTS in E. rewrite !elem_of_cons, elem_of_nil in E. unfold USER0, TX0, I64_MAX in *.
  destruct E as [[= -> ->]|[[= -> ->]|[[= -> ->]|[]]]]; simpl; lia.
Qed.

(** Everything that holds of a store together with the partition map and schema in memory. *)
Record db_ok (st : store) (pm : partition_map) (s : schema) : Prop := {
  ok_tx : exists p, pm !! ":db.part/tx" = Some p /\ store_ok (sc_attribute_map s) st (pt_next p)
    /\ pt_start p = TX0 /\ pt_end p = I64_MAX /\ TX0 <= pt_next p <= I64_MAX;
  ok_core : core_typed (sc_attribute_map s);
  ok_logged : tx_logged st;
  ok_range : forall r, r ∈ st_log st -> TX0 <= t_tx r;
  ok_parts : st_parts st = bootstrap_known_parts;
  ok_pm : parts_ok pm }.

Lemma core_instant m : core_typed m -> instant_typed m.
Proof. intros H. apply H. unfold core_types. set_solver. Qed.
Lemma ok_instant st pm s : db_ok st pm s -> instant_typed (sc_attribute_map s).
Proof. intros H. apply core_instant, H. Qed.

Lemma resolve_terms_alloc mv st pm s ts ids r : resolve_terms mv st pm s ts ids = Ok r ->
  exists n start, pm_allocate pm ":db.part/user" (Z.of_nat n) = Ok (start, rv_parts r).
Proof.
  unfold resolve_terms. intros H.
  apply rbind_Ok in H as ([g inert] & _ & H). apply rbind_Ok in H as ([g2 tempids] & _ & H).
  apply rbind_Ok in H as (labels & _ & H). apply rbind_Ok in H as ([start pm'] & Hp & H).
  apply rbind_Ok in H as ([[up re] al] & _ & H).
  destruct (negb _); [done|]. destruct (negb _); [done|]. injection H as <-. simpl. eauto.
Qed.
Lemma resolve_terms_parts mv st pm s ts ids r : resolve_terms mv st pm s ts ids = Ok r ->
  rv_parts r !! ":db.part/tx" = pm !! ":db.part/tx".
Proof. intros (n & start & (p & _ & _ & _ & ->)%pm_allocate_Ok)%resolve_terms_alloc. by rewrite lookup_insert_ne. Qed.

(** What a successful transact_simple_terms consists of. *)
Lemma transact_simple_Ok mv now act st pm smut s tx ts ids st' r :
  transact_simple_terms mv now act st pm smut s tx ts ids = (st', Ok r) ->
  exists rv tr, resolve_terms mv st pm s ts ids = Ok rv
    /\ into_aev_trie s (rv_resolved rv) (rv_allocated rv) (rv_inert rv) = Ok tr
    /\ trie_wf s tr
    /\ apply_trie mv now act st smut s tx tr = (st', Ok (rp_instant (tr_report r), tr_schema r, tr_events r))
    /\ tr_parts r = rv_parts rv /\ rp_tx (tr_report r) = tx /\ rp_tempids (tr_report r) = report_tempids (rv_tempids rv).
Proof.
  unfold transact_simple_terms. intros H. destruct (resolve_terms _ _ _ _ _ _) as [rv| |] eqn:E1; try done.
  destruct (into_aev_trie _ _ _ _) as [tr| |] eqn:E2; try done.
  apply with_st_Ok in H as (st1 & [[i sc] ev] & H1 & [= <- <-]). exists rv, tr. split_and!; try done.
  by apply into_aev_trie_Ok in E2 as [? _].
Qed.

(** The log only grows. *)
Lemma apply_trie_log mv now st smut s tx tr st' r : apply_trie mv now MaterializeAndCommit st smut s tx tr = (st', Ok r) ->
  exists new, st_log st' = st_log st ++ new.
Proof.
  destruct r as [[i sc] ev]. intros H. apply apply_trie_Ok in H as (tr' & st1 & exact & inexact & st2 & rs & _ & _ & _ & Hf & Hm & He & _).
  apply fill_searches_Ok in Hf as (f & Hfill). pose proof (fi_st _ _ _ _ _ _ Hfill) as E1.
  assert (st_log st' = st_log st2) as ->.
  { destruct (existsb _ _); [|by injection He as <- _]. unfold evolve_metadata in He.
    destruct (rbind _ _) as [[new rep]| |]; try done. case_decide; [by injection He as <- <-|].
    apply with_st_Ok in He as (st3 & u & Hum & [= <- <-]). pose proof (update_metadata_log st2 new rep) as Hl. by rewrite Hum in Hl. }
  unfold materialize in Hm. destruct (search _ _ _) as [rs0| |]; try done. apply with_st_Ok in Hm as (st3 & u & Hup & [= <- <-]).
  apply update_datoms_Ok in Hup as [-> _]. subst st1. eexists. done.
Qed.
Lemma transact_simple_log mv now st pm smut s tx ts ids st' r :
  transact_simple_terms mv now MaterializeAndCommit st pm smut s tx ts ids = (st', Ok r) ->
  exists new, st_log st' = st_log st ++ new.
Proof. intros H. apply transact_simple_Ok in H as (rv & tr & _ & _ & _ & Hap & _). by eapply apply_trie_log. Qed.
Lemma transact_log mv now st pm smut s es st' r : transact mv now st pm smut s es = (st', Ok r) ->
  exists new, st_log st' = st_log st ++ new.
Proof.
  unfold transact. intros H. destruct (pm_allocate _ _ _) as [[tx pm1]| |]; try done.
  destruct (entities_to_terms _ _ _ _ _ _) as [[ts ids]| |]; try done. by eapply transact_simple_log.
Qed.
Lemma transact_terms_log mv now st pm smut s ts ids st' r :
  transact_terms mv now MaterializeAndCommit st pm smut s ts ids = (st', Ok r) ->
  exists new, st_log st' = st_log st ++ new.
Proof.
  unfold transact_terms. intros H. destruct (pm_allocate _ _ _) as [[tx pm1]| |]; try done. by eapply transact_simple_log.
Qed.

Lemma tx_alloc pm tx pm' : pm_allocate pm ":db.part/tx" 1 = Ok (tx, pm') ->
  exists p, pm !! ":db.part/tx" = Some p /\ tx = pt_next p /\ pt_start p <= tx + 1 <= pt_end p
    /\ pm' !! ":db.part/tx" = Some (Part (pt_start p) (pt_end p) (pt_allow_excision p) (tx + 1))
    /\ forall k, k <> ":db.part/tx" -> pm' !! k = pm !! k.
Proof.
  intros (p & Hp & -> & Hr & ->)%pm_allocate_Ok. exists p. split_and!; try done; [apply Hr|apply Hr|by rewrite lookup_insert|].
  intros k Hk. by rewrite lookup_insert_ne.
Qed.

Lemma transact_simple_ok mv now st pm pm1 s tx ts ids st' r :
  db_ok st pm s -> pm_allocate pm ":db.part/tx" 1 = Ok (tx, pm1) ->
  transact_simple_terms mv now MaterializeAndCommit st pm1 s s tx ts ids = (st', Ok r) ->
  never_uninstalled (st_log st') ->
  db_ok st' (tr_parts r) (default s (tr_schema r)).
Proof.
  intros [(p & Hp & H0 & Hst & Hend & Hnx) Hi Htl Hr Hk Hpo] Hal H Hnu.
  assert (parts_ok pm1) as Hpo1 by (by eapply parts_ok_allocate in Hal).
  apply tx_alloc in Hal as (p0 & Hp0 & -> & Hb & Hp1 & _). assert (p0 = p) as -> by congruence.
  apply transact_simple_Ok in H as (rv & tr & Hrv & _ & Hwf & Hap & Hpm & _ & _).
  pose proof (resolve_terms_alloc _ _ _ _ _ _ _ Hrv) as (n & start & Hua).
  apply resolve_terms_parts in Hrv. apply apply_trie_ok in Hap as (tr' & _ & Hap & _ & H1 & Hi1 & Htl1 & Hk1); try done; [|by apply core_instant].
  split; try done.
  - eexists. split; [rewrite Hpm, Hrv; done|]. simpl. split_and!; try done; lia.
  - intros a vt Ha. by apply Hi1, Hi.
  - destruct (ap_log _ _ _ _ _ _ _ Hap) as (new & El & Hnew). intros r'. rewrite El. intros [?|Hr']%elem_of_app; [auto|].
    destruct (Hnew _ Hr') as [-> _]. lia.
  - congruence.
  - rewrite Hpm. eapply parts_ok_allocate; [|exact Hpo1|exact Hua]. lia.
Qed.
Lemma transact_ok mv now st pm s es st' r : db_ok st pm s ->
  transact mv now st pm s s es = (st', Ok r) -> never_uninstalled (st_log st') ->
  db_ok st' (tr_parts r) (default s (tr_schema r)).
Proof.
  intros H0 H Hn. unfold transact in H. destruct (pm_allocate pm ":db.part/tx" 1) as [[tx pm1]| |] eqn:Ep; try done.
  destruct (entities_to_terms _ _ _ _ _ _) as [[ts ids]| |] eqn:Ee; try done. by eapply transact_simple_ok.
Qed.
Lemma transact_terms_ok mv now st pm s ts ids st' r : db_ok st pm s ->
  transact_terms mv now MaterializeAndCommit st pm s s ts ids = (st', Ok r) -> never_uninstalled (st_log st') ->
  db_ok st' (tr_parts r) (default s (tr_schema r)).
Proof.
  intros H0 H Hn. unfold transact_terms in H. destruct (pm_allocate pm ":db.part/tx" 1) as [[tx pm1]| |] eqn:Ep; try done.
  by eapply transact_simple_ok.
Qed.

(* ---------------------------------------------------------------- bootstrap *)

Lemma bootstrap_core s : bootstrap_schema_res = Ok s -> core_typed (sc_attribute_map s).
Proof.
  assert (match bootstrap_schema_res with
          | Ok s => forallb (fun p : Z * value_type =>
              match sc_attribute_map s !! p.1 with Some at_ => bool_decide (at_type at_ = p.2) | None => false end) core_types
          | _ => false end = true) as H by (vm_compute; reflexivity).
  intros Hs. rewrite Hs in H. clear Hs. intros a vt Ha. rewrite forallb_forall in H. apply elem_of_list_In in Ha. specialize (H _ Ha). simpl in H.
  destruct (sc_attribute_map s !! a) as [at_|] eqn:E; [|done]. exists at_. split; [done|]. by apply bool_decide_eq_true in H.
Qed.

Lemma store_ok_empty m parts n : store_ok m (Store [] [] [] [] [] parts) n.
Proof.
  split; try done.
  - intros d Hd. by apply elem_of_nil in Hd.
  - intros s _ e a at_ p q _ _ Hp. by apply elem_of_nil in Hp.
  - intros k tx. split.
    + intros (d & Hd & _). by apply elem_of_nil in Hd.
    + by intros (r & Hr & _).
  - split; [done|]. constructor.
  - intros r Hr. by apply elem_of_nil in Hr.
  - intros r Hr. by apply elem_of_nil in Hr.
Qed.

Lemma first_tx_no_retraction m st tx : store_ok m st (tx + 1) -> (forall r, r ∈ st_log st -> t_tx r = tx) ->
  forall r, r ∈ st_log st -> t_added r = true.
Proof.
  intros H0 Htx r Hr. assert (r ∈ transactions st) as Hr2 by (apply elem_of_list_filter; split; [by eapply so_main|done]).
  destruct (so_min _ _ _ H0) as [Halt Hnd].
  assert (NoDup (map t_key (transactions st))) as Hnd'.
  { assert (forall l : list txrow, (forall r, r ∈ l -> t_tx r = tx) -> NoDup (map (fun r => (t_tx r, t_key r)) l) -> NoDup (map t_key l)) as K.
    { induction l as [|x l IH]; simpl; intros Hl Hl2; [constructor|]. apply NoDup_cons in Hl2 as [Hx Hl2]. constructor.
      - intros (y & Hy & Hin)%elem_of_list_fmap. apply Hx. apply elem_of_list_fmap. exists y. split; [|done].
        rewrite (Hl x), (Hl y) by set_solver. congruence.
      - apply IH; [|done]. intros. apply Hl. by right. }
    apply K; [|done]. intros x Hx. apply Htx. by apply elem_of_list_filter in Hx as [_ Hx]. }
  specialize (Halt (t_key r)). destruct (rows_of_nodup _ (t_key r) Hnd') as [E|(r2 & E & _ & _)].
  - exfalso. assert (r ∈ rows_of (transactions st) (t_key r)) as K by by apply rows_of_elem. rewrite E in K. by apply elem_of_nil in K.
  - assert (r ∈ rows_of (transactions st) (t_key r)) as K by by apply rows_of_elem. rewrite E in K. apply elem_of_list_singleton in K as ->.
    rewrite E in Halt. by destruct Halt.
Qed.

Lemma create_ok mv now d : create_current_version mv now = Ok d ->
  db_ok (db_store d) (db_parts d) (db_schema d) /\ (forall r, r ∈ st_log (db_store d) -> t_added r = true).
Proof.
  unfold create_current_version. intros H. apply rbind_Ok in H as (s & Hs & H).
  pose proof (bootstrap_core s Hs) as Hcore. pose proof (core_instant _ Hcore) as Hi. clear Hs. revert H. generalize bootstrap_entities. intros bes H.
  assert (bootstrap_partition_map !! ":db.part/tx" = Some (Part TX0 I64_MAX false TX0)) as Hbp by (vm_compute; reflexivity).
  pose proof bootstrap_parts_ok as Hbok.
  assert (forall pm1 tx, pm_allocate bootstrap_partition_map ":db.part/tx" 1 = Ok (tx, pm1) -> parts_ok pm1) as Hbok1.
  { intros pm1 tx Hal. eapply parts_ok_allocate; [|exact Hbok|exact Hal]. lia. }
  clear Hbok. revert H Hbp Hbok1. generalize bootstrap_partition_map. intros bpm H Hbp Hbok1.
  assert (sc_attribute_map schema_default = ∅) as Hsd by done. revert H Hsd. generalize schema_default. intros sd H Hsd.
  destruct (transact _ _ _ _ _ _ _) as [st' [r| |]] eqn:Et; [|discriminate H..].
  assert (d = Db st' (tr_parts r) s /\ (tr_schema r = None \/ tr_schema r = Some s)) as [-> Hsc].
  { destruct (tr_schema r) as [s'|]; [|injection H as <-; split; [done|by left]].
    destruct (decide (s' = s)) as [->|]; [|done]. injection H as <-. split; [done|by right]. }
  clear H. simpl.
  set (st0 := Store [] [] [] [] [] bootstrap_known_parts) in *.
  unfold transact in Et. destruct (pm_allocate _ _ _) as [[tx pm1]| |] eqn:Ep; try done.
  destruct (entities_to_terms _ _ _ _ _ _) as [[ts ids]| |] eqn:Ee; try done. clear Ee.
  pose proof (Hbok1 _ _ eq_refl) as Hpo1. clear Hbok1.
  apply tx_alloc in Ep as (p0 & Hp0 & -> & Hb & Hp1 & _).
  apply transact_simple_Ok in Et as (rv & tr & Hrv & _ & Hwf & Hap & Hpm & _ & _).
  pose proof (resolve_terms_alloc _ _ _ _ _ _ _ Hrv) as (n & start & Hua). apply resolve_terms_parts in Hrv.
  assert (p0 = Part TX0 I64_MAX false TX0) as ->.
  { congruence. }
  simpl in *.
  assert (store_ok (sc_attribute_map s) st0 TX0) as H0 by apply store_ok_empty.
  pose proof (applied_trie_ok _ _ _ _ _ _ _ _ _ _ _ H0 Hi Hwf Hap) as (st2 & rs & tr' & H2 & Hapd & Hins & Hkp & _ & _ & He & _).
  destruct (ap_log _ _ _ _ _ _ _ Hapd) as (new & El & Hnew). simpl in El.
  assert (forall r, r ∈ st_log st2 -> t_tx r = TX0) as Htx by (intros r'; rewrite El; naive_solver).
  pose proof (first_tx_no_retraction _ _ _ H2 Htx) as Hadd.
  assert (never_uninstalled (st_log st2)) as Hn2 by (intros x Hx [_ K]; rewrite Hadd in K; done).
  assert (tx_logged st2) as Htl2.
  { intros x Hx. rewrite (Htx x Hx). destruct Hi as (at_ & Ha & Ht).
    destruct (tx_instant_Ok _ _ _ _ _ _ Hwf Hins) as (_ & _ & _ & _ & Huq).
    eapply facts_logged; [done|]. apply (ap_facts _ _ _ _ _ _ _ Hapd _ DB_TX_INSTANT (to_sql_value_pair (TVInstant (rp_instant (tr_report r)))) at_ Ha).
    assert (asked tr' OAdd TX0 DB_TX_INSTANT (to_sql_value_pair (TVInstant (rp_instant (tr_report r))))) as K.
    { exists (TVInstant (rp_instant (tr_report r))). split; [by apply Huq|done]. }
    destruct (at_multival at_); right; split; try done; by intros ?%elem_of_nil. }
  assert (store_ok (sc_attribute_map s) st' (TX0 + 1) /\ same_tables st2 st') as [H3 T].
  { destruct (existsb _ _); [|injection He as <- _; split; [exact H2|split; reflexivity]].
    unfold evolve_metadata in He. destruct (rbind _ _) as [[new' rep]| |] eqn:Eq; try done.
    apply rbind_Ok in Eq as (quads & Hq & Hup). case_decide as Hsame; [injection He as <- _; split; [exact H2|split; reflexivity]|].
    apply with_st_Ok in He as (st3 & u & Hum & Heq). injection Heq as <- Heq.
    assert (new' = s) as -> by (destruct Hsc; congruence).
    apply update_schema_evolve in Hup as Hev; [|by eapply committed_no_type_retraction].
    assert (mr_altered rep = []) as Halt.
    { destruct (mr_altered rep) as [|[e muts] l] eqn:Er; [done|]. exfalso.
      destruct (ae_altered _ _ _ Hev e muts) as (x & _ & Hx & _); [rewrite Er; left|]. by rewrite Hsd, lookup_empty in Hx. }
    apply update_metadata_Ok in Hum as (T & _ & _ & U & F & C); [|rewrite Halt; constructor|apply H2]. split; [|done].
    apply (store_ok_evolve _ _ (MReport [] [] []) st2 st3 _ H2 (attrs_evolve_refl _) T U).
    - eapply Forall2_impl; [exact F|]. intros x y (X1 & X2 & _). split_and!; [done| |].
      + intros _. apply X2. rewrite Halt. apply not_elem_of_nil.
      + simpl. intros alts Ha. by apply elem_of_nil in Ha.
    - simpl. intros e alts Ha. by apply elem_of_nil in Ha. }
  destruct T as [Tl Tf Tp]. split; [split|].
  - eexists. split; [rewrite Hpm, Hrv; exact Hp1|]. simpl. split_and!; done.
  - done.
  - unfold tx_logged. by rewrite Tl.
  - intros x. rewrite Tl. intros Hx. by rewrite (Htx x Hx).
  - rewrite Tp, Hkp. done.
  - rewrite Hpm. eapply parts_ok_allocate; [|exact Hpo1|exact Hua]. lia.
  - by rewrite Tl.
Qed.

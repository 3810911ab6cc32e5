(** Replicas, and the version that a remote announces. *)
From Verif Require Import M_Sync Spec_Tx Spec_Conn Spec_Transact Spec_Sync P_Base P_Step P_Inv P_Conn P_Timelines P_SyncStep P_SyncReplay P_SyncChain P_SyncBoot P_SyncUp P_SyncSend P_SyncHist P_SyncFleet P_SyncAll.

(* ---------------------------------------------------------------- the version *)

Definition kw_core := nskw "db.schema" "core".
Definition kw_version := nskw "db.schema" "version".
Definition names_only (k : keyword) (e : Z) : bool :=
  forallb (fun t : term_s => negb (bool_decide (tm_v t = TVKeyword k)) || (tm_e t =? e)) boot_terms
  && existsb (fun t : term_s => bool_decide (tm_v t = TVKeyword k)) boot_terms.
Definition boot_entid (k : keyword) : Z :=
  match List.filter (fun t : term_s => bool_decide (tm_v t = TVKeyword k)) boot_terms with t :: _ => tm_e t | [] => 0 end.
Definition version_checks : bool :=
  forallb (fun t : term_s => match from_sql_value_pair (to_sql_value_pair (tm_v t)).1 (to_sql_value_pair (tm_v t)).2 with Ok v => bool_decide (v = tm_v t) | _ => false end) boot_terms
  && names_only kw_core (boot_entid kw_core) && names_only kw_version (boot_entid kw_version)
  && forallb (fun t : term_s => negb ((tm_e t =? boot_entid kw_core) && (tm_a t =? boot_entid kw_version)) || bool_decide (tm_v t = TVLong 1)) boot_terms
  && existsb (fun t : term_s => (tm_e t =? boot_entid kw_core) && (tm_a t =? boot_entid kw_version)) boot_terms
  && (boot_entid kw_core <? TX0).
Lemma version_checks_ok : version_checks = true.
Proof. vm_compute. reflexivity. Qed.

Section version.
  Context (boot : list txrow) (ps : list txpart).
  Hypothesis Hboot : boot_rows boot.
  Hypothesis Hps : Forall2 part_of boot ps.

  Lemma boot_reads t : t ∈ boot_terms -> from_sql_value_pair (to_sql_value_pair (tm_v t)).1 (to_sql_value_pair (tm_v t)).2 = Ok (tm_v t).
  Proof using Type.
    intros Ht. pose proof version_checks_ok as C. unfold version_checks in C. do 5 apply andb_true_iff in C as [C _].
    rewrite forallb_forall in C. specialize (C t (proj1 (elem_of_list_In _ _) Ht)). destruct (from_sql_value_pair _ _) as [v| |]; [|done..]. apply bool_decide_eq_true in C. by rewrite C.
  Qed.
  Lemma part_says p : p ∈ ps -> xp_added p = true /\ ((exists t, t ∈ boot_terms /\ tm_e t = xp_e p /\ tm_a t = xp_a p /\ tm_v t = xp_v p) \/ (xp_e p = TX0 /\ exists i, xp_v p = TVInstant i)).
  Proof using All.
    intros Hp. apply elem_of_list_lookup in Hp as (k & Hk). destruct (Forall2_lookup_r _ _ _ _ _ Hps Hk) as (r & Hr & E1 & E2 & E3 & E4 & E5). apply elem_of_list_lookup_2 in Hr.
    destruct (br_tx _ Hboot r Hr) as (_ & _ & Hadd). split; [congruence|]. destruct (br_says _ Hboot) as (i & Hi).
    assert (boot_says i (t_e r) (t_a r) (t_v r, t_tag r)) as [(v & Hv & Ep)|(F1 & F2 & F3)] by (apply Hi; by exists r).
    - left. exists (Term OAdd (t_e r) (t_a r) v). pose proof (boot_reads _ Hv) as X. cbn [tm_v] in X. rewrite Ep in X. cbn [fst snd] in X. cbn [tm_e tm_a tm_v]. split_and!; try done; congruence.
    - right. split; [congruence|]. cbn in F3. injection F3 as G1 G2. rewrite G1, G2 in E5. cbn in E5. injection E5 as <-. by eexists.
  Qed.
  Lemma says_part t : t ∈ boot_terms -> exists p, p ∈ ps /\ xp_e p = tm_e t /\ xp_a p = tm_a t /\ xp_v p = tm_v t.
  Proof using All.
    intros Ht. destruct (br_says _ Hboot) as (i & Hi). pose proof (boot_terms_about t Ht) as (Ho & _ & _).
    destruct (proj2 (Hi (tm_e t) (tm_a t) (to_sql_value_pair (tm_v t)))) as (r & Hr & F1 & F2 & F3). { left. exists (tm_v t). split; [|done]. rewrite <- Ho. by destruct t. }
    apply elem_of_list_lookup in Hr as (k & Hk). destruct (Forall2_lookup_l _ _ _ _ _ Hps Hk) as (p & Hp & E1 & E2 & E3 & E4 & E5). apply elem_of_list_lookup_2 in Hp. exists p.
    split; [done|]. split; [congruence|]. split; [congruence|]. pose proof (boot_reads t Ht) as X. rewrite <- F3 in X. cbn [fst snd] in X. congruence.
  Qed.
  Lemma e_lookup_boot k e : names_only k e = true -> e_lookup ps k = Some e.
  Proof using All.
    unfold names_only. rewrite andb_true_iff. intros [A B]. rewrite forallb_forall in A. apply existsb_exists in B as (t & Ht%elem_of_list_In & Ev). apply bool_decide_eq_true in Ev.
    destruct (says_part t Ht) as (p & Hp & E1 & E2 & E3). unfold e_lookup.
    destruct (filter (fun p => xp_v p = TVKeyword k /\ xp_added p = true) ps) as [|q l] eqn:El.
    - exfalso. assert (p ∈ filter (fun p => xp_v p = TVKeyword k /\ xp_added p = true) ps) as X. { apply elem_of_list_filter. destruct (part_says p Hp) as [-> _]. rewrite E3, Ev. done. }
      rewrite El in X. by apply elem_of_nil in X.
    - cbn [head option_map]. f_equal. assert (q ∈ filter (fun p => xp_v p = TVKeyword k /\ xp_added p = true) ps) as X by (rewrite El; left). apply elem_of_list_filter in X as [[Eq _] Hq].
      destruct (part_says q Hq) as [_ [(t' & Ht' & G1 & G2 & G3)|(_ & i & G)]]; [|congruence]. specialize (A t' (proj1 (elem_of_list_In _ _) Ht')). rewrite G3, Eq in A.
      rewrite bool_decide_true in A by done. cbn in A. apply Z.eqb_eq in A. congruence.
  Qed.
  Lemma boot_version u : core_schema_version (RTx u ps) = SOk 1.
  Proof using All.
    pose proof version_checks_ok as C. unfold version_checks in C. apply andb_true_iff in C as [C C5]. apply andb_true_iff in C as [C C4]. apply andb_true_iff in C as [C C3]. apply andb_true_iff in C as [C C2]. apply andb_true_iff in C as [_ C1].
    unfold core_schema_version, ea_lookup. cbn [rx_parts]. fold kw_core kw_version. rewrite (e_lookup_boot _ _ C1), (e_lookup_boot _ _ C2).
    clear C1 C2. revert C3 C4 C5. generalize (boot_entid kw_core), (boot_entid kw_version). intros ec ev C3 C4 C5. rewrite forallb_forall in C3. apply existsb_exists in C4 as (t & Ht%elem_of_list_In & Et).
    rewrite andb_true_iff, !Z.eqb_eq in Et. destruct Et as [Et1 Et2]. destruct (says_part t Ht) as (p & Hp & E1 & E2 & E3).
    destruct (filter _ ps) as [|q l] eqn:El.
    - exfalso. assert (p ∈ filter (fun p => xp_e p = ec /\ xp_a p = ev /\ xp_added p = true) ps) as X. { apply elem_of_list_filter. destruct (part_says p Hp) as [-> _]. rewrite E1, E2. split; [|exact Hp]. split; [exact Et1|]. split; [exact Et2|reflexivity]. }
      rewrite El in X. by apply elem_of_nil in X.
    - cbn [head option_map]. assert (q ∈ filter (fun p => xp_e p = ec /\ xp_a p = ev /\ xp_added p = true) ps) as X by (rewrite El; left). apply elem_of_list_filter in X as [(Eq1 & Eq2 & _) Hq].
      destruct (part_says q Hq) as [_ [(t' & Ht' & G1 & G2 & G3)|(G & _)]].
      + specialize (C3 t' (proj1 (elem_of_list_In _ _) Ht')). rewrite G1, G2, Eq1, Eq2, !Z.eqb_refl in C3. cbn [andb negb orb] in C3. apply bool_decide_eq_true in C3. rewrite <- G3, C3. reflexivity.
      + apply Z.ltb_lt in C5. lia.
  Qed.
End version.

(* ---------------------------------------------------------------- replicas *)

Section top.
  Context (U : nat -> N) (HU : uuids_fresh U).

  Lemma seg_rows_perm (l1 l2 : list seg) r : Forall2 seg_eq l1 l2 -> r ∈ rows_of_segs l1 -> r ∈ rows_of_segs l2.
  Proof using Type.
    intros F (x & Hx & Hr)%rows_of_segs_elem. apply elem_of_list_lookup in Hx as (k & Hk). destruct (Forall2_lookup_l _ _ _ _ _ F Hk) as (y & Hy & _ & P).
    apply rows_of_segs_elem. exists y. split; [by eapply elem_of_list_lookup_2|]. by rewrite <- P.
  Qed.
  Lemma hist_replica n ML M s p q bp bq sp sq : remote_ok U s n ML M ->
    hist (disk (pe_conn p)) (schema_of (pe_conn p)) bp sp -> hist (disk (pe_conn q)) (schema_of (pe_conn q)) bq sq ->
    Forall2 seg_eq sp sq -> Forall readable sp -> replica p q.
  Proof using Type.
    intros H Hp Hq F R. destruct (hi_chain _ _ _ _ Hp) as (c & Hc & C), (hi_chain _ _ _ _ Hq) as (c' & Hc' & C'). destruct (opened_same _ _ Hc Hc') as [Fo Es]. rewrite <- Es in C'.
    destruct (chain_det _ _ _ _ _ _ _ _ _ C C' F (hi_ok _ _ _ _ Hp) R Fo) as [Ff Esc]. split; [|..|exact Esc].
    - intros e a v N. by apply Ff.
    - intros r N. rewrite (transactions_all _ (hist_main _ _ _ _ Hp)), (transactions_all _ (hist_main _ _ _ _ Hq)), (hi_log _ _ _ _ Hp), (hi_log _ _ _ _ Hq), !elem_of_app. split; intros [X|X].
      + left. exact (boot_rows_same _ _ r (hi_boot _ _ _ _ Hp) (hi_boot _ _ _ _ Hq) N X).
      + right. exact (seg_rows_perm _ _ r F X).
      + left. exact (boot_rows_same _ _ r (hi_boot _ _ _ _ Hq) (hi_boot _ _ _ _ Hp) N X).
      + right. eapply seg_rows_perm; [|exact X]. symmetry. exact F.
  Qed.
  Lemma fleet_replica s n ps p q : fleet U s n ps -> p ∈ ps -> q ∈ ps -> pe_known p = pe_known q -> replica p q.
  Proof using HU.
    intros Hf Hp Hq Hk. destruct (fleet_ok U HU _ _ _ Hf) as (ML & M & H & F). rewrite Forall_forall in F.
    destruct (F p Hp) as (_ & bp & sp & Hhp & Pp), (F q Hq) as (_ & bq & sq & Hhq & Pq).
    pose proof (remote_readable _ _ _ _ _ H) as R.
    assert (forall j en, rm_log s !! j = Some en -> en_uuid en <> 0%N) as Hnz.
    { intros j en Hj. eapply (named_nonnil U n (rm_log s)); [exact HU|exact (ro_uuids _ _ _ _ _ H)|]. by eapply elem_of_list_lookup_2. }
    assert (Forall2 seg_eq sp sq /\ Forall readable sp) as [Fs Rs]; [|by eapply hist_replica].
    destruct Pp as [(K1 & _ & ->)|(i & x & X1 & X2 & X3 & _)], Pq as [(K2 & _ & ->)|(j & y & Y1 & Y2 & Y3 & _)].
    - split; constructor.
    - exfalso. apply (Hnz _ _ Y1). congruence.
    - exfalso. apply (Hnz _ _ X1). congruence.
    - assert (i = j) as <- by (eapply remote_same_place; [exact HU|exact H|exact X1|exact Y1|congruence]). split.
      + transitivity (take i M); [symmetry; exact X3|exact Y3].
      + assert (Forall readable (take i M)) as R' by by apply Forall_take. clear -X3 R'. revert X3 R'. generalize (take i M). intros l X3. induction X3 as [|x y l sp [_ P] _ IH]; intros R; [constructor|].
        apply Forall_cons in R as [Rx R]. constructor; [|by apply IH]. intros r. rewrite <- P. apply Rx.
  Qed.

  Lemma not_incompatible w s n ML M cl l r : remote_ok U s n ML M -> forall cl' s' n', sync w test_remote cl s n = ((cl', s', n'), SOk (RIncompatible l r)) -> False.
  Proof using HU.
    intros H cl' s' n' Hs. unfold sync in Hs. cbn [sv_head test_remote] in Hs. destruct (root_and_head_tx _) as [[root hd]| |]; [|done..]. cbn [sbind] in Hs. case_decide as D.
    - destruct (first_sync_against_non_empty w test_remote cl s root hd) as [cl0 r0] eqn:Ef. injection Hs as -> <- <- ->.
      unfold first_sync_against_non_empty in Ef. cbn [sv_after test_remote] in Ef. rewrite decide_True in Ef by done. destruct (rm_log s) as [|b es] eqn:El; [done|]. cbn [map] in Ef.
      assert (core_schema_version (rtx_of b) = SOk 1) as Ev.
      { pose proof (ro_sent _ _ _ _ _ H) as F. rewrite El in F. destruct (ro_ml _ _ _ _ _ H) as [[E _]|(boot & Hb & E)]; rewrite E in F; [inversion F|].
        inversion F as [|? ? ? ? S1 _]; subst. destruct S1 as (p & ps & pm & Ep & _ & Fp & _). unfold rtx_of. rewrite Ep. exact (boot_version boot (p :: ps) Hb Fp (en_uuid b)). }
      rewrite Ev in Ef. cbn [negb Z.eqb] in Ef. change (negb (1 =? CORE_SCHEMA_VERSION)) with false in Ef. cbn iota in Ef.
      destruct (what_do _ _); try done.
      + destruct (fast_forward_local w _ _) as [cl1 [rp| |]]; done.
      + destruct (local_txs _ _) as [locals| |]; [|done..]. unfold merge in Ef. destruct (merge_sort _ _); [done|]. cbn zeta in Ef.
        destruct (move_from_main_timeline _ _ _ _ _ _ _) as [st [[sc pm]| |]]; [|done..]. destruct (check_incoming _) as [[]| |]; [|done..].
        destruct (fast_forward_txs _ _ _ _) as [ig [lst| |]]; [|done..]. destruct (rebase_txs _ _ _ _) as [ig2 [d| |]]; [|done..]. done.
    - destruct (what_do _ _); try done.
      + destruct (fast_forward_remote _ _ _ _ _ _ _) as [x0 [[]| |]]; done.
      + destruct (local_tx_for_uuid _ _) as [f| |]; [|done..]. destruct (fast_forward_remote _ _ _ _ _ _ _) as [x0 [[]| |]]; done.
      + destruct (sv_after _ _ _) as [txs| |]; [|done..]. destruct (fast_forward_local w _ _) as [cl1 [rp| |]]; done.
      + destruct (sbind _ _) as [[locals txs]| |]; [|done..]. unfold merge in Hs. destruct (merge_sort _ _); [done|]. cbn zeta in Hs.
        destruct (move_from_main_timeline _ _ _ _ _ _ _) as [st [[sc pm]| |]]; [|done..]. destruct (check_incoming _) as [[]| |]; [|done..].
        destruct (fast_forward_txs _ _ _ _) as [ig [lst| |]]; [|done..]. destruct (rebase_txs _ _ _ _) as [ig2 [d| |]]; [|done..]. done.
  Qed.
  Lemma fleet_caught_up s n ps p w p' s' n' rep : fleet U s n ps -> p ∈ ps -> w_uuid w = U ->
    peer_sync w test_remote p s n = ((p', s', n'), SOk rep) -> pe_known p' = rm_head s' /\ exists es, rm_log s' = rm_log s ++ es.
  Proof using HU.
    intros Hf Hp Hw Hs. destruct (fleet_ok U HU _ _ _ Hf) as (ML & M & H & F). rewrite Forall_forall in F. destruct (F p Hp) as (Hc & boot & segs & Hh & Hpl).
    pose proof Hs as Hs'. eapply (synced U HU w p s n ML M boot segs []) in Hs as ([(l & r & ->)|[E _]] & ML' & M2 & A1 & A2 & A3); try done.
    - exfalso. unfold peer_sync in Hs'. destruct (sync w test_remote _ s n) as [[[cl s1] n1] [rep1| |]] eqn:Es; [|done..].
      destruct (conn_commit _ _) as [[c' x]| |]; [|done..]. injection Hs' as _ _ _ ->. exact (not_incompatible _ _ _ _ _ _ _ _ H _ _ _ Es).
    - by rewrite app_nil_r.
    - by left.
  Qed.

  (** One that has seen everything, after some work *)
  Lemma fleet_pushed s n ps p mv l w p' s' n' rep : fleet U s n ps -> p ∈ ps -> pe_known p = rm_head s ->
    clean_history mv (pe_conn p) l -> reopens_same mv (pe_conn p) l -> sendable (st_log (disk (conn_run mv (pe_conn p) l))) ->
    w_uuid w = U -> peer_sync w test_remote (worked mv l p) s n = ((p', s', n'), SOk rep) ->
    pe_known p' = rm_head s' /\ rm_head s' <> 0%N /\ exists es, rm_log s' = rm_log s ++ es.
  Proof using HU.
    intros Hf Hp Hk Hcl Hre Hsd Hw Hs. destruct (fleet_ok U HU _ _ _ Hf) as (ML & M & H & F). rewrite Forall_forall in F. destruct (F p Hp) as (Hc & boot & segs & Hh & Hpl).
    destruct (conn_run_extended mv l (pe_conn p)) as (E & X); try done.
    { rewrite (hi_log _ _ _ _ Hh). intros [Y _]%app_eq_nil. by eapply boot_rows_nonempty; [apply Hh|]. }
    pose proof Hs as Hs'. eapply (synced U HU w (worked mv l p) s n ML M boot segs E) in Hs as ([(x & r & ->)|[E1 E2]] & ML' & M2 & A1 & A2 & A3); try done.
    - exfalso. unfold peer_sync in Hs'. destruct (sync w test_remote _ s n) as [[[cl s1] n1] [rep1| |]] eqn:Es; [|done..].
      destruct (conn_commit _ _) as [[c' y]| |]; [|done..]. injection Hs' as _ _ _ ->. exact (not_incompatible _ _ _ _ _ _ _ _ H _ _ _ Es).
    - split; [done|]. split; [|done]. intros Z. apply E2. exact (proj1 (remote_head_log U HU _ _ _ _ A1) Z).
    - unfold worked. cbn [pe_conn]. apply conn_run_ok; try done. apply Hsd.
    - by eapply hist_extended.
    - by right.
  Qed.

  (** Uploading to an empty remote and downloading into a new file *)
  Lemma sent_and_fetched mv now c l w p1 s1 n1 rep1 mv' now' c' w' p2 s2 n2 rep2 :
    conn_open mv now None = Ok c -> clean_history mv c l -> reopens_same mv c l -> sendable (st_log (disk (conn_run mv c l))) ->
    w_uuid w = U -> peer_sync w test_remote (worked mv l (newcomer c)) remote_empty 0 = ((p1, s1, n1), SOk rep1) ->
    conn_open mv' now' None = Ok c' -> w_uuid w' = U -> peer_sync w' test_remote (newcomer c') s1 n1 = ((p2, s2, n2), SOk rep2) ->
    replica p1 p2 /\ s2 = s1.
  Proof using HU.
    intros Ho Hcl Hre Hsd Hw H1 Ho' Hw' H2.
    pose proof (fleet_join U _ _ _ _ _ _ (fleet_nobody U) Ho) as F0. clear Ho.
    pose proof (fleet_pushed _ _ _ (newcomer c) _ _ _ _ _ _ _ F0 ltac:(left) eq_refl Hcl Hre Hsd Hw H1) as (K1 & K2 & _).
    pose proof (fleet_push U _ _ _ 0%nat (newcomer c) _ _ _ _ _ _ _ F0 eq_refl eq_refl Hcl Hre Hsd Hw H1) as F1. cbn [list_insert insert] in F1.
    pose proof (fleet_join U _ _ _ _ _ _ F1 Ho') as F2. clear Ho'.
    pose proof (fleet_caught_up _ _ _ (newcomer c') _ _ _ _ _ F2 ltac:(left) Hw' H2) as (K3 & _).
    assert (rm_head s2 = rm_head s1 /\ s2 = s1) as [K4 K5].
    { assert (s2 = s1) as ->; [|done]. unfold peer_sync in H2. destruct (sync w' test_remote _ s1 n1) as [[[cl s3] n3] [r| |]] eqn:Es; [|done..].
      assert (s3 = s1) as ->. { unfold sync in Es. cbn [sv_head test_remote sbind] in Es. destruct (root_and_head_tx _) as [[a b]| |]; [|done..]. cbn [sbind] in Es.
        rewrite decide_True in Es by (split; [reflexivity|exact K2]). destruct (first_sync_against_non_empty _ _ _ _ _ _). by injection Es. }
      destruct (conn_commit _ _) as [[c2 y]| |]; [|done..]. by injection H2. }
    split; [|exact K5]. pose proof (fleet_pull U _ _ _ 0%nat (newcomer c') _ _ _ _ _ F2 eq_refl Hw' H2) as F3. cbn [list_insert insert] in F3.
    eapply fleet_replica; [exact F3|right; left|left|]. congruence.
  Qed.
End top.

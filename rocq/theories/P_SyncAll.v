(** Files that share a remote stay replicas of each other. *)
From Verif Require Import M_Sync Spec_Tx Spec_Conn Spec_Transact Spec_Sync P_Base P_Step P_Inv P_Conn P_Timelines P_SyncStep P_SyncReplay P_SyncChain P_SyncBoot P_SyncUp P_SyncSend P_SyncHist P_SyncFleet.

Lemma commit_Ok c ig c' x : conn_commit c ig = Ok (c', x) -> cn_disk c' = ig_store ig /\ md_parts (cn_md c') = ig_parts ig /\ md_schema (cn_md c') = ig_schema ig.
Proof. unfold conn_commit. case_decide; [|done]. by intros [= <- _]. Qed.
Lemma last_tx_later st s boot segs E : hist st s boot (segs ++ E) -> E <> [] -> last_tx segs < last_tx (segs ++ E).
Proof.
  intros H Hne. pose proof (hi_sorted _ _ _ _ H) as Hs. rewrite map_app in Hs. unfold last_tx. rewrite map_app, last_app.
  destruct (last (map fst E)) as [z|] eqn:Ez; [|apply last_None in Ez; by destruct E]. cbn [default]. apply last_elem in Ez.
  clear -Hs Ez. revert Hs. generalize TX0. induction (map fst segs) as [|y l IH]; intros t0 Hs.
  - inversion Hs as [|? ? _ Hf]; subst. rewrite Forall_forall in Hf. by apply Hf.
  - rewrite last_cons. cbn [app] in Hs. inversion Hs as [|? ? Hs' _]; subst. specialize (IH _ Hs'). destruct (last l); done.
Qed.
Lemma segs_before st s boot segs E : hist st s boot (segs ++ E) ->
  (forall x, x ∈ (TX0, boot) :: segs -> x.1 <= last_tx segs) /\ (forall x, x ∈ E -> last_tx segs < x.1).
Proof.
  intros H. pose proof (hi_sorted _ _ _ _ H) as Hs. rewrite map_app in Hs. split.
  - intros x Hx. apply (sorted_last TX0 (map fst segs)).
    + change (TX0 :: map fst segs ++ map fst E) with ((TX0 :: map fst segs) ++ map fst E) in Hs. clear -Hs. induction (TX0 :: map fst segs) as [|z l IH]; [constructor|].
      cbn [app] in Hs. inversion Hs as [|? ? Hs' Hf]; subst. apply Forall_app in Hf as [Hf _]. constructor; [by apply IH|done].
    + change (x.1 ∈ map fst ((TX0, boot) :: segs)). apply elem_of_list_fmap. by exists x.
  - intros x Hx. assert (x.1 ∈ map fst E) as Hx1 by (apply elem_of_list_fmap; by exists x). clear -Hs Hx1. unfold last_tx. revert Hs. generalize TX0. induction (map fst segs) as [|z l IH]; intros t0 Hs.
    + inversion Hs as [|? ? _ Hf]; subst. rewrite Forall_forall in Hf. by apply Hf.
    + rewrite last_cons. cbn [app] in Hs. inversion Hs as [|? ? Hs' _]; subst. specialize (IH _ Hs'). destruct (last l); done.
Qed.

Section fleet.
  Context (U : nat -> N) (HU : uuids_fresh U).

  Lemma synced_client w cl s n ML M boot segs E cl' s' n' rep :
    remote_ok U s n ML M -> w_uuid w = U -> ig_ok (cl_ig cl) -> hist (ig_store (cl_ig cl)) (ig_schema (cl_ig cl)) boot (segs ++ E) ->
    placed s M segs (cl_tu cl) (cl_known cl) -> E = [] \/ cl_known cl = rm_head s ->
    sync w test_remote cl s n = ((cl', s', n'), SOk rep) ->
    ig_ok (cl_ig cl') /\ ((exists l r, rep = RIncompatible l r) \/ cl_known cl' = rm_head s' /\ rm_log s' <> [])
    /\ exists ML' M2 segs', remote_ok U s' n' ML' (M ++ M2) /\ (exists es, rm_log s' = rm_log s ++ es)
       /\ hist (ig_store (cl_ig cl')) (ig_schema (cl_ig cl')) boot segs' /\ placed s' (M ++ M2) segs' (cl_tu cl') (cl_known cl').
  Proof using HU.
    intros H Hw Hig Hh Hp HE Hs. unfold sync in Hs. cbn [sv_head test_remote] in Hs. rewrite (hist_root_head _ _ _ _ Hh) in Hs. cbn [sbind] in Hs.
    assert (Hsame : rm_log s = rm_log s ++ []) by by rewrite app_nil_r.
    assert (forall j en, rm_log s !! j = Some en -> en_uuid en <> 0%N) as Hnz.
    { intros j en Hj. eapply (named_nonnil U n (rm_log s)); [done|apply H|]. by eapply elem_of_list_lookup_2. }
    case_decide as D.
    - (* the first sync, with a remote that has something *)
      destruct D as [D1 D2]. destruct Hp as [(_ & Etu & ->)|(j & en & Hj & Hk & _)]; [|rewrite D1 in Hk; by apply Hnz in Hj].
      assert (E = []) as -> by (destruct HE as [?|?]; [done|congruence]). cbn [app] in Hh.
      destruct (first_sync_against_non_empty w test_remote cl s TX0 (last_tx ([] ++ []))) as [cl0 r0] eqn:Ef. injection Hs as -> <- <- ->.
      unfold first_sync_against_non_empty in Ef. cbn [sv_after test_remote] in Ef. rewrite decide_True in Ef by done.
      assert (rm_log s <> []) as Hne. { intros Enil. apply D2. by apply (remote_head_log U HU _ _ _ _ H). }
      destruct (rm_log s) as [|b es] eqn:El; [done|]. cbn [map] in Ef. destruct (core_schema_version (rtx_of b)) as [v| |]; [|done..].
      pose proof (remote_len U _ _ _ _ H) as Hlen. rewrite El in Hlen. specialize (Hlen Hne). cbn [length] in Hlen.
      destruct (negb (v =? CORE_SCHEMA_VERSION)).
      { injection Ef as <- <-. split; [done|]. split; [left; by eexists _, _|]. exists ML, [], []. rewrite app_nil_r. split; [done|]. split; [exists []; by rewrite app_nil_r|]. split; [done|]. left. done. }
      cbn [last_tx app map last default] in Ef. rewrite (decide_True (P := TX0 = last_tx [])) in Ef by done.
      assert (tu_ok (tu_insert (cl_tu cl) TX0 (en_uuid b)) TX0 (en_uuid b)) as Htu. { apply tu_insert_ok. rewrite Etu. intros t' [? Ht]. by rewrite lookup_empty in Ht. }
      destruct es as [|b2 es]; cbn [map is_nil what_do] in Ef.
      + injection Ef as <- <-. cbn [set_remote_head_and_map cl_ig cl_tu cl_known rtx_of rx_uuid].
        assert (M = []) as -> by (destruct M; [done|cbn in Hlen; lia]).
        split; [done|]. split; [right; split; [rewrite (ro_head _ _ _ _ _ H), El; done|rewrite ?El; done]|]. exists ML, [], []. rewrite app_nil_r. split; [done|]. split; [exists []; by rewrite ?El, app_nil_r|]. split; [done|].
        right. exists 0%nat, b. rewrite El. split_and!; try done; constructor.
      + destruct (fast_forward_local w _ _) as [cl1 [rp| |]] eqn:Eff; [|done..]. cbn [sthen] in Ef. injection Ef as <- <-.
        change (rtx_of b2 :: map rtx_of es) with (map rtx_of (drop 1 (b :: b2 :: es))) in Eff. rewrite <- El in Eff.
        eapply (downloaded U HU w s n ML M _ 0 boot []) in Eff as (A1 & A2 & A3 & segs' & A4 & A5); try done.
        2:{ cbn [length] in Hlen. lia. }
        2:{ by rewrite El. }
        split; [done|]. split; [right; split; [done|done]|]. exists ML, [], segs'. rewrite app_nil_r. split; [done|]. split; [exists []; by rewrite ?El, app_nil_r|]. done.
    - destruct (decide (rm_head s = 0%N)) as [Z|NZ].
      + (* an empty remote *)
        pose proof (proj1 (remote_head_log U HU _ _ _ _ H) Z) as El. destruct Hp as [(Ek & Etu & ->)|(j & en & Hj & _)]; [|by rewrite El in Hj].
        unfold remote_state_of in Hs. rewrite decide_True in Hs by done. cbn [what_do] in Hs.
        destruct (fast_forward_remote _ _ _ _ _ _ _) as [x0 [[]| |]] eqn:Eff; [|done..]. cbn [sthen] in Hs. injection Hs as -> <-.
        cbn [app] in Hh. assert (M = []) as ->. { destruct (ro_ml _ _ _ _ _ H) as [[_ ?]|(b & _ & Eml)]; [done|]. pose proof (ro_sent _ _ _ _ _ H) as F. rewrite Eml, El in F. by inversion F. }
        eapply (fast_forward_remote_Ok w cl s n None _ _ [] ((TX0, boot) :: E)) in Eff as (es & cl1 & s1 & n1 & Ex & A1 & A2 & A3 & A4 & A5 & A6 & A7 & A8 & A9); [| |by apply hist_segmented with (ig_schema (cl_ig cl))|done].
        2:{ by eapply hist_main. }
        injection Ex as -> -> ->.
        destruct (uploaded U HU s n ML [] (ig_store (cl_ig cl)) (ig_schema (cl_ig cl)) boot [] E ((TX0, boot) :: E) es s1 n1 (cl_tu cl) (cl_known cl) (cl_ig cl) cl1) as ((ML' & B1) & B2 & B3); try done.
        * left. done.
        * by rewrite <- Hw.
        * destruct cl1. cbn in A7, A8, A9 |- *. by rewrite A7, A8, A9.
        * split; [by rewrite A7|]. split; [right; split; [done|]; rewrite A3; inversion A1; by destruct (rm_log s)|]. exists ML', E, E. rewrite A7. split; [done|]. split; [by exists es|]. done.
      + destruct Hp as [(Ek & _)|(j & en & Hj & Hk & F & Htu)]; [by destruct D|]. unfold remote_state_of in Hs. rewrite decide_False in Hs by done.
        assert (rm_log s <> []) as Hne by by intros X; rewrite X in Hj.
        destruct (decide (rm_head s = cl_known cl)) as [Ehk|Nhk].
        * assert (j = length M) as ->. { apply (remote_last U HU _ _ _ _ _ _ H Hj). congruence. } rewrite firstn_all in F.
          destruct E as [|e0 E].
          -- rewrite app_nil_r in *. rewrite (tu_here _ _ _ Htu) in Hs. cbn [local_state_of what_do] in Hs. injection Hs as <- <- <- <-.
             split; [done|]. split; [right; split; [congruence|done]|]. exists ML, [], segs. rewrite app_nil_r. split; [done|]. split; [exists []; by rewrite app_nil_r|]. split; [done|]. right. exists (length M), en. rewrite firstn_all. done.
          -- assert (cl_tu cl !! last_tx (segs ++ e0 :: E) = None) as Ht.
             { destruct (cl_tu cl !! last_tx (segs ++ e0 :: E)) eqn:X; [|done]. pose proof (tu_below _ _ _ Htu _ (mk_is_Some _ _ X)) as X1. pose proof (last_tx_later _ _ _ _ _ Hh). assert (e0 :: E <> []) by done. intuition lia. }
             rewrite Ht in Hs. cbn [local_state_of what_do] in Hs. unfold local_tx_for_uuid in Hs. rewrite (tx_for_uuid_ok _ _ _ Htu) in Hs.
             destruct (fast_forward_remote _ _ _ _ _ _ _) as [x0 [[]| |]] eqn:Eff; [|done..]. cbn [sthen] in Hs. injection Hs as -> <-.
             eapply (fast_forward_remote_Ok w cl s n _ _ _ ((TX0, boot) :: segs) (e0 :: E)) in Eff as (es & cl1 & s1 & n1 & Ex & A1 & A2 & A3 & A4 & A5 & A6 & A7 & A8 & A9).
             2:{ by eapply hist_main. }
             2:{ apply (hist_segmented _ _ _ _ Hh). }
             2:{ apply (segs_before _ _ _ _ _ Hh). }
             injection Ex as -> -> ->.
             destruct (uploaded U HU s n ML M (ig_store (cl_ig cl)) (ig_schema (cl_ig cl)) boot segs (e0 :: E) (e0 :: E) es s1 n1 (cl_tu cl) (cl_known cl) (cl_ig cl) cl1) as ((ML' & B1) & B2 & B3); try done.
             ++ by right.
             ++ by rewrite <- Hw.
             ++ destruct cl1. cbn in A7, A8, A9 |- *. by rewrite A7, A8, A9.
             ++ split; [by rewrite A7|]. split; [right; split; [done|]; rewrite A3; by destruct (rm_log s)|]. exists ML', (e0 :: E), (segs ++ e0 :: E). rewrite A7. split; [done|]. split; [by exists es|]. done.
        * assert (E = []) as -> by (destruct HE as [?|?]; [done|congruence]). rewrite app_nil_r in *. rewrite (tu_here _ _ _ Htu) in Hs. cbn [local_state_of what_do] in Hs.
          cbn [sv_after test_remote] in Hs. rewrite decide_False in Hs by (rewrite <- Hk; by eapply Hnz).
          rewrite <- Hk in Hs at 1. rewrite (entries_after_at _ (named_nodup U n _ HU (ro_uuids _ _ _ _ _ H)) j en Hj) in Hs.
          destruct (fast_forward_local w cl _) as [cl1 [rp| |]] eqn:Eff; [|done..]. cbn [sthen] in Hs. injection Hs as <- <- <- <-.
          assert (j < length M)%nat as Hjm.
          { pose proof (remote_len U _ _ _ _ H Hne) as Hl. pose proof (lookup_lt_Some _ _ _ Hj) as X. rewrite Hl in X. destruct (decide (j = length M)) as [Ej|]; [|lia].
            exfalso. apply Nhk. rewrite <- Hk. symmetry. by apply (remote_last U HU _ _ _ _ _ _ H Hj). }
          eapply (downloaded U HU w s n ML M cl j boot segs) in Eff as (A1 & A2 & A3 & segs' & A4 & A5); try done.
          split; [done|]. split; [right; split; [done|done]|]. exists ML, [], segs'. rewrite app_nil_r. split; [done|]. split; [exists []; by rewrite app_nil_r|]. done.
  Qed.

  Lemma synced w p s n ML M boot segs E p' s' n' rep :
    remote_ok U s n ML M -> w_uuid w = U -> conn_ok (pe_conn p) -> hist (disk (pe_conn p)) (schema_of (pe_conn p)) boot (segs ++ E) ->
    placed s M segs (pe_tu p) (pe_known p) -> E = [] \/ pe_known p = rm_head s ->
    peer_sync w test_remote p s n = ((p', s', n'), SOk rep) ->
    ((exists l r, rep = RIncompatible l r) \/ pe_known p' = rm_head s' /\ rm_log s' <> [])
    /\ exists ML' M2, remote_ok U s' n' ML' (M ++ M2) /\ (exists es, rm_log s' = rm_log s ++ es) /\ peer_ok s' (M ++ M2) p'.
  Proof using HU.
    intros H Hw Hc Hh Hp HE Hs. unfold peer_sync in Hs. destruct (sync w test_remote _ s n) as [[[cl s1] n1] [rep1| |]] eqn:Es; [|done..].
    destruct (conn_commit (pe_conn p) (cl_ig cl)) as [[c' x]| |] eqn:Ec; [|done..]. injection Hs as <- <- <- <-. apply commit_Ok in Ec as (C1 & C2 & C3).
    eapply synced_client in Es as (A1 & A2 & ML' & M2 & segs' & A3 & A4 & A5 & A6); try done. cbn [pe_conn pe_tu pe_known].
    split; [done|]. exists ML', M2. split; [done|]. split; [done|]. split.
    - unfold conn_ok. cbn [pe_conn]. rewrite C1, C2, C3. exact A1.
    - exists boot, segs'. cbn [pe_conn pe_tu pe_known]. rewrite C1, C3. done.
  Qed.

  Lemma fleet_ok s n ps : fleet U s n ps -> exists ML M, remote_ok U s n ML M /\ Forall (peer_ok s M) ps.
  Proof using HU.
    induction 1 as [|s n ps mv now c Hf IH Ho|s n ps i p mv l w p' s' n' rep Hf IH Hi Hk Hcl Hre Hsd Hw Hs|s n ps i p w p' s' n' rep Hf IH Hi Hw Hs].
    - exists [], []. split; [|constructor]. split; [constructor|by left|done|exists []; split; [constructor|split; [constructor|done]]|done|constructor|repeat constructor|].
      assert (exists c, opened c) as (c & Hc).
      { assert (is_ok (conn_open 999 0 None) = true) as X by (vm_compute; reflexivity). destruct (conn_open 999 0 None) as [c| |] eqn:Ec; [|discriminate X..]. exists c. exact (conn_open_opened _ _ _ Ec). }
      exists c, (disk c), (schema_of c). split; [exact Hc|]. split; [apply feq_refl|reflexivity].
    - destruct IH as (ML & M & H & F). exists ML, M. apply conn_open_opened in Ho as Hop. clear Ho. split; [exact H|]. constructor; [|exact F]. split; [exact (op_ok _ Hop)|].
      exists (st_log (disk c)), []. split; [exact (hist_opened _ Hop)|]. left. split; [reflexivity|]. split; reflexivity.
    - destruct IH as (ML & M & H & F). rewrite Forall_lookup in F. destruct (F i p Hi) as (Hc & boot & segs & Hh & Hp).
      destruct (conn_run_extended mv l (pe_conn p)) as (E & X); try done.
      { rewrite (hi_log _ _ _ _ Hh). intros [Y _]%app_eq_nil. by eapply boot_rows_nonempty; [apply Hh|]. }
      eapply (synced w (worked mv l p) s n ML M boot segs E) in Hs as (_ & ML' & M2 & A1 & A2 & A3); try done.
      + exists ML', (M ++ M2). split; [done|]. apply Forall_insert; [|done]. apply Forall_lookup. intros k q Hq. destruct (F k q Hq) as (Hcq & bq & sq & Hhq & Hpq).
        split; [done|]. exists bq, sq. split; [done|]. eapply placed_mono; [exact H|done|by eexists|done].
      + unfold worked. cbn [pe_conn]. apply conn_run_ok; try done. apply Hsd.
      + by eapply hist_extended.
      + by right.
    - destruct IH as (ML & M & H & F). rewrite Forall_lookup in F. destruct (F i p Hi) as (Hc & boot & segs & Hh & Hp).
      eapply (synced w p s n ML M boot segs []) in Hs as (_ & ML' & M2 & A1 & A2 & A3); try done.
      + exists ML', (M ++ M2). split; [done|]. apply Forall_insert; [|done]. apply Forall_lookup. intros k q Hq. destruct (F k q Hq) as (Hcq & bq & sq & Hhq & Hpq).
        split; [done|]. exists bq, sq. split; [done|]. eapply placed_mono; [exact H|done|by eexists|done].
      + by rewrite app_nil_r.
      + by left.
  Qed.
End fleet.

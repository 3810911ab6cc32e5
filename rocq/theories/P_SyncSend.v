(** What an upload puts on the test remote. *)
From Verif Require Import M_Sync Spec_Tx Spec_Conn Spec_Transact Spec_Sync P_Base P_SyncStep P_SyncReplay P_SyncChain P_SyncUp.

Lemma get_chunks_mono m m' us ps : m ⊆ m' -> get_chunks m us = Some ps -> get_chunks m' us = Some ps.
Proof.
  intros Hm. revert ps. induction us as [|u us IH]; intros ps; [done|]. cbn [get_chunks]. destruct (m !! u) as [p|] eqn:E; [|done].
  rewrite (lookup_weaken _ _ _ _ E Hm). destruct (get_chunks m us) as [l|]; [|done]. intros [= <-]. by rewrite (IH l).
Qed.
Lemma put_chunks_Ok w ps : forall s n s' n' us, put_chunks w test_remote (s, n) ps = ((s', n'), SOk us) ->
  rm_head s' = rm_head s /\ rm_log s' = rm_log s /\ rm_chunks s ⊆ rm_chunks s' /\ get_chunks (rm_chunks s') us = Some ps /\ (n <= n')%nat.
Proof.
  induction ps as [|p ps IH]; intros s n s' n' us H; cbn [put_chunks] in H; [injection H as <- <- <-; split_and!; try done; lia|].
  cbn [sv_put_chunk test_remote fst snd] in H. destruct (rm_chunks s !! w_uuid w n) eqn:E; [done|].
  destruct (put_chunks w test_remote _ ps) as [[s1 n1] [us1| |]] eqn:E1; [|done..]. cbn [sthen] in H. injection H as <- <- <-.
  apply IH in E1 as (A & B & C & D & L). cbn [rm_head rm_log rm_chunks] in *. split_and!; try done; [|..].
  - etrans; [|exact C]. by apply insert_subseteq.
  - cbn [get_chunks]. rewrite (lookup_weaken _ _ (w_uuid w n) p (lookup_insert _ _ _) C), D. done.
  - lia.
Qed.

(** A transaction as an entry of the remote *)
Definition sent_parts (parts : list txpart) (en : entry) : Prop := exists p ps pm,
  parts = p :: ps /\ allocate_partition_map_for_entids (map xp_e parts) = Ok pm
  /\ en_parts en = TxPart (Some pm) (xp_e p) (xp_a p) (xp_v p) (xp_tx p) (xp_added p) :: ps.
Definition sent (x : seg) (en : entry) : Prop := exists p ps pm,
  en_parts en = p :: ps /\ xp_parts p = Some pm /\ Forall2 part_of x.2 (p :: ps) /\ allocate_partition_map_for_entids (map t_e x.2) = Ok pm.
(** Each entry follows the one before. *)
Fixpoint linked (h : N) (es : list entry) : Prop :=
  match es with [] => True | en :: es => en_parent en = h /\ linked (en_uuid en) es end.
Definition head_of (h : N) (es : list entry) : N := default h (last (map en_uuid es)).
Definition named (U : nat -> N) (n n' : nat) (es : list entry) : Prop := exists ks, StronglySorted lt ks /\ Forall (fun k => n <= k < n')%nat ks /\ map en_uuid es = map U ks.

Lemma sent_of x g en : group_of x g -> sent_parts (lt_parts g) en -> sent x en.
Proof.
  intros [E F] (p & ps & pm & Ep & Ha & Ee). rewrite Ep in F, Ha. exists (TxPart (Some pm) (xp_e p) (xp_a p) (xp_v p) (xp_tx p) (xp_added p)), ps, pm. split_and!; try done.
  - inversion F as [|r ? rs ? H1 H2 E1]; subst. constructor; [|done]. exact H1.
  - rewrite <- Ha. f_equal. clear -F. assert (forall l1 l2, Forall2 part_of l1 l2 -> map t_e l1 = map xp_e l2) as K; [|by apply K].
    induction 1 as [|r q l1 l2 H1 _ IH]; [done|]. cbn [map]. f_equal; [|done]. symmetry. apply H1.
Qed.

Lemma upload_tx_Ok w h up g up' : upload_tx w test_remote h up g = (up', SOk tt) -> exists en,
  sent_parts (lt_parts g) en /\ en_uuid en = w_uuid w (up_used up) /\ en_parent en = default h (up_head up)
  /\ rm_log (up_remote up') = rm_log (up_remote up) ++ [en] /\ rm_head (up_remote up') = rm_head (up_remote up)
  /\ up_uuids up' = up_uuids up ++ [(lt_tx g, en_uuid en)] /\ up_head up' = Some (en_uuid en) /\ (up_used up < up_used up')%nat.
Proof.
  unfold upload_tx. intros H. destruct (lt_parts g) as [|p ps]; [done|].
  destruct (allocate_partition_map_for_entids _) as [pm| |] eqn:Ea; [|done..].
  destruct (put_chunks w test_remote _ _) as [[s n] [us| |]] eqn:Ep; [|done..]. apply put_chunks_Ok in Ep as (A & B & C & D & L).
  cbn [sv_put_tx test_remote] in H. rewrite D in H. injection H as <-. cbn [up_remote up_uuids up_head up_used rm_log rm_head].
  exists (Entry (w_uuid w (up_used up)) (default h (up_head up)) (TxPart (Some pm) (xp_e p) (xp_a p) (xp_v p) (xp_tx p) (xp_added p) :: ps)). cbn [en_uuid en_parent en_parts].
  split_and!; try done; [exists p, ps, pm; done|by rewrite B].
Qed.
Lemma upload_txs_Ok w h gs : forall up up', upload_txs w test_remote h up gs = (up', SOk tt) -> exists es,
  Forall2 (fun g en => sent_parts (lt_parts g) en) gs es /\ linked (default h (up_head up)) es
  /\ rm_log (up_remote up') = rm_log (up_remote up) ++ es /\ rm_head (up_remote up') = rm_head (up_remote up)
  /\ up_uuids up' = up_uuids up ++ zip (map lt_tx gs) (map en_uuid es) /\ (up_used up <= up_used up')%nat
  /\ up_head up' = match last (map en_uuid es) with Some u => Some u | None => up_head up end /\ named (w_uuid w) (up_used up) (up_used up') es.
Proof.
  induction gs as [|g gs IH]; intros up up' H; cbn [upload_txs] in H.
  - injection H as <-. exists []. cbn. rewrite !app_nil_r. split_and!; try done; try lia. exists []. split_and!; try done; constructor.
  - destruct (upload_tx w test_remote h up g) as [up1 [[]| |]] eqn:E1; [|done..]. cbn [sthen] in H. apply upload_tx_Ok in E1 as (en & A1 & A2 & A3 & A4 & A5 & A6 & A7 & A8).
    apply IH in H as (es & B1 & B2 & B3 & B4 & B5 & B6 & B7 & ks & B8 & B9 & B10). exists (en :: es). rewrite A7 in B2. cbn [default] in B2.
    split_and!; cbn [linked map zip zip_with]; try done.
    + by constructor.
    + by rewrite B3, A4, <- app_assoc.
    + congruence.
    + rewrite B5, A6, <- app_assoc. done.
    + lia.
    + rewrite B7, A7, last_cons. by destruct (last (map en_uuid es)).
    + exists (up_used up :: ks). split_and!.
      * constructor; [done|]. eapply Forall_impl; [exact B9|]. simpl. lia.
      * constructor; [lia|]. eapply Forall_impl; [exact B9|]. simpl. lia.
      * cbn [map]. by rewrite A2, B10.
Qed.

(** The upload of a file whose unsent transactions are [L2] *)
Lemma fast_forward_remote_Ok w cl s n from h x L1 L2 :
  (forall r, r ∈ st_log (ig_store (cl_ig cl)) -> t_timeline r = TIMELINE_MAIN) -> segmented (st_log (ig_store (cl_ig cl))) (L1 ++ L2) ->
  match from with None => L1 = [] | Some f => (forall x, x ∈ L1 -> x.1 <= f) /\ (forall x, x ∈ L2 -> f < x.1) end ->
  fast_forward_remote w test_remote cl s n from h = (x, SOk tt) ->
  exists es cl' s' n', x = (cl', s', n') /\ Forall2 sent L2 es /\ linked h es /\ rm_log s' = rm_log s ++ es /\ rm_head s' = head_of (rm_head s) es
    /\ named (w_uuid w) n n' es /\ (n <= n')%nat /\ cl_ig cl' = cl_ig cl /\ cl_known cl' = head_of (cl_known cl) es
    /\ cl_tu cl' = tu_insert_all (cl_tu cl) (zip (map fst L2) (map en_uuid es)).
Proof.
  intros Hm Hs Hf H. unfold fast_forward_remote, local_groups in H.
  assert (rows_after (ig_store (cl_ig cl)) from = rows_of_segs L2) as Er.
  { destruct from as [f|]; [destruct Hf; by apply rows_after_Some with L1|]. subst L1. by apply rows_after_None. }
  rewrite Er in H. destruct (segmented_app _ _ _ Hs) as (_ & S2 & _).
  destruct (tx_groups None _) as [gs ended] eqn:Eg. destruct (upload_txs w test_remote h _ gs) as [up [[]| |]] eqn:Eu; [|done..].
  destruct ended as [[]| |]; [|done..]. apply groups_segs in Eg; [|done].
  apply upload_txs_Ok in Eu as (es & B1 & B2 & B3 & B4 & B5 & B6 & B7 & B8). cbn [up_remote up_used up_uuids up_head default app] in *.
  assert (Forall2 sent L2 es) as Hsent.
  { clear -Eg B1. revert es B1. induction Eg as [|y g L gs Hg _ IH]; intros es B1; inversion B1; subst; constructor; [by eapply sent_of|by apply IH]. }
  assert (map lt_tx gs = map fst L2) as Etx. { clear -Eg. induction Eg as [|y g L gs Hg _ IH]; [done|]. cbn [map]. f_equal; [apply Hg|done]. }
  rewrite Etx in B5. unfold head_of. destruct (last (map en_uuid es)) as [u|] eqn:El.
  - rewrite B7 in H. cbn [sv_set_head test_remote] in H. injection H as <-. eexists es, _, _, _. split; [reflexivity|]. cbn [rm_log rm_head cl_ig cl_known cl_tu default]. split_and!; try done; [by rewrite El|by rewrite El|by rewrite B5].
  - rewrite B7 in H. injection H as <-. eexists es, _, _, _. split; [reflexivity|]. cbn [default]. split_and!; try done; [by rewrite El|by rewrite El|].
    apply last_None in El. destruct es; [|done]. destruct L2; [done|]. by inversion Hsent.
Qed.

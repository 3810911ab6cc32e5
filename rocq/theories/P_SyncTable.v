(** When a sync uploads, downloads and merges. *)
From Verif Require Import M_Sync Spec_Tx Spec_Conn Spec_Transact Spec_Sync P_Base P_Inv P_Conn P_Timelines P_SyncSend.

Lemma txs_in_order_elem l tx : tx ∈ txs_in_order l <-> exists r, r ∈ l /\ t_tx r = tx.
Proof.
  unfold txs_in_order. rewrite merge_sort_Permutation, elem_of_remove_dups, elem_of_list_fmap. split; intros (r & A & B); exists r; naive_solver.
Qed.
Lemma sorted_ends root l : Sorted Z.le (root :: l) -> forall x, x ∈ root :: l -> root <= x <= default root (last l).
Proof.
  intros H%Sorted_StronglySorted; [|intros a b c; lia]. revert root H. induction l as [|y l IH]; intros root H x Hx.
  - apply elem_of_list_singleton in Hx as ->. simpl. lia.
  - inversion H as [|? ? H1 H2]; subst. rewrite last_cons. assert (forall z, z ∈ y :: l -> y <= z <= default y (last l)) as K by by apply IH.
    assert (default root (match last l with Some z => Some z | None => Some y end) = default y (last l)) as -> by by destruct (last l).
    apply Forall_cons in H2 as [H2 _]. assert (y <= y <= default y (last l)) by (apply K; left). apply elem_of_cons in Hx as [->|Hx]; [lia|]. specialize (K x Hx). lia.
Qed.
Lemma root_and_head_latest st root hd : root_and_head_tx st = SOk (root, hd) ->
  latest st hd /\ (exists r, r ∈ transactions st /\ t_tx r = root) /\ forall r, r ∈ transactions st -> root <= t_tx r.
Proof.
  unfold root_and_head_tx. destruct (txs_in_order (transactions st)) as [|x l] eqn:E; [done|]. intros [= <- <-].
  assert (Sorted Z.le (x :: l)) as Hs. { rewrite <- E. unfold txs_in_order. apply (Sorted_merge_sort Z.le). }
  pose proof (sorted_ends _ _ Hs) as K. pose proof (txs_in_order_elem (transactions st)) as T. rewrite E in T. split_and!.
  - split.
    + apply T. destruct (last l) as [z|] eqn:El; [right; by apply last_elem|left].
    + intros r Hr. apply K, T. by exists r.
  - apply T. left.
  - intros r Hr. apply K, T. by exists r.
Qed.
Lemma latest_unique st t1 t2 : latest st t1 -> latest st t2 -> t1 = t2.
Proof. intros [(r1 & H1 & <-) L1] [(r2 & H2 & <-) L2]. pose proof (L1 r2 H2). pose proof (L2 r1 H1). lia. Qed.

(* ---------------------------------------------------------------- uploads *)

Lemma sync_uploads {T} w (sv : server T) cl s n cl' s' n' r : sync w sv cl s n = ((cl', s', n'), r) -> s' <> s ->
  cl_ig cl' = cl_ig cl /\ exists h, sv_head sv s = SOk h /\ (h = 0%N \/ h = cl_known cl /\ unsynced (ig_store (cl_ig cl)) (cl_tu cl)).
Proof.
  intros H N. unfold sync in H. destruct (sv_head sv s) as [h| |] eqn:Eh; cbn [sbind] in H; [|by injection H as <- <- <- <-..].
  destruct (root_and_head_tx _) as [[root hd]| |] eqn:Er; cbn [sbind] in H; [|by injection H as <- <- <- <-..]. apply root_and_head_latest in Er as (Hl & _ & _).
  assert (forall cl from h0 x r0, fast_forward_remote w sv cl s n from h0 = (x, r0) -> cl_ig x.1.1 = cl_ig cl) as K.
  { intros cl0 from h0 x r0 E. unfold fast_forward_remote in E. destruct (local_groups _ _) as [gs ended]. destruct (upload_txs _ _ _ _ _) as [up [[]| |]]; [|by injection E as <- <-..].
    destruct ended; [|by injection E as <- <-..]. destruct (up_head up); [|by injection E as <- <-]. destruct (sv_set_head _ _ _) as [s0 [[]| |]]; by injection E as <- <-. }
  case_decide as D; [destruct (first_sync_against_non_empty _ _ _ _ _ _); by injection H as <- <- <- <-|].
  unfold remote_state_of in H. destruct (decide (h = 0%N)) as [->|Nz].
  - cbn [what_do] in H. destruct (fast_forward_remote _ _ _ _ _ _ _) as [x [[]| |]] eqn:Ef; cbn [sthen] in H; injection H as Ex <-; subst x; (split; [exact (K _ _ _ _ _ Ef)|]); exists 0%N; auto.
  - destruct (decide (h = cl_known cl)) as [Eq|Nq].
    + destruct (cl_tu cl !! hd) eqn:Et; cbn [local_state_of what_do] in H; [by injection H as <- <- <- <-|].
      destruct (local_tx_for_uuid _ _) as [f| |]; [|by injection H as <- <- <- <-..].
      destruct (fast_forward_remote _ _ _ _ _ _ _) as [x [[]| |]] eqn:Ef; cbn [sthen] in H; injection H as Ex <-; subst x; (split; [exact (K _ _ _ _ _ Ef)|]); exists h; (split; [done|]); right; (split; [done|]); by exists hd.
    + destruct (cl_tu cl !! hd) eqn:Et; cbn [local_state_of what_do] in H.
      * destruct (sv_after _ _ _) as [txs| |]; [|by injection H as <- <- <- <-..]. destruct (sthen _ _) as [? ?]; by injection H as <- <- <- <-.
      * destruct (sbind _ _) as [[a b]| |]; [|by injection H as <- <- <- <-..]. destruct (merge _ _ _ _) as [? ?]; by injection H as <- <- <- <-.
Qed.

(* ---------------------------------------------------------------- changes of the file *)

Lemma sync_local {T} w (sv : server T) cl s n cl' s' n' r : sync w sv cl s n = ((cl', s', n'), r) -> cl_ig cl' <> cl_ig cl ->
  s' = s /\ exists h, sv_head sv s = SOk h /\ h <> 0%N /\ h <> cl_known cl.
Proof.
  intros H N. unfold sync in H. destruct (sv_head sv s) as [h| |] eqn:Eh; cbn [sbind] in H; [|by injection H as <- <- <- <-..].
  destruct (root_and_head_tx _) as [[root hd]| |] eqn:Er; cbn [sbind] in H; [|by injection H as <- <- <- <-..].
  assert (forall cl from h0 x r0, fast_forward_remote w sv cl s n from h0 = (x, r0) -> cl_ig x.1.1 = cl_ig cl) as K.
  { intros cl0 from h0 x r0 E. unfold fast_forward_remote in E. destruct (local_groups _ _) as [gs ended]. destruct (upload_txs _ _ _ _ _) as [up [[]| |]]; [|by injection E as <- <-..].
    destruct ended; [|by injection E as <- <-..]. destruct (up_head up); [|by injection E as <- <-]. destruct (sv_set_head _ _ _) as [s0 [[]| |]]; by injection E as <- <-. }
  case_decide as D.
  { destruct (first_sync_against_non_empty _ _ _ _ _ _); injection H as <- <- <- <-. split; [done|]. exists h. destruct D as [D1 D2]. split_and!; try done. congruence. }
  unfold remote_state_of in H. destruct (decide (h = 0%N)) as [->|Nz].
  - cbn [what_do] in H. exfalso. apply N. destruct (fast_forward_remote _ _ _ _ _ _ _) as [x [[]| |]] eqn:Ef; cbn [sthen] in H; injection H as Ex <-; subst x; exact (K _ _ _ _ _ Ef).
  - destruct (decide (h = cl_known cl)) as [Eq|Nq].
    + exfalso. apply N. destruct (cl_tu cl !! hd) eqn:Et; cbn [local_state_of what_do] in H; [by injection H as <- <- <- <-|].
      destruct (local_tx_for_uuid _ _) as [f| |]; [|by injection H as <- <- <- <-..].
      destruct (fast_forward_remote _ _ _ _ _ _ _) as [x [[]| |]] eqn:Ef; cbn [sthen] in H; injection H as Ex <-; subst x; exact (K _ _ _ _ _ Ef).
    + destruct (cl_tu cl !! hd) eqn:Et; cbn [local_state_of what_do] in H.
      * destruct (sv_after _ _ _) as [txs| |]; [|by injection H as <- <- <- <-..]. destruct (sthen _ _) as [? ?]; injection H as <- <- <- <-. split; [done|]. by exists h.
      * destruct (sbind _ _) as [[a b]| |]; [|by injection H as <- <- <- <-..]. destruct (merge _ _ _ _) as [? ?]; injection H as <- <- <- <-. split; [done|]. by exists h.
Qed.

Lemma ig_transact_log mv now ig es ig' r : ig_transact mv now ig es = (ig', Ok r) -> exists new, st_log (ig_store ig') = st_log (ig_store ig) ++ new.
Proof.
  intros H. destruct (ig_step_log mv ig (OpTransact now es) ig' (Ok tt)) as (new & E); try done; [|by left|by exists new].
  cbn [ig_step]. by rewrite H.
Qed.
Lemma pull_log w txs : forall ig lst ig' o, fast_forward_txs w ig lst txs = (ig', SOk o) -> exists new, st_log (ig_store ig') = st_log (ig_store ig) ++ new.
Proof.
  induction txs as [|t txs IH]; intros ig lst ig' o H; cbn [fast_forward_txs] in H; [injection H as <- <-; exists []; by rewrite app_nil_r|].
  destruct (transact_remote w ig t) as [ig1 [o1| |]] eqn:E; [|done..]. cbn [sthen] in H.
  assert (exists new, st_log (ig_store ig1) = st_log (ig_store ig) ++ new) as (n1 & E1).
  { unfold transact_remote in E. destruct (rx_parts t) as [|p ps]; [done|]. destruct (xp_parts p) as [pm|]; [|injection E as <- <-; exists []; by rewrite app_nil_r].
    destruct (rewind_tx_partition_by_one pm) as [pm'| |]; [|done..]. destruct (ig_transact _ _ _ _) as [ig2 [r| |]] eqn:Et; [|done..]. injection E as <- <-.
    apply ig_transact_log in Et as (new & Et). by exists new. }
  destruct o1 as [l|]; [|injection H as <- <-; by exists n1]. apply IH in H as (n2 & E2). exists (n1 ++ n2). by rewrite E2, E1, app_assoc.
Qed.
Lemma pull_local_log w cl txs cl' rep : fast_forward_local w cl txs = (cl', SOk rep) -> exists new, st_log (ig_store (cl_ig cl')) = st_log (ig_store (cl_ig cl)) ++ new.
Proof.
  unfold fast_forward_local. destruct (fast_forward_txs _ _ _ _) as [ig [o| |]] eqn:E; [|done..]. apply pull_log in E as (new & E). intros H.
  exists new. destruct o as [[[tx u]|]|]; injection H as <- <-; done.
Qed.

(** Transactions are taken back only when both sides have new ones. *)
Lemma sync_merges {T} w (sv : server T) cl s n cl' s' n' rep : sync w sv cl s n = ((cl', s', n'), SOk rep) ->
  (exists new, st_log (ig_store (cl_ig cl')) = st_log (ig_store (cl_ig cl)) ++ new)
  \/ exists h, sv_head sv s = SOk h /\ h <> 0%N /\ h <> cl_known cl
     /\ (unsynced (ig_store (cl_ig cl)) (cl_tu cl) \/ cl_known cl = 0%N /\ used (ig_store (cl_ig cl))).
Proof.
  intros H. unfold sync in H. destruct (sv_head sv s) as [h| |] eqn:Eh; cbn [sbind] in H; [|done..].
  destruct (root_and_head_tx _) as [[root hd]| |] eqn:Er; cbn [sbind] in H; [|done..]. apply root_and_head_latest in Er as (Hl & Hroot & Hle).
  assert (forall st : store, exists new, st_log st = st_log st ++ new) as Same by (intros st; exists []; by rewrite app_nil_r).
  case_decide as D.
  { destruct (first_sync_against_non_empty _ _ _ _ _ _) as [cl0 r0] eqn:Ef. injection H as -> <- <- ->. destruct D as [D1 D2].
    unfold first_sync_against_non_empty in Ef. destruct (sv_after sv s 0%N) as [[|boot txs]| |]; try done; [injection Ef as <- <-; by left|].
    destruct (core_schema_version boot); [|done..]. destruct (negb _); [injection Ef as <- <-; by left|].
    destruct (decide (root = hd)) as [Eq|Nq].
    - left. destruct (is_nil txs); cbn [what_do] in Ef; [injection Ef as <- <-; apply Same|]. destruct (fast_forward_local _ _ _) as [cl1 [rp| |]] eqn:Ff; [|done..]. cbn [sthen] in Ef. injection Ef as <- <-.
      by apply pull_local_log in Ff.
    - right. exists h. split_and!; try done; [congruence|]. right. split; [done|]. destruct Hroot as (r1 & Hr1 & <-). destruct Hl as [(r2 & Hr2 & <-) _]. exists r1, r2. split_and!; try done.
      specialize (Hle r2 Hr2). lia. }
  assert (forall cl from h0 x r0, fast_forward_remote w sv cl s n from h0 = (x, r0) -> cl_ig x.1.1 = cl_ig cl) as K.
  { intros cl0 from h0 x r0 E. unfold fast_forward_remote in E. destruct (local_groups _ _) as [gs ended]. destruct (upload_txs _ _ _ _ _) as [up [[]| |]]; [|by injection E as <- <-..].
    destruct ended; [|by injection E as <- <-..]. destruct (up_head up); [|by injection E as <- <-]. destruct (sv_set_head _ _ _) as [s0 [[]| |]]; by injection E as <- <-. }
  unfold remote_state_of in H. destruct (decide (h = 0%N)) as [->|Nz].
  - cbn [what_do] in H. left. destruct (fast_forward_remote _ _ _ _ _ _ _) as [x [[]| |]] eqn:Ef; cbn [sthen] in H; try done. injection H as Ex <-; subst x. apply K in Ef. cbn in Ef. rewrite Ef. apply Same.
  - destruct (decide (h = cl_known cl)) as [Eq|Nq].
    + left. destruct (cl_tu cl !! hd) eqn:Et; cbn [local_state_of what_do] in H; [injection H as <- <- <- <-; apply Same|].
      destruct (local_tx_for_uuid _ _) as [f| |]; [|done..].
      destruct (fast_forward_remote _ _ _ _ _ _ _) as [x [[]| |]] eqn:Ef; cbn [sthen] in H; try done. injection H as Ex <-; subst x. apply K in Ef. cbn in Ef. rewrite Ef. apply Same.
    + destruct (cl_tu cl !! hd) eqn:Et; cbn [local_state_of what_do] in H.
      * left. destruct (sv_after _ _ _) as [txs| |]; [|done..]. destruct (fast_forward_local _ _ _) as [cl1 [rp| |]] eqn:Ff; cbn [sthen] in H; try done. injection H as <- <- <- <-. by apply pull_local_log in Ff.
      * right. exists h. split_and!; try done. left. by exists hd.
Qed.

(** Nothing is done when there is nothing to do. *)
Lemma sync_nothing {T} w (sv : server T) cl s n tx u : sv_head sv s = SOk (cl_known cl) -> cl_known cl <> 0%N ->
  latest (ig_store (cl_ig cl)) tx -> cl_tu cl !! tx = Some u -> sync w sv cl s n = ((cl, s, n), SOk RNoChanges).
Proof.
  intros Hh Nz Hl Ht. unfold sync. rewrite Hh. cbn [sbind]. destruct (root_and_head_tx (ig_store (cl_ig cl))) as [[root hd]| |] eqn:Er.
  - cbn [sbind]. apply root_and_head_latest in Er as (Hl2 & _ & _). rewrite (latest_unique _ _ _ Hl2 Hl), Ht. rewrite decide_False by (intros [? ?]; done).
    unfold remote_state_of. rewrite decide_False by done. rewrite decide_True by done. done.
  - exfalso. unfold root_and_head_tx in Er. destruct (txs_in_order _) as [|x l] eqn:E; [|done]. destruct Hl as [(r & Hr & Et) _].
    assert (tx ∈ txs_in_order (transactions (ig_store (cl_ig cl)))) as X by (apply txs_in_order_elem; by exists r). rewrite E in X. by apply elem_of_nil in X.
  - exfalso. unfold root_and_head_tx in Er. by destruct (txs_in_order _).
Qed.

(* ---------------------------------------------------------------- the history of the remote *)

Lemma descends_mono l l' h h' : (forall x, x ∈ l -> x ∈ l') -> descends l h h' -> descends l' h h'.
Proof. intros H D. induction D as [|en He _ IH]; [constructor|]. constructor; [by apply H|done]. Qed.
Lemma descends_trans l h1 h2 h3 : descends l h1 h2 -> descends l h2 h3 -> descends l h1 h3.
Proof. intros D1 D2. induction D2 as [|en He _ IH]; [done|]. by constructor. Qed.
Lemma linked_descends es : forall l h, (forall x, x ∈ es -> x ∈ l) -> linked h es -> descends l h (head_of h es).
Proof.
  induction es as [|en es IH]; intros l h Hs Hl; [constructor|]. destruct Hl as [Hp Hl]. eapply descends_trans with (en_uuid en).
  - constructor; [apply Hs; left|]. rewrite Hp. constructor.
  - assert (head_of h (en :: es) = head_of (en_uuid en) es) as -> by (unfold head_of; cbn [map]; rewrite last_cons; by destruct (last (map en_uuid es))).
    apply IH; [|done]. intros x Hx. apply Hs. by right.
Qed.

Lemma put_chunks_keeps w ps : forall s n x r, put_chunks w test_remote (s, n) ps = (x, r) -> rm_head x.1 = rm_head s /\ rm_log x.1 = rm_log s.
Proof.
  induction ps as [|p ps IH]; intros s n x r H; cbn [put_chunks] in H; [injection H as <- <-; done|]. cbn [sv_put_chunk test_remote fst snd] in H.
  destruct (rm_chunks s !! w_uuid w n); [injection H as <- <-; done|]. destruct (put_chunks w test_remote _ ps) as [x1 r1] eqn:E. apply IH in E. destruct r1; cbn [sthen] in H; injection H as <- <-; done.
Qed.
Lemma upload_tx_keeps w h up g up' r : upload_tx w test_remote h up g = (up', r) -> rm_head (up_remote up') = rm_head (up_remote up) /\ exists es, rm_log (up_remote up') = rm_log (up_remote up) ++ es.
Proof.
  unfold upload_tx. intros H. assert (forall s : remote, exists es, rm_log s = rm_log s ++ es) as Same by (intros s0; exists []; by rewrite app_nil_r).
  destruct (lt_parts g) as [|p ps]; [injection H as <- <-; by split|]. destruct (allocate_partition_map_for_entids _); [|injection H as <- <-; by split..].
  destruct (put_chunks _ _ _ _) as [[s n] r0] eqn:E. apply put_chunks_keeps in E as [E1 E2]. cbn [fst] in *. destruct r0 as [us| |].
  2-3: injection H as <- <-; cbn [up_remote]; rewrite E1, E2; by split.
  cbn [sv_put_tx test_remote] in H. destruct (get_chunks _ _) as [l|].
  - injection H as <- <-. cbn [up_remote rm_head rm_log]. rewrite E1, E2. split; [done|]. by eexists.
  - injection H as <- <-. cbn [up_remote]. rewrite E1, E2. by split.
Qed.
Lemma upload_txs_keeps w h gs : forall up up' r, upload_txs w test_remote h up gs = (up', r) -> rm_head (up_remote up') = rm_head (up_remote up) /\ exists es, rm_log (up_remote up') = rm_log (up_remote up) ++ es.
Proof.
  induction gs as [|g gs IH]; intros up up' r H; cbn [upload_txs] in H; [injection H as <- <-; split; [done|]; exists []; by rewrite app_nil_r|].
  destruct (upload_tx w test_remote h up g) as [up1 r1] eqn:E. apply upload_tx_keeps in E as [E1 (es1 & E2)]. destruct r1 as [[]| |]; cbn [sthen] in H.
  - apply IH in H as [A (es2 & B)]. split; [congruence|]. exists (es1 ++ es2). by rewrite B, E2, app_assoc.
  - injection H as <- <-. split; [done|]. by exists es1.
  - injection H as <- <-. split; [done|]. by exists es1.
Qed.
Lemma ff_remote_history w cl s n from x r : fast_forward_remote w test_remote cl s n from (rm_head s) = (x, r) ->
  (exists es, rm_log x.1.2 = rm_log s ++ es) /\ descends (rm_log x.1.2) (rm_head s) (rm_head x.1.2).
Proof.
  unfold fast_forward_remote. destruct (local_groups _ _) as [gs ended]. destruct (upload_txs _ _ _ _ _) as [up ru] eqn:Eu. intros H.
  pose proof (upload_txs_keeps _ _ _ _ _ _ Eu) as [E1 (es & E2)]. cbn [up_remote] in *. assert (descends (rm_log (up_remote up)) (rm_head s) (rm_head (up_remote up))) as Same by (rewrite E1; constructor).
  destruct ru as [[]| |]; [|injection H as <- <-; cbn [fst snd]; split; [by exists es|done]..].
  destruct ended; [|injection H as <- <-; cbn [fst snd]; split; [by exists es|done]..].
  destruct (up_head up) as [u|] eqn:Eh; [|injection H as <- <-; cbn [fst snd]; split; [by exists es|done]].
  cbn [sv_set_head test_remote] in H. injection H as <- <-. cbn [fst snd rm_log rm_head]. split; [by exists es|].
  apply upload_txs_Ok in Eu as (es' & B1 & B2 & B3 & B4 & B5 & B6 & B7 & B8). cbn [up_head up_remote default] in *.
  assert (u = head_of (rm_head s) es') as ->. { unfold head_of. rewrite Eh in B7. destruct (last (map en_uuid es')); cbn; congruence. }
  apply linked_descends; [|done]. rewrite B3. set_solver.
Qed.
Lemma sync_history w cl s n cl' s' n' r : sync w test_remote cl s n = ((cl', s', n'), r) ->
  (exists es, rm_log s' = rm_log s ++ es) /\ descends (rm_log s') (rm_head s) (rm_head s').
Proof.
  intros H. unfold sync in H. cbn [sv_head test_remote sbind] in H.
  assert ((exists es, rm_log s = rm_log s ++ es) /\ descends (rm_log s) (rm_head s) (rm_head s)) as Same by (split; [exists []; by rewrite app_nil_r|constructor]).
  destruct (root_and_head_tx _) as [[root hd]| |]; cbn [sbind] in H; [|by injection H as <- <- <- <-..].
  case_decide as D; [destruct (first_sync_against_non_empty _ _ _ _ _ _); by injection H as <- <- <- <-|].
  destruct (what_do _ _).
  - by injection H as <- <- <- <-.
  - destruct (fast_forward_remote _ _ _ _ _ _ _) as [x rx] eqn:Ef. apply ff_remote_history in Ef. destruct rx as [[]| |]; cbn [sthen] in H; injection H as -> <-; done.
  - destruct (local_tx_for_uuid _ _) as [f| |]; [|by injection H as <- <- <- <-..].
    destruct (fast_forward_remote _ _ _ _ _ _ _) as [x rx] eqn:Ef. apply ff_remote_history in Ef. destruct rx as [[]| |]; cbn [sthen] in H; injection H as -> <-; done.
  - destruct (sv_after _ _ _) as [txs| |]; [|by injection H as <- <- <- <-..]. destruct (sthen _ _) as [? ?]; by injection H as <- <- <- <-.
  - destruct (sbind _ _) as [[a b]| |]; [|by injection H as <- <- <- <-..]. destruct (merge _ _ _ _) as [? ?]; by injection H as <- <- <- <-.
Qed.

(* ---------------------------------------------------------------- with the commit *)

Definition begun (p : peer) : client := Client (conn_begin (pe_conn p)) (pe_tu p) (pe_known p).
Lemma peer_sync_cases {T} w (sv : server T) p s n p' s' n' r : peer_sync w sv p s n = ((p', s', n'), r) -> exists cl' r',
  sync w sv (begun p) s n = ((cl', s', n'), r')
  /\ (p' = p \/ exists rep, r' = SOk rep /\ disk (pe_conn p') = ig_store (cl_ig cl')).
Proof.
  unfold peer_sync. fold (begun p). destruct (sync w sv (begun p) s n) as [[[cl1 s1] n1] r1]. intros H. exists cl1, r1.
  destruct r1 as [rep| |]; [|injection H as <- <- <- <-; split; [done|by left]..].
  unfold conn_commit in H. case_decide.
  - injection H as <- <- <- <-. split; [done|]. right. by exists rep.
  - injection H as <- <- <- <-. split; [done|by left].
Qed.
Lemma peer_uploads {T} w (sv : server T) p s n p' s' n' r : peer_sync w sv p s n = ((p', s', n'), r) -> s' <> s ->
  disk (pe_conn p') = disk (pe_conn p) /\ exists h, sv_head sv s = SOk h /\ (h = 0%N \/ h = pe_known p /\ unsynced (disk (pe_conn p)) (pe_tu p)).
Proof.
  intros H N. apply peer_sync_cases in H as (cl' & r' & H & Hp). apply sync_uploads in H as [E X]; [|done]. split; [|exact X].
  destruct Hp as [->|(rep & _ & ->)]; [done|]. by rewrite E.
Qed.
Lemma peer_local {T} w (sv : server T) p s n p' s' n' r : peer_sync w sv p s n = ((p', s', n'), r) -> disk (pe_conn p') <> disk (pe_conn p) ->
  s' = s /\ exists h, sv_head sv s = SOk h /\ h <> 0%N /\ h <> pe_known p.
Proof.
  intros H N. apply peer_sync_cases in H as (cl' & r' & H & Hp). destruct Hp as [->|(rep & _ & Ed)]; [done|]. apply sync_local in H; [exact H|].
  intros E. apply N. by rewrite Ed, E.
Qed.
Lemma peer_merges {T} w (sv : server T) p s n p' s' n' r : peer_sync w sv p s n = ((p', s', n'), r) ->
  (exists new, st_log (disk (pe_conn p')) = st_log (disk (pe_conn p)) ++ new)
  \/ exists h, sv_head sv s = SOk h /\ h <> 0%N /\ h <> pe_known p
     /\ (unsynced (disk (pe_conn p)) (pe_tu p) \/ pe_known p = 0%N /\ used (disk (pe_conn p))).
Proof.
  intros H. apply peer_sync_cases in H as (cl' & r' & H & Hp). destruct Hp as [->|(rep & -> & Ed)]; [left; exists []; by rewrite app_nil_r|].
  apply sync_merges in H. rewrite Ed. exact H.
Qed.
Lemma peer_nothing {T} w (sv : server T) p s n tx u : sv_head sv s = SOk (pe_known p) -> pe_known p <> 0%N ->
  latest (disk (pe_conn p)) tx -> pe_tu p !! tx = Some u ->
  exists p', peer_sync w sv p s n = ((p', s, n), SOk RNoChanges) /\ disk (pe_conn p') = disk (pe_conn p) /\ pe_known p' = pe_known p /\ pe_tu p' = pe_tu p.
Proof.
  intros Hh Nz Hl Ht. unfold peer_sync. fold (begun p). rewrite (sync_nothing w sv (begun p) s n tx u) by done.
  unfold conn_commit, begun. cbn [cl_ig conn_begin ig_gen]. rewrite decide_True by done. by eexists.
Qed.
Lemma peer_history w p s n p' s' n' r : peer_sync w test_remote p s n = ((p', s', n'), r) ->
  (exists es, rm_log s' = rm_log s ++ es) /\ descends (rm_log s') (rm_head s) (rm_head s').
Proof. intros H. apply peer_sync_cases in H as (cl' & r' & H & _). by apply sync_history in H. Qed.
Lemma later_history s s' : later s s' -> (exists es, rm_log s' = rm_log s ++ es) /\ descends (rm_log s') (rm_head s) (rm_head s').
Proof.
  induction 1 as [|s1 w p n p' s2 n' r _ [(e1 & E1) D1] H]; [split; [exists []; by rewrite app_nil_r|constructor]|].
  apply peer_history in H as [(e2 & E2) D2]. split; [exists (e1 ++ e2); by rewrite E2, E1, app_assoc|]. eapply descends_trans; [|exact D2]. eapply descends_mono; [|exact D1]. rewrite E2. set_solver.
Qed.

(** Downloading into a file whose history is known. *)
From Verif Require Import M_Sync Spec_Tx Spec_Conn Spec_Transact Spec_Sync P_Base P_Partition P_Store P_Step P_Inv P_Conn P_Timelines P_SyncStep P_SyncReplay P_SyncChain P_SyncBoot P_SyncUp P_SyncSend.

(** The log of a file: what was written when it was created, then the transactions [segs]. *)
Record hist (st : store) (s : schema) (boot : list txrow) (segs : list seg) : Prop := {
  hi_boot : boot_rows boot;
  hi_log : st_log st = boot ++ rows_of_segs segs;
  hi_ok : Forall seg_ok segs;
  hi_sorted : StronglySorted Z.lt (TX0 :: map fst segs);
  hi_chain : exists c, opened c /\ chain (disk c) (schema_of c) segs st s }.
Definition last_tx (segs : list seg) : Z := default TX0 (last (map fst segs)).

Lemma boot_rows_nonempty l : boot_rows l -> l <> [].
Proof. intros H. destruct (boot_rows_ne l H) as (r & Hr & _). intros ->. by apply elem_of_nil in Hr. Qed.
Lemma seg_ok_nonempty x : seg_ok x -> x.2 <> [].
Proof. intros H. destruct (sg_inst _ H) as (r & Hr & _). intros E. rewrite E in Hr. by apply elem_of_nil in Hr. Qed.
Lemma hist_segmented st s boot segs : hist st s boot segs -> segmented (st_log st) ((TX0, boot) :: segs).
Proof.
  intros H. split.
  - rewrite (hi_log _ _ _ _ H). done.
  - apply (hi_sorted _ _ _ _ H).
  - constructor.
    + split; [apply boot_rows_nonempty, H|]. intros r Hr. by apply (br_tx _ (hi_boot _ _ _ _ H)).
    + eapply Forall_impl; [apply (hi_ok _ _ _ _ H)|]. intros x Hx. split; [by apply seg_ok_nonempty|]. intros r Hr. by apply (sg_rows _ Hx).
Qed.
Lemma hist_row st s boot segs r : hist st s boot segs -> r ∈ st_log st -> r ∈ boot \/ exists x, x ∈ segs /\ seg_ok x /\ r ∈ x.2.
Proof.
  intros H. rewrite (hi_log _ _ _ _ H), elem_of_app. intros [?|(x & Hx & Hr)%rows_of_segs_elem]; [by left|right]. exists x. split_and!; try done.
  pose proof (hi_ok _ _ _ _ H) as F. rewrite Forall_forall in F. by apply F.
Qed.
Lemma hist_main st s boot segs : hist st s boot segs -> forall r, r ∈ st_log st -> t_timeline r = TIMELINE_MAIN.
Proof. intros H r Hr. destruct (hist_row _ _ _ _ r H Hr) as [Hb|(x & _ & Hx & Hr')]; [by apply (br_tx _ (hi_boot _ _ _ _ H))|by apply (sg_rows _ Hx)]. Qed.
Lemma hist_never st s boot segs : hist st s boot segs -> never_uninstalled (st_log st).
Proof.
  intros H r Hr. destruct (hist_row _ _ _ _ r H Hr) as [Hb|(x & _ & Hx & Hr')]; [|by apply (sg_installed _ Hx)].
  apply (sd_installed _ (boot_rows_sendable _ (hi_boot _ _ _ _ H))). done.
Qed.
Lemma sorted_last (t : Z) l : StronglySorted Z.lt (t :: l) -> forall x, x ∈ t :: l -> x <= default t (last l).
Proof.
  revert t. induction l as [|y l IH]; intros t H x Hx.
  - apply elem_of_list_singleton in Hx as ->. simpl. lia.
  - inversion H as [|? ? H1 H2]; subst. rewrite last_cons. assert (forall z, z ∈ y :: l -> z <= default y (last l)) as K by by apply IH.
    assert (default t (match last l with Some z => Some z | None => Some y end) = default y (last l)) as -> by by destruct (last l).
    apply elem_of_cons in Hx as [->|Hx]; [|by apply K]. rewrite Forall_forall in H2. specialize (H2 y). specialize (K y). assert (y ∈ y :: l) as Y by left. specialize (H2 Y). specialize (K Y). lia.
Qed.
Lemma hist_before st s boot segs r : hist st s boot segs -> r ∈ st_log st -> t_tx r <= last_tx segs.
Proof.
  intros H Hr. apply (sorted_last TX0 (map fst segs)); [apply (hi_sorted _ _ _ _ H)|]. destruct (hist_row _ _ _ _ r H Hr) as [Hb|(x & Hin & Hx & Hr')].
  - destruct (br_tx _ (hi_boot _ _ _ _ H) r Hb) as (-> & _). left.
  - right. destruct (sg_rows _ Hx r Hr') as [-> _]. apply elem_of_list_fmap. by exists x.
Qed.
Lemma hist_root_head st s boot segs : hist st s boot segs -> root_and_head_tx st = SOk (TX0, last_tx segs).
Proof.
  intros H. unfold root_and_head_tx. rewrite (transactions_all _ (hist_main _ _ _ _ H)), (txs_of_segments _ _ (hist_segmented _ _ _ _ H)). done.
Qed.
Lemma sorted_snoc (l : list Z) t : l <> [] -> StronglySorted Z.lt l -> (forall x, last l = Some x -> x < t) -> StronglySorted Z.lt (l ++ [t]).
Proof.
  induction l as [|x l IH]; intros Hne Hs Ht; [done|]. inversion Hs as [|? ? H1 H2]; subst. cbn [app]. destruct l as [|y l].
  - repeat constructor. by apply Ht.
  - constructor; [by apply IH|]. apply Forall_app. split; [done|]. constructor; [|constructor].
    destruct (last (y :: l)) as [z|] eqn:E; [|by apply last_None in E]. specialize (Ht z). rewrite last_cons_cons in Ht. specialize (Ht E). rewrite Forall_forall in H2.
    assert (z ∈ y :: l) as Hz by by apply last_elem. specialize (H2 z Hz). lia.
Qed.
Lemma last_tx_last segs x : last (TX0 :: map fst segs) = Some x -> x = last_tx segs.
Proof. rewrite last_cons. unfold last_tx. destruct (last (map fst segs)); simpl; congruence. Qed.
Lemma last_tx_snoc segs x : last_tx (segs ++ [x]) = x.1.
Proof. unfold last_tx. rewrite map_app. cbn [map]. by rewrite last_snoc. Qed.

Lemma hist_snoc st s boot segs x st' s' : hist st s boot segs -> st_log st' = st_log st ++ x.2 -> seg_ok x -> last_tx segs < x.1 -> chain st s [x] st' s' ->
  hist st' s' boot (segs ++ [x]).
Proof.
  intros H El Hx Ht C. destruct (hi_chain _ _ _ _ H) as (c & Hc & C0). split; try apply H.
  - rewrite El, (hi_log _ _ _ _ H), rows_of_segs_app, app_assoc. f_equal. unfold rows_of_segs. cbn [map concat]. by rewrite app_nil_r.
  - apply Forall_app. split; [apply H|]. by constructor.
  - rewrite map_app. cbn [map]. change (TX0 :: map fst segs ++ [x.1]) with ((TX0 :: map fst segs) ++ [x.1]). apply sorted_snoc; [done|apply (hi_sorted _ _ _ _ H)|].
    intros y ->%last_tx_last. done.
  - exists c. split; [done|]. by eapply chain_app.
Qed.
Lemma hist_opened c : opened c -> hist (disk c) (schema_of c) (st_log (disk c)) [].
Proof.
  intros H. split.
  - apply H.
  - by rewrite app_nil_r.
  - constructor.
  - repeat constructor.
  - exists c. split; [done|]. split; [apply feq_refl|done].
Qed.
Lemma hist_extended st s boot segs l : forall st' s', hist st s boot segs -> extended st s l st' s' -> hist st' s' boot (segs ++ l).
Proof.
  intros st' s' H X. destruct (hi_chain _ _ _ _ H) as (c & Hc & C0). split.
  - apply H.
  - by rewrite (ex_log _ _ _ _ _ X), (hi_log _ _ _ _ H), rows_of_segs_app, app_assoc.
  - apply Forall_app. split; [apply H|apply X].
  - rewrite map_app. pose proof (hi_sorted _ _ _ _ H) as Hs. pose proof (fun r => hist_before _ _ _ _ r H) as Hb. pose proof (ex_ordered _ _ _ _ _ X) as Ho. pose proof (ex_ok _ _ _ _ _ X) as Hok.
    assert (exists r, r ∈ st_log st /\ t_tx r = last_tx segs) as Hlast.
    { rewrite (hi_log _ _ _ _ H). unfold last_tx. destruct (last (map fst segs)) as [t|] eqn:E.
      - apply last_elem in E. apply elem_of_list_fmap in E as (x & -> & Hx). pose proof (hi_ok _ _ _ _ H) as F. rewrite Forall_forall in F. specialize (F x Hx).
        destruct (sg_inst _ F) as (r & Hr & _). exists r. split; [|by apply (sg_rows _ F)]. apply elem_of_app. right. apply rows_of_segs_elem. by exists x.
      - destruct (boot_rows_ne _ (hi_boot _ _ _ _ H)) as (r & Hr & _). exists r. split; [set_solver|]. by apply (br_tx _ (hi_boot _ _ _ _ H)). }
    clear -Hs Hlast Ho Hok. revert Hs Hlast Ho Hok. generalize (st_log st). revert segs. induction l as [|[tx new] l IH]; intros segs rows Hs Hlast Ho Hok; [by rewrite app_nil_r|].
    apply Forall_cons in Hok as [Hx Hok]. destruct Ho as [Ho1 Ho2]. assert (StronglySorted Z.lt (TX0 :: map fst (segs ++ [(tx, new)]) ++ map fst l)) as K; [|rewrite map_app, <- app_assoc in K; exact K].
    apply (IH (segs ++ [(tx, new)]) (rows ++ new)); try done.
    + rewrite map_app. cbn [map fst]. change (TX0 :: map fst segs ++ [tx]) with ((TX0 :: map fst segs) ++ [tx]). apply sorted_snoc; [done|done|].
      intros y ->%last_tx_last. destruct Hlast as (r & Hr & <-). by apply Ho1.
    + rewrite last_tx_snoc. destruct (sg_inst _ Hx) as (r & Hr & _). exists r. split; [cbn in Hr; set_solver|]. by apply (sg_rows _ Hx).
  - exists c. split; [done|]. by eapply chain_app; [|apply X].
Qed.

(* ---------------------------------------------------------------- downloading *)

Lemma store_ok_next m st n n' : store_ok m st n -> (forall r, r ∈ st_log st -> t_tx r < n') -> store_ok m st n'.
Proof. intros [A B C D E F G] H. by split. Qed.

Lemma seg_ok_perm x y : seg_eq x y -> seg_ok x -> seg_ok y.
Proof.
  intros [E P] [A B C D F G K]. assert (forall r, r ∈ y.2 -> r ∈ x.2) as Q by (intros r; by rewrite P). split; rewrite <- ?E; try assumption.
  - intros r Hr. by apply B, Q.
  - intros r Hr. by apply C, Q.
  - destruct D as (r & Hr & R). exists r. split; [by rewrite <- P|done].
  - intros r Hr. by apply F, Q.
  - intros r v Hr. by apply G, Q.
  - intros r Hr. by apply K, Q.
Qed.
Lemma sent_readable x en : sent x en -> readable x.
Proof.
  intros (p & ps & pm & _ & _ & F & _) r Hr. apply elem_of_list_lookup in Hr as (i & Hi). destruct (Forall2_lookup_l _ _ _ _ _ F Hi) as (q & _ & Hq).
  destruct Hq as (_ & _ & _ & _ & Hq). by rewrite Hq.
Qed.

Lemma pull_one w ig en x stA sA stA' sA' ig' o boot segs :
  ig_ok ig -> hist (ig_store ig) (ig_schema ig) boot segs -> sent x en -> seg_ok x -> last_tx segs < x.1 ->
  step stA sA x.1 x.2 stA' sA' -> feq stA (ig_store ig) -> sA = ig_schema ig ->
  transact_remote w ig (rtx_of en) = (ig', SOk o) ->
  o = Some (x.1, en_uuid en) /\ ig_ok ig' /\ ig_gen ig' = ig_gen ig
  /\ exists y, seg_eq x y /\ hist (ig_store ig') (ig_schema ig') boot (segs ++ [y]) /\ feq stA' (ig_store ig') /\ sA' = ig_schema ig'.
Proof.
  intros Hig Hh Hsent Hx Hlt Hstep Hfeq -> H. pose proof (sent_readable _ _ Hsent) as Hread. destruct Hsent as (p & ps & pm & Ep & Epm & Hps & Hal).
  unfold transact_remote in H. cbn [rtx_of rx_parts rx_uuid] in H. rewrite Ep, Epm in H.
  destruct (rewind_tx_partition_by_one pm) as [pm'| |] eqn:Er; [|done..].
  destruct (imported x pm pm' Hx Hal Er) as (Hpo & q & Hq & Hn & Hst & Hen & Hmax).
  unfold ig_transact, ig_transacted in H.
  match type of H with context [ig_watch ?a ?b] => destruct (ig_watch_same a b) as (W1 & W2 & W3 & W4); set (igw := ig_watch a b) in *; clearbody igw end.
  cbn [ig_set_parts ig_store ig_parts ig_schema ig_gen] in W1, W2, W3, W4, H.
  destruct (transact _ _ _ _ _ _ _) as [stB' [r| |]] eqn:Et; [|done..]. injection H as <- <-. cbn [ig_store ig_parts ig_schema ig_gen].
  pose proof (sg_tx _ Hx) as Htx.
  assert (db_ok (ig_store ig) pm' (ig_schema ig)) as HB.
  { destruct Hig as [(p0 & Hp0 & Hso & _) K1 K2 K3 K4 K5]. split; try assumption. exists q. rewrite Hn. split; [exact Hq|]. split; [|split; [exact Hst|split; [exact Hen|lia]]].
    eapply store_ok_next; [exact Hso|]. intros r0 Hr0. pose proof (hist_before _ _ _ _ r0 Hh Hr0). lia. }
  destruct (replay (w_mv w) (w_now w) (ig_schema ig) stA stA' (ig_store ig) stB' pm' x.1 x.2 (p :: ps) r) as (Htxid & st2 & newB & P & GB & El & Hf & Hq2); try assumption.
  - apply Hstep.
  - eapply plain_of_grows; [apply Hstep|destruct x; exact Hx|destruct x; exact Hread].
  - apply (sg_own _ Hx).
  - apply (sg_inst _ Hx).
  - lia.
  - by exists q.
  - assert (seg_ok (x.1, newB)) as HxB. { eapply seg_ok_perm; [|exact Hx]. split; [done|]. by rewrite P. }
    assert (never_uninstalled (st_log stB')) as Hnu.
    { intros r0. rewrite El, elem_of_app. intros [Hr0|Hr0]; [by eapply hist_never|by apply (sg_installed _ HxB)]. }
    assert (chain (ig_store ig) (ig_schema ig) [(x.1, newB)] stB' (default (ig_schema ig) (tr_schema r))) as HC.
    { eapply step_feq; [split; [exact GB|exact Hq2]|]. by apply Hf. }
    split; [by rewrite Htxid|]. rewrite W3. split; [|split; [by rewrite W4|]].
    + unfold ig_ok. cbn [ig_store ig_parts ig_schema]. by eapply transact_ok.
    + exists (x.1, newB). split; [split; [done|by rewrite P]|]. split; [by eapply hist_snoc|].
      eapply (chain_det [x] [(x.1, newB)]); [|exact HC|..].
      * destruct x as [tx new]. exists stA, stA', sA'. split; [apply feq_refl|]. split; [exact Hstep|]. split; [apply feq_refl|done].
      * repeat constructor. cbn [snd]. by rewrite P.
      * by constructor.
      * by constructor.
      * done.
Qed.

Lemma pull_all w xs : forall ens ig stA sA stA' sA' ig' o lst boot segs,
  ig_ok ig -> hist (ig_store ig) (ig_schema ig) boot segs -> Forall2 sent xs ens -> Forall seg_ok xs -> StronglySorted Z.lt (last_tx segs :: map fst xs) ->
  chain stA sA xs stA' sA' -> feq stA (ig_store ig) -> sA = ig_schema ig ->
  fast_forward_txs w ig lst (map rtx_of ens) = (ig', SOk o) ->
  o = Some (match last xs, last (map en_uuid ens) with Some x, Some u => Some (x.1, u) | _, _ => lst end) /\ ig_ok ig' /\ ig_gen ig' = ig_gen ig
  /\ exists ys, Forall2 seg_eq xs ys /\ hist (ig_store ig') (ig_schema ig') boot (segs ++ ys).
Proof.
  induction xs as [|x xs IH]; intros ens ig stA sA stA' sA' ig' o lst boot segs Hig Hh Hs Hok Hsort HC Hfeq HsA H; inversion Hs as [|? en ? ens' Hsent Hs']; subst; cbn [map fast_forward_txs] in H.
  - injection H as <- <-. split_and!; try done. exists []. rewrite app_nil_r. split; [constructor|done].
  - destruct (transact_remote w ig (rtx_of en)) as [ig1 [o1| |]] eqn:E1; [|done..]. cbn [sthen] in H.
    destruct x as [tx new]. destruct HC as (st0 & st1 & s1 & F0 & T & HC). cbn [map fst] in Hsort. inversion Hsort as [|? ? Hsort' Hlt]; subst.
    apply Forall_cons in Hok as [Hx Hok], Hlt as [Hlt _].
    destruct (pull_one w ig en (tx, new) st0 (ig_schema ig) st1 s1 ig1 o1 boot segs) as (-> & Hig1 & Hg1 & y & Hy & Hh1 & Hf1 & Hs1); try done.
    { eapply feq_trans; [apply feq_sym; exact F0|exact Hfeq]. }
    cbn [fst] in *. assert (last_tx (segs ++ [y]) = tx) as Ely. { rewrite last_tx_snoc. destruct Hy as [Hy _]. cbn in Hy. congruence. }
    eapply IH in H as (-> & Hig2 & Hg2 & ys & Hys & Hh2); try done; [|by rewrite Ely].
    split; [|split; [done|split; [congruence|]]].
    + cbn [map]. rewrite !last_cons. destruct xs as [|x' xs]; inversion Hs' as [|? en' ? es' E1' E2']; subst; [done|].
      cbn [map] in *. destruct (last (x' :: xs)) as [z|] eqn:Ez; [|by apply last_None in Ez]. destruct (last (en_uuid en' :: map en_uuid es')) as [u|] eqn:Eu; [|by apply last_None in Eu]. done.
    + exists (y :: ys). split; [by constructor|]. rewrite <- app_assoc in Hh2. done.
Qed.

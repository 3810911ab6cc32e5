(** Uploading to the test remote. *)
From Verif Require Import M_Sync Spec_Tx Spec_Conn Spec_Transact Spec_Sync P_Base P_Partition P_Store P_Step P_Inv P_Conn P_Timelines P_SyncStep P_SyncReplay P_SyncChain.

(* ---------------------------------------------------------------- reading the log *)

(** The segments of a log, in order *)
Record segmented (l : list txrow) (L : list seg) : Prop := {
  sm_log : l = rows_of_segs L;
  sm_sorted : StronglySorted Z.lt (map fst L);
  sm_rows : Forall (fun x : seg => x.2 <> [] /\ forall r, r ∈ x.2 -> t_tx r = x.1) L }.

Lemma segmented_cons l tx new L : segmented l ((tx, new) :: L) -> segmented (rows_of_segs L) L.
Proof. intros [A B C]. inversion B; subst. apply Forall_cons in C as [_ C]. by split. Qed.
Lemma rows_of_segs_elem L r : r ∈ rows_of_segs L <-> exists x : seg, x ∈ L /\ r ∈ x.2.
Proof.
  unfold rows_of_segs. rewrite elem_of_list_In, in_concat. split.
  - intros (l & (x & <- & Hx)%in_map_iff & Hr). exists x. by rewrite !elem_of_list_In.
  - intros (x & Hx & Hr). exists x.2. rewrite <- !elem_of_list_In. split; [|done]. apply elem_of_list_fmap. by exists x.
Qed.
Lemma sorted_lt_nodup (l : list Z) : StronglySorted Z.lt l -> NoDup l.
Proof.
  induction 1 as [|x l H IH Hx]; constructor; [|done]. intros Hin. rewrite Forall_forall in Hx. apply Hx in Hin. lia.
Qed.
Lemma sorted_lt_le (l : list Z) : StronglySorted Z.lt l -> Sorted Z.le l.
Proof.
  intros H. apply StronglySorted_Sorted. induction H as [|x l H IH Hx]; constructor; [done|]. eapply Forall_impl; [exact Hx|]. simpl. lia.
Qed.
Lemma txs_of_segments l L : segmented l L -> txs_in_order l = map fst L.
Proof.
  intros [-> Hs Hr]. unfold txs_in_order. apply (Sorted_unique Z.le).
  - apply (Sorted_merge_sort Z.le).
  - by apply sorted_lt_le.
  - rewrite merge_sort_Permutation. apply NoDup_Permutation; [apply NoDup_remove_dups|by apply sorted_lt_nodup|].
    intros t. rewrite elem_of_remove_dups. rewrite !elem_of_list_fmap. rewrite Forall_forall in Hr. split.
    + intros (r & -> & (x & Hx & Hrx)%rows_of_segs_elem). exists x. split; [|done]. by apply (Hr x Hx).
    + intros (x & -> & Hx). destruct (Hr x Hx) as [Hne Ht]. destruct x.2 as [|r l] eqn:E; [done|]. exists r.
      split; [symmetry; apply Ht; by left|]. apply rows_of_segs_elem. exists x. rewrite E. split; [done|by left].
Qed.
Lemma filter_segment L x : StronglySorted Z.lt (map fst L) -> Forall (fun x : seg => x.2 <> [] /\ forall r, r ∈ x.2 -> t_tx r = x.1) L -> x ∈ L ->
  filter (fun r => t_tx r = x.1) (rows_of_segs L) = x.2.
Proof.
  induction L as [|y L IH]; intros Hs Hr Hx; [by apply elem_of_nil in Hx|]. apply Forall_cons in Hr as [[_ Hy] Hr].
  cbn [map] in Hs. inversion Hs as [|? ? Hs' Hlt]; subst. unfold rows_of_segs. cbn [map concat]. rewrite filter_app. fold (rows_of_segs L).
  rewrite Forall_forall in Hlt. apply elem_of_cons in Hx as [->|Hx].
  - rewrite filter_all_of by done. rewrite filter_none_of; [by rewrite app_nil_r|]. intros r (z & Hz & Hrz)%rows_of_segs_elem E.
    assert (z.1 ∈ map fst L) as K by (apply elem_of_list_fmap; by exists z). apply Hlt in K. rewrite Forall_forall in Hr. destruct (Hr z Hz) as [_ Hz']. rewrite (Hz' r Hrz) in E. lia.
  - rewrite filter_none_of; [by apply IH|]. intros r Hrr E. rewrite (Hy r Hrr) in E.
    assert (x.1 ∈ map fst L) as K by (apply elem_of_list_fmap; by exists x). apply Hlt in K. lia.
Qed.
Lemma rows_in_order l L : segmented l L -> flat_map (fun tx => filter (fun r => t_tx r = tx) l) (txs_in_order l) = l.
Proof.
  intros H. rewrite (txs_of_segments _ _ H). destruct H as [-> Hs Hr]. rewrite flat_map_concat_map, map_map. unfold rows_of_segs at 2. f_equal.
  apply map_ext_in. intros x Hx. apply filter_segment; [done|done|by apply elem_of_list_In].
Qed.

Lemma rows_after_None st L : (forall r, r ∈ st_log st -> t_timeline r = TIMELINE_MAIN) -> segmented (st_log st) L -> rows_after st None = rows_of_segs L.
Proof.
  intros Hm H. unfold rows_after. rewrite (transactions_all _ Hm).
  assert (forall l : list txrow, List.filter (fun _ => true) l = l) as E by (induction l; simpl; congruence). rewrite E.
  rewrite (rows_in_order _ _ H). apply H.
Qed.
Lemma filter_after_none l f : (forall r, r ∈ l -> t_tx r <= f) -> List.filter (fun r => f <? t_tx r) l = [].
Proof. induction l as [|r l IH]; intros H; [done|]. cbn [List.filter]. assert (t_tx r <= f) by (apply H; by left). destruct (Z.ltb_spec f (t_tx r)); [lia|]. apply IH. set_solver. Qed.
Lemma filter_after_all l f : (forall r, r ∈ l -> f < t_tx r) -> List.filter (fun r => f <? t_tx r) l = l.
Proof. induction l as [|r l IH]; intros H; [done|]. cbn [List.filter]. assert (f < t_tx r) by (apply H; by left). destruct (Z.ltb_spec f (t_tx r)); [|lia]. f_equal. apply IH. set_solver. Qed.
Lemma segmented_app l L1 L2 : segmented l (L1 ++ L2) -> segmented (rows_of_segs L1) L1 /\ segmented (rows_of_segs L2) L2
  /\ (forall x y, x ∈ L1 -> y ∈ L2 -> x.1 < y.1).
Proof.
  intros [-> Hs Hr]. apply Forall_app in Hr as [R1 R2]. rewrite map_app in Hs. split_and!.
  - split; [done| |done]. clear -Hs. induction L1 as [|x L1 IH]; [constructor|]. cbn [map app] in *. inversion Hs as [|? ? Hs' Hx]; subst. apply Forall_app in Hx as [Hx _]. constructor; [by apply IH|done].
  - split; [done| |done]. clear -Hs. induction L1 as [|x L1 IH]; [done|]. cbn [map app] in *. inversion Hs; subst. by apply IH.
  - clear -Hs. induction L1 as [|z L1 IH]; [intros x y Hx; by apply elem_of_nil in Hx|]. cbn [map app] in *. inversion Hs as [|? ? Hs' Hx]; subst.
    intros x y [->|Hx']%elem_of_cons Hy; [|by apply IH]. rewrite Forall_forall in Hx. apply Hx, elem_of_app. right. apply elem_of_list_fmap. by exists y.
Qed.
Lemma rows_after_Some st L1 L2 f : (forall r, r ∈ st_log st -> t_timeline r = TIMELINE_MAIN) -> segmented (st_log st) (L1 ++ L2) ->
  (forall x, x ∈ L1 -> x.1 <= f) -> (forall x, x ∈ L2 -> f < x.1) -> rows_after st (Some f) = rows_of_segs L2.
Proof.
  intros Hm H H1 H2. unfold rows_after. rewrite (transactions_all _ Hm). pose proof (segmented_app _ _ _ H) as (S1 & S2 & _).
  rewrite (sm_log _ _ H), rows_of_segs_app, List.filter_app.
  assert (forall L r, segmented (rows_of_segs L) L -> r ∈ rows_of_segs L -> exists x, x ∈ L /\ t_tx r = x.1) as K.
  { intros L r S (x & Hx & Hr)%rows_of_segs_elem. exists x. split; [done|]. pose proof (sm_rows _ _ S) as R. rewrite Forall_forall in R. by apply (R x Hx). }
  rewrite filter_after_none by (intros r Hr; destruct (K _ _ S1 Hr) as (x & Hx & ->); by apply H1).
  rewrite filter_after_all by (intros r Hr; destruct (K _ _ S2 Hr) as (x & Hx & ->); by apply H2).
  cbn [app]. by apply rows_in_order with L2.
Qed.

(* ---------------------------------------------------------------- groups *)

Definition group_of (x : seg) (g : local_tx) : Prop := lt_tx g = x.1 /\ Forall2 part_of x.2 (lt_parts g).
Lemma to_tx_part_Ok r p : to_tx_part r = Ok p -> part_of r p /\ xp_tx p = t_tx r.
Proof. unfold to_tx_part. intros (v & Hv & [= <-])%rbind_Ok. unfold part_of. simpl. done. Qed.

Lemma tx_groups_segs L : forall g rows gs, StronglySorted Z.lt (lt_tx g :: map fst L) -> (forall r, r ∈ rows -> t_tx r = lt_tx g) ->
  Forall (fun x : seg => x.2 <> [] /\ forall r, r ∈ x.2 -> t_tx r = x.1) L ->
  tx_groups (Some g) (map to_tx_part (rows ++ rows_of_segs L)) = (gs, Ok tt) ->
  exists ps gs', gs = LocalTx (lt_tx g) (lt_parts g ++ ps) :: gs' /\ Forall2 part_of rows ps /\ Forall2 group_of L gs'.
Proof.
  induction L as [|[tx new] L IHL]; intros g rows; revert g; induction rows as [|r rows IH]; intros g gs Hs Hrows HL H.
  - injection H as <-. exists [], []. rewrite app_nil_r. split_and!; [by destruct g|constructor|constructor].
  - cbn [app map] in H. destruct (to_tx_part r) as [p| |] eqn:E; try done. apply to_tx_part_Ok in E as [Hp Ht]. cbn [tx_groups] in H.
    rewrite decide_True in H by (rewrite Ht; symmetry; apply Hrows; by left).
    apply IH in H as (ps & gs' & -> & F1 & F2); try done; [|intros; apply Hrows; by right]. cbn [lt_tx lt_parts] in *.
    exists (p :: ps), gs'. rewrite <- app_assoc. split_and!; try done. by constructor.
  - apply Forall_cons in HL as [[Hne Hnew] HL]. cbn [fst snd] in *. destruct new as [|r new]; [done|]. unfold rows_of_segs in H. cbn [map concat snd app] in H.
    fold (rows_of_segs L) in H. destruct (to_tx_part r) as [p| |] eqn:E; try done. apply to_tx_part_Ok in E as [Hp Ht]. cbn [tx_groups] in H.
    assert (t_tx r = tx) as Etx by (apply Hnew; by left). rewrite Ht, Etx in H.
    cbn [map fst] in Hs. inversion Hs as [|? ? Hs' Hlt]; subst. apply Forall_cons in Hlt as [Hlt _]. rewrite decide_False in H by lia.
    destruct (tx_groups _ _) as [gs0 x] eqn:E0. injection H as <- ->. apply IHL in E0 as (ps & gs' & -> & F1 & F2); try done; [|intros; apply Hnew; by right].
    cbn [lt_tx lt_parts app] in *. exists [], (LocalTx (t_tx r) (p :: ps) :: gs'). rewrite app_nil_r. split_and!; [by destruct g|constructor|].
    constructor; [|done]. split; [done|]. by constructor.
  - cbn [app map] in H. destruct (to_tx_part r) as [p| |] eqn:E; try done. apply to_tx_part_Ok in E as [Hp Ht]. cbn [tx_groups] in H.
    rewrite decide_True in H by (rewrite Ht; symmetry; apply Hrows; by left).
    apply IH in H as (ps & gs' & -> & F1 & F2); try done; [|intros; apply Hrows; by right]. cbn [lt_tx lt_parts] in *.
    exists (p :: ps), gs'. rewrite <- app_assoc. split_and!; try done. by constructor.
Qed.
Lemma groups_segs L gs : segmented (rows_of_segs L) L -> tx_groups None (map to_tx_part (rows_of_segs L)) = (gs, Ok tt) -> Forall2 group_of L gs.
Proof.
  intros [_ Hs HL] H. destruct L as [|[tx new] L]; [by injection H as <-|].
  apply Forall_cons in HL as [[Hne Hnew] HL]. cbn [fst snd] in *. destruct new as [|r new]; [done|]. unfold rows_of_segs in H. cbn [map concat snd app] in H.
  fold (rows_of_segs L) in H. destruct (to_tx_part r) as [p| |] eqn:E; try done. apply to_tx_part_Ok in E as [Hp Ht]. cbn [tx_groups] in H.
  assert (t_tx r = tx) as Etx by (apply Hnew; by left). rewrite Ht, Etx in H.
  apply tx_groups_segs in H as (ps & gs' & -> & F1 & F2); try done; [|intros; apply Hnew; by right].
  cbn [lt_tx lt_parts app] in *. constructor; [|done]. split; [done|]. by constructor.
Qed.

(* ---------------------------------------------------------------- partition maps on the wire *)

Definition part_same (p q : partition) : Prop := pt_start q = pt_start p /\ pt_end q = pt_end p /\ pt_allow_excision q = pt_allow_excision p.
Lemma part_set_next_Ok p e q : part_set_next p e = Ok q -> part_same p q /\ pt_next q = e /\ pt_start p <= e <= pt_end p.
Proof. unfold part_set_next. destruct (part_allows p e) eqn:E; [|done]. intros [= <-]. unfold part_allows in E. apply andb_true_iff in E as [?%Z.leb_le ?%Z.leb_le]. unfold part_same. simpl. auto. Qed.
Lemma allocate_in_Ok p es : forall p1 q, part_same p p1 -> pt_start p <= pt_next p1 <= pt_end p ->
  rfold (fun new e => if part_allows p e && (pt_next new <=? e) then part_set_next new (e + 1) else Ok new) p1 es = Ok q ->
  part_same p q /\ pt_start p <= pt_next q <= pt_end p /\ pt_next p1 <= pt_next q
  /\ (forall e, e ∈ es -> part_allows p e = true -> e < pt_next q) /\ (pt_next q = pt_next p1 \/ exists e, e ∈ es /\ part_allows p e = true /\ pt_next q = e + 1).
Proof.
  induction es as [|e es IH]; intros p1 q Hs Hn H; cbn [rfold] in H.
  - injection H as <-. destruct Hs as (B1 & B2 & B3). split; [done|]. split; [lia|]. split; [lia|]. split; [intros e He; by apply elem_of_nil in He|by left].
  - destruct (part_allows p e && (pt_next p1 <=? e)) eqn:E.
    + apply andb_true_iff in E as [Ea El%Z.leb_le]. cbn [rbind] in H. apply rbind_Ok in H as (p2 & H2 & H). apply part_set_next_Ok in H2 as ((A1 & A2 & A3) & A4 & A5).
      destruct Hs as (B1 & B2 & B3). apply IH in H as (C1 & C2 & C3 & C4 & C5); [|split_and!; congruence|lia].
      destruct C1 as (D1 & D2 & D3). split; [done|]. split; [lia|]. split; [lia|]. split.
      * intros x [->|Hx]%elem_of_cons Ha; [lia|by apply C4].
      * right. destruct C5 as [->|(x & Hx & Hx2)]; [exists e; split; [left|done]|exists x; split; [by right|done]].
    + cbn [rbind] in H. apply IH in H as (C1 & C2 & C3 & C4 & C5); [|done|done]. destruct C1 as (D1 & D2 & D3). split; [done|]. split; [lia|]. split; [lia|]. split.
      * intros x [->|Hx]%elem_of_cons Ha; [|by apply C4]. rewrite Ha in E. cbn [andb] in E. apply Z.leb_gt in E. lia.
      * destruct C5 as [->|(x & Hx & Hx2)]; [by left|]. right. exists x. split; [by right|done].
Qed.

Lemma allocated_get es pm : allocate_partition_map_for_entids es = Ok pm -> forall k,
  match bootstrap_partition_map !! k with Some p => exists q, allocate_in p es = Ok q /\ pm !! k = Some q | None => pm !! k = None end.
Proof.
  unfold allocate_partition_map_for_entids. intros H k. apply rbind_Ok in H as (l & Hl & [= <-]). apply rmapM_Ok in Hl. unfold bootstrap_partition_map.
  change tolstoy_parts with V1_PARTS in Hl. revert l Hl. induction V1_PARTS as [|[name p] ps IH]; intros l Hl; inversion Hl as [|? y ? l' Hy Hl']; subst; clear Hl; [done|].
  cbn beta iota in Hy. apply rbind_Ok in Hy as (q & Hq & [= <-]). cbn [list_to_map foldr fst snd].
  destruct (decide (k = name)) as [->|N]; [rewrite !lookup_insert; eauto|]. rewrite !lookup_insert_ne by done. by apply IH.
Qed.

Lemma tx0_max : TX0 <= I64_MAX.
Proof. vm_compute. discriminate. Qed.
Lemma imported x pm pm' : seg_ok x -> allocate_partition_map_for_entids (map t_e x.2) = Ok pm -> rewind_tx_partition_by_one pm = SOk pm' ->
  parts_ok pm' /\ exists p, pm' !! ":db.part/tx" = Some p /\ pt_next p = x.1 /\ pt_start p = TX0 /\ pt_end p = I64_MAX /\ x.1 <= I64_MAX.
Proof.
  intros Hx Ha Hr. pose proof (allocated_get _ _ Ha) as G. clear Ha.
  assert (parts_ok pm) as Hpo.
  { intros k. specialize (G k). pose proof (bootstrap_parts_ok k) as B. destruct (bootstrap_partition_map !! k) as [p|] eqn:E; [|by rewrite G].
    destruct G as (q & Hq & ->). destruct B as (_ & _ & B). unfold allocate_in in Hq. apply allocate_in_Ok in Hq as ((A1 & A2 & A3) & A4 & _); [|repeat split; reflexivity|exact B]. split; [exact A1|]. split; [exact A2|]. rewrite A1, A2. exact A4. }
  pose proof (G ":db.part/tx") as T. assert ((":db.part/tx", Part TX0 I64_MAX false TX0) ∈ V1_PARTS) as Hin by (do 2 apply elem_of_list_further; apply elem_of_list_here).
  rewrite (bootstrap_parts_get _ _ Hin) in T. destruct T as (q & Hq & Ht). apply allocate_in_Ok in Hq as ((A1 & A2 & A3) & A4 & A5 & A6 & A7); [|repeat split; reflexivity|cbn [pt_start pt_end pt_next]; split; [apply Z.le_refl|exact tx0_max]].
  cbn [pt_start pt_end pt_next pt_allow_excision] in *.
  assert (pt_next q = x.1 + 1) as En.
  { clear G Hpo Hin. destruct (sg_inst _ Hx) as (r & Hrr & He & _). pose proof (sg_tx _ Hx) as Htx. destruct A7 as [E|(e & He' & Hal & E)].
    - assert (x.1 < pt_next q); [|lia]. apply A6; [apply elem_of_list_fmap; exists r; split; [symmetry; exact He|exact Hrr]|]. unfold part_allows. cbn [pt_start pt_end]. apply andb_true_iff. rewrite !Z.leb_le. lia.
    - apply elem_of_list_fmap in He' as (r' & -> & Hr'). unfold part_allows in Hal. cbn [pt_start pt_end] in Hal. apply andb_true_iff in Hal as [L1%Z.leb_le L2%Z.leb_le].
      assert (t_e r' <= x.1) as L3 by (apply (sg_earlier _ Hx); [exact Hr'|exact L1]).
      assert (x.1 < pt_next q); [|lia]. apply A6; [apply elem_of_list_fmap; exists r; split; [symmetry; exact He|exact Hrr]|]. unfold part_allows. cbn [pt_start pt_end]. apply andb_true_iff. rewrite !Z.leb_le. lia. }
  unfold rewind_tx_partition_by_one in Hr. rewrite Ht, A3 in Hr. destruct (part_set_next q (pt_next q - 1)) as [q'| |] eqn:Es; [|discriminate Hr..].
  injection Hr as <-. apply part_set_next_Ok in Es as ((D1 & D2 & D3) & D4 & D5). split.
  - intros k. destruct (decide (k = ":db.part/tx")) as [->|N].
    + rewrite (bootstrap_parts_get _ _ Hin), lookup_insert. cbn [pt_start pt_end]. lia.
    + rewrite lookup_insert_ne by done. apply Hpo.
  - exists q'. rewrite lookup_insert. split_and!; [reflexivity|lia..].
Qed.

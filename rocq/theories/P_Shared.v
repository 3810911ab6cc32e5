(** Connections to one file are serialized. *)
From Verif Require Import M_Shared Spec_Conn Spec_Shared P_Base P_Conn.

Lemma ig_steps_snoc mv l o : forall ig ig1 rs ig2 r, ig_steps mv ig l = Ok (ig1, rs) -> ig_step mv ig1 o = (ig2, r) -> (forall p, r <> Panic p) ->
  ig_steps mv ig (l ++ [o]) = Ok (ig2, rs ++ [r]).
Proof.
  induction l as [|o' l IH]; intros ig ig1 rs ig2 r H Ho Hr; cbn [ig_steps app] in *.
  - injection H as -> <-. rewrite Ho. destruct r; [done|done|by destruct (Hr p)].
  - destruct (ig_step mv ig o') as [ig3 r']. destruct r' as [[]|e|p]; [| |done];
      (destruct (ig_steps mv ig3 l) as [[ig4 rs']| |] eqn:E; try done; cbn [rbind] in H; injection H as -> <-;
       rewrite (IH _ _ _ _ _ E Ho Hr); done).
Qed.
Lemma ig_watch_gen ig ev : ig_gen (ig_watch ig ev) = ig_gen ig.
Proof. unfold ig_watch. by destruct (wa_done ev). Qed.
Lemma ig_step_gen mv ig o ig' r : ig_step mv ig o = (ig', r) -> ig_gen ig' = ig_gen ig.
Proof.
  destruct o as [now es|now ts ids|n|n|n]; simpl.
  - unfold ig_transact, ig_transacted. destruct (transact _ _ _ _ _ _ _) as [st' [x| |]]; intros [= <- _]; try apply ig_watch_gen; done.
  - unfold ig_transact_terms, ig_transacted. destruct (transact_terms _ _ _ _ _ _ _ _ _) as [st' [x| |]]; intros [= <- _]; try apply ig_watch_gen; done.
  - unfold ig_savepoint. by intros [= <- _].
  - unfold ig_rollback_savepoint. destruct (savepoints_from _ _) as [[st l]|]; by intros [= <- _].
  - unfold ig_release_savepoint. destruct (savepoints_from _ _) as [[st l]|]; by intros [= <- _].
Qed.
Lemma ig_steps_gen mv l : forall ig ig' rs, ig_steps mv ig l = Ok (ig', rs) -> ig_gen ig' = ig_gen ig.
Proof.
  induction l as [|o l IH]; intros ig ig' rs H; cbn [ig_steps] in H; [by injection H as <- _|].
  destruct (ig_step mv ig o) as [ig1 r] eqn:E. apply ig_step_gen in E.
  destruct r; [| |done]; apply rbind_Ok in H as ([ig2 rs'] & H & [= -> <-]); apply IH in H; congruence.
Qed.

Record sh_ok (mv : Z) (sh : shared) (open : gmap nat (list ip_op)) : Prop := {
  so_one : forall i j md md' ig ig', sh_conns sh !! i = Some (md, Some ig) -> sh_conns sh !! j = Some (md', Some ig') -> i = j;
  so_open : forall i md ig, sh_conns sh !! i = Some (md, Some ig) ->
    exists rs, ig_steps mv (conn_begin (Conn (sh_disk sh) md)) (default [] (open !! i)) = Ok (ig, rs) }.

Lemma sh_unlocked sh : sh_locked sh = false -> forall i md ig, sh_conns sh !! i = Some (md, Some ig) -> False.
Proof.
  intros H i md ig Hi. apply not_true_iff_false in H. apply H, existsb_exists. exists (md, Some ig). split; [|done].
  apply elem_of_list_In. by eapply elem_of_list_lookup_2.
Qed.
Lemma fst_set (l : list (metadata * option inprog)) i md o x : l !! i = Some (md, x) -> (<[i := (md, o)]> l).*1 = l.*1.
Proof. intros H. rewrite list_fmap_insert. simpl. apply list_insert_id. rewrite list_lookup_fmap, H. done. Qed.

(** Each call keeps the invariant and has the effect of the session it commits, if any. *)
Lemma sh_set_ok mv sh open open' i md x o : sh_ok mv sh open -> sh_conns sh !! i = Some (md, x) ->
  (forall j md' ig', sh_conns sh !! j = Some (md', Some ig') -> j = i) -> (forall j, j <> i -> open' !! j = open !! j) ->
  (forall ig, o = Some ig -> exists rs, ig_steps mv (conn_begin (Conn (sh_disk sh) md)) (default [] (open' !! i)) = Ok (ig, rs)) ->
  sh_ok mv (sh_set sh i md o) open'.
Proof.
  intros [H1 H2] Hi Hone Hop Hs. assert (i < length (sh_conns sh))%nat as Hlt by by eapply lookup_lt_Some. split; simpl.
  - intros a b mda mdb iga igb Ha Hb. apply list_lookup_insert_Some in Ha as [(-> & _)|[Hna Ha]], Hb as [(-> & _)|[Hnb Hb]]; try done; [by destruct (Hnb (eq_sym (Hone _ _ _ Hb)))|by destruct (Hna (eq_sym (Hone _ _ _ Ha)))|].
    by eapply H1.
  - intros a mda iga Ha. apply list_lookup_insert_Some in Ha as [(-> & [= -> ->] & _)|[Hna Ha]].
    + by apply Hs.
    + by destruct (Hna (eq_sym (Hone _ _ _ Ha))).
Qed.

(** The calls of the sessions under way after one more call *)
Definition opened (open : gmap nat (list ip_op)) (x : sh_op * sh_out) : gmap nat (list ip_op) :=
  match x with
  | (SBegin i, SOk) => <[i := []]> open
  | (SCall i o, (SOk | SErr _)) => <[i := default [] (open !! i) ++ [o]]> open
  | _ => open
  end.
Definition commits (open : gmap nat (list ip_op)) (x : sh_op * sh_out) : list (nat * list ip_op) :=
  match x with (SCommit i, SOk) => [(i, default [] (open !! i))] | _ => [] end.
Lemma committed_cons open x t : committed open (x :: t) = commits open x ++ committed (opened open x) t.
Proof. by destruct x as [[] []]. Qed.

Lemma sh_step_serial mv sh open o sh1 r : sh_ok mv sh open -> sh_step mv sh o = (sh1, r) ->
  sh_ok mv sh1 (opened open (o, r)) /\ serial mv (sh_disk sh, (sh_conns sh).*1) (commits open (o, r)) = (sh_disk sh1, (sh_conns sh1).*1)
  /\ (forall i e, o = SCommit i -> r <> SErr e).
Proof.
  intros Hok Es.
  destruct o as [i|i o|i|i]; simpl in Es; destruct (sh_conns sh !! i) as [[md [ig|]]|] eqn:Ei; try (by injection Es as <- <-).
  - destruct (sh_locked sh) eqn:El; injection Es as <- <-; [done|]. split; [|split; [|done]].
    + apply (sh_set_ok mv sh open _ i md None); try done.
      * intros j md' ig' Hj. by destruct (sh_unlocked sh El j md' ig').
      * intros j Hj. simpl. by rewrite lookup_insert_ne by congruence.
      * intros ig [= <-]. simpl. rewrite lookup_insert. simpl. eauto.
    + simpl. by erewrite fst_set.
  - destruct (so_open _ _ _ Hok _ _ _ Ei) as (rs & Hrs).
    destruct (ig_step mv ig o) as [ig' ro] eqn:Eo.
    assert (forall j md' ig', sh_conns sh !! j = Some (md', Some ig') -> j = i) as Hone by (intros; by eapply (so_one _ _ _ Hok)).
    destruct ro as [u|e|p]; injection Es as <- <-; (split; [|split; [simpl; by erewrite fst_set|done]]).
    + apply (sh_set_ok mv sh open _ i md (Some ig)); try done.
      * intros j Hj. simpl. by rewrite lookup_insert_ne by congruence.
      * intros ? [= <-]. simpl. rewrite lookup_insert. simpl. eexists. by eapply ig_steps_snoc.
    + apply (sh_set_ok mv sh open _ i md (Some ig)); try done.
      * intros j Hj. simpl. by rewrite lookup_insert_ne by congruence.
      * intros ? [= <-]. simpl. rewrite lookup_insert. simpl. eexists. by eapply ig_steps_snoc.
    + by apply (sh_set_ok mv sh open _ i md (Some ig)).
  - destruct (so_open _ _ _ Hok _ _ _ Ei) as (rs & Hrs).
    assert (forall j md' ig', sh_conns sh !! j = Some (md', Some ig') -> j = i) as Hone by (intros; by eapply (so_one _ _ _ Hok)).
    pose proof (ig_steps_gen _ _ _ _ _ Hrs) as Hg. simpl in Hg. unfold conn_commit in Es. simpl in Es. rewrite decide_True in Es by done.
    injection Es as <- <-. split; [|split; [|done]].
    + split; simpl.
      * intros a b mda mdb iga igb Ha Hb. apply list_lookup_insert_Some in Ha as [(_ & ? & _)|[Hna Ha]]; [done|]. by destruct (Hna (eq_sym (Hone _ _ _ Ha))).
      * intros a mda iga Ha. apply list_lookup_insert_Some in Ha as [(_ & ? & _)|[Hna Ha]]; [done|]. by destruct (Hna (eq_sym (Hone _ _ _ Ha))).
    + unfold commits, serial. cbn [fold_left]. unfold serial_step. cbn [fst snd]. rewrite list_lookup_fmap, Ei.
      cbn [fmap option_fmap option_map fst]. unfold conn_step. rewrite Hrs.
      unfold conn_commit. cbn [cn_md]. rewrite decide_True by done. cbn [fst cn_disk cn_md sh_disk sh_conns]. by rewrite list_fmap_insert.
  - injection Es as <- <-. split; [|split; [simpl; by erewrite fst_set|done]]. apply (sh_set_ok mv sh open _ i md (Some ig)); try done.
    intros; by eapply (so_one _ _ _ Hok).
Qed.

Lemma sh_run_serial mv l : forall sh open sh' t, sh_ok mv sh open -> sh_run mv sh l = (sh', t) ->
  serial mv (sh_disk sh, (sh_conns sh).*1) (committed open t) = (sh_disk sh', (sh_conns sh').*1)
  /\ (forall i e, (SCommit i, SErr e) ∉ t).
Proof.
  induction l as [|o l IH]; intros sh open sh' t Hok H; cbn [sh_run] in H.
  { injection H as <- <-. split; [done|]. intros. apply not_elem_of_nil. }
  destruct (sh_step mv sh o) as [sh1 r] eqn:Es. destruct (sh_run mv sh1 l) as [sh2 t2] eqn:Er. injection H as -> <-.
  destruct (sh_step_serial _ _ _ _ _ _ Hok Es) as (H1 & H2 & H3). destruct (IH _ _ _ _ H1 Er) as [I1 I2]. split.
  - rewrite committed_cons. unfold serial in *. by rewrite fold_left_app, H2.
  - intros i e [[= <- <-]|Hin]%elem_of_cons; [by apply (H3 i e)|by apply (I2 i e)].
Qed.

Lemma sh_start_ok mv disk mds : sh_ok mv (sh_start disk mds) ∅.
Proof.
  split; unfold sh_start; simpl.
  - intros i j md md' ig ig' Hi. rewrite list_lookup_fmap in Hi. destruct (mds !! i); naive_solver.
  - intros i md ig Hi. rewrite list_lookup_fmap in Hi. destruct (mds !! i); naive_solver.
Qed.
Lemma sh_start_fst disk mds : (sh_conns (sh_start disk mds)).*1 = mds.
Proof. unfold sh_start. simpl. rewrite <- list_fmap_compose. apply list_fmap_id. Qed.

Lemma shared_serial mv disk mds l sh t : sh_run mv (sh_start disk mds) l = (sh, t) ->
  (sh_disk sh, (sh_conns sh).*1) = serial mv (disk, mds) (committed ∅ t).
Proof. intros H. pose proof (proj1 (sh_run_serial mv l _ ∅ _ _ (sh_start_ok mv disk mds) H)) as S. rewrite sh_start_fst in S. symmetry. exact S. Qed.

(** One connection *)
Lemma serial_one mv l : forall disk md, (forall x, x ∈ l -> x.1 = 0%nat) ->
  serial mv (disk, [md]) l = let c := conn_run mv (Conn disk md) (map (fun x => CSession x.2 true) l) in (cn_disk c, [cn_md c]).
Proof.
  induction l as [|[i ops] l IH]; intros disk md Hl; [done|]. assert (i = 0%nat) as -> by (apply (Hl (i, ops)); left).
  change (serial mv (cn_disk (conn_step mv (Conn disk md) (CSession ops true)).1, [cn_md (conn_step mv (Conn disk md) (CSession ops true)).1]) l
    = let c := conn_run mv (conn_step mv (Conn disk md) (CSession ops true)).1 (map (fun x => CSession x.2 true) l) in (cn_disk c, [cn_md c])).
  rewrite IH by (intros; apply Hl; by right). by destruct (conn_step mv (Conn disk md) (CSession ops true)).1 as [d m].
Qed.
Lemma committed_one mv l : forall sh open sh' t, length (sh_conns sh) = 1%nat -> sh_run mv sh l = (sh', t) -> forall x, x ∈ committed open t -> x.1 = 0%nat.
Proof.
  induction l as [|o l IH]; intros sh open sh' t Hlen H x Hx; cbn [sh_run] in H; [injection H as <- <-; by apply elem_of_nil in Hx|].
  destruct (sh_step mv sh o) as [sh1 r] eqn:Es. destruct (sh_run mv sh1 l) as [sh2 t2] eqn:Er. injection H as -> <-.
  assert (length (sh_conns sh1) = 1%nat) as Hlen1.
  { destruct o as [i|i o|i|i]; simpl in Es; destruct (sh_conns sh !! i) as [[md [ig|]]|]; try (injection Es as <- <-; simpl; rewrite ?insert_length; done).
    - destruct (sh_locked sh); injection Es as <- <-; simpl; rewrite ?insert_length; done.
    - destruct (ig_step mv ig o) as [ig' [u|e|p]]; injection Es as <- <-; simpl; rewrite ?insert_length; done.
    - destruct (conn_commit _ _) as [[c' ev]| |]; injection Es as <- <-; simpl; rewrite ?insert_length; done. }
  assert (forall open2, x ∈ committed open2 t2 -> x.1 = 0%nat) as Hrest by (intros open2; by apply (IH sh1 open2 sh' t2)).
  destruct o as [i|i o|i|i], r; cbn [committed] in Hx; try by eapply Hrest.
  apply elem_of_cons in Hx as [->|Hx]; [|by eapply Hrest]. simpl.
  simpl in Es. destruct (sh_conns sh !! i) as [[md [ig|]]|] eqn:Ei; try done. apply lookup_lt_Some in Ei. lia.
Qed.
Lemma shared_one mv c l sh t : sh_run mv (sh_start (cn_disk c) [cn_md c]) l = (sh, t) ->
  exists c', c' = conn_run mv c (map (fun x => CSession x.2 true) (committed ∅ t)) /\ sh_disk sh = cn_disk c' /\ (sh_conns sh).*1 = [cn_md c'].
Proof.
  intros H. pose proof (shared_serial _ _ _ _ _ _ H) as S. rewrite serial_one in S; [|eapply committed_one; [|exact H]; done].
  destruct c as [d m]. simpl in *. injection S as S1 S2. eauto.
Qed.

(** The generation check never fails. *)
Lemma shared_commits mv disk mds l sh t : sh_run mv (sh_start disk mds) l = (sh, t) -> forall i e, (SCommit i, SErr e) ∉ t.
Proof. intros H. exact (proj2 (sh_run_serial mv l _ ∅ _ _ (sh_start_ok mv disk mds) H)). Qed.

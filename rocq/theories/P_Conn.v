(** The invariants along histories of a file. *)
From Verif Require Import M_Conn Spec_Tx Spec_Conn P_Base P_Partition P_Store P_Fill P_Step P_Meta P_Inv.

Definition conn_ok (c : conn) : Prop := db_ok (cn_disk c) (md_parts (cn_md c)) (md_schema (cn_md c)).

(* ---------------------------------------------------------------- reopening *)

Lemma list_max_ge l x : x ∈ l -> exists mx, list_max l = Some mx /\ x <= mx.
Proof.
  assert (forall l y, y <= fold_left Z.max l y /\ forall x, x ∈ l -> x <= fold_left Z.max l y) as K.
  { induction l0 as [|z l0 IH]; intros y; simpl; [split; [lia|by intros ? ?%elem_of_nil]|].
    destruct (IH (Z.max y z)) as [H1 H2]. split; [lia|]. intros w [->|Hw]%elem_of_cons; [lia|auto]. }
  destruct l as [|y l]; [by intros ?%elem_of_nil|]. intros Hx. exists (fold_left Z.max l y). split; [done|].
  destruct (K l y) as [H1 H2]. apply elem_of_cons in Hx as [->|Hx]; auto.
Qed.
Lemma list_max_elem l mx : list_max l = Some mx -> mx ∈ l.
Proof.
  assert (forall l y, fold_left Z.max l y = y \/ fold_left Z.max l y ∈ l) as K.
  { induction l0 as [|z l0 IH]; intros y; simpl; [by left|]. destruct (IH (Z.max y z)) as [->|H].
    - destruct (Z.max_spec y z) as [[_ ->]|[_ ->]]; [right; left|by left].
    - right. by right. }
  destruct l as [|y l]; [done|]. simpl. intros [= <-]. destruct (K l y) as [->|H]; [left|by right].
Qed.

Lemma part_of_tx e : part_of bootstrap_known_parts e = Some ":db.part/tx" <-> TX0 <= e <= I64_MAX.
Proof.
  unfold part_of.
  assert (merge_sort kp_le bootstrap_known_parts = bootstrap_known_parts) as -> by (vm_compute; reflexivity).
  unfold bootstrap_known_parts. cbn [map V1_PARTS fst snd pt_start pt_end pt_allow_excision]. rewrite !filter_cons. simpl kp_end.
  unfold TX0, USER0, I64_MAX.
  repeat case_decide; simpl; split; intros; try done; try lia.
Qed.

Lemma read_partition_map_tx st pm : st_parts st = bootstrap_known_parts -> read_partition_map st = Ok pm ->
  exists p, pm !! ":db.part/tx" = Some p /\ pt_start p = TX0 /\ pt_end p = I64_MAX /\ TX0 <= pt_next p <= I64_MAX
    /\ forall r, r ∈ transactions st -> TX0 <= t_e r <= I64_MAX -> t_e r < pt_next p.
Proof.
  intros Hk H. unfold read_partition_map in H. rewrite Hk in H. unfold bootstrap_known_parts in H at 2.
  cbn [map V1_PARTS fst snd pt_start pt_end pt_allow_excision rfold kp_part kp_start kp_end kp_exc] in H.
  apply rbind_Ok in H as (pm1 & H1 & H). apply rbind_Ok in H as (pm2 & H2 & H). apply rbind_Ok in H as (pm3 & H3 & [= ->]).
  clear H1 H2. apply rbind_Ok in H3 as (p & Hp & [= <-]). exists p. rewrite lookup_insert. split; [done|].
  set (es := map t_e _) in Hp.
  assert (forall a b c, partition_new TX0 I64_MAX a b = Ok c -> pt_start c = TX0 /\ pt_end c = I64_MAX /\ pt_next c = a /\ TX0 <= a <= I64_MAX) as Hnew.
  { intros a b c. unfold partition_new. case_decide; [|done]. by intros [= <-]. }
  destruct (list_max es) as [mx|] eqn:E.
  - apply Hnew in Hp as (-> & -> & -> & Hr). split_and!; try done; try lia.
    intros r Hr1 Hr2. assert (t_e r ∈ es) as Hin.
    { apply elem_of_list_fmap. exists r. split; [done|]. apply elem_of_list_filter. split; [|done]. by apply part_of_tx. }
    apply list_max_ge in Hin as (mx' & E' & Hle). assert (mx' = mx) as -> by congruence. lia.
  - apply Hnew in Hp as (-> & -> & -> & Hr). split_and!; try done; try lia.
    intros r Hr1 Hr2. assert (t_e r ∈ es) as Hin.
    { apply elem_of_list_fmap. exists r. split; [done|]. apply elem_of_list_filter. split; [|done]. by apply part_of_tx. }
    apply list_max_ge in Hin as (mx' & E' & Hle). congruence.
Qed.

Lemma read_partition_map_ok st pm : st_parts st = bootstrap_known_parts -> read_partition_map st = Ok pm -> parts_ok pm.
Proof.
  intros Hk H. unfold read_partition_map in H. rewrite Hk in H. unfold bootstrap_known_parts in H at 2.
  cbn [map V1_PARTS fst snd pt_start pt_end pt_allow_excision rfold kp_part kp_start kp_end kp_exc] in H.
  apply rbind_Ok in H as (pm1 & H1 & H). apply rbind_Ok in H as (pm2 & H2 & H). apply rbind_Ok in H as (pm3 & H3 & [= ->]).
  assert (forall a b c d p, partition_new a b c d = Ok p -> pt_start p = a /\ pt_end p = b /\ pt_start p <= pt_next p <= pt_end p) as Hnew.
  { intros a b c d p. unfold partition_new. case_decide; [|done]. by intros [= <-]. }
  assert (forall (o : option Z) f a b c d p, match o with Some x => partition_new a b (f x) d | None => partition_new a b c d end = Ok p ->
    pt_start p = a /\ pt_end p = b /\ pt_start p <= pt_next p <= pt_end p) as Hm by (intros [x|]; eauto).
  apply rbind_Ok in H1 as (p1 & Hp1 & [= <-]). apply rbind_Ok in H2 as (p2 & Hp2 & [= <-]). apply rbind_Ok in H3 as (p3 & Hp3 & [= <-]).
  assert (pt_start p1 = 0 /\ pt_end p1 = USER0 - 1 /\ pt_start p1 <= pt_next p1 <= pt_end p1) as K1 by exact (Hm _ _ _ _ _ _ _ Hp1).
  assert (pt_start p2 = USER0 /\ pt_end p2 = TX0 - 1 /\ pt_start p2 <= pt_next p2 <= pt_end p2) as K2 by exact (Hm _ _ _ _ _ _ _ Hp2).
  assert (pt_start p3 = TX0 /\ pt_end p3 = I64_MAX /\ pt_start p3 <= pt_next p3 <= pt_end p3) as K3 by exact (Hm _ _ _ _ _ _ _ Hp3).
  clear Hp1 Hp2 Hp3 Hm Hnew Hk.
  intros k. destruct (decide (k = ":db.part/tx")) as [->|N3].
  { rewrite lookup_insert, (bootstrap_parts_get ":db.part/tx" (Part TX0 I64_MAX false TX0)) by (unfold V1_PARTS; set_solver). done. }
  rewrite lookup_insert_ne by done. destruct (decide (k = ":db.part/user")) as [->|N2].
  { rewrite lookup_insert, (bootstrap_parts_get ":db.part/user" (Part USER0 (TX0 - 1) true USER0)) by (unfold V1_PARTS; set_solver). done. }
  rewrite lookup_insert_ne by done. destruct (decide (k = ":db.part/db")) as [->|N1].
  { rewrite lookup_insert, (bootstrap_parts_get ":db.part/db" (Part 0 (USER0 - 1) false 41)) by (unfold V1_PARTS; set_solver). done. }
  rewrite lookup_insert_ne by done. rewrite lookup_empty. destruct (bootstrap_partition_map !! k) as [p|] eqn:E; [|done].
  apply bootstrap_parts_cases in E. unfold V1_PARTS in E. rewrite !elem_of_cons, elem_of_nil in E. naive_solver.
Qed.

Lemma store_ok_next m st n n' : store_ok m st n -> (forall r, r ∈ st_log st -> t_tx r < n') -> store_ok m st n'.
Proof. intros [] H. by split. Qed.

Lemma reopen_ok mv c : conn_ok c ->
  sc_attribute_map (md_schema (cn_md (conn_step mv c CReopen).1)) = sc_attribute_map (md_schema (cn_md c)) ->
  conn_ok (conn_step mv c CReopen).1.
Proof.
  unfold conn_step, conn_open. intros H Hm. destruct (rbind (read_db (cn_disk c)) _) as [c'| |] eqn:E; [|done..].
  apply rbind_Ok in E as ([pm sc] & Hr & [= <-]). unfold conn_ok in *. simpl in *.
  destruct H as [(p & Hp & H0 & Hst & Hend & Hnx) Hi Htl Hrg Hk _].
  unfold read_db in Hr. apply rbind_Ok in Hr as (pm1 & Hpm & Hr). apply rbind_Ok in Hr as (im & _ & Hr).
  apply rbind_Ok in Hr as (am & _ & Hr). apply rbind_Ok in Hr as (sc1 & _ & [= -> ->]).
  pose proof (read_partition_map_ok _ _ Hk Hpm) as Hpo.
  apply read_partition_map_tx in Hpm as (q & Hq & Q1 & Q2 & Q3 & Hall); [|done].
  split; try done; rewrite Hm; [|done]. exists q. split_and!; try done; try lia.
  eapply store_ok_next; [exact H0|]. intros r Hr. destruct (Htl r Hr) as (r' & Hr' & He). rewrite <- He. apply Hall.
  - apply elem_of_list_filter. split; [by eapply so_main|done].
  - rewrite He. split; [by apply Hrg|]. pose proof (so_tx _ _ _ H0 _ Hr). lia.
Qed.

(* ---------------------------------------------------------------- calls on an InProgress *)

Definition ig_ok (ig : inprog) : Prop := db_ok (ig_store ig) (ig_parts ig) (ig_schema ig).

Lemma ig_watch_same ig w : ig_store (ig_watch ig w) = ig_store ig /\ ig_parts (ig_watch ig w) = ig_parts ig
  /\ ig_schema (ig_watch ig w) = ig_schema ig /\ ig_gen (ig_watch ig w) = ig_gen ig.
Proof. unfold ig_watch. by destruct (wa_done w). Qed.

(** A call leaves the log as it is or extends it. *)
Lemma ig_step_log mv ig o ig' r : ig_step mv ig o = (ig', r) -> (match o with OpRollbackTo _ => False | _ => True end) ->
  r = Ok tt \/ ig_store ig' = ig_store ig -> exists new, st_log (ig_store ig') = st_log (ig_store ig) ++ new.
Proof.
  intros H Ho [->|E]; [|exists []; by rewrite E, app_nil_r]. destruct o as [now es|now ts ids|n|n|n]; simpl in H; try done.
  - unfold ig_transact, ig_transacted in H. destruct (transact _ _ _ _ _ _ _) as [st' [x| |]] eqn:Et; simplify_eq/=. by eapply transact_log.
  - unfold ig_transact_terms, ig_transacted in H. destruct (transact_terms _ _ _ _ _ _ _ _ _) as [st' [x| |]] eqn:Et; simplify_eq/=. by eapply transact_terms_log.
  - unfold ig_savepoint in H. simplify_eq/=. exists []. by rewrite app_nil_r.
  - unfold ig_release_savepoint in H. destruct (savepoints_from _ _) as [[st l]|]; simplify_eq/=. exists []. by rewrite app_nil_r.
Qed.

Lemma ig_step_ok mv ig o ig' r : ig_ok ig -> ig_step mv ig o = (ig', r) -> (match o with OpRollbackTo _ => False | _ => True end) ->
  r = Ok tt \/ ig_store ig' = ig_store ig -> never_uninstalled (st_log (ig_store ig')) -> ig_ok ig'.
Proof.
  intros H0 H Ho Hr Hn.
  assert (forall ig ig', ig_ok ig -> ig_store ig' = ig_store ig -> ig_parts ig' = ig_parts ig -> ig_schema ig' = ig_schema ig -> ig_ok ig') as Hsame.
  { unfold ig_ok. intros ? ? Hx -> -> ->. done. }
  destruct o as [now es|now ts ids|n|n|n]; simpl in H; try done.
  - unfold ig_transact, ig_transacted in H.
    destruct (ig_watch_same ig (watch_transact mv now (ig_store ig) (ig_parts ig) (ig_schema ig) es)) as (W1 & W2 & W3 & _).
    destruct (transact _ _ _ _ _ _ _) as [st' [x| |]] eqn:Et; simplify_eq/=.
    + unfold ig_ok. simpl. rewrite W3. by eapply transact_ok.
    + destruct Hr as [?|Hr]; [done|]. apply (Hsame ig); done.
    + destruct Hr as [?|Hr]; [done|]. apply (Hsame ig); done.
  - unfold ig_transact_terms, ig_transacted in H.
    destruct (ig_watch_same ig (watch_transact_terms mv now (ig_store ig) (ig_parts ig) (ig_schema ig) ts ids)) as (W1 & W2 & W3 & _).
    destruct (transact_terms _ _ _ _ _ _ _ _ _) as [st' [x| |]] eqn:Et; simplify_eq/=.
    + unfold ig_ok. simpl. rewrite W3. by eapply transact_terms_ok.
    + destruct Hr as [?|Hr]; [done|]. apply (Hsame ig); done.
    + destruct Hr as [?|Hr]; [done|]. apply (Hsame ig); done.
  - unfold ig_savepoint in H. simplify_eq/=. done.
  - unfold ig_release_savepoint in H. destruct (savepoints_from _ _) as [[st l]|]; simplify_eq/=; done.
Qed.

Lemma never_uninstalled_app l new : never_uninstalled (l ++ new) -> never_uninstalled l.
Proof. intros H r Hr. apply H. set_solver. Qed.

Lemma ig_steps_log mv l : forall ig ig' rs, ig_steps mv ig l = Ok (ig', rs) -> clean_calls mv ig l ->
  exists new, st_log (ig_store ig') = st_log (ig_store ig) ++ new.
Proof.
  induction l as [|o l IH]; intros ig ig' rs H Hc; cbn [ig_steps clean_calls] in H, Hc.
  - injection H as <- <-. exists []. by rewrite app_nil_r.
  - destruct (ig_step mv ig o) as [ig1 r] eqn:Eo. destruct Hc as (Hno & Hr & Hc).
    assert (exists rs', ig_steps mv ig1 l = Ok (ig', rs')) as (rs' & H').
    { destruct r; [| |done]; apply rbind_Ok in H as ([ig2 rs'] & H & [= -> <-]); eauto. }
    destruct (IH _ _ _ H' Hc) as (n2 & E2).
    destruct (ig_step_log _ _ _ _ _ Eo Hno Hr) as (n3 & E3). exists (n3 ++ n2). by rewrite E2, E3, <- app_assoc.
Qed.

Lemma ig_steps_ok mv l : forall ig ig' rs, ig_ok ig -> ig_steps mv ig l = Ok (ig', rs) -> clean_calls mv ig l ->
  never_uninstalled (st_log (ig_store ig')) -> ig_ok ig'.
Proof.
  induction l as [|o l IH]; intros ig ig' rs H0 H Hc Hn; cbn [ig_steps clean_calls] in H, Hc.
  - by injection H as <- <-.
  - destruct (ig_step mv ig o) as [ig1 r] eqn:Eo. destruct Hc as (Hno & Hr & Hc).
    assert (exists rs', ig_steps mv ig1 l = Ok (ig', rs')) as (rs' & H').
    { destruct r; [| |done]; apply rbind_Ok in H as ([ig2 rs'] & H & [= -> <-]); eauto. }
    apply (IH ig1 ig' rs'); try done. apply (ig_step_ok mv ig o ig1 r); try done.
    destruct (ig_steps_log _ _ _ _ _ H' Hc) as (new & E). rewrite E in Hn. by eapply never_uninstalled_app.
Qed.

(* ---------------------------------------------------------------- histories *)

Lemma conn_transact_Ok mv now c es c' r : conn_transact mv now c es = (c', Ok r) ->
  exists x, transact mv now (cn_disk c) (md_parts (cn_md c)) (md_schema (cn_md c)) (md_schema (cn_md c)) es = (cn_disk c', Ok x)
    /\ tr_report x = r /\ cn_md c' = Metadata (md_gen (cn_md c) + 1) (tr_parts x) (default (md_schema (cn_md c)) (tr_schema x)).
Proof.
  unfold conn_transact, ig_transact, ig_transacted.
  destruct (ig_watch_same (conn_begin c) (watch_transact mv now (ig_store (conn_begin c)) (ig_parts (conn_begin c)) (ig_schema (conn_begin c)) es)) as (W1 & W2 & W3 & W4).
  revert W1 W2 W3 W4. generalize (ig_watch (conn_begin c) (watch_transact mv now (ig_store (conn_begin c)) (ig_parts (conn_begin c)) (ig_schema (conn_begin c)) es)). intros w W1 W2 W3 W4.
  destruct (transact _ _ _ _ _ _ _) as [st' [x| |]] eqn:Et; try done.
  unfold conn_commit. simpl. rewrite W3, W4. simpl. rewrite decide_True by done. intros [= <- <-]. by exists x.
Qed.
Lemma conn_transact_fail mv now c es c' r : conn_transact mv now c es = (c', r) -> (forall x, r <> Ok x) -> c' = c.
Proof.
  unfold conn_transact. destruct (ig_transact _ _ _ _) as [ig [x| |]].
  - destruct (conn_commit c ig) as [[c1 txes]| |]; intros [= <- <-] H; try done. by destruct (H x).
  - by intros [= <- <-].
  - by intros [= <- <-].
Qed.

Definition clean_step (mv : Z) (c : conn) (o : conn_op) : Prop :=
  match o with
  | CTransact _ _ => True
  | CSession ops commit => commit = true -> clean_calls mv (conn_begin c) ops
  | CReopen => sc_attribute_map (md_schema (cn_md (conn_step mv c o).1)) = sc_attribute_map (md_schema (cn_md c))
  end.

Lemma conn_step_log mv c o : clean_step mv c o -> exists new, st_log (cn_disk (conn_step mv c o).1) = st_log (cn_disk c) ++ new.
Proof.
  intros Hc. destruct o as [now es|l commit|]; simpl.
  - destruct (conn_transact mv now c es) as [c' r] eqn:E. simpl. destruct r as [x| |].
    + apply conn_transact_Ok in E as (y & Et & _). by eapply transact_log.
    + apply conn_transact_fail in E as ->; [|done]. exists []. by rewrite app_nil_r.
    + apply conn_transact_fail in E as ->; [|done]. exists []. by rewrite app_nil_r.
  - destruct (ig_steps mv (conn_begin c) l) as [[ig rs]| |] eqn:E; try (exists []; by rewrite app_nil_r).
    destruct commit; [|exists []; by rewrite app_nil_r].
    unfold conn_commit. case_decide; [|exists []; by rewrite app_nil_r]. simpl. eapply ig_steps_log in E; [exact E|]. by apply Hc.
  - destruct (rbind _ _) as [c'| |] eqn:E; try (exists []; by rewrite app_nil_r).
    apply rbind_Ok in E as ([pm sc] & _ & [= <-]). exists []. by rewrite app_nil_r.
Qed.

Lemma conn_step_ok mv c o : conn_ok c -> clean_step mv c o -> never_uninstalled (st_log (cn_disk (conn_step mv c o).1)) ->
  conn_ok (conn_step mv c o).1.
Proof.
  intros H0 Hc Hn. destruct o as [now es|l commit|]; simpl in Hn |- *.
  - destruct (conn_transact mv now c es) as [c' r] eqn:E. simpl in *. destruct r as [x| |].
    + apply conn_transact_Ok in E as (y & Et & _ & Em). unfold conn_ok. rewrite Em. simpl. by eapply transact_ok.
    + by apply conn_transact_fail in E as ->.
    + by apply conn_transact_fail in E as ->.
  - destruct (ig_steps mv (conn_begin c) l) as [[ig rs]| |] eqn:E; try done.
    destruct commit; [|done]. unfold conn_commit in *. case_decide; [|done]. simpl in *. unfold conn_ok. simpl.
    eapply ig_steps_ok in E; [exact E|done|by apply Hc|done].
  - by apply (reopen_ok mv c).
Qed.

Lemma conn_run_log mv l : forall c, clean_history mv c l -> exists new, st_log (cn_disk (conn_run mv c l)) = st_log (cn_disk c) ++ new.
Proof.
  induction l as [|o l IH]; intros c Hc; cbn [conn_run fold_left clean_history] in *; [exists []; by rewrite app_nil_r|].
  destruct Hc as [Ho Hc]. destruct (IH _ Hc) as (n2 & E2). destruct (conn_step_log mv c o) as (n1 & E1); [by destruct o|].
  exists (n1 ++ n2). unfold conn_run in E2. by rewrite E2, E1, <- app_assoc.
Qed.
Lemma conn_run_ok mv l : forall c, conn_ok c -> clean_history mv c l -> never_uninstalled (st_log (cn_disk (conn_run mv c l))) ->
  conn_ok (conn_run mv c l).
Proof.
  induction l as [|o l IH]; intros c H0 Hc Hn; cbn [conn_run fold_left clean_history] in *; [done|].
  destruct Hc as [Ho Hc]. apply IH; [|done|done]. apply conn_step_ok; [done|by destruct o|].
  destruct (conn_run_log mv l _ Hc) as (new & E). unfold conn_run in E. rewrite E in Hn. by eapply never_uninstalled_app.
Qed.

Lemma conn_open_ok mv now c : conn_open mv now None = Ok c -> conn_ok c /\ (forall r, r ∈ st_log (cn_disk c) -> t_added r = true).
Proof.
  unfold conn_open. intros H. apply rbind_Ok in H as (d & Hd & [= <-]). by apply create_ok in Hd.
Qed.

Lemma clean_ok mv c : clean mv c -> conn_ok c.
Proof.
  intros (now & c0 & l & Ho & -> & Hc & Hn). apply conn_open_ok in Ho as [H0 _]. by apply conn_run_ok.
Qed.

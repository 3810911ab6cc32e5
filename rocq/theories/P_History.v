(** Replaying the log, allocated entids along histories, and errors of calls on an InProgress. *)
From Verif Require Import M_Conn Spec_Value Spec_Partition Spec_Tx Spec_Conn Spec_Upsert Spec_Entity Spec_Transact.
From Verif Require Import P_Base P_Value P_Partition P_Store P_Fill P_Step P_Meta P_Inv P_Conn P_Upsert P_Resolve P_Entity P_Nested P_Tx P_TxProps.

(* ---------------------------------------------------------------- replay *)

Lemma replay_snoc l r k : replay (l ++ [r]) k = if decide (k = t_key r) then (if t_added r then Some (t_tx r) else None) else replay l k.
Proof. unfold replay. by rewrite fold_left_app. Qed.
Lemma replay_last l k tx : replay l k = Some tx <-> exists r, last (rows_of l k) = Some r /\ t_added r = true /\ t_tx r = tx.
Proof.
  induction l as [|r l IH] using rev_ind; [split; [done|by intros (? & ? & _)]|].
  rewrite replay_snoc. unfold rows_of in *. rewrite filter_app, filter_cons, filter_nil. destruct (decide (k = t_key r)) as [->|Hk].
  - rewrite decide_True by done. rewrite last_snoc. destruct (t_added r) eqn:E.
    + split; [intros [= <-]; by exists r|by intros (? & [= <-] & _ & ->)].
    + split; [done|]. intros (? & [= <-] & ? & _). congruence.
  - rewrite decide_False by congruence. by rewrite app_nil_r, <- IH.
Qed.
Lemma conn_replay c : conn_ok c -> forall k tx, replay (transactions (disk c)) k = Some tx <-> exists d, d ∈ st_datoms (disk c) /\ d_key d = k /\ d_tx d = tx.
Proof. intros (n & H)%conn_store_ok k tx. rewrite replay_last. symmetry. apply (so_log _ _ _ H). Qed.
Lemma conn_main c : conn_ok c -> transactions (disk c) = st_log (disk c).
Proof.
  intros (n & H)%conn_store_ok. pose proof (so_main _ _ _ H) as Hm. unfold transactions. clear H. induction (st_log (disk c)) as [|r l IH]; [done|].
  rewrite filter_cons, decide_True by (apply Hm; left). f_equal. apply IH. intros x Hx. apply Hm. by right.
Qed.

(* ---------------------------------------------------------------- allocated entids *)

Definition logged (st : store) (e : Z) : Prop := exists r, r ∈ st_log st /\ t_e r = e.
Lemma logged_app st st' new e : st_log st' = st_log st ++ new -> logged st e -> logged st' e.
Proof. intros E (r & Hr & He). exists r. rewrite E. set_solver. Qed.

Lemma simple_parts mv now st pm pm1 s tx ts ids st' r e : parts_ok pm -> pm_allocate pm ":db.part/tx" 1 = Ok (tx, pm1) ->
  transact_simple_terms mv now MaterializeAndCommit st pm1 s s tx ts ids = (st', Ok r) -> allocated pm e -> allocated (tr_parts r) e.
Proof.
  intros Hpo Hal H He. pose proof (parts_ok_wf _ Hpo) as Hw. destruct (pm_allocate_step _ _ _ _ _ Hw (ltac:(lia) : 0 <= 1) Hal) as (Hw1 & Ha1 & _).
  apply transact_simple_Ok in H as (rv & tr & Hrv & _ & _ & _ & -> & _). apply resolve_terms_alloc in Hrv as (n & start & Hua).
  destruct (pm_allocate_step _ _ _ _ _ Hw1 (ltac:(lia) : 0 <= Z.of_nat n) Hua) as (_ & Ha2 & _). apply Ha2. left. apply Ha1. by left.
Qed.
Lemma transact_parts mv now st pm s es st' r e : parts_ok pm -> transact mv now st pm s s es = (st', Ok r) ->
  allocated pm e -> allocated (tr_parts r) e.
Proof.
  intros Hpo H. unfold transact in H. destruct (pm_allocate pm ":db.part/tx" 1) as [[tx pm1]| |] eqn:Ep; try done.
  destruct (entities_to_terms _ _ _ _ _ _) as [[ts ids]| |] eqn:Ee; try done. by eapply simple_parts.
Qed.
Lemma transact_terms_parts mv now st pm s ts ids st' r e : parts_ok pm -> transact_terms mv now MaterializeAndCommit st pm s s ts ids = (st', Ok r) ->
  allocated pm e -> allocated (tr_parts r) e.
Proof.
  intros Hpo H. unfold transact_terms in H. destruct (pm_allocate pm ":db.part/tx" 1) as [[tx pm1]| |] eqn:Ep; try done. by eapply simple_parts.
Qed.
Lemma ig_step_parts mv ig o ig' r e : ig_ok ig -> ig_step mv ig o = (ig', r) -> allocated (ig_parts ig) e -> allocated (ig_parts ig') e.
Proof.
  intros [_ _ _ _ _ Hpo] H He.
  destruct o as [now es|now ts ids|n|n|n]; simpl in H.
  - unfold ig_transact, ig_transacted in H.
    destruct (ig_watch_same ig (watch_transact mv now (ig_store ig) (ig_parts ig) (ig_schema ig) es)) as (W1 & W2 & W3 & _).
    destruct (transact _ _ _ _ _ _ _) as [st' [x| |]] eqn:Et; simplify_eq/=; [|by rewrite W2..]. by eapply transact_parts.
  - unfold ig_transact_terms, ig_transacted in H.
    destruct (ig_watch_same ig (watch_transact_terms mv now (ig_store ig) (ig_parts ig) (ig_schema ig) ts ids)) as (W1 & W2 & W3 & _).
    destruct (transact_terms _ _ _ _ _ _ _ _ _) as [st' [x| |]] eqn:Et; simplify_eq/=; [|by rewrite W2..]. by eapply transact_terms_parts.
  - unfold ig_savepoint in H. simplify_eq/=. done.
  - unfold ig_rollback_savepoint in H. destruct (savepoints_from _ _) as [[st l]|]; simplify_eq/=; done.
  - unfold ig_release_savepoint in H. destruct (savepoints_from _ _) as [[st l]|]; simplify_eq/=; done.
Qed.
Lemma ig_steps_parts mv l e : forall ig ig' rs, ig_ok ig -> ig_steps mv ig l = Ok (ig', rs) -> clean_calls mv ig l ->
  never_uninstalled (st_log (ig_store ig')) -> allocated (ig_parts ig) e -> allocated (ig_parts ig') e.
Proof.
  induction l as [|o l IH]; intros ig ig' rs H0 H Hc Hn He; cbn [ig_steps clean_calls] in H, Hc.
  - by injection H as <- <-.
  - destruct (ig_step mv ig o) as [ig1 r] eqn:Eo. destruct Hc as (Hno & Hr & Hc).
    assert (exists rs', ig_steps mv ig1 l = Ok (ig', rs')) as (rs' & H').
    { destruct r; [| |done]; apply rbind_Ok in H as ([ig2 rs'] & H & [= -> <-]); eauto. }
    assert (ig_ok ig1) as H1.
    { apply (ig_step_ok mv ig o ig1 r); try done. destruct (ig_steps_log _ _ _ _ _ H' Hc) as (new & E). rewrite E in Hn. by eapply never_uninstalled_app. }
    apply (IH ig1 ig' rs'); try done. exact (ig_step_parts _ _ _ _ _ _ H0 Eo He).
Qed.

Lemma part_of_bootstrap e : 0 <= e <= I64_MAX -> exists k p, (k, p) ∈ V1_PARTS /\ part_of bootstrap_known_parts e = Some k /\ pt_start p <= e <= pt_end p.
Proof.
  intros He. unfold part_of.
  assert (merge_sort kp_le bootstrap_known_parts = bootstrap_known_parts) as -> by (vm_compute; reflexivity).
  unfold bootstrap_known_parts. cbn [map V1_PARTS fst snd pt_start pt_end pt_allow_excision]. rewrite !filter_cons. simpl kp_end.
  unfold TX0, USER0, I64_MAX in *. unfold V1_PARTS. setoid_rewrite elem_of_cons. setoid_rewrite elem_of_cons. setoid_rewrite elem_of_cons.
  destruct (decide (e <= 65536 - 1)).
  { exists ":db.part/db", (Part 0 (USER0 - 1) false 41). split; [by left|]. split; [done|]. unfold USER0. simpl. lia. }
  destruct (decide (e <= 268435456 - 1)).
  { exists ":db.part/user", (Part USER0 (TX0 - 1) true USER0). split; [right; by left|]. split; [done|]. unfold USER0, TX0. simpl. lia. }
  destruct (decide (e <= 9223372036854775807)); [|lia].
  exists ":db.part/tx", (Part TX0 I64_MAX false TX0). split; [right; right; by left|]. split; [done|]. unfold TX0, I64_MAX. simpl. lia.
Qed.
(** Every entity of the log is allocated in the partition map read from the file. *)
Lemma read_partition_map_logged st pm e : st_parts st = bootstrap_known_parts -> read_partition_map st = Ok pm ->
  0 <= e <= I64_MAX -> (exists r, r ∈ transactions st /\ t_e r = e) -> allocated pm e.
Proof.
  intros Hk H He (r & Hr & Hre). destruct (part_of_bootstrap e He) as (k & p0 & Hin & Hpo & Hrg).
  unfold read_partition_map in H. rewrite Hk in H. unfold bootstrap_known_parts in H at 2.
  cbn [map V1_PARTS fst snd pt_start pt_end pt_allow_excision rfold kp_part kp_start kp_end kp_exc] in H.
  apply rbind_Ok in H as (pm1 & H1 & H). apply rbind_Ok in H as (pm2 & H2 & H). apply rbind_Ok in H as (pm3 & H3 & [= ->]).
  apply rbind_Ok in H1 as (p1 & Hp1 & [= <-]). apply rbind_Ok in H2 as (p2 & Hp2 & [= <-]). apply rbind_Ok in H3 as (p3 & Hp3 & [= <-]).
  assert (forall a b x d p, match list_max (map t_e (filter (fun r => part_of bootstrap_known_parts (t_e r) = Some k) (transactions st))) with
      | Some mx => partition_new a b (mx + 1) d | None => partition_new a b x d end = Ok p -> pt_start p = a /\ e < pt_next p) as Hm.
  { intros a b x d p Hp. assert (e ∈ map t_e (filter (fun r => part_of bootstrap_known_parts (t_e r) = Some k) (transactions st))) as He'.
    { apply elem_of_list_fmap. exists r. split; [done|]. apply elem_of_list_filter. by rewrite Hre. }
    apply list_max_ge in He' as (mx & E & Hle). rewrite E in Hp. unfold partition_new in Hp. case_decide; [|done]. injection Hp as <-. simpl. lia. }
  unfold V1_PARTS in Hin. rewrite !elem_of_cons, elem_of_nil in Hin. destruct Hin as [[= -> ->]|[[= -> ->]|[[= -> ->]|[]]]]; simpl in Hrg.
  - apply Hm in Hp1 as [E1 E2]. simpl in E1. exists ":db.part/db", p1. rewrite !lookup_insert_ne, lookup_insert by done. split; [done|]. lia.
  - apply Hm in Hp2 as [E1 E2]. simpl in E1. exists ":db.part/user", p2. rewrite lookup_insert_ne, lookup_insert by done. split; [done|]. lia.
  - apply Hm in Hp3 as [E1 E2]. simpl in E1. exists ":db.part/tx", p3. rewrite lookup_insert. split; [done|]. lia.
Qed.
Lemma allocated_range pm e : parts_ok pm -> allocated pm e -> 0 <= e <= I64_MAX.
Proof.
  intros H (k & p & Hp & Hr). specialize (H k). rewrite Hp in H. destruct (bootstrap_partition_map !! k) as [p0|] eqn:E; [|done].
  apply bootstrap_parts_cases in E. destruct H as (E1 & E2 & E3). unfold V1_PARTS in E. rewrite !elem_of_cons, elem_of_nil in E.
  unfold USER0, TX0, I64_MAX in *. destruct E as [[= -> ->]|[[= -> ->]|[[= -> ->]|[]]]]; simpl in *; lia.
Qed.

Definition kept (c : conn) (e : Z) : Prop := allocated (parts_of c) e /\ logged (disk c) e.
Lemma conn_step_kept mv c o e : conn_ok c -> clean_step mv c o -> never_uninstalled (st_log (disk (conn_step mv c o).1)) ->
  kept c e -> kept (conn_step mv c o).1 e.
Proof.
  intros H0 Hc Hn [Ha Hl]. split; [|destruct (conn_step_log mv c o Hc) as (new & E); by eapply logged_app].
  pose proof H0 as [(n & _ & Hso & _) _ _ _ Hk Hpo].
  destruct o as [now es|l commit|]; simpl in Hn |- *.
  - destruct (conn_transact mv now c es) as [c' r] eqn:E. simpl in *. destruct r as [x| |].
    + apply conn_transact_Ok in E as (y & Et & _ & ->). simpl. by eapply transact_parts.
    + by apply conn_transact_fail in E as ->.
    + by apply conn_transact_fail in E as ->.
  - destruct (ig_steps mv (conn_begin c) l) as [[ig rs]| |] eqn:E; try done.
    destruct commit; [|done]. unfold conn_commit in *. case_decide; [|done]. simpl in *.
    eapply ig_steps_parts in E; [exact E|done|by apply Hc|done|done].
  - destruct (rbind _ _) as [c'| |] eqn:E; try done. apply rbind_Ok in E as ([pm sc] & Hr & [= <-]). simpl in *.
    unfold read_db in Hr. apply rbind_Ok in Hr as (pm1 & Hpm & Hr). apply rbind_Ok in Hr as (im & _ & Hr).
    apply rbind_Ok in Hr as (am & _ & Hr). apply rbind_Ok in Hr as (sc1 & _ & [= -> ->]).
    eapply read_partition_map_logged; [exact Hk|exact Hpm|by eapply allocated_range|]. destruct Hl as (r & Hr & He). exists r. split; [|done].
    apply elem_of_list_filter. split; [|done]. by apply (so_main _ _ _ Hso).
Qed.
Lemma conn_run_kept mv l e : forall c, conn_ok c -> clean_history mv c l -> never_uninstalled (st_log (disk (conn_run mv c l))) ->
  kept c e -> kept (conn_run mv c l) e.
Proof.
  induction l as [|o l IH]; intros c H0 Hc Hn He; cbn [conn_run fold_left clean_history] in *; [done|].
  destruct Hc as [Ho Hc]. assert (never_uninstalled (st_log (disk (conn_step mv c o).1))) as Hn1.
  { destruct (conn_run_log mv l _ Hc) as (new & E). unfold conn_run in E. rewrite E in Hn. by eapply never_uninstalled_app. }
  assert (clean_step mv c o) as Hs by by destruct o. apply IH; [by apply conn_step_ok|done|done|]. by apply conn_step_kept.
Qed.
Lemma clean_run mv c l : clean mv c -> clean_history mv c l -> never_uninstalled (st_log (disk (conn_run mv c l))) -> clean mv (conn_run mv c l).
Proof.
  intros (now & c0 & l0 & Ho & -> & Hc & Hn) Hl Hn'. exists now, c0, (l0 ++ l). unfold conn_run in *. rewrite fold_left_app. split; [exact Ho|]. split; [reflexivity|]. split; [|exact Hn'].
  clear Hn Hn' Ho. revert c0 Hc Hl. induction l0 as [|o l0 IH]; intros c0 Hc Hl; [exact Hl|]. destruct Hc as [Ho Hc]. split; [exact Ho|]. exact (IH _ Hc Hl).
Qed.
Lemma transact_clean mv now c es c' r : clean mv c -> conn_transact mv now c es = (c', Ok r) -> never_uninstalled (st_log (disk c')) -> clean mv c'.
Proof.
  intros Hc H Hn. assert (c' = conn_run mv c [CTransact now es]) as ->; [unfold conn_run; simpl; by rewrite H|]. apply clean_run; [exact Hc|by split|exact Hn].
Qed.
(** The log mentions every entity that has a fact. *)
Lemma fact_logged c e a p : conn_ok c -> (e, a, p) ∈ facts (disk c) -> logged (disk c) e.
Proof.
  intros (n & H)%conn_store_ok Hf. apply (facts_elem _ _ _ _ _ (so_datoms _ _ _ H)) in Hf as (d & at_ & tv & Hd & <- & _).
  destruct (proj1 (so_log _ _ _ H (d_key d) (d_tx d))) as (r & Hr & _); [by exists d|].
  assert (r ∈ rows_of (transactions (disk c)) (d_key d)) as Hin by by apply last_Some_elem_of.
  apply elem_of_list_filter in Hin as [Hk Hin]. apply elem_of_list_filter in Hin as [_ Hin]. exists r. split; [done|].
  unfold t_key, d_key in Hk. by injection Hk.
Qed.

Lemma txs_increase mv now1 now2 c es1 es2 c1 r1 l c3 r2 : clean mv c -> conn_transact mv now1 c es1 = (c1, Ok r1) ->
  clean_history mv c1 l -> conn_transact mv now2 (conn_run mv c1 l) es2 = (c3, Ok r2) -> never_uninstalled (st_log (disk c3)) ->
  rp_tx r1 < rp_tx r2.
Proof.
  intros Hc H1 Hl H2 Hn3.
  assert (exists new, st_log (disk c3) = st_log (disk (conn_run mv c1 l)) ++ new) as (new & E3).
  { apply conn_transact_Ok in H2 as (x & Ht & _). by eapply transact_log. }
  assert (never_uninstalled (st_log (disk (conn_run mv c1 l)))) as Hn2 by (rewrite E3 in Hn3; by eapply never_uninstalled_app).
  assert (never_uninstalled (st_log (disk c1))) as Hn1.
  { destruct (conn_run_log mv l _ Hl) as (nw & E). rewrite E in Hn2. by eapply never_uninstalled_app. }
  pose proof (transact_clean _ _ _ _ _ _ Hc H1 Hn1) as Hc1. pose proof (clean_run _ _ _ Hc1 Hl Hn2) as Hc2.
  destruct (conn_transact_outcome _ _ _ _ _ _ Hc H1 Hn1) as (l1 & ts1 & σ1 & τ1 & rv1 & tr1 & tr1' & O1).
  destruct (conn_transact_outcome _ _ _ _ _ _ Hc2 H2 Hn3) as (l2 & ts2 & σ2 & τ2 & rv2 & tr2 & tr2' & O2).
  assert (kept c1 (rp_tx r1)) as K1.
  { split.
    - destruct (out_resolution _ _ _ _ _ _ _ _ _ _ _ _ O1) as (pm & ids & Hp & R & _ & Hpm). rewrite <- Hpm.
      destruct (rs_fresh _ _ _ _ _ _ _ R) as (p & n & Hu & Hn & Hr & -> & _). apply tx_alloc in Hp as (q & Hq & Etx & Hrg & Hq' & _).
      exists ":db.part/tx". eexists. rewrite lookup_insert_ne by done. split; [exact Hq'|]. simpl.
      destruct (clean_ok _ _ Hc) as [(q0 & Hq0 & _ & ? & _ & ?) _ _ _ _ _]. assert (q0 = q) as -> by congruence. lia.
    - destruct (outcome_instant (clean_ok _ _ Hc) O1) as [Hh|[Hh _]].
      + by eapply fact_logged; [eapply clean_ok|].
      + apply fact_logged in Hh; [|by eapply clean_ok]. destruct (ap_log _ _ _ _ _ _ _ (out_applied _ _ _ _ _ _ _ _ _ _ _ _ O1)) as (nw & E & _).
        by eapply logged_app. }
  apply (conn_run_kept mv l _ _ (clean_ok _ _ Hc1) Hl Hn2) in K1 as [(k & p & Hp & Hr) _].
  destruct (clean_ok _ _ Hc2) as [(q & Hq & _ & Q1 & Q2 & Q3) _ _ _ _ Hpo].
  destruct (out_next _ _ _ _ _ _ _ _ _ _ _ _ O2) as (q2 & Hq2 & ->). assert (q2 = q) as -> by congruence.
  destruct (decide (k = ":db.part/tx")) as [->|Hk]; [assert (p = q) as -> by congruence; lia|].
  destruct (proj2 (parts_ok_wf _ Hpo) k ":db.part/tx" p q Hp Hq Hk) as [?|?];
    [|assert (0 <= rp_tx r1 <= I64_MAX) by (eapply allocated_range; [exact Hpo|by exists k, p]); lia].
  pose proof (proj1 (parts_ok_wf _ Hpo) _ _ Hp). lia.
Qed.

(* ---------------------------------------------------------------- late errors *)

Definition late {A} (r : res A) : Prop := forall e, r = Err e -> e ∈ late_errors.
Lemma late_at {A} (e : dberr) : bool_decide (e ∈ late_errors) = true -> late (@Err A e).
Proof. intros H%bool_decide_eq_true e' [= <-]. done. Qed.
Ltac late := try done; apply late_at; vm_compute; reflexivity.
Lemma late_bind {A B} (m : res A) (f : A -> res B) : late m -> (forall x, m = Ok x -> late (f x)) -> late (rbind m f).
Proof. intros Hm Hf e H. destruct m as [x| |]; simpl in H; [by eapply Hf|apply Hm; congruence|done]. Qed.
Lemma late_fold {A B} (f : A -> B -> res A) l : forall a, (forall a b, late (f a b)) -> late (rfold f a l).
Proof. induction l as [|b l IH]; intros a H; cbn [rfold]; [done|]. apply late_bind; auto. Qed.
Lemma rmapM_Err {A B} (f : A -> res B) l e : rmapM f l = Err e -> exists x, x ∈ l /\ f x = Err e.
Proof.
  induction l as [|x l IH]; simpl; [done|]. destruct (f x) as [y|e'|] eqn:E; simpl; [|intros [= ->]; exists x; split; [left|done]|done].
  destruct (rmapM f l) as [ys| |]; simpl; [done| |done]. intros [= ->]. destruct IH as (z & ? & ?); [done|]. exists z. split; [by right|done].
Qed.
Lemma late_mapM {A B} (f : A -> res B) l : (forall b, late (f b)) -> late (rmapM f l).
Proof. intros H e He. apply rmapM_Err in He as (x & _ & Hx). by eapply H. Qed.
Lemma with_st_Err {A B} (x : store * res A) (k : store -> A -> store * res B) st e : with_st x k = (st, Err e) ->
  x = (st, Err e) \/ exists st' a, x = (st', Ok a) /\ k st' a = (st, Err e).
Proof. destruct x as [st' [a| |]]; simpl; [eauto| |done]. by intros [= -> ->]; left. Qed.

Lemma fts_insert_late mv ok st tbl es st' e : insert_fts_searches mv ok st tbl es = (st', Err e) -> e ∈ late_errors.
Proof.
  unfold insert_fts_searches. destruct (rmapM r_string es) as [ss| |q] eqn:Es; [| |done].
  - destruct (chunk_ok _ _ _); [|done]. destruct (fts_chunks_ok _ _); [|done]. destruct (ok _); [done|]. intros [= _ <-]. unfold late_errors. set_solver.
  - intros [= _ <-]. apply rmapM_Err in Es as (r & _ & Hr). unfold r_string in Hr. destruct (r_v r); simplify_eq; unfold late_errors; set_solver.
Qed.
Lemma fill_late mv st l st' e : fill_searches mv st l = (st', Err e) -> st' = st \/ e ∈ late_errors.
Proof.
  unfold fill_searches. intros [H|(st1 & inx & Ha & H)]%with_st_Err; [injection H as <- _; by left|]. injection Ha as <- _.
  apply with_st_Err in H as [H|(st2 & ex & Ha & H)]; [injection H as <- _; by left|]. injection Ha as <- _. right.
  apply with_st_Err in H as [H|(st3 & inx2 & _ & H)]; [destruct (is_nil _); [done|by eapply fts_insert_late]|].
  apply with_st_Err in H as [H|(st4 & ex2 & _ & H)]; [destruct (is_nil _); [done|by eapply fts_insert_late]|]. done.
Qed.
Lemma materialize_late act st tx ex inx st' e : materialize act st tx ex inx = (st', Err e) -> e ∈ late_errors.
Proof.
  unfold materialize, search. destruct (bool_decide _).
  - intros [H|(st1 & u & _ & H)]%with_st_Err; [|by destruct act]. unfold update_datoms in H. destruct (datoms_unique _); [done|].
    injection H as _ <-. unfold late_errors. set_solver.
  - intros [= _ <-]. unfold late_errors. set_solver.
Qed.
Lemma from_sql_late v tag : late (from_sql_value_pair v tag).
Proof.
  unfold from_sql_value_pair. destruct v; repeat case_decide; try late. unfold rmap. apply late_bind; [|done].
  unfold to_namespaced_keyword. destruct (split_seps s) as [|[|] [|ns [|n [|]]]]; try late.
  unfold kw_new. destruct n; [late|]. destruct ns; late.
Qed.
Ltac splits :=
  repeat match goal with
         | |- late (rbind _ _) => apply late_bind; [|intros ? _]
         | |- late (rfold _ _ _) => apply late_fold; intros ? ?
         | |- late (match ?x with _ => _ end) => destruct x
         | |- late (Ok _) => done
         | |- late (Panic _) => done
         | |- late (Err _) => late
         | |- late (let x := _ in _) => cbv zeta
         | |- late ((match ?x with _ => _ end) _) => destruct x
         end.
Lemma schema_late s quads : late (update_schema_from_entid_quadruples s quads).
Proof.
  unfold update_schema_from_entid_quadruples, update_attribute_map_from_schema_retractions, update_attribute_map_from_entid_triples,
    witness_quad, retract_one, assert_one, assert_builder, apply_builder, validate_alter, validate_install, attribute_validate. splits.
Qed.
Lemma apply_alterations_late e at_ alts : forall st st' x, apply_alterations e at_ st alts = (st', Err x) -> x ∈ late_errors.
Proof.
  induction alts as [|alt alts IH]; intros st st' x H; cbn [apply_alterations] in H; [done|].
  destruct (apply_alteration e at_ st alt) as [st1 [u| |q]] eqn:E; [by eapply IH| |done]. injection H as _ <-.
  unfold apply_alteration in E. destruct alt; try done.
  - destruct (datoms_unique _); [done|]. destruct (at_unique at_); simplify_eq. unfold late_errors. set_solver.
  - destruct (at_multival at_); simplify_eq. unfold late_errors. set_solver.
Qed.
Lemma apply_altered_late sc l : forall st st' x, apply_altered sc st l = (st', Err x) -> x ∈ late_errors.
Proof.
  induction l as [|[e alts] l IH]; intros st st' x H; cbn [apply_altered] in H; [done|].
  unfold require_attribute, ok_or in H. destruct (_ !! e) as [at_|].
  - destruct (apply_alterations e at_ st alts) as [st1 [u| |q]] eqn:E; [by eapply IH| |done]. injection H as _ <-. by eapply apply_alterations_late.
  - injection H as _ <-. unfold late_errors. set_solver.
Qed.
Lemma evolve_late act st s tx rs st' e : evolve_metadata act st s tx rs = (st', Err e) -> e ∈ late_errors.
Proof.
  unfold evolve_metadata. intros H.
  assert (late (let! q := match act with Materialize => resolved_metadata_assertions rs | MaterializeAndCommit => committed_metadata_assertions st tx end in
           update_schema_from_entid_quadruples s q)) as Hl.
  { apply late_bind; [|intros; apply schema_late].
    destruct act; apply late_mapM; intros [[[[a b] c] d] f]; simpl; apply late_bind; [apply from_sql_late|done|apply from_sql_late|done]. }
  destruct (rbind _ _) as [[ns rep]| |]; [|injection H as _ <-; by apply Hl|done].
  case_decide; [done|]. apply with_st_Err in H as [H|(st4 & u & _ & H)]; [|done]. by eapply apply_altered_late.
Qed.
Lemma apply_trie_late mv now act st smut s tx tr st' e : apply_trie mv now act st smut s tx tr = (st', Err e) -> st' = st \/ e ∈ late_errors.
Proof.
  unfold apply_trie. destruct (negb _); [by intros [= <- _]; left|]. destruct (negb _); [by intros [= <- _]; left|].
  destruct (get_or_insert_tx_instant _ _ _ _) as [[i tr']| |]; [|by intros [= <- _]; left|done].
  intros [H|(st1 & [ex inx] & _ & H)]%with_st_Err; [by eapply fill_late|]. right.
  apply with_st_Err in H as [H|(st2 & rs & _ & H)]; [by eapply materialize_late|].
  apply with_st_Err in H as [H|(st3 & sc & _ & H)]; [|done]. destruct (existsb _ _); [|done]. by eapply evolve_late.
Qed.
Lemma simple_late mv now act st pm smut s tx ts ids st' e : transact_simple_terms mv now act st pm smut s tx ts ids = (st', Err e) ->
  st' = st \/ e ∈ late_errors.
Proof.
  unfold transact_simple_terms. destruct (resolve_terms _ _ _ _ _ _) as [rv| |]; [|by intros [= <- _]; left|done].
  destruct (into_aev_trie _ _ _ _) as [tr| |]; [|by intros [= <- _]; left|done].
  intros [H|(st1 & [[i sc] ev] & _ & H)]%with_st_Err; [by eapply apply_trie_late|done].
Qed.
Lemma transact_late mv now st pm smut s es st' e : transact mv now st pm smut s es = (st', Err e) -> st' = st \/ e ∈ late_errors.
Proof.
  unfold transact. destruct (pm_allocate _ _ _) as [[tx pm1]| |]; [|by intros [= <- _]; left|done].
  destruct (entities_to_terms _ _ _ _ _ _) as [[ts ids]| |]; [|by intros [= <- _]; left|done]. apply simple_late.
Qed.
Lemma ig_transact_late mv now ig es ig' e : ig_transact mv now ig es = (ig', Err e) -> e ∉ late_errors ->
  ig_store ig' = ig_store ig /\ ig_parts ig' = ig_parts ig /\ ig_schema ig' = ig_schema ig /\ ig_gen ig' = ig_gen ig.
Proof.
  unfold ig_transact, ig_transacted. intros H Hl.
  destruct (ig_watch_same ig (watch_transact mv now (ig_store ig) (ig_parts ig) (ig_schema ig) es)) as (W1 & W2 & W3 & W4).
  destruct (transact _ _ _ _ _ _ _) as [st' [x| |]] eqn:Et; simplify_eq/=. apply transact_late in Et as [-> |?]; [|done].
  by rewrite W2, W3, W4.
Qed.

(** C39: observers are told exactly what they registered for. *)
From Verif Require Import M_Observer Spec_Tx Spec_Conn Spec_Transact Spec_Observer P_Observer P_TxThms Cases.

(** What a commit hands to the observer service: the transactions of the session, in order, each with attributes among which are all
    those of the rows that it added to the log. *)
Theorem C39_handed_over : forall mv c o n txes c', clean mv c -> succeeds mv c o n -> conn_step mv c o = (c', Ok tt) ->
  conn_handed mv c o = Some txes -> never_uninstalled (st_log (disk c')) ->
  exists p new, parts_of c !! ":db.part/tx" = Some p /\ txes.*1 = seqZ (pt_next p) (Z.of_nat n) /\ st_log (disk c') = st_log (disk c) ++ new
    /\ (forall row, row ∈ new -> exists attrs, (t_tx row, attrs) ∈ txes /\ t_a row ∈ attrs)
    /\ (forall tx attrs, (tx, attrs) ∈ txes -> DB_TX_INSTANT ∈ attrs).
Proof. exact thm_handed. Qed.
Print Assumptions C39_handed_over.
Definition birthdays : list ip_op :=
  [ OpTransact 4000 [add (ent 65543) (person "age") (v_int 31)]; OpSavepoint "s"; OpTransact 5000 [add (ent 65544) (person "nick") (v_str "Petya")] ].
Definition steps_ok (mv : Z) (c : conn) (l : list ip_op) : bool :=
  match ig_steps mv (conn_begin c) l with Ok (_, rs) => forallb is_ok rs | _ => false end.
Lemma steps_ok_sound mv c l : steps_ok mv c l = true -> exists ig rs, ig_steps mv (conn_begin c) l = Ok (ig, rs) /\ Forall (eq (Ok tt)) rs.
Proof.
  unfold steps_ok. destruct (ig_steps _ _ _) as [[ig rs]| |]; try done. intros H. exists ig, rs. split; [done|].
  rewrite forallb_forall in H. apply Forall_forall. intros [[]| |] Hx%elem_of_list_In; [done| |]; by apply H in Hx.
Qed.
Definition handed_list (mv : Z) (c : conn) (o : conn_op) : option (list (Z * list Z)) := map (fun x => (x.1, merge_sort Z.le (elements x.2))) <$> conn_handed mv c o.
Example C39_handed_over_case : clean MV case_conn /\ succeeds MV case_conn (CSession birthdays true) 2
  /\ is_ok (conn_step MV case_conn (CSession birthdays true)).2 = true
  /\ handed_list MV case_conn (CSession birthdays true) = Some [(268435459, [3; 65536]); (268435460, [3; 65539])]
  /\ no_uninstall (st_log (disk (conn_step MV case_conn (CSession birthdays true)).1)) = true.
Proof.
  split; [exact case_clean|]. split.
  { split; [reflexivity|]. split; [intros s H; repeat (apply elem_of_cons in H as [H|H]; [discriminate H|]); by apply elem_of_nil in H|].
    apply steps_ok_sound. vm_compute. reflexivity. }
  split_and!; vm_compute; reflexivity.
Qed.

(** A call hands something over exactly if it succeeds and commits. *)
Theorem C39_handed_when : forall mv c o, (exists txes, conn_handed mv c o = Some txes) <-> committing o /\ (conn_step mv c o).2 = Ok tt.
Proof. exact thm_handed_when. Qed.
Print Assumptions C39_handed_when.
Example C39_handed_when_case : is_some (conn_handed MV case_conn (CSession birthdays true)) = true /\ is_some (conn_handed MV case_conn (CSession birthdays false)) = false
  /\ is_some (conn_handed MV case_conn (CTransact 4000 [add (ent 65544) (person "name") (v_str "Ivan")])) = false.
Proof. split_and!; vm_compute; reflexivity. Qed.

(** The attributes of a single transact: none but those it mentions, all of those it mentions except in assertions about upserted
    entities, and all that it changes. *)
Theorem C39_attributes : forall mv now c es c' r, accepted mv now c es c' r -> exists l ts σ attrs, understood c es r l ts σ
  /\ conn_handed mv c (CTransact now es) = Some [(rp_tx r, attrs)]
  /\ (forall a, a ∈ attrs -> a = DB_TX_INSTANT \/ exists o e v, asks ts σ o e a v)
  /\ (forall t, t ∈ ts -> tm_a t ∈ attrs \/ upserting c ts σ t)
  /\ (forall b e a p, changed (disk c) (disk c') b (e, a, p) -> a ∈ attrs).
Proof. exact thm_attributes. Qed.
Print Assumptions C39_attributes.
Definition rejuvenate : list entity :=
  [add (ent 65543) (person "age") (v_int 29); add (ent 65544) (person "nick") (v_str "Petya"); add (ent 65543) (person "name") (v_str "Ivan")].
Example C39_attributes_case : accepted MV 4000 case_conn rejuvenate (after case_conn rejuvenate) (report case_conn rejuvenate)
  /\ handed_list MV case_conn (CTransact 4000 rejuvenate) = Some [(268435459, [3; 65536; 65539; 65541])].
Proof. split; [apply accepts; [exact case_clean|vm_compute; reflexivity]|vm_compute; reflexivity]. Qed.

(** Whenever observers register and deregister and whenever the worker runs: the calls made are, for each commit in order, the right
    ones for the observers registered at that time, or none. *)
Theorem C39_calls : forall l, exists css,
  Forall2 (fun x cs => calls_for x.1 x.2 cs \/ cs = []) (commits ∅ l) css /\ sv_calls (sv_run l) = concat css.
Proof. exact thm_calls. Qed.
Print Assumptions C39_calls.
(** If nobody registers or deregisters while a commit waits for the worker, no calls are missing. *)
Theorem C39_all_calls : forall l, undisturbed 0 ∅ l -> exists css,
  Forall2 (fun x cs => calls_for x.1 x.2 cs) (commits ∅ l) css /\ sv_calls (sv_run l) = concat css.
Proof. exact thm_all_calls. Qed.
Print Assumptions C39_all_calls.
Definition two_observers : list sv_op :=
  [ SvRegister "a" (Observer 1 {[7; 8]}); SvRegister "b" (Observer 2 {[9]}); SvCommit [(1, {[7]}); (2, {[5]}); (3, {[8; 9]})];
    SvCommit [(4, {[9]})]; SvWork; SvWork; SvDeregister "a"; SvCommit [(5, {[7; 9]})]; SvWork ].
Example C39_all_calls_case : undisturbed 0 ∅ two_observers
  /\ map (fun x => (x.1, x.2.*1)) (sv_calls (sv_run two_observers)) = [(1%nat, "a", [1; 3]); (2%nat, "b", [3]); (2%nat, "b", [4]); (2%nat, "b", [5])].
Proof. split; [cbn [undisturbed two_observers]; repeat (first [split|rewrite decide_False by (intros H; discriminate (f_equal size H))]); done|vm_compute; reflexivity]. Qed.
(** Otherwise an observer can miss a commit though it stays registered. *)
Theorem C39_lost_refuted : exists l o txes,
  l = [SvRegister "a" o; SvRegister "b" (Observer 2 ∅); SvCommit txes; SvDeregister "b"; SvWork]
  /\ Exists (interested o) txes /\ registered l !! "a" = Some o /\ sv_queue (sv_run l) = [] /\ sv_calls (sv_run l) = [].
Proof.
  exists [SvRegister "a" (Observer 1 {[7]}); SvRegister "b" (Observer 2 ∅); SvCommit [(1, {[7]})]; SvDeregister "b"; SvWork], (Observer 1 {[7]}), [(1, {[7]})].
  split; [reflexivity|]. split; [left; exists 7; split; simpl; set_solver|]. split_and!; vm_compute; reflexivity.
Qed.
Print Assumptions C39_lost_refuted.
(** A session that goes back to a savepoint hands over the transaction that it took back. *)
Definition taken_back : list ip_op := [OpSavepoint "s"; OpTransact 4000 [add (ent 65543) (person "age") (v_int 31)]; OpRollbackTo "s"].
Theorem C39_rolled_back_refuted : exists c l tx a, clean MV c /\ handed_list MV c (CSession l true) = Some [(tx, [3; a])]
  /\ l = [OpSavepoint "s"; OpTransact 4000 [add (ent 65543) (person "age") (v_int 31)]; OpRollbackTo "s"]
  /\ is_ok (conn_step MV c (CSession l true)).2 = true
  /\ bool_decide (st_log (disk (conn_step MV c (CSession l true)).1) = st_log (disk c)) = true.
Proof. exists case_conn, taken_back, 268435459, 65536. split; [exact case_clean|]. split_and!; vm_compute; reflexivity. Qed.
Print Assumptions C39_rolled_back_refuted.
(** The attributes of a transact that failed are handed over as those of the next transaction. *)
Definition after_failure : list ip_op :=
  [OpTransact 4000 [add (ent 65544) (person "name") (v_str "Ivan")]; OpTransact 5000 [add (ent 65543) (person "age") (v_int 31)]].
Theorem C39_failed_refuted : exists c l tx, clean MV c
  /\ l = [OpTransact 4000 [add (ent 65544) (person "name") (v_str "Ivan")]; OpTransact 5000 [add (ent 65543) (person "age") (v_int 31)]]
  /\ handed_list MV c (CSession l true) = Some [(tx, [3; 65536; 65541])]
  /\ map t_a (filter (fun r => t_tx r = tx) (st_log (disk (conn_step MV c (CSession l true)).1))) = [65536; 3; 65536].
Proof. exists case_conn, after_failure, 268435459. split; [exact case_clean|]. split_and!; vm_compute; reflexivity. Qed.
Print Assumptions C39_failed_refuted.

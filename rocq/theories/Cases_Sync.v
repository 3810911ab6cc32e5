(** Files that sync, for the examples. *)
From Verif Require Import M_Sync Spec_Tx Spec_Conn Spec_Transact Spec_Sync Cases Cases_Query.

(* ---------------------------------------------------------------- deciding the conditions *)

Definition row_sendable (r : txrow) : bool :=
  negb (bool_decide (t_a r = DB_TX_INSTANT) && negb (bool_decide (t_e r = t_tx r)))
  && (bool_decide (t_e r < TX0) || bool_decide (t_e r <= t_tx r))
  && (bool_decide (t_tx r <= TX0)
      || match from_sql_value_pair (t_v r) (t_tag r) with Ok v => bool_decide (to_sql_value_pair v = (t_v r, t_tag r)) | _ => true end).
Lemma sendable_dec l : no_uninstall l && forallb row_sendable l = true -> sendable l.
Proof.
  intros [H1 H2]%andb_true_iff. rewrite forallb_forall in H2. split.
  - by apply no_uninstall_sound.
  - intros r Hr%elem_of_list_In Ha. specialize (H2 r Hr). unfold row_sendable in H2. apply andb_true_iff in H2 as [H2 _]. apply andb_true_iff in H2 as [H2 _].
    rewrite (bool_decide_eq_true_2 _ Ha) in H2. cbn [andb] in H2. rewrite negb_involutive in H2. by apply bool_decide_eq_true in H2.
  - intros r Hr%elem_of_list_In Ha. specialize (H2 r Hr). unfold row_sendable in H2. apply andb_true_iff in H2 as [H2 _]. apply andb_true_iff in H2 as [_ H2].
    apply orb_true_iff in H2 as [H2|H2]; apply bool_decide_eq_true in H2; [lia|done].
  - intros r v Hr%elem_of_list_In Ha Hv. specialize (H2 r Hr). unfold row_sendable in H2. apply andb_true_iff in H2 as [_ H2].
    apply orb_true_iff in H2 as [H2|H2]; [apply bool_decide_eq_true in H2; lia|]. rewrite Hv in H2. by apply bool_decide_eq_true in H2.
Qed.
Definition no_reopen (l : list conn_op) : bool := forallb (fun o => match o with CReopen => false | _ => true end) l.
Lemma no_reopen_same mv l : forall c, no_reopen l = true -> reopens_same mv c l.
Proof. induction l as [|o l IH]; intros c H; [done|]. apply andb_true_iff in H as [Ho H]. split; [by destruct o|]. by apply IH. Qed.

Definition synced_ok {S} (x : (peer * S * nat) * sres sync_report) : bool := match x.2 with SOk _ => true | _ => false end.
Lemma synced_is {S} (x : (peer * S * nat) * sres sync_report) : synced_ok x = true -> exists rep, x = ((x.1.1.1, x.1.1.2, x.1.2), SOk rep).
Proof. destruct x as [[[p s] n] [rep| |]]; intros H; try discriminate H. exists rep. reflexivity. Qed.

(* ---------------------------------------------------------------- data *)

Definition uuid_of (n : nat) : N := N.of_nat (Datatypes.S n).
Lemma uuid_of_fresh : uuids_fresh uuid_of.
Proof. unfold uuids_fresh, uuid_of. split; lia. Qed.
Definition at_time (now : Z) : world := World MV now sq0 uuid_of.
Definition sync_schema : list entity :=
  install "n" (person "name") "string" "one" identity_index ++ install "a" (person "age") "long" "one" [] ++ install "f" (person "friend") "ref" "many" [].
Definition sync_people : list entity :=
  [ add (tmp "i") (person "name") (v_str "Ivan"); add (tmp "i") (person "age") (v_int 30);
    add (tmp "p") (person "name") (v_str "Petr"); add (tmp "p") (person "friend") (v_str "i"); add (tmp "p") (person "age") (v_int 40) ].
Definition sync_work : list conn_op := [CTransact 2000 sync_schema; CTransact 3000 sync_people].
Definition sync_more : list conn_op := [CTransact 7000 [retract (ent 65540) (person "friend") (v_int 65539); add (ent 65539) (person "age") (v_int 31)]].

(** Anna creates a file, works on it and uploads it; Boris creates another one and syncs; Anna works and syncs; Boris syncs. *)
Definition anna_conn : conn := conn_of (conn_open MV 1000 None).
Notation anna0 := (newcomer anna_conn).
Definition sync1 := peer_sync (at_time 4000) test_remote (worked MV sync_work anna0) remote_empty 0.
Definition boris_conn : conn := conn_of (conn_open MV 5000 None).
Notation boris0 := (newcomer boris_conn).
Definition sync2 := peer_sync (at_time 6000) test_remote boris0 sync1.1.1.2 sync1.1.2.
Definition sync3 := peer_sync (at_time 8000) test_remote (worked MV sync_more sync1.1.1.1) sync2.1.1.2 sync2.1.2.
Definition sync4 := peer_sync (at_time 9000) test_remote sync2.1.1.1 sync3.1.1.2 sync3.1.2.

Lemma sync1_ok : synced_ok sync1 = true. Proof. vm_compute. reflexivity. Qed.
Lemma sync2_ok : synced_ok sync2 = true. Proof. vm_compute. reflexivity. Qed.
Lemma sync3_ok : synced_ok sync3 = true. Proof. vm_compute. reflexivity. Qed.
Lemma sync4_ok : synced_ok sync4 = true. Proof. vm_compute. reflexivity. Qed.
Lemma sync1_eq : sync1 = peer_sync (at_time 4000) test_remote (worked MV sync_work anna0) remote_empty 0.
Proof. reflexivity. Qed.
Lemma sync1_is : exists rep, peer_sync (at_time 4000) test_remote (worked MV sync_work anna0) remote_empty 0 = ((sync1.1.1.1, sync1.1.1.2, sync1.1.2), SOk rep).
Proof. rewrite <- sync1_eq. apply synced_is, sync1_ok. Qed.
Lemma sync2_eq : sync2 = peer_sync (at_time 6000) test_remote boris0 sync1.1.1.2 sync1.1.2.
Proof. reflexivity. Qed.
Lemma sync2_is : exists rep, peer_sync (at_time 6000) test_remote boris0 sync1.1.1.2 sync1.1.2 = ((sync2.1.1.1, sync2.1.1.2, sync2.1.2), SOk rep).
Proof. rewrite <- sync2_eq. apply synced_is, sync2_ok. Qed.
Lemma sync3_eq : sync3 = peer_sync (at_time 8000) test_remote (worked MV sync_more sync1.1.1.1) sync2.1.1.2 sync2.1.2.
Proof. reflexivity. Qed.
Lemma sync3_is : exists rep, peer_sync (at_time 8000) test_remote (worked MV sync_more sync1.1.1.1) sync2.1.1.2 sync2.1.2 = ((sync3.1.1.1, sync3.1.1.2, sync3.1.2), SOk rep).
Proof. rewrite <- sync3_eq. apply synced_is, sync3_ok. Qed.
Lemma sync4_eq : sync4 = peer_sync (at_time 9000) test_remote sync2.1.1.1 sync3.1.1.2 sync3.1.2.
Proof. reflexivity. Qed.
Lemma sync4_is : exists rep, peer_sync (at_time 9000) test_remote sync2.1.1.1 sync3.1.1.2 sync3.1.2 = ((sync4.1.1.1, sync4.1.1.2, sync4.1.2), SOk rep).
Proof. rewrite <- sync4_eq. apply synced_is, sync4_ok. Qed.




(** Is [h'] after [h]?  Not if there is a set of uuids that is closed under parents, has [h'] and does not have [h]. *)
Lemma descends_not l h h' (P : N -> bool) : forallb (fun en => negb (P (en_uuid en)) || P (en_parent en)) l = true -> P h' = true -> P h = false -> ~ descends l h h'.
Proof.
  intros H H1 H2 D. assert (P h = true); [|congruence]. clear H2. revert H1. induction D as [|en He _ IH]; intros H1; [done|]. apply IH.
  rewrite forallb_forall in H. specialize (H en (proj1 (elem_of_list_In _ _) He)). by rewrite H1 in H.
Qed.

(** The test remote, when [f] happens to it just before the first chunk arrives *)
Definition meanwhile (f : remote -> remote) : server (remote * bool) := Server
  (fun s : remote * bool => sv_head test_remote s.1)
  (fun (s : remote * bool) u => sv_after test_remote s.1 u)
  (fun (s : remote * bool) u => let '(s1, r) := sv_set_head test_remote s.1 u in ((s1, s.2), r))
  (fun (s : remote * bool) u p cs => let '(s1, r) := sv_put_tx test_remote s.1 u p cs in ((s1, s.2), r))
  (fun (s : remote * bool) u p => let '(s1, r) := sv_put_chunk test_remote (if s.2 then f s.1 else s.1) u p in ((s1, false), r)).

(** The facts about people *)
Definition sync_people_of (p : peer) : list fact := filter (fun f : fact => bool_decide (65538 < f.1.1 < 268435456) = true) (facts (disk (pe_conn p))).

(** The transactions of the example *)
Definition older (p : peer) : peer := worked MV [CTransact 7000 [add (ent 65539) (person "age") (v_int 31)]] p.
Definition fatter (p : peer) : peer := worked MV [CTransact 7500 [add (ent 65540) (person "age") (v_int 41)]] p.

Lemma new_file_open now : is_ok (conn_open MV now None) = true -> conn_open MV now None = Ok (conn_of (conn_open MV now None)).
Proof. generalize (conn_open MV now None). by intros [c| |]. Qed.
Lemma anna_conn_eq : anna_conn = conn_of (conn_open MV 1000 None).
Proof. reflexivity. Qed.
Lemma boris_conn_eq : boris_conn = conn_of (conn_open MV 5000 None).
Proof. reflexivity. Qed.
Lemma anna_open : conn_open MV 1000 None = Ok anna_conn.
Proof. rewrite anna_conn_eq. apply new_file_open. vm_compute. reflexivity. Qed.
Lemma boris_open : conn_open MV 5000 None = Ok boris_conn.
Proof. rewrite boris_conn_eq. apply new_file_open. vm_compute. reflexivity. Qed.
Lemma work_ok mv l c : only_transacts l = true -> no_uninstall (st_log (disk (conn_run mv c l))) && forallb row_sendable (st_log (disk (conn_run mv c l))) = true ->
  clean_history mv c l /\ reopens_same mv c l /\ sendable (st_log (disk (conn_run mv c l))).
Proof.
  intros H1 H2. split; [by apply only_transacts_clean|]. split; [|by apply sendable_dec]. apply no_reopen_same. clear H2. revert H1. induction l as [|[] l IH]; intros H; try discriminate H; [done|].
  apply IH. exact H.
Qed.

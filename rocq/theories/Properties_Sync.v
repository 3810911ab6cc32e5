(** Synchronization with a remote.  C48: what one sync does.  C49: files that share a remote log are replicas. *)
From Verif Require Import M_Sync Spec_Tx Spec_Conn Spec_Transact Spec_Sync P_SyncTable P_SyncTop Cases Cases_Query Cases_Sync.

(* ---------------------------------------------------------------- C48 *)

(** A sync changes the remote only when the remote is empty, or when its head is the one last seen and the file has transactions that
    were not synced; it then leaves the file as it is.  This holds for every remote, and also when the sync fails. *)
Theorem C48_uploads {S} (w : world) (sv : server S) p s n p' s' n' r :
  peer_sync w sv p s n = ((p', s', n'), r) -> s' <> s ->
  disk (pe_conn p') = disk (pe_conn p)
  /\ exists h, sv_head sv s = SOk h /\ (h = 0%N \/ h = pe_known p /\ unsynced (disk (pe_conn p)) (pe_tu p)).
Proof. exact (peer_uploads w sv p s n p' s' n' r). Qed.
Print Assumptions C48_uploads.
Example C48_uploads_case : sync3.2 = SOk RRemoteFastForward /\ length (rm_log sync2.1.1.2) = 3%nat /\ length (rm_log sync3.1.1.2) = 4%nat
  /\ rm_head sync2.1.1.2 = pe_known sync1.1.1.1 /\ rm_head sync2.1.1.2 <> 0%N.
Proof. split_and!; vm_compute; done. Qed.

(** It changes the file only when the head of the remote is not the one last seen; it then leaves the remote as it is. *)
Theorem C48_downloads {S} (w : world) (sv : server S) p s n p' s' n' r :
  peer_sync w sv p s n = ((p', s', n'), r) -> disk (pe_conn p') <> disk (pe_conn p) ->
  s' = s /\ exists h, sv_head sv s = SOk h /\ h <> 0%N /\ h <> pe_known p.
Proof. exact (peer_local w sv p s n p' s' n' r). Qed.
Print Assumptions C48_downloads.
Example C48_downloads_case : sync4.2 = SOk RLocalFastForward /\ sync_people_of sync2.1.1.1 <> sync_people_of sync4.1.1.1
  /\ pe_known sync2.1.1.1 = 110%N /\ rm_head sync3.1.1.2 = 117%N.
Proof. split_and!; vm_compute; done. Qed.

(** Transactions of the file are kept as they are, and new ones only follow them, unless both sides have something new: the head of the
    remote is not the one last seen, and the file has transactions that were not synced, or was used before its first sync. *)
Theorem C48_merges {S} (w : world) (sv : server S) p s n p' s' n' r :
  peer_sync w sv p s n = ((p', s', n'), r) ->
  (exists new, st_log (disk (pe_conn p')) = st_log (disk (pe_conn p)) ++ new)
  \/ exists h, sv_head sv s = SOk h /\ h <> 0%N /\ h <> pe_known p
     /\ (unsynced (disk (pe_conn p)) (pe_tu p) \/ pe_known p = 0%N /\ used (disk (pe_conn p))).
Proof. exact (peer_merges w sv p s n p' s' n' r). Qed.
Print Assumptions C48_merges.
(** Anna and Boris both have something new. *)
Definition boris_work : list conn_op :=
  [CTransact 7000 [add (tmp "m") (person "name") (v_str "Maria"); add (tmp "o") (person "name") (v_str "Olga"); add (tmp "o") (person "friend") (v_str "m")]].
Definition anna_work : list conn_op := [CTransact 7500 [add (tmp "k") (person "name") (v_str "Katya"); add (tmp "l") (person "name") (v_str "Lena")]].
Definition both_anna := peer_sync (at_time 8000) test_remote (worked MV anna_work sync1.1.1.1) sync2.1.1.2 sync2.1.2.
Definition both_boris := peer_sync (at_time 9000) test_remote (worked MV boris_work sync2.1.1.1) both_anna.1.1.2 both_anna.1.2.
Definition names_in (timeline : Z) (p : peer) : list sqlval :=
  map t_v (filter (fun r => bool_decide (t_a r = 65538 /\ t_timeline r = timeline) = true) (st_log (disk (pe_conn p)))).
Example C48_merges_case : both_boris.2 = SOk (RMerge FFullSync)
  /\ names_in 0 (worked MV boris_work sync2.1.1.1) = [SText "Petr"; SText "Ivan"; SText "Olga"; SText "Maria"]
  /\ names_in 0 both_boris.1.1.1 = [SText "Petr"; SText "Ivan"; SText "Lena"; SText "Katya"; SText "Olga"; SText "Maria"].
Proof. split_and!; vm_compute; reflexivity. Qed.

(** When the head of the remote is the one last seen and the latest transaction was synced, nothing happens. *)
Theorem C48_nothing {S} (w : world) (sv : server S) p s n tx u :
  sv_head sv s = SOk (pe_known p) -> pe_known p <> 0%N -> latest (disk (pe_conn p)) tx -> pe_tu p !! tx = Some u ->
  exists p', peer_sync w sv p s n = ((p', s, n), SOk RNoChanges)
    /\ disk (pe_conn p') = disk (pe_conn p) /\ pe_known p' = pe_known p /\ pe_tu p' = pe_tu p.
Proof. exact (peer_nothing w sv p s n tx u). Qed.
Print Assumptions C48_nothing.
Example C48_nothing_case : sv_head test_remote sync4.1.1.2 = SOk (pe_known sync4.1.1.1) /\ pe_tu sync4.1.1.1 !! 268435459 = Some 117%N
  /\ (peer_sync (at_time 10000) test_remote sync4.1.1.1 sync4.1.1.2 sync4.1.2).2 = SOk RNoChanges.
Proof. split_and!; vm_compute; reflexivity. Qed.

(** Whatever clients do with a remote, one after the other, whether they succeed or fail, its transactions remain, and its head at the
    end descends from its head at the beginning. *)
Theorem C48_history s s' : later s s' ->
  (exists es, rm_log s' = rm_log s ++ es) /\ descends (rm_log s') (rm_head s) (rm_head s').
Proof. exact (later_history s s'). Qed.
Print Assumptions C48_history.
Example C48_history_case : later remote_empty sync4.1.1.2 /\ map en_uuid (rm_log sync4.1.1.2) = [1; 97; 110; 117]%N /\ rm_head sync4.1.1.2 = 117%N.
Proof.
  split; [|split; vm_compute; reflexivity].
  destruct sync1_is as [r1 E1], sync2_is as [r2 E2], sync3_is as [r3 E3], sync4_is as [r4 E4].
  eapply later_sync; [|exact E4]. eapply later_sync; [|exact E3]. eapply later_sync; [|exact E2]. eapply later_sync; [|exact E1]. apply later_refl.
Qed.

(** That is false when one sync happens during another one: both see the same head, and the second sets the head though it is no longer
    the one it saw.  The transaction of the first is not among the ancestors of the new head.  Anna makes Ivan 31, Boris makes Petr 41;
    both then sync again, have seen the same head, and disagree for ever about Ivan. *)
Definition other_time (now : Z) : world := World MV now sq0 (fun n => N.of_nat (500 + n)).
Definition race_anna (s : remote) := peer_sync (at_time 8000) test_remote (older sync1.1.1.1) s sync2.1.2.
Definition race_boris := peer_sync (other_time 8000) (meanwhile (fun s => (race_anna s).1.1.2)) (fatter sync2.1.1.1) (sync2.1.1.2, true) sync2.1.2.
Definition raced : remote := race_boris.1.1.2.1.
Definition race_anna2 := peer_sync (at_time 9000) test_remote (race_anna sync2.1.1.2).1.1.1 raced 900.
Definition race_boris2 := peer_sync (at_time 9000) test_remote race_boris.1.1.1 raced 900.
Theorem C48_race_refuted :
  (race_anna sync2.1.1.2).2 = SOk RRemoteFastForward /\ race_boris.2 = SOk RRemoteFastForward
  /\ rm_head (race_anna sync2.1.1.2).1.1.2 = 117%N /\ ~ descends (rm_log raced) 117%N (rm_head raced)
  /\ race_anna2.2 = SOk RLocalFastForward /\ race_boris2.2 = SOk RNoChanges /\ pe_known race_anna2.1.1.1 = pe_known race_boris2.1.1.1
  /\ bool_decide ((65539, 65536, (SInt 31, 5)) ∈ facts (disk (pe_conn race_anna2.1.1.1))) = true
  /\ bool_decide ((65539, 65536, (SInt 30, 5)) ∈ facts (disk (pe_conn race_boris2.1.1.1))) = true.
Proof.
  split; [vm_compute; reflexivity|]. split; [vm_compute; reflexivity|]. split; [vm_compute; reflexivity|].
  split; [apply (descends_not _ _ _ (fun u => negb (u =? 117)%N)); vm_compute; reflexivity|]. split_and!; vm_compute; reflexivity.
Qed.
Print Assumptions C48_race_refuted.

(** A server that refuses everything: the client of the code takes each refusal for success.  The file notes that its transactions were
    synced and that a head was seen which no server ever had. *)
Definition refused := peer_sync (at_time 8000) (http_client (fun _ => false) test_remote) (older sync1.1.1.1) sync2.1.1.2 sync2.1.2.
Theorem C48_refused_refuted :
  refused.2 = SOk RRemoteFastForward /\ map en_uuid (rm_log refused.1.1.2) = [1; 97; 110]%N /\ rm_head refused.1.1.2 = 110%N
  /\ pe_known refused.1.1.1 = 117%N /\ pe_tu refused.1.1.1 !! 268435459 = Some 117%N.
Proof. split_and!; vm_compute; reflexivity. Qed.
Print Assumptions C48_refused_refuted.

(** A file that was used cannot be synced with a remote that has only what every file has. *)
Definition bare := peer_sync (at_time 4000) test_remote anna0 remote_empty 0.
Theorem C48_bare_refuted : bare.2 = SOk RRemoteFastForward
  /\ (peer_sync (at_time 6000) test_remote (worked MV sync_work boris0) bare.1.1.2 bare.1.2).2 = SErr SNotYetImplemented.
Proof. split_and!; vm_compute; reflexivity. Qed.
Print Assumptions C48_bare_refuted.

(** A merge changes what was said: Olga's friend was Maria, and becomes Katya, because values that refer to entities keep the numbers
    they had, and the entities do not. *)
Theorem C48_merge_refs_refuted : both_anna.2 = SOk RRemoteFastForward /\ both_boris.2 = SOk (RMerge FFullSync)
  /\ filter (fun f : fact => bool_decide (65540 < f.1.1) = true) (sync_people_of (worked MV boris_work sync2.1.1.1))
     = [(65542, 65537, (SInt 65541, 0)); (65542, 65538, (SText "Olga", 10)); (65541, 65538, (SText "Maria", 10))]
  /\ filter (fun f : fact => bool_decide (65540 < f.1.1) = true) (sync_people_of both_boris.1.1.1)
     = [(65542, 65538, (SText "Lena", 10)); (65541, 65538, (SText "Katya", 10)); (65544, 65537, (SInt 65541, 0));
        (65544, 65538, (SText "Olga", 10)); (65543, 65538, (SText "Maria", 10))].
Proof. split_and!; vm_compute; reflexivity. Qed.
Print Assumptions C48_merge_refs_refuted.

(* ---------------------------------------------------------------- C49 *)

(** A file is created, anything is done with it, and it is uploaded to an empty remote; another file is created and synced with that
    remote.  Then they have the same facts, the same transactions with the same numbers, and the same schema. *)
Theorem C49_upload_download U mv now c l w p1 s1 n1 rep1 mv' now' c' w' p2 s2 n2 rep2 : uuids_fresh U ->
  conn_open mv now None = Ok c -> clean_history mv c l -> reopens_same mv c l -> sendable (st_log (disk (conn_run mv c l))) ->
  w_uuid w = U -> peer_sync w test_remote (worked mv l (newcomer c)) remote_empty 0 = ((p1, s1, n1), SOk rep1) ->
  conn_open mv' now' None = Ok c' -> w_uuid w' = U -> peer_sync w' test_remote (newcomer c') s1 n1 = ((p2, s2, n2), SOk rep2) ->
  replica p1 p2 /\ s2 = s1.
Proof. exact (fun HU => sent_and_fetched U HU mv now c l w p1 s1 n1 rep1 mv' now' c' w' p2 s2 n2 rep2). Qed.
Print Assumptions C49_upload_download.
Example C49_upload_download_case : replica sync1.1.1.1 sync2.1.1.1 /\ length (sync_people_of sync2.1.1.1) = 5%nat.
Proof.
  split; [|vm_compute; reflexivity]. destruct sync1_is as [r1 E1], sync2_is as [r2 E2].
  destruct (work_ok MV sync_work anna_conn) as (W1 & W2 & W3); [reflexivity|vm_compute; reflexivity|].
  exact (proj1 (C49_upload_download uuid_of MV 1000 anna_conn sync_work (at_time 4000) _ _ _ _ MV 5000 boris_conn (at_time 6000) _ _ _ _ uuid_of_fresh anna_open W1 W2 W3 eq_refl E1 boris_open eq_refl E2)).
Qed.

(** Any number of files share a remote.  Two that have seen the same head have the same facts, the same transactions with the same
    numbers, and the same schema. *)
Theorem C49_replicas U s n ps p q : uuids_fresh U -> fleet U s n ps -> p ∈ ps -> q ∈ ps -> pe_known p = pe_known q -> replica p q.
Proof. exact (fun HU => fleet_replica U HU s n ps p q). Qed.
Print Assumptions C49_replicas.
Lemma case_fleet : fleet uuid_of sync4.1.1.2 sync4.1.2 [sync4.1.1.1; sync3.1.1.1].
Proof.
  destruct sync1_is as [r1 E1], sync2_is as [r2 E2], sync3_is as [r3 E3], sync4_is as [r4 E4].
  destruct (work_ok MV sync_work anna_conn) as (W1 & W2 & W3); [reflexivity|vm_compute; reflexivity|].
  destruct (work_ok MV sync_more (pe_conn sync1.1.1.1)) as (V1 & V2 & V3); [reflexivity|vm_compute; reflexivity|].
  pose proof (fleet_join _ _ _ _ _ _ _ (fleet_nobody uuid_of) anna_open) as F0.
  pose proof (fleet_push _ _ _ _ 0%nat anna0 MV sync_work (at_time 4000) _ _ _ _ F0 eq_refl eq_refl W1 W2 W3 eq_refl E1) as F1.
  pose proof (fleet_join _ _ _ _ _ _ _ F1 boris_open) as F2.
  pose proof (fleet_pull _ _ _ _ 0%nat boris0 (at_time 6000) _ _ _ _ F2 eq_refl eq_refl E2) as F3.
  assert (pe_known sync1.1.1.1 = rm_head sync2.1.1.2) as K by (vm_compute; reflexivity).
  pose proof (fleet_push _ _ _ _ 1%nat sync1.1.1.1 MV sync_more (at_time 8000) _ _ _ _ F3 eq_refl K V1 V2 V3 eq_refl E3) as F4.
  exact (fleet_pull _ _ _ _ 0%nat sync2.1.1.1 (at_time 9000) _ _ _ _ F4 eq_refl eq_refl E4).
Qed.
Example C49_replicas_case : replica sync3.1.1.1 sync4.1.1.1
  /\ sync_people_of sync4.1.1.1 = [(65540, 65536, (SInt 40, 5)); (65540, 65538, (SText "Petr", 10)); (65539, 65538, (SText "Ivan", 10)); (65539, 65536, (SInt 31, 5))].
Proof.
  split; [|vm_compute; reflexivity]. apply (C49_replicas _ _ _ _ _ _ uuid_of_fresh case_fleet); [right; left|left|vm_compute; reflexivity].
Qed.

(** One that syncs without having done any work has then seen the head of the remote, whose transactions all remain. *)
Theorem C49_caught_up U s n ps p w p' s' n' rep : uuids_fresh U -> fleet U s n ps -> p ∈ ps -> w_uuid w = U ->
  peer_sync w test_remote p s n = ((p', s', n'), SOk rep) -> pe_known p' = rm_head s' /\ exists es, rm_log s' = rm_log s ++ es.
Proof. exact (fun HU => fleet_caught_up U HU s n ps p w p' s' n' rep). Qed.
Print Assumptions C49_caught_up.
Example C49_caught_up_case : pe_known sync4.1.1.1 = 117%N /\ rm_head sync4.1.1.2 = 117%N.
Proof. split; vm_compute; reflexivity. Qed.

(** So has one that had seen everything, after any work. *)
Theorem C49_pushed U s n ps p mv l w p' s' n' rep : uuids_fresh U -> fleet U s n ps -> p ∈ ps -> pe_known p = rm_head s ->
  clean_history mv (pe_conn p) l -> reopens_same mv (pe_conn p) l -> sendable (st_log (disk (conn_run mv (pe_conn p) l))) ->
  w_uuid w = U -> peer_sync w test_remote (worked mv l p) s n = ((p', s', n'), SOk rep) ->
  pe_known p' = rm_head s' /\ rm_head s' <> 0%N /\ exists es, rm_log s' = rm_log s ++ es.
Proof. exact (fun HU => fleet_pushed U HU s n ps p mv l w p' s' n' rep). Qed.
Print Assumptions C49_pushed.
Example C49_pushed_case : pe_known sync3.1.1.1 = 117%N /\ rm_head sync3.1.1.2 = 117%N.
Proof. split; vm_compute; reflexivity. Qed.

(** The next numbers to be given are not the same: the file that downloads takes them from the last transaction alone.  Anna changes
    Ivan, who has the number 65539; Boris syncs and adds Maria, who is given 65540: Petr's number.  Petr is renamed Maria. *)
Definition anna_last := peer_sync (at_time 11000) test_remote (worked MV [CTransact 10000 [add (ent 65539) (person "age") (v_int 32)]] sync3.1.1.1) sync4.1.1.2 sync4.1.2.
Definition boris_last := peer_sync (at_time 12000) test_remote sync4.1.1.1 anna_last.1.1.2 anna_last.1.2.
Definition maria : list entity := [add (tmp "m") (person "name") (v_str "Maria")].
Theorem C49_next_entids_refuted : anna_last.2 = SOk RRemoteFastForward /\ boris_last.2 = SOk RLocalFastForward
  /\ pe_known anna_last.1.1.1 = pe_known boris_last.1.1.1
  /\ map (fun p => pt_next <$> md_parts (cn_md (pe_conn p)) !! ":db.part/user") [anna_last.1.1.1; boris_last.1.1.1] = [Some 65541; Some 65540]
  /\ sync_people_of boris_last.1.1.1
     = [(65540, 65536, (SInt 40, 5)); (65540, 65538, (SText "Petr", 10)); (65539, 65538, (SText "Ivan", 10)); (65539, 65536, (SInt 32, 5))]
  /\ sync_people_of (worked MV [CTransact 13000 maria] boris_last.1.1.1)
     = [(65540, 65536, (SInt 40, 5)); (65539, 65538, (SText "Ivan", 10)); (65539, 65536, (SInt 32, 5)); (65540, 65538, (SText "Maria", 10))].
Proof. split_and!; vm_compute; reflexivity. Qed.
Print Assumptions C49_next_entids_refuted.

(** A file with a value of a fulltext attribute cannot be uploaded: the number of the text is read where the text is expected.  Each
    attempt leaves the transactions before that on the remote, and the head is never set. *)
Definition full := peer_sync (at_time 4000) test_remote (Peer case_conn ∅ 0%N) remote_empty 0.
Definition full_again := peer_sync (at_time 5000) test_remote full.1.1.1 full.1.1.2 full.1.2.
Theorem C49_fulltext_refuted : clean MV case_conn
  /\ full.2 = SErr (SDb EBadSQLValuePair) /\ full_again.2 = SErr (SDb EBadSQLValuePair)
  /\ length (rm_log full.1.1.2) = 3%nat /\ length (rm_log full_again.1.1.2) = 6%nat /\ rm_head full_again.1.1.2 = 0%N.
Proof. split; [exact case_clean|]. split_and!; vm_compute; reflexivity. Qed.
Print Assumptions C49_fulltext_refuted.

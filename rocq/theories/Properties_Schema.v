(** Properties of the schema: C26-C30, C33; of several connections: C40.

    [orderly mv c]: the connection [c] was reached from a new file by any number of transacts, sessions and reopenings, and its log
    has none of the schema changes that are known to go wrong (Spec_Schema: [tidy]).  The theorems named [_refuted] show each of
    them going wrong in a history that is [clean]. *)
From Verif Require Import M_Shared Spec_Value Spec_Partition Spec_Tx Spec_Conn Spec_Transact Spec_Schema Spec_Shared.
From Verif Require Import P_Conn P_TxThms P_Reopen P_SchemaThms P_Shared Cases Cases_Schema.

Notation facts_of c := (fun x => x ∈ facts (disk c)).
Notation attribute_of c e := (sc_attribute_map (schema_of c) !! e).

Lemma alter_age_accepted : conn_transact MV 4000 case_conn alter_age = (after case_conn alter_age, Ok (report case_conn alter_age)).
Proof. apply transacts. vm_compute. reflexivity. Qed.
Lemma alter_age_tidy : tidy (st_log (disk (after case_conn alter_age))).
Proof. apply tidy_sound. vm_compute. reflexivity. Qed.

(* ------------------------------------------------------------------ C26 *)

(** C26: the attributes and idents in memory are those that the facts in the store define. *)
Theorem C26_schema_is_stored : forall mv c, orderly mv c ->
  attributes_agree (facts_of c) (sc_attribute_map (schema_of c)) /\ idents_agree (facts_of c) (schema_of c).
Proof. exact thm_agrees. Qed.
Print Assumptions C26_schema_is_stored.
Example C26_schema_is_stored_case : orderly MV (after case_conn alter_age)
  /\ attribute_of case_conn 65536 = Some (Attr VTLong false None false false false false)
  /\ attribute_of (after case_conn alter_age) 65536 = Some (Attr VTLong true None true false false false).
Proof.
  split; [exact (orderly_step _ _ _ _ _ _ case_orderly alter_age_accepted alter_age_tidy)|]. split; vm_compute; reflexivity.
Qed.

(** If opening the file again succeeds, it gives the schema that was in memory. *)
Theorem C26_reopening : forall mv c, orderly mv c -> forall now c', conn_open mv now (Some (disk c)) = Ok c' ->
  disk c' = disk c /\ schema_of c' = schema_of c /\ orderly mv c'.
Proof. exact thm_reopen. Qed.
Print Assumptions C26_reopening.
(** It does succeed if the attributes are valid and no partition is full, and fails if an attribute is not valid. *)
Theorem C26_reopening_succeeds : forall mv c, orderly mv c -> forall now,
  (forall e at_, attribute_of c e = Some at_ -> valid_attribute at_) -> room (st_log (disk c)) ->
  exists c', conn_open mv now (Some (disk c)) = Ok c'.
Proof. exact thm_reopens. Qed.
Print Assumptions C26_reopening_succeeds.
Theorem C26_reopening_fails : forall mv c, orderly mv c -> forall now e at_,
  attribute_of c e = Some at_ -> ~ valid_attribute at_ -> forall c', conn_open mv now (Some (disk c)) <> Ok c'.
Proof. exact thm_unreadable. Qed.
Print Assumptions C26_reopening_fails.
Example C26_reopening_case : orderly MV case_conn /\ conn_open MV 0 (Some (disk case_conn)) = Ok (reopened case_conn)
  /\ room (st_log (disk case_conn)) /\ attribute_of case_conn 65541 = Some (Attr VTString false (Some UIdentity) true false false false).
Proof.
  split; [exact case_orderly|]. split; [apply reopens_to; vm_compute; reflexivity|].
  split; [apply room_sound; vm_compute; reflexivity|vm_compute; reflexivity].
Qed.
(** Without tidiness: making a unique attribute cardinality-many drops its uniqueness in memory only. *)
Theorem C26_reopening_refuted : exists c es c' r c2, accepted MV 4000 c es c' r /\ es = [add (ent 65541) (db_ "cardinality") (v_kw (nskw "db.cardinality" "many"))]
  /\ conn_open MV 0 (Some (disk c')) = Ok c2
  /\ at_unique <$> attribute_of c 65541 = Some (Some UIdentity)
  /\ at_unique <$> attribute_of c' 65541 = Some None /\ at_unique <$> attribute_of c2 65541 = Some (Some UIdentity).
Proof.
  exists case_conn, widen_name, (after case_conn widen_name), (report case_conn widen_name), (reopened (after case_conn widen_name)).
  split; [apply accepts; [exact case_clean|vm_compute; reflexivity]|]. split; [reflexivity|].
  split; [apply reopens_to; vm_compute; reflexivity|]. split_and!; vm_compute; reflexivity.
Qed.
Print Assumptions C26_reopening_refuted.

(* ------------------------------------------------------------------ C27 *)

(** C27: the two ident maps are inverse to each other and are the :db/ident facts. *)
Theorem C27_idents : forall mv c, orderly mv c ->
  (forall e k, sc_entid_map (schema_of c) !! e = Some k <-> sc_ident_map (schema_of c) !! k = Some e)
  /\ (forall e k, sc_entid_map (schema_of c) !! e = Some k <-> named (facts_of c) e k).
Proof.
  exact (fun mv c H => match proj2 (thm_agrees mv c H) with
    conj H1 H2 => conj (fun e k => iff_trans (H1 e k) (iff_sym (H2 k e))) H1 end).
Qed.
Print Assumptions C27_idents.
Example C27_idents_case : orderly MV (after case_conn alter_age)
  /\ sc_ident_map (schema_of (after case_conn alter_age)) !! person "nickname" = Some 65539
  /\ sc_ident_map (schema_of (after case_conn alter_age)) !! person "nick" = None.
Proof.
  split; [exact (orderly_step _ _ _ _ _ _ case_orderly alter_age_accepted alter_age_tidy)|]. split; vm_compute; reflexivity.
Qed.
(** Two entities that exchange their idents in one transaction: one of them can no longer be found by its ident. *)
Theorem C27_swap_refuted : exists c es c' r, accepted MV 4000 c es c' r
  /\ es = [add (ent 65536) (db_ "ident") (v_kw (person "nick")); add (ent 65539) (db_ "ident") (v_kw (person "age"))]
  /\ sc_entid_map (schema_of c') !! 65536 = Some (person "nick") /\ sc_ident_map (schema_of c') !! person "nick" = None.
Proof.
  exists case_conn, swap_idents, (after case_conn swap_idents), (report case_conn swap_idents).
  split; [apply accepts; [exact case_clean|vm_compute; reflexivity]|]. split; [reflexivity|]. split; vm_compute; reflexivity.
Qed.
Print Assumptions C27_swap_refuted.

(* ------------------------------------------------------------------ C28 *)

(** C28: no history changes the value type or the fulltext flag of an installed attribute, or makes it cardinality-one. *)
Theorem C28_kept : forall mv c l, clean mv c -> clean_history mv c l -> never_uninstalled (st_log (disk (conn_run mv c l))) ->
  forall e at_, attribute_of c e = Some at_ ->
  exists at', attribute_of (conn_run mv c l) e = Some at' /\ at_type at' = at_type at_ /\ at_fulltext at' = at_fulltext at_
    /\ (at_multival at_ = true -> at_multival at' = true).
Proof. exact (fun mv c l H => conn_run_kept mv l c (clean_ok mv c H)). Qed.
Print Assumptions C28_kept.
Example C28_kept_case : clean MV case_conn /\ clean_history MV case_conn [CTransact 4000 alter_age]
  /\ no_uninstall (st_log (disk (conn_run MV case_conn [CTransact 4000 alter_age]))) = true
  /\ attribute_of (conn_run MV case_conn [CTransact 4000 alter_age]) 65536 = Some (Attr VTLong true None true false false false).
Proof. split; [exact case_clean|]. split; [by apply only_transacts_clean|]. split; vm_compute; reflexivity. Qed.
(** A cardinality-many attribute of which no entity has two values cannot be made cardinality-one. *)
Theorem C28_narrowing_refuted : exists c es, clean MV c
  /\ es = [add (ent 65539) (db_ "cardinality") (v_kw (nskw "db.cardinality" "one"))]
  /\ at_multival <$> attribute_of c 65539 = Some true
  /\ (forall e v w, (e, 65539, v) ∈ facts (disk c) -> (e, 65539, w) ∈ facts (disk c) -> v = w)
  /\ result c es = Err ESchemaAlterationFailed.
Proof.
  exists case_conn, narrow_nick. split; [exact case_clean|]. split; [reflexivity|]. split; [vm_compute; reflexivity|].
  split; [|vm_compute; reflexivity].
  assert (filter (fun x : fact => x.1.2 = 65539) (facts (disk case_conn)) = [(65543, 65539, (SText "Vanya", 10))]) as E by (vm_compute; reflexivity).
  assert (forall e v, (e, 65539, v) ∈ facts (disk case_conn) -> (e, v) = (65543, (SText "Vanya", 10))) as H.
  { intros e v Hin. assert ((e, 65539, v) ∈ filter (fun x : fact => x.1.2 = 65539) (facts (disk case_conn))) as Hf by by apply elem_of_list_filter.
    rewrite E in Hf. apply elem_of_list_singleton in Hf. congruence. }
  intros e v w Hv%H Hw%H. congruence.
Qed.
Print Assumptions C28_narrowing_refuted.

(* ------------------------------------------------------------------ C29 *)

(** C29: a transaction changes a property of an attribute only if it says something about that property. *)
Theorem C29_others_kept : forall mv now c c' es r, orderly mv c -> conn_transact mv now c es = (c', Ok r) -> tidy (st_log (disk c')) ->
  forall e at_ at', attribute_of c e = Some at_ -> attribute_of c' e = Some at' ->
    at_type at' = at_type at_ /\ at_fulltext at' = at_fulltext at_ /\ at_no_history at' = at_no_history at_
    /\ (at_multival at' <> at_multival at_ -> touched (st_log (disk c')) (rp_tx r) e DB_CARDINALITY)
    /\ (at_unique at' <> at_unique at_ -> touched (st_log (disk c')) (rp_tx r) e DB_UNIQUE)
    /\ (at_index at' <> at_index at_ -> touched (st_log (disk c')) (rp_tx r) e DB_INDEX)
    /\ (at_component at' <> at_component at_ -> touched (st_log (disk c')) (rp_tx r) e DB_IS_COMPONENT).
Proof. exact altered_logged. Qed.
Print Assumptions C29_others_kept.
Example C29_others_kept_case : orderly MV case_conn /\ tidy (st_log (disk (after case_conn alter_age)))
  /\ conn_transact MV 4000 case_conn alter_age = (after case_conn alter_age, Ok (report case_conn alter_age))
  /\ attribute_of case_conn 65536 = Some (Attr VTLong false None false false false false)
  /\ attribute_of (after case_conn alter_age) 65536 = Some (Attr VTLong true None true false false false).
Proof. split; [exact case_orderly|]. split; [exact alter_age_tidy|]. split; [exact alter_age_accepted|]. split; vm_compute; reflexivity. Qed.
(** Changing the cardinality of a unique attribute drops its uniqueness. *)
Theorem C29_uniqueness_lost_refuted : exists c es c' r, accepted MV 4000 c es c' r
  /\ es = [add (ent 65541) (db_ "cardinality") (v_kw (nskw "db.cardinality" "many"))]
  /\ at_unique <$> attribute_of c 65541 = Some (Some UIdentity) /\ at_unique <$> attribute_of c' 65541 = Some None.
Proof.
  exists case_conn, widen_name, (after case_conn widen_name), (report case_conn widen_name).
  split; [apply accepts; [exact case_clean|vm_compute; reflexivity]|]. split; [reflexivity|]. split; vm_compute; reflexivity.
Qed.
Print Assumptions C29_uniqueness_lost_refuted.

(* ------------------------------------------------------------------ C30 *)

(** C30: an attribute that a transaction installs is valid. *)
Theorem C30_installed_valid : forall mv now c es c' r, accepted mv now c es c' r ->
  forall e at_, attribute_of c e = None -> attribute_of c' e = Some at_ -> valid_attribute at_.
Proof. exact thm_installed_valid. Qed.
Print Assumptions C30_installed_valid.
(** An attribute defined by one transaction stays valid. *)
Theorem C30_defined_once_valid : forall mv c, orderly mv c -> forall e at_, attribute_of c e = Some at_ -> defined_once (st_log (disk c)) e -> valid_attribute at_.
Proof. exact orderly_valid. Qed.
Print Assumptions C30_defined_once_valid.
(** A store whose attributes were each defined by one transaction can be opened again. *)
Theorem C30_reopens : forall mv c now, orderly mv c -> (forall e at_, attribute_of c e = Some at_ -> defined_once (st_log (disk c)) e) ->
  room (st_log (disk c)) -> exists c', conn_open mv now (Some (disk c)) = Ok c' /\ schema_of c' = schema_of c.
Proof. exact thm_once_reopens. Qed.
Print Assumptions C30_reopens.
Example C30_case : orderly MV case_conn /\ room (st_log (disk case_conn))
  /\ forall e at_, attribute_of case_conn e = Some at_ -> defined_once (st_log (disk case_conn)) e.
Proof.
  split; [exact case_orderly|]. split; [apply room_sound; vm_compute; reflexivity|]. apply all_once_sound. vm_compute. reflexivity.
Qed.
(** Altering an attribute does not check it: making :person/age unique without an index is accepted, and the file can no longer be opened. *)
Theorem C30_altered_refuted : exists c es c' r at_, accepted MV 4000 c es c' r
  /\ es = [add (ent 65536) (db_ "unique") (v_kw (nskw "db.unique" "value"))]
  /\ attribute_of c' 65536 = Some at_ /\ ~ valid_attribute at_ /\ conn_open MV 0 (Some (disk c')) = Err EBadSchemaAssertion.
Proof.
  exists case_conn, unique_age, (after case_conn unique_age), (report case_conn unique_age), (Attr VTLong false (Some UValue) false false false false).
  split; [apply accepts; [exact case_clean|vm_compute; reflexivity]|]. split; [reflexivity|]. split; [vm_compute; reflexivity|].
  split; [|vm_compute; reflexivity]. intros [H _]. discriminate H. by eexists.
Qed.
Print Assumptions C30_altered_refuted.

(* ------------------------------------------------------------------ C33 *)

(** C33: after opening the file again, and after any history from there, no two entities share a value of an attribute that the schema
    says is unique. *)
Theorem C33_unique_after_reopening : forall mv c now c' l, orderly mv c -> conn_open mv now (Some (disk c)) = Ok c' ->
  clean_sessions mv c' l -> tidy (st_log (disk (conn_run mv c' l))) -> values_unique (schema_of (conn_run mv c' l)) (disk (conn_run mv c' l)).
Proof. exact thm_unique_after. Qed.
Print Assumptions C33_unique_after_reopening.
Example C33_unique_after_reopening_case : orderly MV case_conn /\ conn_open MV 0 (Some (disk case_conn)) = Ok (reopened case_conn)
  /\ clean_sessions MV (reopened case_conn) [CTransact 4000 alter_age]
  /\ tidy_b (st_log (disk (conn_run MV (reopened case_conn) [CTransact 4000 alter_age]))) = true
  /\ at_unique <$> attribute_of (reopened case_conn) 65541 = Some (Some UIdentity).
Proof.
  split; [exact case_orderly|]. split; [apply reopens_to; vm_compute; reflexivity|]. split; [done|]. split; vm_compute; reflexivity.
Qed.
(** Otherwise two entities can share a value of an attribute that the reopened schema says is unique. *)
Theorem C33_shared_refuted : exists l c, only_transacts l = true /\ no_uninstall (st_log (disk (run l))) = true
  /\ conn_open MV 0 (Some (disk (run l))) = Ok c /\ ~ values_unique (schema_of c) (disk c).
Proof.
  exists (case_history ++ [CTransact 4000 widen_name; CTransact 4000 namesakes]), (reopened (run (case_history ++ [CTransact 4000 widen_name; CTransact 4000 namesakes]))).
  split; [reflexivity|]. split; [vm_compute; reflexivity|]. split; [apply reopens_to; vm_compute; reflexivity|].
  apply (shared_value 65545 65546 65541 (SText "Olga", 10)); [vm_compute; reflexivity..|done].
Qed.
Print Assumptions C33_shared_refuted.

(* ------------------------------------------------------------------ C40 *)

(** C40: whatever connections to a file do and however their calls are interleaved, the file and the connections' metadata are as if the
    committed sessions had run one after another, each from begin to commit without interruption. *)
Theorem C40_serializable : forall mv disk mds l sh t, sh_run mv (sh_start disk mds) l = (sh, t) ->
  (sh_disk sh, (sh_conns sh).*1) = serial mv (disk, mds) (committed ∅ t).
Proof. exact shared_serial. Qed.
Print Assumptions C40_serializable.
(** In particular, one connection: what its committed sessions do is a history of sessions. *)
Theorem C40_one_connection : forall mv c l sh t, sh_run mv (sh_start (disk c) [cn_md c]) l = (sh, t) ->
  exists c', c' = conn_run mv c (map (fun x => CSession x.2 true) (committed ∅ t)) /\ sh_disk sh = disk c' /\ (sh_conns sh).*1 = [cn_md c'].
Proof. exact shared_one. Qed.
Print Assumptions C40_one_connection.
(** Committing never fails because somebody else committed. *)
Theorem C40_commits : forall mv disk mds l sh t, sh_run mv (sh_start disk mds) l = (sh, t) -> forall i e, (SCommit i, SErr e) ∉ t.
Proof. exact shared_commits. Qed.
Print Assumptions C40_commits.
Definition interleaved : list sh_op :=
  [ SBegin 0; SCall 0 (OpTransact 4000 [add (tmp "x") (person "name") (v_str "Olga")]); SBegin 1; SCommit 0;
    SBegin 1; SCall 1 (OpTransact 5000 [add (tmp "y") (person "name") (v_str "Vera")]); SBegin 0; SCommit 1 ].
Definition two_conns : shared := sh_start (disk case_conn) [cn_md case_conn; cn_md (reopened case_conn)].
Example C40_case : (sh_run MV two_conns interleaved).2.*2 = [SOk; SOk; SBusy; SOk; SOk; SOk; SBusy; SOk]
  /\ map fst (committed ∅ (sh_run MV two_conns interleaved).2) = [0; 1]%nat.
Proof. split; vm_compute; reflexivity. Qed.
(** But a connection does not notice what another one committed: it allocates the same entid, and the second new person takes the
    place of the first. *)
Theorem C40_stale_metadata_refuted : exists l sh t, sh_run MV two_conns l = (sh, t)
  /\ l = [ SBegin 0; SCall 0 (OpTransact 4000 [add (tmp "x") (person "name") (v_str "Olga")]); SCommit 0;
           SBegin 1; SCall 1 (OpTransact 5000 [add (tmp "y") (person "name") (v_str "Vera")]); SCommit 1 ]
  /\ Forall (fun x => x.2 = SOk) t
  /\ (forall e, (e, 65541, (SText "Olga", 10)) ∉ facts (sh_disk sh)) /\ (65545, 65541, (SText "Vera", 10)) ∈ facts (sh_disk sh).
Proof.
  set (l := [ SBegin 0; SCall 0 (OpTransact 4000 [add (tmp "x") (person "name") (v_str "Olga")]); SCommit 0;
              SBegin 1; SCall 1 (OpTransact 5000 [add (tmp "y") (person "name") (v_str "Vera")]); SCommit 1 ]).
  exists l, (sh_run MV two_conns l).1, (sh_run MV two_conns l).2. split; [apply surjective_pairing|]. split; [reflexivity|].
  split; [apply all_ok; vm_compute; reflexivity|]. split; [apply no_value; vm_compute; reflexivity|apply fact_is_in; vm_compute; reflexivity].
Qed.
Print Assumptions C40_stale_metadata_refuted.

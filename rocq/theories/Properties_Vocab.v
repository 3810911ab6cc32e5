(** Vocabularies.  C53: what it means to check and to ensure one vocabulary.  C54: ensuring several. *)
From Verif Require Import M_Vocab Spec_Value Spec_Partition Spec_Tx Spec_Conn Spec_Transact Spec_Schema Spec_Vocab P_Reopen P_SchemaThms P_EnsureThms P_EnsureAll Cases Cases_Schema Cases_Vocab.

(* ---------------------------------------------------------------- C53 *)

(** What a check finds, for every definition: the store provides the vocabulary; has no vocabulary of that name; has an earlier or a
    later version; has this version without some of the attributes, or with one that is defined otherwise; or has an invalid version.
    There is no other result. *)
Theorem C53_check mv c : clean mv c -> core_intact (schema_of c) -> forall d,
  let result := check_vocabulary (disk c) (schema_of c) d in
  (result = Ok Present <-> provides c d /\ version_ok (df_version d))
  /\ (result = Ok NotPresent <-> forall e v, ~ has_version c (df_name d) e v)
  /\ ((exists v, result = Ok (NeedsUpdate v)) <-> exists e v, has_version c (df_name d) e v /\ version_ok v /\ v < df_version d)
  /\ ((exists v, result = Ok (TooNew v)) <-> exists e v, has_version c (df_name d) e v /\ version_ok v /\ df_version d < v)
  /\ ((exists l, result = Ok (MissingAttributes l)) <->
      exists e, has_version c (df_name d) e (df_version d) /\ version_ok (df_version d) /\ ~ conflicting c d /\ ~ provides c d)
  /\ (result = Err EConflictingAttributeDefinitions <-> conflicting c d /\ version_ok (df_version d))
  /\ (result = Err EInvalidVocabularyVersion <-> exists e v, has_version c (df_name d) e v /\ ~ version_ok v)
  /\ (is_ok result = true \/ result = Err EConflictingAttributeDefinitions \/ result = Err EInvalidVocabularyVersion).
Proof. exact (fun Hc Hcore d => thm_check Hc Hcore d). Qed.
Print Assumptions C53_check.
Example C53_check_case : clean MV case_conn /\ core_intact (schema_of case_conn)
  /\ check_vocabulary (disk links_conn) (schema_of links_conn) links = Ok Present
  /\ check_vocabulary (disk case_conn) (schema_of case_conn) links = Ok NotPresent
  /\ match check_vocabulary (disk links_conn) (schema_of links_conn) links2 with Ok (NeedsUpdate _) => True | _ => False end
  /\ check_vocabulary (disk links_conn) (schema_of links_conn) links_more = Ok (MissingAttributes [tags])
  /\ check_vocabulary (disk links_conn) (schema_of links_conn) links_other = Err EConflictingAttributeDefinitions
  /\ core_b (schema_of links_conn) = true.
Proof. split; [exact (proj2 (orderly_whole _ _ case_orderly))|]. split; [apply core_sound; vm_compute; reflexivity|]. split_and!; vm_compute; done. Qed.

(** If a vocabulary was ensured then the store provides it, only the entities it names have changed, and ensuring it again finds it and
    changes nothing.  The definition must be one that can be represented, and must not take uniqueness away from an attribute that is
    not its own; the refutations below show what happens otherwise. *)
Theorem C53_ensured mv now c c' d o :
  orderly mv c -> core_intact (schema_of c) -> all_allocated c -> acceptable d -> quiet d -> uniqueness_known c d ->
  conn_ensure mv now c d = (c', Ok o) -> tidy (st_log (disk c')) ->
  provides c' d /\ core_intact (schema_of c')
  /\ (forall b e a p, changed (disk c) (disk c') b (e, a, p) ->
      (a = DB_TX_INSTANT /\ forall row, row ∈ st_log (disk c) -> t_tx row < e) \/ described c' d e)
  /\ forall now', exists c'', conn_ensure mv now' c' d = (c'', Ok Existed) /\ unchanged c' c''.
Proof. exact (thm_ensured mv now c c' d o). Qed.
Print Assumptions C53_ensured.
Example C53_ensured_case : orderly MV case_conn /\ core_intact (schema_of case_conn) /\ all_allocated case_conn /\ acceptable links /\ quiet links
  /\ uniqueness_known case_conn links /\ conn_ensure MV 4000 case_conn links = (links_conn, Ok Installed) /\ tidy (st_log (disk links_conn)).
Proof.
  split_and!.
  - exact case_orderly.
  - apply core_sound. vm_compute. reflexivity.
  - apply allocated_sound. vm_compute. reflexivity.
  - apply acceptable_sound. vm_compute. reflexivity.
  - done.
  - apply new_unique_known. intros x [->|[->|[]%elem_of_nil]%elem_of_cons]%elem_of_cons; vm_compute; reflexivity.
  - exact links_installed.
  - apply tidy_sound. vm_compute. reflexivity.
Qed.
Example C53_upgraded_case : (conn_ensure MV 5000 links_conn links2).2 = Ok Upgraded /\ (conn_ensure MV 5000 links_conn links_more).2 = Ok InstalledMissingAttributes
  /\ tidy_b (st_log (disk (conn_ensure MV 5000 links_conn links2).1)) = true /\ acceptable_b links2 = true.
Proof. split_and!; vm_compute; reflexivity. Qed.

(** Ensuring says that the vocabulary existed exactly when it did; nothing changes then. *)
Theorem C53_existed mv now c d : clean mv c -> core_intact (schema_of c) -> quiet d ->
  ((exists c', conn_ensure mv now c d = (c', Ok Existed)) <-> provides c d /\ version_ok (df_version d))
  /\ forall c', conn_ensure mv now c d = (c', Ok Existed) -> unchanged c c'.
Proof. exact (thm_existed mv now c d). Qed.
Print Assumptions C53_existed.
Example C53_existed_case : (conn_ensure MV 5000 links_conn links).2 = Ok Existed /\ (conn_ensure MV 5000 case_conn links).2 <> Ok Existed.
Proof. split; vm_compute; done. Qed.

(** What was done is what was needed. *)
Theorem C53_outcome mv now c c' d o : clean mv c -> core_intact (schema_of c) -> quiet d -> conn_ensure mv now c d = (c', Ok o) -> needed c d o.
Proof. exact (thm_outcome mv now c c' d o). Qed.
Print Assumptions C53_outcome.
Example C53_outcome_case : (conn_ensure MV 4000 case_conn links).2 = Ok Installed /\ (conn_ensure MV 5000 links_conn links2).2 = Ok Upgraded.
Proof. split; vm_compute; done. Qed.

(** A vocabulary that conflicts with the stored one, or is older, is refused, and nothing changes. *)
Theorem C53_refused mv now c d : clean mv c -> core_intact (schema_of c) ->
  (conflicting c d -> version_ok (df_version d) -> conn_ensure mv now c d = (c, Err EConflictingAttributeDefinitions))
  /\ ((exists e v, has_version c (df_name d) e v /\ version_ok v /\ df_version d < v) -> conn_ensure mv now c d = (c, Err EExistingVocabularyTooNew)).
Proof. exact (fun Hc Hcore => ensure_refuses Hc Hcore). Qed.
Print Assumptions C53_refused.
Example C53_refused_case : (conn_ensure MV 5000 links_conn links_other).2 = Err EConflictingAttributeDefinitions
  /\ let c2 := (conn_ensure MV 5000 links_conn links2).1 in (conn_ensure MV 6000 c2 links).2 = Err EExistingVocabularyTooNew.
Proof. split; vm_compute; reflexivity. Qed.

(** Without the conditions on the definition, C53_ensured fails: a definition is accepted and installed, and then ensuring it again is
    an error.  An attribute without history: *)
Theorem C53_no_history_refuted : exists mv now c d c', orderly mv c /\ core_intact (schema_of c) /\ quiet d
  /\ conn_ensure mv now c d = (c', Ok Installed) /\ tidy (st_log (disk c')) /\ forall now', (conn_ensure mv now' c' d).2 = Err EConflictingAttributeDefinitions.
Proof. exact no_history_again. Qed.
Print Assumptions C53_no_history_refuted.
(** Version 0: *)
Theorem C53_version_refuted : exists mv now c d c', orderly mv c /\ core_intact (schema_of c) /\ quiet d
  /\ conn_ensure mv now c d = (c', Ok Installed) /\ tidy (st_log (disk c')) /\ forall now', (conn_ensure mv now' c' d).2 = Err EInvalidVocabularyVersion.
Proof. exact version_again. Qed.
Print Assumptions C53_version_refuted.
(** An attribute that is in the store already, and is unique there: *)
Theorem C53_adopted_refuted : exists mv now c d c', orderly mv c /\ core_intact (schema_of c) /\ acceptable d /\ quiet d
  /\ conn_ensure mv now c d = (c', Ok Installed) /\ tidy (st_log (disk c')) /\ forall now', (conn_ensure mv now' c' d).2 = Err EConflictingAttributeDefinitions.
Proof. exact adopted_again. Qed.
Print Assumptions C53_adopted_refuted.
(** And a definition of an attribute exactly as it is in the store can be refused: *)
Theorem C53_existing_refuted : exists mv now c d, orderly mv c /\ core_intact (schema_of c) /\ acceptable d /\ quiet d /\ uniqueness_known c d
  /\ (forall x, x ∈ df_attributes d -> exists a, sc_ident_map (schema_of c) !! x.1 = Some a /\ sc_attribute_map (schema_of c) !! a = Some x.2)
  /\ conn_ensure mv now c d = (c, Err EBadSchemaAssertion).
Proof. exact existing_refused. Qed.
Print Assumptions C53_existing_refuted.

(* ---------------------------------------------------------------- C54 *)

(** When several vocabularies are ensured together, all are checked before anything is written: if one is refused, the transaction has
    done nothing. *)
Theorem C54_refused mv c now vs : clean mv c -> core_intact (schema_of c) -> (exists d, d ∈ vs_definitions vs /\ refused c d) ->
  exists e, ensure_vocabularies mv now (conn_begin c) vs = (conn_begin c, Err e).
Proof. exact (fun Hc Hcore => thm_all_refused Hc Hcore now vs). Qed.
Print Assumptions C54_refused.
Example C54_refused_case : (ensure_vocabularies MV (fun _ => 5000) (conn_begin links_conn) (VocSource [forgetful; links_other] (fun ig _ => (ig, Ok tt)) (fun ig => (ig, Ok tt)))).2
  = Err EConflictingAttributeDefinitions.
Proof. vm_compute. reflexivity. Qed.

(** If the store provides them all, nothing changes, whatever functions the source would run before and after. *)
Theorem C54_existed mv c now vs : clean mv c -> core_intact (schema_of c) ->
  (forall d, d ∈ vs_definitions vs -> provides c d /\ version_ok (df_version d)) ->
  exists c' out, conn_ensure_all mv now c vs = (c', Ok out) /\ unchanged c c' /\ forall d, d ∈ vs_definitions vs -> out !! df_name d = Some Existed.
Proof. exact (fun Hc Hcore => thm_all_existed Hc Hcore now vs). Qed.
Print Assumptions C54_existed.
Example C54_existed_case : match (conn_ensure_all MV (fun _ => 5000) links_conn (VocSource [links] (fun ig _ => (ig, Panic POther)) (fun ig => (ig, Ok tt)))).2 with
  | Ok out => out !! df_name links = Some Existed | _ => False end.
Proof. vm_compute. reflexivity. Qed.

(** If vocabularies were ensured together then the store provides every one of them, the outcomes say what the store lacked before, a name
    that none of them uses means what it meant, and ensuring them again finds them all and changes nothing. *)
Theorem C54_ensured mv now c c' vs out :
  orderly mv c -> core_intact (schema_of c) -> all_allocated c -> quiet_source vs ->
  (forall d, d ∈ vs_definitions vs -> acceptable d /\ uniqueness_known c d) -> NoDup (flat_map names_of (vs_definitions vs)) ->
  conn_ensure_all mv now c vs = (c', Ok out) -> tidy (st_log (disk c')) ->
  (forall d, d ∈ vs_definitions vs -> provides c' d /\ exists o, out !! df_name d = Some o /\ needed c d o)
  /\ core_intact (schema_of c')
  /\ (forall k, storable_keyword k -> k ∉ flat_map names_of (vs_definitions vs) -> alike k c c')
  /\ forall now', exists c'' out', conn_ensure_all mv now' c' vs = (c'', Ok out') /\ unchanged c' c''
       /\ forall d, d ∈ vs_definitions vs -> out' !! df_name d = Some Existed.
Proof. exact (thm_all_ensured mv now c c' vs out). Qed.
Print Assumptions C54_ensured.
Example C54_ensured_case : orderly MV links_conn /\ core_b (schema_of links_conn) = true /\ allocated_b links_conn = true /\ quiet_source three
  /\ (forall d, d ∈ vs_definitions three -> acceptable d /\ uniqueness_known links_conn d) /\ NoDup (flat_map names_of (vs_definitions three))
  /\ let x := conn_ensure_all MV (fun n => 5000 + Z.of_nat n) links_conn three in
     tidy_b (st_log (disk x.1)) = true
     /\ match x.2 with Ok out => map (fun d => out !! df_name d) (vs_definitions three) = [Some Installed; Some InstalledMissingAttributes; Some Installed] | _ => False end.
Proof.
  split; [exact links_orderly|]. split; [vm_compute; reflexivity|]. split; [vm_compute; reflexivity|]. split; [exact three_quiet|]. split; [exact three_acceptable|].
  split; [apply (bool_decide_unpack _); vm_compute; exact I|]. split; vm_compute; reflexivity.
Qed.

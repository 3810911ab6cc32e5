(** C36, C37: looking things up in the attribute cache. *)
From Verif Require Import M_Cache Spec_Tx Spec_Conn Spec_Transact Spec_Cache P_CacheInv Cases Cases_Cache.

(** After a tame history (see [tame] in Spec_Cache.v; its conditions are on what happens to cached attributes) a cached value is the
    stored value, and conversely. *)
Theorem C36_forward : forall reverse mv c, caching reverse mv c -> forward_agrees (disk (cc_conn c)) (schema_of (cc_conn c)) (cc_cache c).
Proof. exact thm_forward. Qed.
Print Assumptions C36_forward.
(** If the conditions on the reverse direction are met too, the cached entities with a value are those that have it. *)
Theorem C36_reverse : forall mv c, caching true mv c -> reverse_agrees (disk (cc_conn c)) (schema_of (cc_conn c)) (cc_cache c).
Proof. exact thm_reverse. Qed.
Print Assumptions C36_reverse.
Example C36_case : caching true MV the_cached
  /\ map (is_cached_forward (cc_cache the_cached)) [65536; 65538; 65539; 65541] = [true; false; true; true]
  /\ get_value (cc_cache the_cached) (schema_of (cc_conn the_cached)) 65536 65544 = Some (TVLong 41)
  /\ get_values (cc_cache the_cached) (schema_of (cc_conn the_cached)) 65539 65544 = Some [TVString "Petya"]
  /\ get_values (cc_cache the_cached) (schema_of (cc_conn the_cached)) 65539 65543 = None
  /\ get_entid (cc_cache the_cached) 65541 (TVString "Masha") = Some 65545.
Proof.
  split; [apply tame_runb_sound; [apply uncached_caching|vm_compute; reflexivity]|]. vm_compute. split_and!; reflexivity.
Qed.

(** Without those conditions the cache goes stale.  In each of the following histories, from a clean connection without caches, every
    step succeeds.  First, replacing a value leaves its reverse entry behind. *)
Definition replaced : list cc_op :=
  [CcCache (person "age") DReverse true; CcTransact 4000 [add (ent 65543) (person "age") (v_int 31)] false].
Theorem C36_replaced_refuted : all_done MV uncached replaced = true
  /\ ~ reverse_agrees (disk (cc_conn (cc_run MV uncached replaced))) (schema_of (cc_conn (cc_run MV uncached replaced))) (cc_cache (cc_run MV uncached replaced)).
Proof. split; [vm_compute; reflexivity|]. apply (reverse_wrong_sound _ 65536 65543 (TVLong 30)). vm_compute. reflexivity. Qed.
Print Assumptions C36_replaced_refuted.
(** Retracting a unique value from an entity that does not have it removes the entry of the entity that has. *)
Definition not_there : list cc_op :=
  [CcCache (person "name") DReverse true; CcTransact 4000 [retract (ent 65544) (person "name") (v_str "Ivan")] false].
Theorem C36_not_there_refuted : all_done MV uncached not_there = true
  /\ ~ reverse_agrees (disk (cc_conn (cc_run MV uncached not_there))) (schema_of (cc_conn (cc_run MV uncached not_there))) (cc_cache (cc_run MV uncached not_there)).
Proof. split; [vm_compute; reflexivity|]. apply (reverse_wrong_sound _ 65541 65543 (TVString "Ivan")). vm_compute. reflexivity. Qed.
Print Assumptions C36_not_there_refuted.
(** Asserting the value that is there and retracting another one retracts the value, but not in the cache. *)
Definition restated : list cc_op :=
  [CcCache (person "age") DForward true; CcTransact 4000 [add (ent 65543) (person "age") (v_int 30); retract (ent 65543) (person "age") (v_int 99)] false].
Theorem C36_restated_refuted : all_done MV uncached restated = true
  /\ ~ forward_agrees (disk (cc_conn (cc_run MV uncached restated))) (schema_of (cc_conn (cc_run MV uncached restated))) (cc_cache (cc_run MV uncached restated)).
Proof. split; [vm_compute; reflexivity|]. apply (forward_wrong_sound _ 65536 65543 (TVLong 30)). vm_compute. reflexivity. Qed.
Print Assumptions C36_restated_refuted.
(** When a cached attribute becomes cardinality-many its cached values are lost. *)
Definition widened : list cc_op :=
  [CcCache (person "age") DForward true; CcTransact 4000 [add (ent 65536) (db_ "cardinality") (v_kw (nskw "db.cardinality" "many"))] false].
Theorem C36_altered_refuted : all_done MV uncached widened = true
  /\ ~ forward_agrees (disk (cc_conn (cc_run MV uncached widened))) (schema_of (cc_conn (cc_run MV uncached widened))) (cc_cache (cc_run MV uncached widened)).
Proof. split; [vm_compute; reflexivity|]. apply (forward_wrong_sound _ 65536 65543 (TVLong 30)). vm_compute. reflexivity. Qed.
Print Assumptions C36_altered_refuted.
(** What a savepoint undoes is not undone in the cache. *)
Definition undone : list cc_op :=
  [ CcCache (person "age") DForward true;
    CcSession [CiOp (OpSavepoint "s"); CiOp (OpTransact 4000 [add (ent 65543) (person "age") (v_int 31)]); CiOp (OpRollbackTo "s")] true false ].
Theorem C36_undone_refuted : all_done MV uncached undone = true
  /\ ~ forward_agrees (disk (cc_conn (cc_run MV uncached undone))) (schema_of (cc_conn (cc_run MV uncached undone))) (cc_cache (cc_run MV uncached undone)).
Proof. split; [vm_compute; reflexivity|]. apply (forward_wrong_sound _ 65536 65543 (TVLong 31)). vm_compute. reflexivity. Qed.
Print Assumptions C36_undone_refuted.
(** A transact that fails in a session may have changed the store (C07), but not the cache. *)
Definition half_done : list cc_op :=
  [ CcCache (person "age") DForward true;
    CcSession [CiOp (OpTransact 4000 [add (ent 65543) (person "age") (v_int 77); add (ent 65544) (person "name") (v_str "Ivan")])] true false ].
Theorem C36_failed_refuted : all_done MV uncached half_done = true
  /\ ~ forward_agrees (disk (cc_conn (cc_run MV uncached half_done))) (schema_of (cc_conn (cc_run MV uncached half_done))) (cc_cache (cc_run MV uncached half_done)).
Proof. split; [vm_compute; reflexivity|]. apply (forward_wrong_sound _ 65536 65543 (TVLong 30)). vm_compute. reflexivity. Qed.
Print Assumptions C36_failed_refuted.
(** Registering the other direction in a session brings a retracted value back. *)
Definition registered_again : list cc_op :=
  [ CcCache (person "age") DForward true;
    CcSession [CiOp (OpTransact 4000 [retract (ent 65543) (person "age") (v_int 30)]); CiCache (person "age") DReverse true] true false ].
Theorem C36_registered_again_refuted : all_done MV uncached registered_again = true
  /\ ~ forward_agrees (disk (cc_conn (cc_run MV uncached registered_again))) (schema_of (cc_conn (cc_run MV uncached registered_again)))
        (cc_cache (cc_run MV uncached registered_again)).
Proof. split; [vm_compute; reflexivity|]. apply (forward_wrong_sound _ 65536 65543 (TVLong 30)). vm_compute. reflexivity. Qed.
Print Assumptions C36_registered_again_refuted.

(** Within a session, after tame calls, lookups give what the session's store has; with the exception of cardinality-one values that
    are no more. *)
Theorem C37_session_forward : forall reverse mv c l i rs, caching reverse mv c -> tame_calls reverse mv (cc_cache c) (cc_begin c) l ->
  ci_steps mv (cc_begin c) l = Ok (i, rs) -> never_uninstalled (st_log (ig_store (ci_ig i))) ->
  session_forward_agrees (ig_store (ci_ig i)) (ig_schema (ci_ig i)) (ci_cache i).
Proof. exact thm_session_forward. Qed.
Print Assumptions C37_session_forward.
Theorem C37_session_reverse : forall mv c l i rs, caching true mv c -> tame_calls true mv (cc_cache c) (cc_begin c) l ->
  ci_steps mv (cc_begin c) l = Ok (i, rs) -> never_uninstalled (st_log (ig_store (ci_ig i))) ->
  session_reverse_agrees (ig_store (ci_ig i)) (ig_schema (ci_ig i)) (ci_cache i).
Proof. exact thm_session_reverse. Qed.
Print Assumptions C37_session_reverse.
(** A commit makes the connection's cache have the attributes that the session's has, and ... *)
Theorem C37_committed : forall reverse mv c l i rs c', caching reverse mv c -> tame_calls reverse mv (cc_cache c) (cc_begin c) l ->
  ci_steps mv (cc_begin c) l = Ok (i, rs) -> never_uninstalled (st_log (ig_store (ci_ig i))) ->
  cc_step mv c (CcSession l true false) = (c', Ok tt) ->
  forall a, is_cached_forward (cc_cache c') a = ov_cached_forward (ci_cache i) a /\ is_cached_reverse (cc_cache c') a = ov_cached_reverse (ci_cache i) a.
Proof. exact thm_committed. Qed.
Print Assumptions C37_committed.
(** ... a session that is dropped changes nothing. *)
Theorem C37_dropped : forall mv c l shared, (cc_step mv c (CcSession l false shared)).1 = c.
Proof. exact thm_dropped. Qed.
Print Assumptions C37_dropped.
Definition name_cached : cconn := cc_run MV uncached [CcCache (person "name") DBoth true; CcCache (person "friend") DForward true].
Definition session_of (c : cconn) (l : list cip_op) : cinprog := match ci_steps MV (cc_begin c) l with Ok (i, _) => i | _ => cc_begin c end.
Example C37_case : caching true MV name_cached /\ tame_callsb true MV (cc_cache name_cached) (cc_begin name_cached) session_age = true
  /\ no_uninstall (st_log (ig_store (ci_ig (session_of name_cached session_age)))) = true
  /\ (let i := session_of name_cached session_age in
      ov_get_value (ci_cache i) (ig_schema (ci_ig i)) 65536 65544 = Some (TVLong 41)
      /\ ov_cached_forward (ci_cache i) 65538 = false /\ is_cached_forward (cc_cache name_cached) 65538 = true
      /\ is_cached_forward (cc_cache name_cached) 65536 = false).
Proof.
  split; [apply tame_runb_sound; [apply uncached_caching|vm_compute; reflexivity]|]. split; [vm_compute; reflexivity|].
  split; [vm_compute; reflexivity|]. vm_compute. split_and!; reflexivity.
Qed.

(** The exception: a retracted cardinality-one value is still there when read in the session. *)
Definition age_cached : cconn := cc_run MV uncached [CcCache (person "age") DForward true].
Definition forget_age : list cip_op := [CiOp (OpTransact 4000 [retract (ent 65543) (person "age") (v_int 30)])].
Theorem C37_deleted_refuted : caching true MV age_cached
  /\ tame_calls true MV (cc_cache age_cached) (cc_begin age_cached) forget_age
  /\ ov_get_value (ci_cache (session_of age_cached forget_age)) (ig_schema (ci_ig (session_of age_cached forget_age))) 65536 65543 = Some (TVLong 30)
  /\ ~ stored (ig_store (ci_ig (session_of age_cached forget_age))) 65543 65536 (TVLong 30).
Proof.
  split; [apply tame_runb_sound; [apply uncached_caching|vm_compute; reflexivity]|].
  split; [apply tame_callsb_sound; vm_compute; reflexivity|]. split; [vm_compute; reflexivity|].
  intros H%storedb_iff. revert H. assert (forall b : bool, b = false -> b = true -> False) as Hf by (intros []; done). apply Hf. vm_compute. reflexivity.
Qed.
Print Assumptions C37_deleted_refuted.
(** Committing while somebody holds the connection's cache panics; SQLite has committed, the connection's schema and cache are as before. *)
Theorem C37_shared_refuted : (cc_step MV age_cached (CcTransact 4000 [add (ent 65543) (person "age") (v_int 31)] true)).2 = Panic PCommitCache
  /\ storedb (disk (cc_conn (cc_step MV age_cached (CcTransact 4000 [add (ent 65543) (person "age") (v_int 31)] true)).1)) 65543 65536 (TVLong 31) = true
  /\ get_value (cc_cache (cc_step MV age_cached (CcTransact 4000 [add (ent 65543) (person "age") (v_int 31)] true)).1)
       (schema_of (cc_conn age_cached)) 65536 65543 = Some (TVLong 30).
Proof. split_and!; vm_compute; reflexivity. Qed.
Print Assumptions C37_shared_refuted.

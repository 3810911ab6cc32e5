(** Properties of the outputs of queries: C57.

    [q_once] gives the rows of a query, whose meaning is C41-C44; [q_output] the [QueryOutput] as the program gets it, which keeps the values of all
    rows in one vector (M_Output). *)
From Verif Require Import M_Output Spec_Conn Spec_Transact Spec_Query Spec_Output P_Output Cases Cases_Query.

(* ------------------------------------------------------------------ C57 *)

(** C57: the rows of a relation, counted, one by one, or all together, are those of the query, each with one value per element of :find. *)
Theorem C57_rows : forall sq k st q vals o vs, q_output sq k st q vals = Ok o -> q_find q = FRel vs -> vs <> [] ->
  exists rows rr, q_once sq k st q vals = Ok (RRel rows) /\ into_rel o = Ok rr /\ Forall (fun row => length row = length vs) rows
    /\ rr_rows rr = Ok rows /\ rr_into_iter rr = rows /\ rr_row_count rr = Ok (length rows) /\ (forall i, rr_row rr i = rows !! i) /\ (rr_is_empty rr = true <-> rows = []).
Proof. exact output_rel. Qed.
Print Assumptions C57_rows.
(** ... and so the answers of the query, in order (C44). *)
Theorem C57_answer : forall mv c sq q vals o vs, clean mv c -> sqlite_ok sq -> all_readable (disk c) -> safe q vals -> Forall (regular (schema_of c) (q_in q) vals) (q_where q) ->
  well_ordered q -> well_limited q vals -> twinless (disk c) \/ closed_find q -> q_find q = FRel vs -> vs <> [] ->
  q_output sq (Known (schema_of c) no_cache) (disk c) q vals = Ok o ->
  exists l rr, listing (disk c) (schema_of c) q vals l /\ into_rel o = Ok rr /\ rr_into_iter rr = map (fun σ => map σ vs) (up_to (limit_of q vals) l).
Proof. exact output_answer. Qed.
Print Assumptions C57_answer.
Example C57_rows_case : q_find q_about = FRel ["?a"; "?v"] /\ exists o rr, q_output sq0 (Known (schema_of case_conn) no_cache) (disk case_conn) q_about v_about = Ok o
  /\ into_rel o = Ok rr /\ rr_values rr = [TVRef 65541; TVString "Ivan"; TVRef 65539; TVString "Vanya"; TVRef 65537; TVString "a life"]
  /\ rr_row rr 1 = Some [TVRef 65539; TVString "Vanya"] /\ rr_row rr 3 = None.
Proof. split; [done|]. eexists. eexists. split; [vm_compute; reflexivity|]. split; [cbn; reflexivity|]. split_and!; reflexivity. Qed.

(** A tuple comes as a vector, or as a tuple of as many components as :find has elements; any other size, and any other shape, is an error and not
    a panic, also if there is no result. *)
Theorem C57_tuple : forall sq k st q vals o, q_output sq k st q vals = Ok o ->
  match q_find q with
  | FTuple vs => exists t, q_once sq k st q vals = Ok (RTuple t) /\ into_tuple None o = Ok t
      /\ forall n, into_tuple (Some n) o = if decide (n = length vs) then Ok t else Err EProjector
  | _ => forall b, into_tuple b o = Err EProjector
  end.
Proof. exact output_tuple. Qed.
Print Assumptions C57_tuple.
(** The other shapes *)
Theorem C57_shape : forall sq k st q vals o, q_output sq k st q vals = Ok o ->
  match q_find q with
  | FScalar _ => exists s, q_once sq k st q vals = Ok (RScalar s) /\ into_scalar o = Ok s /\ into_coll o = Err EProjector /\ into_rel o = Err EProjector
  | FColl _ => exists l, q_once sq k st q vals = Ok (RColl l) /\ into_coll o = Ok l /\ into_scalar o = Err EProjector /\ into_rel o = Err EProjector
  | _ => into_scalar o = Err EProjector /\ into_coll o = Err EProjector
  end.
Proof. exact output_shape. Qed.
Print Assumptions C57_shape.
Definition q_pair : query := ask (FTuple ["?n"; "?a"]) (q_where q_names).
Example C57_tuple_case : exists o, q_output sq0 (Known (schema_of case_conn) no_cache) (disk case_conn) q_pair ∅ = Ok o
  /\ into_tuple (Some 2%nat) o = Ok (Some [TVString "Petr"; TVLong 40]) /\ into_tuple (Some 3%nat) o = Err EProjector.
Proof. eexists. split; [vm_compute; reflexivity|]. split; reflexivity. Qed.

(** [len] is the number of results, and [is_empty] says whether there are none. *)
Theorem C57_counted : forall sq k st q vals o, q_output sq k st q vals = Ok o -> q_find q <> FRel [] ->
  exists r, q_once sq k st q vals = Ok r /\ qr_len (qo_results o) = Ok (number_of r) /\ (qr_is_empty (qo_results o) = true <-> number_of r = 0%nat).
Proof. exact output_number. Qed.
Print Assumptions C57_counted.
Example C57_counted_case : exists o, q_output sq0 (Known (schema_of case_conn) no_cache) (disk case_conn) q_about v_about = Ok o
  /\ qr_len (qo_results o) = Ok 3%nat /\ qr_is_empty (qo_results o) = false.
Proof. eexists. split; [vm_compute; reflexivity|]. split; reflexivity. Qed.

(** Rows put together by hand come back ... *)
Theorem C57_from : forall w rows, (0 < w)%nat -> Forall (fun r => length r = w) rows -> rows <> [] ->
  rr_into_iter (rr_from rows) = rows /\ rr_rows (rr_from rows) = Ok rows /\ rr_row_count (rr_from rows) = Ok (length rows).
Proof. exact from_rows. Qed.
Print Assumptions C57_from.
Example C57_from_case : Forall (fun r => length r = 2%nat) [[TVLong 1; TVLong 2]; [TVLong 3; TVLong 4]] /\ rr_row (rr_from [[TVLong 1; TVLong 2]; [TVLong 3; TVLong 4]]) 1 = Some [TVLong 3; TVLong 4].
Proof. split; [repeat constructor|reflexivity]. Qed.
(** ... except for no rows: counting them divides by zero, and [rows] panics, though [row] and the iterator do not.  It is not the empty relation that a
    query gives. *)
Theorem C57_from_refuted : rr_row_count (rr_from []) = Panic PQuery /\ rr_rows (rr_from []) = Panic PQuery /\ rr_into_iter (rr_from []) = []
  /\ forall w, (0 < w)%nat -> rr_from [] <> rr_empty w /\ rr_row_count (rr_empty w) = Ok 0%nat.
Proof. split_and!; try done. intros w Hw. destruct w; [lia|]. split; [done|]. reflexivity. Qed.
Print Assumptions C57_from_refuted.

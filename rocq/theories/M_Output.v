(** Taking the output of a query apart: query-projector/src/lib.rs:72-322, relresult.rs, binding_tuple.rs; transaction/src/query.rs:93-117.
    Values are typed values; the maps and vectors that pull expressions give are not in it. *)
From Verif Require Export M_Sql M_Query.

(** relresult.rs:14-18 RelResult: the values of all rows, one after the other *)
Record rel_result := RelResult { rr_width : nat; rr_values : list typed_value }.
(** lib.rs:72-86 QueryOutput, QueryResults *)
Inductive query_results := QScalar (o : option typed_value) | QTuple (o : option (list typed_value)) | QColl (l : list typed_value) | QRel (r : rel_result).
Record query_output := QueryOutput { qo_spec : find_spec; qo_results : query_results }.

(** relresult.rs:24-28 *)
Definition rr_empty (width : nat) : rel_result := RelResult width [].
(** relresult.rs:30-32 *)
Definition rr_is_empty (r : rel_result) : bool := is_nil (rr_values r).
(** relresult.rs:34-36 row_count: a division by zero panics *)
Definition rr_row_count (r : rel_result) : res nat :=
  match rr_width r with O => Panic PQuery | w => Ok (length (rr_values r) / w)%nat end.
(** relresult.rs:38-41 rows: [slice::chunks] panics if the width is zero *)
Definition rr_rows (r : rel_result) : res (list (list typed_value)) :=
  match rr_width r with O => Panic PQuery | w => Ok (chunks_of (length (rr_values r)) w (rr_values r)) end.
(** relresult.rs:43-51 row *)
Definition rr_row (r : rel_result) (i : nat) : option (list typed_value) :=
  let e := (rr_width r * (i + 1))%nat in
  if (length (rr_values r) <? e)%nat then None
  else let s := (rr_width r * i)%nat in Some (take (e - s) (drop s (rr_values r))).
(** relresult.rs:133-145 From<Vec<Vec<TypedValue>>> *)
Definition rr_from (src : list (list typed_value)) : rel_result :=
  match src with [] => rr_empty 0 | r :: _ => RelResult (length r) (concat src) end.
(** relresult.rs:147-180 SubvecIntoIterator::next until it returns None; [fuel] is the number of values, which is enough *)
Fixpoint rr_into_iter_from (fuel w : nat) (l : list typed_value) : list (list typed_value) :=
  match take w l, fuel with
  | [], _ => []
  | x, S fuel => x :: rr_into_iter_from fuel w (drop w l)
  | _, O => []
  end.
Definition rr_into_iter (r : rel_result) : list (list typed_value) := rr_into_iter_from (length (rr_values r)) (rr_width r) (rr_values r).

(** projectors/simple.rs:143-220 (RelProjector: the values of each row are appended), lib.rs:116-211 empty and from_constants: the output, from the
    rows of [run_algebrized] *)
Definition output_of (f : find_spec) (r : results) : query_output :=
  QueryOutput f
    match r with
    | RRel rows => QRel (RelResult (length (find_vars f)) (concat rows))
    | RColl l => QColl l
    | RTuple o => QTuple o
    | RScalar o => QScalar o
    end.

(** edn/src/query.rs:648-655 expected_column_count *)
Definition expected_column_count (f : find_spec) : nat := match f with FScalar _ | FColl _ => 1 | FTuple vs | FRel vs => length vs end.
(** lib.rs:243-273 len, is_empty *)
Definition qr_len (r : query_results) : res nat :=
  match r with
  | QScalar o => Ok (if is_some o then 1 else 0)%nat
  | QTuple o => Ok (if is_some o then 1 else 0)%nat
  | QColl l => Ok (length l)
  | QRel r => rr_row_count r
  end.
Definition qr_is_empty (r : query_results) : bool :=
  match r with QScalar o => negb (is_some o) | QTuple o => negb (is_some o) | QColl l => is_nil l | QRel r => rr_is_empty r end.
(** lib.rs:275-321 *)
Definition qr_into_scalar (r : query_results) : res (option typed_value) := match r with QScalar o => Ok o | _ => Err EProjector end.
Definition qr_into_coll (r : query_results) : res (list typed_value) := match r with QColl l => Ok l | _ => Err EProjector end.
Definition qr_into_tuple (r : query_results) : res (option (list typed_value)) := match r with QTuple o => Ok o | _ => Err EProjector end.
Definition qr_into_rel (r : query_results) : res rel_result := match r with QRel r => Ok r | _ => Err EProjector end.

(** binding_tuple.rs:20-197 BindingTuple::from_binding_vec, for the type of vectors ([None]) and for the types of tuples of [n] values, n = 1..6;
    a tuple is the list of its components.  [unwrap] panics if the vector is too short. *)
Definition from_binding_vec (b : option nat) (expected : nat) (v : option (list typed_value)) : res (option (list typed_value)) :=
  if match b with Some n => negb (expected =? n)%nat | None => false end then Err EProjector
  else match v with
       | None => Ok None
       | Some v =>
           if negb (expected =? length v)%nat then Err EProjector
           else match b with
                | None => Ok (Some v)
                | Some n => if (length v <? n)%nat then Panic PQuery else Ok (Some (take n v))
                end
       end.
(** lib.rs:213-239 *)
Definition into_scalar (o : query_output) : res (option typed_value) := qr_into_scalar (qo_results o).
Definition into_coll (o : query_output) : res (list typed_value) := qr_into_coll (qo_results o).
Definition into_tuple (b : option nat) (o : query_output) : res (option (list typed_value)) :=
  let! v := qr_into_tuple (qo_results o) in from_binding_vec b (expected_column_count (qo_spec o)) v.
Definition into_rel (o : query_output) : res rel_result := qr_into_rel (qo_results o).

(** transaction/src/query.rs:370-381 q_once, with the output as it is returned *)
Definition q_output (q : sqlite) (k : known) (st : store) (qu : query) (vals : gmap var typed_value) : res query_output :=
  rmap (output_of (q_find qu)) (q_once q k st qu vals).

(** Aggregates in [:find]: query-projector-traits/aggregates.rs, query-projector/src/project.rs:155-527, translate.rs:394-476.
    Not in it: [the], pull expressions, [:order] and [:limit] together with aggregates, avg, sums of doubles; a [:find] without an
    aggregate is in M_Query.v. *)
From Verif Require Export M_Query.

(** aggregates.rs:22-28 SimpleAggregationOp *)
Inductive agg_op := AggAvg | AggCount | AggMax | AggMin | AggSum.
(** edn/src/query.rs:532-544 Element, without Corresponding and Pull *)
Inductive element := ElVar (v : var) | ElAgg (o : agg_op) (v : var).
(** edn/src/query.rs:617-634 FindSpec *)
Inductive agg_find := AgRel (l : list element) | AgColl (e : element) | AgTuple (l : list element) | AgScalar (e : element).
(** algebrizer lib.rs FindQuery: what is asked for, [:with], [:in], [:where] *)
Record agg_query := AggQuery { ag_find : agg_find; ag_with : list var; ag_in : list var; ag_where : list clause }.

Definition ag_elements (f : agg_find) : list element := match f with AgRel l | AgTuple l => l | AgColl e | AgScalar e => [e] end.
(** edn/src/query.rs:638-646 is_unit_limited *)
Definition ag_unit (f : agg_find) : bool := match f with AgTuple _ | AgScalar _ => true | _ => false end.
Definition el_var (e : element) : var := match e with ElVar v | ElAgg _ v => v end.
Definition plain_vars (els : list element) : list var := flat_map (fun e => match e with ElVar v => [v] | ElAgg _ _ => [] end) els.

(** aggregates.rs:53-136 is_applicable_to_types *)
Definition agg_type (o : agg_op) (ts : vts) : res value_type :=
  if vts_is_empty ts then Err EProjector
  else
    let sum := if vts_contains ts VTDouble then VTDouble else VTLong in
    match o with
    | AggCount => Ok VTLong
    | AggAvg => if vts_is_only_numeric ts then Ok VTDouble else Err EProjector
    | AggSum => if vts_is_only_numeric ts then Ok sum else Err EProjector
    | AggMax | AggMin =>
        if vts_is_unit ts then
          match vts_exemplar ts with
          | Some (VTKeyword | VTRef | VTUuid) => Err EProjector
          | Some t => Ok t
          | None => Panic PQuery
          end
        else if vts_is_only_numeric ts then Ok sum else Err EProjector
    end.
(** aggregates.rs:149-163 use_static_value, is_nullable *)
Definition agg_nullable (o : agg_op) : bool := match o with AggAvg | AggMax | AggMin => true | AggCount | AggSum => false end.

(** SQLite's functions on the values of a group.  A sum that leaves the range of 64 bits is an error of the statement, which the projector
    unwraps (simple.rs:196). *)
Fixpoint sql_sum (acc : Z) (l : list sqlval) : res sqlval :=
  match l with
  | [] => Ok (SInt acc)
  | SInt z :: l => if (- 2 ^ 63 <=? acc + z) && (acc + z <? 2 ^ 63) then sql_sum (acc + z) l else Panic PQuery
  | _ => Err ESql
  end.
Definition sql_best (better : comparison) (l : list sqlval) : sqlval :=
  match l with
  | [] => SNull
  | x :: l => fold_left (fun m y => match sql_cmp y m, better with Gt, Gt | Lt, Lt => y | _, _ => m end) l x
  end.
Definition agg_sql (o : agg_op) (l : list sqlval) : res sqlval :=
  let l := filter (fun v => v <> SNull) l in
  match o with
  | AggCount => Ok (SInt (Z.of_nat (length l)))
  | AggMax => Ok (sql_best Gt l)
  | AggMin => Ok (sql_best Lt l)
  | AggSum => if is_nil l then Ok SNull else sql_sum 0 l
  | AggAvg => Err ESql
  end.

(** project.rs:170-340, 437-480: the variables of the inner SELECT, each once: those of the elements, then those of [:with] *)
Definition first_vars (l : list var) : list var := dedup (fun x y => bool_decide (x = y)) l.
Definition inner_vars (c : cc) (els : list element) (withs : list var) : list var :=
  let vs := first_vars (map el_var els) in
  vs ++ filter (fun v => c_vals c !! v = None /\ v ∉ vs) (sorted_vars (vars_of withs)).

(** The values of some of the columns of a row *)
Definition pick (P : column -> bool) (cols : list (column * pexpr)) (r : list sqlval) : list sqlval :=
  map snd (filter (fun x => P x.1.1 = true) (zip cols r)).
Definition group_column (vs : list var) (c : column) : bool :=
  match c with CVar v | CVarTag v => bool_decide (v ∈ vs) | _ => false end.
Definition value_column (v : var) (c : column) : bool := bool_decide (c = CVar v).

(** project.rs:416-470, translate.rs:394-470 re_project: the groups of the rows of the inner SELECT.  Without GROUP BY and without a function
    each row stays on its own; with a function and without GROUP BY all rows are one group, even if there are none. *)
Definition agg_groups (c : cc) (els : list element) (cols : list (column * pexpr)) (rows : list (list sqlval)) : list (list (list sqlval)) :=
  let vs := filter (fun v => c_vals c !! v = None) (plain_vars els) in
  if is_nil vs then
    if existsb (fun e => match e with ElAgg o v => negb (is_some (c_vals c !! v) && agg_nullable o) | ElVar _ => false end) els
    then [rows] else map (fun r => [r]) rows
  else
    let same r r' := row_same (pick (group_column vs) cols r) (pick (group_column vs) cols r') in
    map (fun r => filter (fun r' => same r r' = true) rows) (dedup same rows).
(** translate.rs:403-420, 440-470: [IS NOT NULL] of the functions that can be NULL, which they are for no rows *)
Definition agg_dropped (c : cc) (els : list element) (g : list (list sqlval)) : bool :=
  is_nil g && existsb (fun e => match e with ElAgg o v => agg_nullable o && negb (is_some (c_vals c !! v)) | ElVar _ => false end) els.

(** The value of an element: the outer SELECT copies the columns of a variable (of some row of the group, NULL if there is none), and
    computes functions; the value of an input is used as it is if the function allows (aggregates.rs:186-232). *)
Definition agg_value (c : cc) (cols : list (column * pexpr)) (ixs : list (var * tindex)) (g : list (list sqlval)) (e : element) : res typed_value :=
  match e with
  | ElVar v =>
      match g, list_find (fun x => x.1 = v) ixs with
      | r :: _, Some (_, (_, i)) => typed_lookup r i
      | [], _ => Err EBadSQLValuePair
      | _, None => Panic PQuery
      end
  | ElAgg o v =>
      let! t := agg_type o (known_type_set c v) in
      let! x := match c_vals c !! v with
                | Some x => if agg_nullable o then Ok (sql_of x) else agg_sql o (map (fun _ => sql_of x) g)
                | None => agg_sql o (map (fun r => default SNull (head (pick (value_column v) cols r))) g)
                end in
      from_sql_value_pair x (vt_tag t)
  end.

Definition ag_results (f : agg_find) (rows : list (list typed_value)) : results :=
  match f with
  | AgRel _ => RRel rows
  | AgColl _ => RColl (concat rows)
  | AgTuple _ => RTuple (head rows)
  | AgScalar _ => RScalar (head rows ≫= head)
  end.

(** transaction/src/query.rs:331-361 run_algebrized_query, for a [:find] with aggregates.  A variable that comes after a function of it would be
    twice in the inner SELECT, under one name; here it is once. *)
Definition run_aggregate (q : sqlite) (st : store) (f : agg_find) (withs : list var) (c : cc) : res results :=
  let els := ag_elements f in
  if c_empty c then Ok (ag_results f [])
  else if negb (existsb (fun e => match e with ElAgg _ _ => true | ElVar _ => false end) els) then Err EProjector
  else if negb (bool_decide (NoDup (plain_vars els))) then Err EProjector
  else
    let! _ := rmapM (fun e => match e with ElAgg o v => rmap (fun _ => tt) (agg_type o (known_type_set c v)) | ElVar _ => Ok tt end) els in
    let vs := inner_vars c els withs in
    let! (cols, ixs) := project_vars c [] 0 vs in
    let! _ := check_cc [] c in
    if negb (forallb (fun x => expr_ok (from_columns (c_computed c) (c_from c)) x.2) cols) then Err ESql
    else
      let rows := sql_rows q st true cols [] LNone c in
      let groups := agg_groups c els cols rows in
      let groups := if ag_unit f then take 1 groups else groups in
      let groups := filter (fun g => agg_dropped c els g = false) groups in
      let! out := rmapM (fun g => rmapM (agg_value c cols (zip vs ixs) g) els) groups in
      Ok (ag_results f out).

(** The query that the clauses are read with: [:find] only matters for [:limit] there.  [:with] must not have duplicates (algebrizer lib.rs:384-395) *)
Definition ag_tuples (g : agg_query) : query :=
  Query (FRel (first_vars (map el_var (ag_elements (ag_find g))) ++ filter (fun v => v ∉ map el_var (ag_elements (ag_find g))) (sorted_vars (vars_of (ag_with g)))))
    (ag_in g) (ag_where g) [] LNone.
(** transaction/src/query.rs:363-385 q_once *)
Definition q_aggregate (q : sqlite) (k : known) (st : store) (g : agg_query) (vals : gmap var typed_value) : res results :=
  if negb (bool_decide (NoDup (ag_with g))) then Err EAlgebrizer
  else
    let! a := algebrize k (ag_tuples g) vals in
    if bool_decide (s_inputs (c_scope (aq_cc a)) ⊆ dom (c_vals (aq_cc a))) then run_aggregate q st (ag_find g) (ag_with g) (aq_cc a) else Err EAlgebrizer.

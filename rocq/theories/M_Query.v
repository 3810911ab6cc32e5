(** Queries: the algebrizer (query-algebrizer), the translation to SQL (query-projector/src/translate.rs, project.rs), what SQLite
    makes of that SQL, and the projection of its rows (query-projector).

    Modelled: [:find] of variables in the four shapes, [:in], [:where] with patterns, [not] / [not-join], [or] / [or-join], type
    annotations and comparisons, [:order], [:limit].  Not modelled: the parser, [:with], functions (ground, fulltext, tx-ids, tx-data),
    aggregates, pull expressions in [:find] (M_Pull.v has pull by itself), sources other than [$].

    The SQL text is represented by the structure that is printed; M_Sql.v has the printing of values. *)
From Verif Require Export M_Store M_Sets M_Cache.

(* ---------------------------------------------------------------- the parsed query *)

(** edn/src/query.rs:47 Variable *)
Notation var := string (only parsing).
(** edn/src/query.rs:277-460 PatternNonValuePlace, PatternValuePlace (NonIntegerConstant is given as the typed value that
    clauses/pattern.rs:30 into_typed_value makes of it) *)
Inductive nplace := NPlaceholder | NVar (v : var) | NEntid (e : Z) | NIdent (k : keyword).
Inductive vplace := VPlaceholder | VVar (v : var) | VInteger (z : Z) | VIdent (k : keyword) | VConst (c : typed_value).
(** edn/src/query.rs:787 Pattern; the source is [$]. *)
Record pattern := Pattern { p_e : nplace; p_a : nplace; p_v : vplace; p_tx : nplace }.
(** edn/src/query.rs:855-945 UnifyVars, OrWhereClause, OrJoin, NotJoin, TypeAnnotation, WhereClause.
    The keyword of a type annotation is given as the type it names (ValueType::from_keyword). *)
Inductive unify := UImplicit | UExplicit (vs : list var).
(** edn/src/query.rs FnArg, 842-845 Predicate.  A constant is given as its value; [FOther] is a big integer, a source or a vector. *)
Inductive farg := FVar (v : var) | FInteger (z : Z) | FKeyword (k : keyword) | FConst (c : typed_value) | FOther.
Inductive clause :=
  | CPattern (p : pattern)
  | CType (v : var) (t : value_type)
  | CPred (name : string) (args : list farg)
  | CNot (u : unify) (cs : list clause)
  | COr (u : unify) (arms : list arm)
with arm := AClause (c : clause) | AAnd (cs : list clause).

(** edn/src/query.rs:618-690 FindSpec with variables only; 141-148 Direction, Order; 589 Limit *)
Inductive find_spec := FRel (vs : list var) | FColl (v : var) | FTuple (vs : list var) | FScalar (v : var).
Inductive direction := Asc | Desc.
Inductive qlimit := LNone | LFixed (n : nat) | LVar (v : var).
Record query := Query {
  q_find : find_spec;
  q_in : list var;
  q_where : list clause;
  q_order : list (direction * var);
  q_limit : qlimit }.
Definition find_vars (f : find_spec) : list var := match f with FRel vs | FTuple vs => vs | FColl v | FScalar v => [v] end.

(** edn/src/query.rs:1070-1211 ContainsVariables *)
Definition farg_vars (a : farg) : list var := match a with FVar v => [v] | _ => [] end.
Definition nplace_vars (p : nplace) : list var := match p with NVar v => [v] | _ => [] end.
Definition vplace_vars (p : vplace) : list var := match p with VVar v => [v] | _ => [] end.
Definition pattern_vars (p : pattern) : list var :=
  nplace_vars (p_e p) ++ nplace_vars (p_a p) ++ vplace_vars (p_v p) ++ nplace_vars (p_tx p).
Fixpoint clause_vars (c : clause) : list var :=
  match c with
  | CPattern p => pattern_vars p
  | CType v _ => [v]
  | CPred _ args => flat_map farg_vars args
  | CNot _ cs => flat_map clause_vars cs
  | COr _ arms => flat_map arm_vars arms
  end
with arm_vars (a : arm) : list var :=
  match a with AClause c => clause_vars c | AAnd cs => flat_map clause_vars cs end.
Definition vars_of (l : list var) : gset var := list_to_set l.
(** BTreeSet order *)
Definition var_le (x y : var) : Prop := string_cmp x y <> Gt.
Global Instance var_le_dec x y : Decision (var_le x y).
Proof. unfold var_le. apply _. Defined.
Definition sorted_vars (s : gset var) : list var := merge_sort var_le (elements s).

(* ---------------------------------------------------------------- conjoining clauses *)

(** query-algebrizer/src/types.rs:23-130 DatomsTable, columns; the alias of a table of datoms is its name and a counter, that of a
    computed table is "c" and its index in its own list of computed tables (clauses/mod.rs:888-897). *)
Inductive table := TDatoms | TFulltext | TAll | TComputed (i : nat).
Inductive alias := ADatoms (n : nat) | AComputed (i : nat).
Inductive column := CE | CA | CV | CTx | CTag | CVar (v : var) | CVarTag (v : var).
Notation qalias := (alias * column)%type (only parsing).
Global Instance table_eq_dec : EqDecision table.
Proof. solve_decision. Defined.
Global Instance alias_eq_dec : EqDecision alias.
Proof. solve_decision. Defined.
Global Instance column_eq_dec : EqDecision column.
Proof. solve_decision. Defined.

(** query-algebrizer/src/types.rs:285 QueryValue *)
Inductive qvalue := QColumn (q : qalias) | QEntid (e : Z) | QValue (v : typed_value) | QLong (z : Z).

(** clauses/mod.rs:120-180 ConjoiningClauses, except its computed tables and constraints.
    [s_next] is the alias counter, which all the clauses made from one query share. *)
Record scope := Scope {
  s_empty : bool;                     (* empty_because *)
  s_next : nat;                       (* alias_counter *)
  s_from : list (table * alias);
  s_cols : gmap var (list qalias);    (* column_bindings *)
  s_inputs : gset var;                (* input_variables *)
  s_vals : gmap var typed_value;      (* value_bindings *)
  s_known : gmap var vts;             (* known_types *)
  s_extracted : gmap var qalias;      (* extracted_types *)
  s_required : gmap var vts }.        (* required_types *)
(** query-algebrizer/src/types.rs:325-388 Inequality: from_datalog_operator, supported_types, and to_sql_operator by the results of a
    comparison for which the SQL operator holds *)
Inductive inequality :=
  | LessThan | LessThanOrEquals | GreaterThan | GreaterThanOrEquals | NotEquals
  | Unpermute | Differ | TxAfter | TxBefore.
Definition inequality_of (s : string) : option inequality :=
  match list_find (fun x => x.1 = s)
    [("<", LessThan); ("<=", LessThanOrEquals); (">", GreaterThan); (">=", GreaterThanOrEquals); ("!=", NotEquals);
     ("unpermute", Unpermute); ("differ", Differ); ("tx-after", TxAfter); ("tx-before", TxBefore)]%string with
  | Some (_, x) => Some x.2
  | None => None
  end.
Definition supported_types (op : inequality) : vts :=
  match op with
  | LessThan | LessThanOrEquals | GreaterThan | GreaterThanOrEquals | NotEquals => vts_numeric_and_instant
  | Unpermute | Differ | TxAfter | TxBefore => vts_of_one VTRef
  end.
Definition operator_holds (op : inequality) (r : comparison) : bool :=
  match op, r with
  | (LessThan | Unpermute | TxBefore), Lt => true
  | LessThanOrEquals, (Lt | Eq) => true
  | (GreaterThan | TxAfter), Gt => true
  | GreaterThanOrEquals, (Gt | Eq) => true
  | (NotEquals | Differ), (Lt | Gt) => true
  | _, _ => false
  end.
(** query-algebrizer/src/types.rs:411-530: ColumnConstraint (Equals, Inequality, HasTypes, NotExists) and the alternations; 34 ComputedTable
    (Union; a Subquery is its clauses) *)
Inductive constraint :=
  | KEquals (q : qalias) (v : qvalue)
  | KCompare (op : inequality) (l r : qvalue)
  | KTypes (t : alias) (ts : vts) (check : bool)
  | KNotExists (c : cc)
  | KOr (alternatives : list (list constraint))
with computed := Union (projection : list var) (extraction : list var) (arms : list cc)
with cc := CC (c_scope : scope) (c_computed : list computed) (c_wheres : list constraint).

Definition c_scope (c : cc) : scope := match c with CC s _ _ => s end.
Definition c_computed (c : cc) : list computed := match c with CC _ l _ => l end.
Definition c_wheres (c : cc) : list constraint := match c with CC _ _ l => l end.
Definition c_empty (c : cc) : bool := s_empty (c_scope c).
Definition c_next (c : cc) : nat := s_next (c_scope c).
Definition c_from (c : cc) : list (table * alias) := s_from (c_scope c).
Definition c_cols (c : cc) : gmap var (list qalias) := s_cols (c_scope c).
Definition c_inputs (c : cc) : gset var := s_inputs (c_scope c).
Definition c_vals (c : cc) : gmap var typed_value := s_vals (c_scope c).
Definition c_known (c : cc) : gmap var vts := s_known (c_scope c).
Definition c_extracted (c : cc) : gmap var qalias := s_extracted (c_scope c).
Definition c_required (c : cc) : gmap var vts := s_required (c_scope c).

Definition set_scope (f : scope -> scope) (c : cc) : cc := match c with CC s l w => CC (f s) l w end.
(** clauses/mod.rs:758-764 mark_known_empty *)
Definition mark_empty : cc -> cc := set_scope (fun s =>
  Scope true (s_next s) (s_from s) (s_cols s) (s_inputs s) (s_vals s) (s_known s) (s_extracted s) (s_required s)).
Definition with_next (n : nat) : cc -> cc := set_scope (fun s =>
  Scope (s_empty s) n (s_from s) (s_cols s) (s_inputs s) (s_vals s) (s_known s) (s_extracted s) (s_required s)).
Definition push_from (x : table * alias) : cc -> cc := set_scope (fun s =>
  Scope (s_empty s) (s_next s) (s_from s ++ [x]) (s_cols s) (s_inputs s) (s_vals s) (s_known s) (s_extracted s) (s_required s)).
Definition with_cols (f : gmap var (list qalias) -> gmap var (list qalias)) : cc -> cc := set_scope (fun s =>
  Scope (s_empty s) (s_next s) (s_from s) (f (s_cols s)) (s_inputs s) (s_vals s) (s_known s) (s_extracted s) (s_required s)).
Definition put_val (v : var) (x : typed_value) : cc -> cc := set_scope (fun s =>
  Scope (s_empty s) (s_next s) (s_from s) (s_cols s) (s_inputs s) (<[v := x]> (s_vals s)) (s_known s) (s_extracted s) (s_required s)).
Definition put_known (v : var) (ts : vts) : cc -> cc := set_scope (fun s =>
  Scope (s_empty s) (s_next s) (s_from s) (s_cols s) (s_inputs s) (s_vals s) (<[v := ts]> (s_known s)) (s_extracted s) (s_required s)).
Definition with_extracted (f : gmap var qalias -> gmap var qalias) : cc -> cc := set_scope (fun s =>
  Scope (s_empty s) (s_next s) (s_from s) (s_cols s) (s_inputs s) (s_vals s) (s_known s) (f (s_extracted s)) (s_required s)).
Definition put_required (v : var) (ts : vts) : cc -> cc := set_scope (fun s =>
  Scope (s_empty s) (s_next s) (s_from s) (s_cols s) (s_inputs s) (s_vals s) (s_known s) (s_extracted s) (<[v := ts]> (s_required s))).
(** query-algebrizer/src/types.rs ColumnIntersection::add_intersection *)
Definition add_where (k : constraint) (c : cc) : cc := match c with CC s l w => CC s l (w ++ [k]) end.
Definition add_wheres (ks : list constraint) (c : cc) : cc := match c with CC s l w => CC s l (w ++ ks) end.
(** clauses/mod.rs:1218-1225 push_computed *)
Definition push_computed (u : computed) (c : cc) : cc * nat := match c with CC s l w => (CC s (l ++ [u]) w, length l) end.

(* ---------------------------------------------------------------- what is known about the store *)

(** core/src/cache.rs CachedAttributes, as the algebrizer uses it; query-algebrizer/src/lib.rs:45-135 Known *)
Record cacheq := CacheQ {
  cq_forward : Z -> bool;
  cq_reverse : Z -> bool;
  cq_value : Z -> Z -> option typed_value;      (* attribute, entity *)
  cq_entid : Z -> typed_value -> option Z;
  cq_entids : Z -> typed_value -> option (list Z) }.
Definition no_cache : cacheq :=
  CacheQ (fun _ => false) (fun _ => false) (fun _ _ => None) (fun _ _ => None) (fun _ _ => None).
Definition conn_cache (c : caches) (s : schema) : cacheq :=
  CacheQ (is_cached_forward c) (is_cached_reverse c) (get_value c s) (get_entid c) (fun a v => elements <$> get_entids c a v).
Record known := Known { kn_schema : schema; kn_cache : cacheq }.
Definition kn_attr (k : known) (a : Z) : option attribute := sc_attribute_map (kn_schema k) !! a.
Definition kn_ident (k : known) (i : keyword) : option Z := sc_ident_map (kn_schema k) !! i.
(** core/src/lib.rs:223-227 attribute_for_ident *)
Definition kn_attr_for_ident (k : known) (i : keyword) : option attribute := kn_ident k i ≫= kn_attr k.

(* ---------------------------------------------------------------- types *)

(** clauses/mod.rs:396-407 *)
Definition known_type (c : cc) (v : var) : option value_type :=
  match c_known c !! v with Some ts => if vts_is_unit ts then vts_exemplar ts else None | None => None end.
Definition known_type_set (c : cc) (v : var) : vts := default vts_any (c_known c !! v).
(** clauses/mod.rs:596-617 constrain_var_to_type *)
Definition constrain_var (v : var) (t : value_type) (c : cc) : cc :=
  let c' := put_known v (vts_of_one t) c in
  match c_known c !! v with
  | Some existing => if vts_contains existing t then c' else mark_empty c'
  | None => c'
  end.
(** clauses/mod.rs:568-592 can_constrain_var_to_type *)
Definition can_constrain (c : cc) (v : var) (t : value_type) : bool :=
  match c_known c !! v with
  | Some existing => negb (vts_is_empty (vts_intersection existing (vts_of_one t)))
  | None => true
  end.
(** clauses/mod.rs:620-651 *)
Definition add_type_requirement (v : var) (ts : vts) (c : cc) : cc :=
  if vts_is_empty ts then mark_empty c
  else match c_required c !! v with
       | None => put_required v ts c
       | Some existing =>
           let i := vts_intersection ts existing in
           if vts_is_empty i then mark_empty (put_required v i c) else put_required v i c
       end.
(** clauses/mod.rs:661-690, for one variable; the panic needs an empty set of types in clauses that are known to be empty *)
Definition broaden_type (c : cc) (x : var * vts) : cc :=
  match c_known c !! x.1 with
  | None => put_known x.1 x.2 (if vts_is_unit x.2 then with_extracted (delete x.1) c else c)
  | Some existing => put_known x.1 (vts_union existing x.2) c
  end.
Definition broaden_types (ts : gmap var vts) (c : cc) : cc := fold_left broaden_type (map_to_list ts) c.
(** clauses/mod.rs:693-735 *)
Definition narrow_type (v : var) (ts : vts) (c : cc) : cc :=
  if vts_is_empty ts then mark_empty c
  else match c_known c !! v with
       | None => put_known v ts c
       | Some existing =>
           let i := vts_intersection ts existing in
           if vts_is_empty i then mark_empty (put_known v i c) else put_known v i c
       end.
Definition narrow_types (ts : gmap var vts) (c : cc) : cc := fold_left (fun c x => narrow_type x.1 x.2 c) (map_to_list ts) c.

(* ---------------------------------------------------------------- bindings *)

(** clauses/mod.rs:515-545 constrain_column_to_constant, constrain_column_to_entity *)
Definition constrain_constant (q : qalias) (x : typed_value) : cc -> cc :=
  add_where (KEquals q (match x with TVRef e => QEntid e | _ => QValue x end)).
Definition has_unit_type (t : alias) (ty : value_type) : constraint := KTypes t (vts_of_one ty) false.

(** clauses/mod.rs:344-368 bind_value *)
Definition bind_value (v : var) (x : typed_value) (c : cc) : cc :=
  let c := constrain_var v (tv_type x) c in
  let c := match c_cols c !! v with Some (q :: _) => add_where (KEquals q (QValue x)) c | _ => c end in
  let c := match c_extracted c !! v with Some q => add_where (has_unit_type q.1 (tv_type x)) c | None => c end in
  put_val v x c.
(** types.rs:273-281 for_associated_type_tag *)
Definition associated_tag (q : qalias) : option qalias := match q.2 with CV => Some (q.1, CTag) | _ => None end.
(** clauses/mod.rs:410-513 bind_column_to_var *)
Definition bind_column (k : known) (q : qalias) (v : var) (c : cc) : cc :=
  match c_vals c !! v with
  | Some x =>
      match q.2 with
      | CE | CA | CTx =>
          match x with
          | TVKeyword i => match kn_ident k i with Some e => add_where (KEquals q (QEntid e)) c | None => mark_empty c end
          | TVRef e => add_where (KEquals q (QEntid e)) c
          | _ => mark_empty c
          end
      | _ => constrain_constant q x c
      end
  | None =>
      let late := bool_decide (v ∈ c_inputs c) in
      let c := if (negb late && negb (is_some (known_type c v)) && negb (is_some (c_extracted c !! v)))%bool
               then match associated_tag q with Some t => with_extracted <[v := t]> c | None => c end
               else c in
      with_cols (fun m => <[v := default [] (m !! v) ++ [q]]> m) c
  end.

(* ---------------------------------------------------------------- patterns *)

(** types.rs:705-745 EvolvedNonValuePlace, EvolvedValuePlace, EvolvedPattern; an [option] for PlaceOrEmpty *)
Inductive eplace := EpPlaceholder | EpVar (v : var) | EpEntid (e : Z).
Inductive evplace := EvPlaceholder | EvVar (v : var) | EvEntid (e : Z) | EvInteger (z : Z) | EvIdent (k : keyword) | EvValue (x : typed_value).
Record epattern := EPattern { ep_e : eplace; ep_a : eplace; ep_v : evplace; ep_tx : eplace }.

(** [e as f64]: rounding to nearest, ties to even; the key is the bit pattern as a sign and magnitude. *)
Definition long_to_double (z : Z) : dbl :=
  let m := Z.abs z in
  let n := Z.log2 m in
  let key :=
    if decide (m = 0) then 0
    else if decide (n <= 52) then (n + 1022) * 2 ^ 52 + m * 2 ^ (52 - n)
    else let q := m / 2 ^ (n - 52) in
         let r := m mod 2 ^ (n - 52) in
         let half := 2 ^ (n - 53) in
         let up := if decide (half < r) then true else if decide (r = half) then Z.odd q else false in
         (n + 1022) * 2 ^ 52 + q + (if up then 1 else 0) in
  DKey (Z.sgn z * key).

(** pattern.rs:433-466 make_evolved_non_value *)
Definition evolve_nplace (k : known) (c : cc) (p : nplace) : option eplace :=
  match p with
  | NPlaceholder => Some EpPlaceholder
  | NEntid e => Some (EpEntid e)
  | NIdent i => EpEntid <$> kn_ident k i
  | NVar v =>
      match c_vals c !! v with
      | None => Some (EpVar v)
      | Some (TVRef e) => Some (EpEntid e)
      | Some (TVKeyword i) => EpEntid <$> kn_ident k i
      | Some _ => None
      end
  end.
(** pattern.rs:487-503 make_evolved_attribute *)
Definition evolve_attribute (k : known) (c : cc) (p : nplace) : option (eplace * option value_type) :=
  evolve_nplace k c p ≫= fun a =>
    match a with
    | EpEntid e => kn_attr k e ≫= fun at_ => Some (a, Some (at_type at_))
    | _ => Some (a, None)
    end.
(** pattern.rs:508-565 make_evolved_value *)
Definition evolve_value (k : known) (c : cc) (t : option value_type) (p : vplace) : option evplace :=
  match p with
  | VPlaceholder => Some EvPlaceholder
  | VInteger z =>
      match t with
      | Some VTRef => Some (EvEntid z)
      | Some VTLong => Some (EvValue (TVLong z))
      | Some VTDouble => Some (EvValue (TVDouble (long_to_double z)))
      | Some _ => None
      | None => Some (EvInteger z)
      end
  | VIdent i =>
      match t with
      | Some VTRef => EvEntid <$> kn_ident k i
      | Some VTKeyword => Some (EvValue (TVKeyword i))
      | Some _ => None
      | None => Some (EvIdent i)
      end
  | VVar v =>
      match c_vals c !! v with
      | None => Some (EvVar v)
      | Some (TVRef e) => if can_constrain c v VTRef then Some (EvEntid e) else None
      | Some x => if can_constrain c v (tv_type x) then Some (EvValue x) else None
      end
  | VConst x => Some (EvValue x)
  end.
(** pattern.rs:568-602 make_evolved_pattern *)
Definition make_evolved (k : known) (c : cc) (p : pattern) : option epattern :=
  evolve_nplace k c (p_e p) ≫= fun e =>
  evolve_attribute k c (p_a p) ≫= fun at_ =>
  evolve_value k c at_.2 (p_v p) ≫= fun v =>
  evolve_nplace k c (p_tx p) ≫= fun tx =>
  Some (EPattern e at_.1 v tx).
(** pattern.rs:604-654 evolve_pattern *)
Definition evolve_pattern (c : cc) (p : epattern) : option epattern :=
  let e := match ep_e p with
           | EpVar v => match c_vals c !! v with None => Some (EpVar v) | Some (TVRef e) => Some (EpEntid e) | Some _ => None end
           | e => Some e
           end in
  let v := match ep_v p with
           | EvVar v => match c_vals c !! v with None => EvVar v | Some x => EvValue x end
           | v => v
           end in
  e ≫= fun e => Some (EPattern e (ep_a p) v (ep_tx p)).

(** clauses/mod.rs:774-797, 799-838, 840-886.  [None]: the pattern cannot match. *)
Definition table_for_attribute (at_ : attribute) (v : evplace) : option table :=
  if at_fulltext at_ then
    match v with
    | EvPlaceholder => Some TDatoms
    | EvVar _ | EvValue (TVString _) => Some TFulltext
    | _ => None
    end
  else Some TDatoms.
Definition may_be_string (m : gmap var vts) (v : var) : bool :=
  match m !! v with None => true | Some ts => vts_contains ts VTString end.
Definition table_for_unknown (c : cc) (v : evplace) : table :=
  match v with
  | EvVar x => if (may_be_string (c_required c) x && may_be_string (c_known c) x)%bool then TAll else TDatoms
  | EvValue (TVString _) => TAll
  | _ => TDatoms
  end.
Definition table_for_places (k : known) (c : cc) (a : eplace) (v : evplace) : option table :=
  match a with
  | EpEntid e => kn_attr k e ≫= fun at_ => table_for_attribute at_ v
  | EpPlaceholder => Some (table_for_unknown c v)
  | EpVar x =>
      match c_vals c !! x with
      | None => Some (table_for_unknown c v)
      | Some (TVRef e) => kn_attr k e ≫= fun at_ => table_for_attribute at_ v
      | Some (TVKeyword i) => kn_attr_for_ident k i ≫= fun at_ => table_for_attribute at_ v
      | Some _ => None
      end
  end.
(** clauses/mod.rs:899-910 alias_table.  [None]: also marked as empty. *)
Definition alias_table (k : known) (p : epattern) (c : cc) : cc * option (table * alias) :=
  match table_for_places k c (ep_a p) (ep_v p) with
  | None => (mark_empty c, None)
  | Some t => (with_next (S (c_next c)) c, Some (t, ADatoms (c_next c)))
  end.
(** clauses/mod.rs:912-955 get_value_type *)
Definition value_type_for (k : known) (c : cc) (a : eplace) : option value_type :=
  at_type <$> match a with
              | EpEntid e => kn_attr k e
              | EpVar x => match c_vals c !! x with
                          | Some (TVRef e) => kn_attr k e
                          | Some (TVKeyword i) => kn_attr_for_ident k i
                          | _ => None
                          end
              | EpPlaceholder => None
              end.

Definition constrain_to_ref (p : eplace) (c : cc) : cc := match p with EpVar v => constrain_var v VTRef c | _ => c end.
(** pattern.rs:78-274, the entity and tx places *)
Definition apply_eplace (k : known) (q : qalias) (p : eplace) (c : cc) : cc :=
  match p with
  | EpPlaceholder => c
  | EpVar v => bind_column k q v c
  | EpEntid e => add_where (KEquals q (QEntid e)) c
  end.
(** pattern.rs:78-274, the value place.  [true]: return at once, without the tx place. *)
Definition apply_value (k : known) (al : alias) (t : option value_type) (p : evplace) (c : cc) : cc * bool :=
  let q := (al, CV) in
  match p with
  | EvPlaceholder => (c, false)
  | EvVar v =>
      match t with
      | Some ty =>
          let c := constrain_var v ty c in
          if c_empty c then (c, true) else (bind_column k q v c, false)
      | None => (bind_column k q v c, false)
      end
  | EvEntid e =>
      match t with
      | Some VTRef | None => (add_where (KEquals q (QEntid e)) c, false)
      | Some _ => (mark_empty c, false)
      end
  | EvInteger z =>
      match t with
      | Some VTRef => (add_where (KEquals q (QEntid z)) c, false)
      | _ => (add_where (KEquals q (QLong z)) c, false)
      end
  | EvIdent i =>
      match t with
      | Some VTRef =>
          match kn_ident k i with
          | Some e => (add_where (KEquals q (QEntid e)) c, false)
          | None => (mark_empty c, true)
          end
      | _ => (add_where (has_unit_type al VTKeyword) (constrain_constant q (TVKeyword i) c), false)
      end
  | EvValue x =>
      if match t with Some ty => bool_decide (tv_type x = ty) | None => true end
      then let c := constrain_constant q x c in
           (match t with None => add_where (has_unit_type al (tv_type x)) c | Some _ => c end, false)
      else (mark_empty c, true)
  end.
(** pattern.rs:78-274 apply_pattern_clause_for_alias *)
Definition apply_for_alias (k : known) (p : epattern) (al : alias) (c : cc) : cc :=
  if c_empty c then c else
  let c := constrain_to_ref (ep_a p) (constrain_to_ref (ep_e p) (constrain_to_ref (ep_tx p) c)) in
  let c := apply_eplace k (al, CE) (ep_e p) c in
  match ep_a p with
  | EpEntid e =>
      match kn_attr k e with
      | None => mark_empty c
      | Some _ =>
          let c := add_where (KEquals (al, CA) (QEntid e)) c in
          let '(c, stop) := apply_value k al (value_type_for k c (ep_a p)) (ep_v p) c in
          if stop then c else apply_eplace k (al, CTx) (ep_tx p) c
      end
  | a =>
      let c := apply_eplace k (al, CA) a c in
      let '(c, stop) := apply_value k al (value_type_for k c (ep_a p)) (ep_v p) c in
      if stop then c else apply_eplace k (al, CTx) (ep_tx p) c
  end.

(** pattern.rs:276-325 reverse_lookup *)
Definition reverse_lookup (k : known) (v : var) (a : Z) (x : typed_value) (c : cc) : cc * bool :=
  match kn_attr k a with
  | None => (mark_empty c, true)
  | Some at_ =>
      if at_unique at_ then
        match cq_entid (kn_cache k) a x with
        | None => (mark_empty c, true)
        | Some e => (bind_value v (TVRef e) c, true)
        end
      else
        match cq_entids (kn_cache k) a x with
        | None => (mark_empty c, true)
        | Some [e] => (bind_value v (TVRef e) c, true)
        | Some _ => (c, false)
        end
  end.
(** pattern.rs:330-425 attempt_cache_lookup *)
Definition attempt_cache (k : known) (p : epattern) (c : cc) : cc * bool :=
  match ep_tx p, ep_a p with
  | EpPlaceholder, EpEntid a =>
      match kn_attr k a with
      | None => (mark_empty c, true)
      | Some at_ =>
          if (cq_forward (kn_cache k) a || cq_reverse (kn_cache k) a)%bool then
            match ep_e p, ep_v p with
            | EpVar v, EvIdent i =>
                match at_type at_ with
                | VTRef => (c, false)
                | VTKeyword => reverse_lookup k v a (TVKeyword i) c
                | _ => (mark_empty c, true)
                end
            | EpVar v, EvValue x => if cq_reverse (kn_cache k) a then reverse_lookup k v a x c else (c, false)
            | EpEntid e, EvVar v =>
                if cq_forward (kn_cache k) a then
                  match cq_value (kn_cache k) a e with
                  | None => (mark_empty c, true)
                  | Some x => (bind_value v x c, true)
                  end
                else (c, false)
            | _, _ => (c, false)
            end
          else (c, false)
      end
  | _, _ => (c, false)
  end.
(** pattern.rs:664-690 apply_pattern *)
Definition apply_pattern (k : known) (p : epattern) (c : cc) : cc :=
  let '(c, done) := attempt_cache k p c in
  if done then c
  else match alias_table k p c with
       | (c, Some (t, al)) => push_from (t, al) (apply_for_alias k p al c)
       | (c, None) => mark_empty c
       end.
(** clauses/mod.rs:1108-1123 apply_evolved_patterns *)
Fixpoint apply_evolved (k : known) (ps : list epattern) (c : cc) : cc :=
  match ps with
  | [] => c
  | p :: ps =>
      match evolve_pattern c p with
      | Some p => apply_evolved k ps (apply_pattern k p c)
      | None => mark_empty c
      end
  end.

(* ---------------------------------------------------------------- finishing *)

(** clauses/mod.rs:975-990 expand_column_bindings; values() is in the order of the variables *)
Definition sorted_map {A} (m : gmap var A) : list (var * A) :=
  omap (fun v => pair v <$> m !! v) (sorted_vars (dom m)).
Definition expand_columns (c : cc) : cc :=
  add_wheres (flat_map (fun x => match x.2 with
                                 | primary :: others => map (fun q => KEquals primary (QColumn q)) others
                                 | [] => []
                                 end) (sorted_map (c_cols c))) c.
(** clauses/mod.rs:994-1005 prune_extracted_types *)
Definition prune_extracted (c : cc) : cc :=
  with_extracted (filter (fun x => match c_known c !! x.1 with Some ts => negb (vts_is_unit ts) | None => true end = true)) c.
(** clauses/mod.rs:1014-1085 process_required_types *)
Fixpoint process_required_loop (l : list (var * vts)) (c : cc) : res cc :=
  match l with
  | [] => Ok c
  | (v, ts) :: l =>
      let narrow :=
        let c := narrow_type v ts c in
        match c_extracted c !! v with
        | None => Err EAlgebrizer
        | Some q => process_required_loop l (add_where (KTypes q.1 ts true) c)
        end in
      match c_known c !! v with
      | Some already =>
          if vts_is_disjoint already ts then Ok (mark_empty c)
          else if vts_is_subset already ts then process_required_loop l c
          else narrow
      | None => narrow
      end
  end.
Definition process_required (c : cc) : res cc :=
  if c_empty c then Ok c else process_required_loop (sorted_map (c_required c)) c.

(** clauses/mod.rs:313-341 make_receptacle, use_as_template *)
Definition make_receptacle (c : cc) : cc :=
  let s := c_scope c in
  CC (Scope (s_empty s) (s_next s) [] ∅ (s_inputs s) (s_vals s) (s_known s) (s_extracted s) (s_required s)) [] [].
Definition restrict {A} (vs : gset var) (m : gmap var A) : gmap var A := filter (fun x => x.1 ∈ vs) m.
Definition use_as_template (vs : gset var) (c : cc) : cc :=
  let s := c_scope c in
  CC (Scope (s_empty s) (s_next s) [] ∅ (s_inputs s ∩ vs) (restrict vs (s_vals s)) (restrict vs (s_known s))
        (restrict vs (s_extracted s)) (restrict vs (s_required s))) [] [].

(* ---------------------------------------------------------------- not *)

(** not.rs:31-40: unified variables are bound to what they are bound to outside *)
Fixpoint bind_unified (outer : cc) (vs : list var) (t : cc) : res cc :=
  match vs with
  | [] => Ok t
  | v :: vs =>
      match c_vals outer !! v, c_cols outer !! v with
      | Some x, _ => bind_unified outer vs (put_val v x t)
      | None, Some (q :: _) => bind_unified outer vs (with_cols <[v := [q]]> t)
      | None, Some [] => Panic PQuery
      | None, None => Err EAlgebrizer
      end
  end.
(** validate.rs:69-82 *)
Definition validate_not (u : unify) (mentioned : gset var) : bool :=
  match u with UImplicit => true | UExplicit vs => bool_decide (vars_of vs ⊆ mentioned) end.
(** not.rs:22-74 apply_not_join; [inner] applies the clauses.  What is dropped only shows in the alias counter. *)
Definition apply_not (u : unify) (mentioned : gset var) (inner : cc -> res cc) (c : cc) : res cc :=
  let unified := match u with UImplicit => mentioned | UExplicit vs => vars_of vs end in
  let! t := bind_unified c (sorted_vars unified) (use_as_template unified c) in
  let! t := inner t in
  let c := with_next (c_next t) c in
  if c_empty t then Ok c
  else
    let! t := process_required (prune_extracted (expand_columns t)) in
    if (c_empty t || is_nil (c_wheres t))%bool then Ok c
    else Ok (add_where (KNotExists t) c).

(* ---------------------------------------------------------------- or *)

(** or.rs:34-58 *)
Definition matches_place (l r : nplace) : bool :=
  match l, r with
  | NVar a, NVar b => bool_decide (a = b)
  | NPlaceholder, NPlaceholder => true
  | (NEntid _ | NIdent _), (NEntid _ | NIdent _) => true
  | _, _ => false
  end.
Definition matches_value_place (l r : vplace) : bool :=
  match l, r with
  | VVar a, VVar b => bool_decide (a = b)
  | VPlaceholder, VPlaceholder => true
  | (VVar _ | VPlaceholder), _ => false
  | _, (VVar _ | VPlaceholder) => false
  | _, _ => true
  end.
(** or.rs:60-67 DeconstructedOrJoin; a complex [or] says which arms are left *)
Inductive decon := DSuccess | DEmpty | DUnit | DUnitPattern (p : pattern) | DSimple (ps : list pattern) | DComplex (left : list bool).
(** or.rs:165-275 _deconstruct_or_join: [ps] the patterns collected, [mask] which arms were kept *)
Fixpoint decon_loop (k : known) (c : cc) (ps : list pattern) (mask : list bool) (expected : option table) (arms : list arm) : decon :=
  match arms with
  | [] => match ps with [] => DEmpty | [p] => DUnitPattern p | _ => DSimple ps end
  | a :: arms =>
      let complex := DComplex (mask ++ true :: map (fun _ => true) arms) in
      match a with
      | AClause (CPattern p) =>
          match evolve_attribute k c (p_a p) ≫= fun a =>
                evolve_value k c a.2 (p_v p) ≫= fun v => table_for_places k c a.1 v with
          | None => decon_loop k c ps (mask ++ [false]) expected arms
          | Some t =>
              let same := match ps with
                          | p0 :: _ => matches_place (p_e p0) (p_e p) && matches_place (p_a p0) (p_a p)
                                       && matches_value_place (p_v p0) (p_v p) && matches_place (p_tx p0) (p_tx p)
                          | [] => true
                          end in
              if (same && match expected with Some t' => bool_decide (t = t') | None => true end)%bool
              then decon_loop k c (ps ++ [p]) (mask ++ [true]) (Some t) arms
              else complex
          end
      | _ => complex
      end
  end.
(** edn/src/query.rs:1051-1066 is_fully_unified *)
Definition fully_unified (u : unify) (mentioned : gset var) : bool :=
  match u with UImplicit => true | UExplicit vs => bool_decide (size (vars_of vs) = size mentioned) end.
(** or.rs:129-163 deconstruct_or_join *)
Definition deconstruct (k : known) (c : cc) (u : unify) (arms : list arm) : decon :=
  if negb (fully_unified u (vars_of (flat_map arm_vars arms))) then DComplex (map (fun _ => true) arms)
  else match arms with
       | [] => DSuccess
       | [_] => DUnit
       | _ => decon_loop k c [] [] None arms
       end.
(** validate.rs:38-67 *)
Definition validate_or (u : unify) (arms : list arm) : bool :=
  match u with
  | UImplicit =>
      match arms with
      | a :: (_ :: _) as rest => forallb (fun b => bool_decide (vars_of (arm_vars a) = vars_of (arm_vars b))) rest
      | _ => true
      end
  | UExplicit vs => forallb (fun a => bool_decide (vars_of vs ⊆ vars_of (arm_vars a))) arms
  end.

(** or.rs:345-545 apply_simple_or_join *)
Definition simple_arm (k : known) (template : cc) (al : alias) (p : epattern) : cc := apply_for_alias k p al (make_receptacle template).
Definition cc_default : cc := CC (Scope false 0 [] ∅ ∅ ∅ ∅ ∅ ∅) [] [].
Definition apply_simple_or (k : known) (ps : list pattern) (mentioned : gset var) (c : cc) : res cc :=
  if c_empty c then Ok c else
  match omap (make_evolved k c) ps with
  | [] => Panic PQuery
  | (p0 :: _) as eps =>
      let template := use_as_template mentioned c in
      match alias_table k p0 c with
      | (_, None) => Panic PQuery
      | (c, Some (t, al)) =>
          match filter (fun r => c_empty r = false) (map (simple_arm k template al) eps) with
          | [] => Ok (mark_empty c)
          | (r0 :: _) as rs =>
              let c := with_cols (fun m => map_fold (fun v cols m => <[v := default [] (m !! v) ++ cols]> m) m (c_cols r0)) c in
              let folded := fold_left (fun f r => broaden_types (c_known r) f) rs cc_default in
              let ws := match rs with [r] => c_wheres r | _ => [KOr (map c_wheres rs)] end in
              Ok (narrow_types (c_known folded) (add_wheres ws (push_from (t, al) c)))
          end
      end
  end.

(** or.rs:704-742 union_types *)
Definition union_types (m n : gmap var vts) : gmap var vts :=
  merge (fun x y => match x, y with
                    | Some a, Some b => Some (vts_union a b)
                    | Some _, None | None, Some _ => Some vts_any
                    | None, None => None
                    end) m n.
(** or.rs:555-620 each arm of a complex [or] that can match, made ready; the counter is threaded through *)
Definition finish_arm (r : cc) : res cc := process_required (prune_extracted (expand_columns r)).
(** or.rs:620-700 the rest of apply_complex_or_join *)
Definition join_union (k : known) (projected : gset var) (acc : list cc) (c : cc) : res cc :=
  match acc with
  | [] => Ok (mark_empty c)
  | r :: rs =>
      let projection := sorted_vars projected in
      let needed := filter (fun v => existsb (fun r => negb (is_some (known_type r v))) acc = true) projection in
      let c := broaden_types (fold_left (fun m r => union_types m (c_known r)) rs (c_known r)) c in
      let '(c, i) := push_computed (Union projection needed acc) c in
      let al := AComputed i in
      let c := fold_left (fun c v => bind_column k (al, CVar v) v c) projection c in
      let c := fold_left (fun c v => with_extracted <[v := (al, CVarTag v)]> c) needed c in
      Ok (push_from (TComputed i, al) c)
  end.

(* ---------------------------------------------------------------- predicates *)

(** clauses/predicate.rs:45-50, clauses/convert.rs:41-87 potential_types; core/src/sql_types.rs:64-75: an integer from 0 can be an entity *)
Definition potential_types (k : known) (c : cc) (a : farg) : res vts :=
  match a with
  | FVar v => Ok (known_type_set c v)
  | FInteger z => Ok (if decide (0 <= z) then vts_longs else vts_of_one VTLong)
  | FKeyword i => Ok (if is_some (kn_ident k i) then vts_keywords else vts_of_one VTKeyword)
  | FConst x => Ok (vts_of_one (tv_type x))
  | FOther => Err EAlgebrizer
  end.
Definition first_column (c : cc) (v : var) : res (cc * qvalue) :=
  match c_cols c !! v with Some (q :: _) => Ok (c, QColumn q) | _ => Err EAlgebrizer end.
(** clauses/resolve.rs:30-69, 72-117, 121-163; mod.rs:564-566 constrain_var_to_numeric *)
Definition is_numeric (t : value_type) : bool := match t with VTLong | VTDouble => true | _ => false end.
Definition resolve_numeric (c : cc) (a : farg) : res (cc * qvalue) :=
  match a with
  | FVar v =>
      match c_vals c !! v with
      | Some x => if is_numeric (tv_type x) then Ok (c, QValue x) else Err EAlgebrizer
      | None => first_column (narrow_type v vts_numeric c) v
      end
  | FInteger z => Ok (c, QValue (TVLong z))
  | FConst (TVDouble d) => Ok (c, QValue (TVDouble d))
  | _ => Err EAlgebrizer
  end.
Definition resolve_instant (c : cc) (a : farg) : res (cc * qvalue) :=
  match a with
  | FVar v =>
      match c_vals c !! v with
      | Some (TVInstant i) => Ok (c, QValue (TVInstant i))
      | Some _ => Err EAlgebrizer
      | None => first_column (constrain_var v VTInstant c) v
      end
  | FConst (TVInstant i) => Ok (c, QValue (TVInstant i))
  | _ => Err EAlgebrizer
  end.
Definition resolve_ref (k : known) (c : cc) (a : farg) : res (cc * qvalue) :=
  match a with
  | FVar v =>
      let c := constrain_var v VTRef c in
      match c_vals c !! v with
      | Some (TVRef e) => Ok (c, QEntid e)
      | _ => first_column c v
      end
  | FInteger z => Ok (c, QValue (TVRef z))
  | FKeyword i => match kn_ident k i with Some e => Ok (c, QEntid e) | None => Err EAlgebrizer end
  | _ => Err EAlgebrizer
  end.
(** clauses/predicate.rs:72-174 apply_inequality; 35-43 apply_predicate *)
Definition with_double (ts : vts) : vts := if vts_contains ts VTLong then vts_insert VTDouble ts else ts.
Definition apply_inequality (k : known) (op : inequality) (args : list farg) (c : cc) : res cc :=
  match args with
  | [l; r] =>
      let! lt := potential_types k c l in
      let lt := vts_intersection lt (supported_types op) in
      if vts_is_empty lt then Err EAlgebrizer
      else
        let! rt := potential_types k c r in
        let rt := vts_intersection rt (supported_types op) in
        if vts_is_empty rt then Err EAlgebrizer
        else
          let shared := vts_intersection (with_double lt) (with_double rt) in
          if vts_is_empty shared then Ok (mark_empty c)
          else
            let resolve := if N.eqb shared (vts_of_one VTInstant) then resolve_instant
                           else if vts_is_only_numeric shared then resolve_numeric
                           else if N.eqb shared (vts_of_one VTRef) then resolve_ref k
                           else fun _ _ => Err EAlgebrizer in
            let! (c, lv) := resolve c l in
            let! (c, rv) := resolve c r in
            Ok (add_where (KCompare op lv rv) c)
  | _ => Err EAlgebrizer
  end.
Definition apply_predicate (k : known) (name : string) (args : list farg) (c : cc) : res cc :=
  match inequality_of name with
  | Some op => apply_inequality k op args c
  | None => Err EAlgebrizer
  end.

(* ---------------------------------------------------------------- clauses *)

(** clauses/mod.rs:1125-1129 mark_as_ref; 1131-1155 the first pass of apply_clauses *)
Definition mark_as_ref (p : nplace) (c : cc) : cc := match p with NVar v => constrain_var v VTRef c | _ => c end.
Definition first_pass (c : cc) (cl : clause) : cc :=
  match cl with
  | CType v t => add_type_requirement v (vts_of_one t) c
  | CPattern p => mark_as_ref (p_tx p) (mark_as_ref (p_a p) (mark_as_ref (p_e p) c))
  | _ => c
  end.

Section apply.
  Context (k : known).
  (** mod.rs:1156-1186, the second pass; [f] is apply_clause, [ps] the run of patterns so far *)
  Definition second_pass (f : clause -> cc -> res cc) : list epattern -> list clause -> cc -> res cc :=
    fix go ps cs c :=
      match cs with
      | [] => Ok (apply_evolved k ps c)
      | CType _ _ :: cs => go ps cs c
      | CPattern p :: cs =>
          match make_evolved k c p with
          | Some e => go (ps ++ [e]) cs c
          | None => Ok (mark_empty c)
          end
      | cl :: cs => let! c := f cl (apply_evolved k ps c) in go [] cs c
      end.
  (** mod.rs:1131-1187 apply_clauses *)
  Definition apply_clauses_with (f : clause -> cc -> res cc) (cs : list clause) (c : cc) : res cc :=
    second_pass f [] cs (fold_left first_pass cs c).

  (** or.rs:555-620 *)
  Definition or_arms_with (f : arm -> cc -> res cc) (template : cc) : list bool -> list arm -> nat -> res (list cc * nat) :=
    fix go mask arms n {struct arms} :=
      match arms with
      | [] => Ok ([], n)
      | a :: arms =>
          match mask with
          | true :: mask =>
              let! r := f a (with_next n (make_receptacle template)) in
              if c_empty r then go mask arms (c_next r)
              else let! r := finish_arm r in
                   let! (rs, n) := go mask arms (c_next r) in
                   Ok (r :: rs, n)
          | _ :: mask => go mask arms n
          | [] => Ok ([], n)
          end
      end.

  (** mod.rs:1189-1212 apply_clause; or.rs:70-82 apply_or_where_clause; or.rs:84-127, 277-343 apply_or_join *)
  Fixpoint apply_clause (cl : clause) (c : cc) {struct cl} : res cc :=
    match cl with
    | CPattern p =>
        match make_evolved k c p with
        | Some e => Ok (apply_pattern k e c)
        | None => Ok (mark_empty c)
        end
    | CType v t => Ok (add_type_requirement v (vts_of_one t) c)
    | CPred name args => apply_predicate k name args c
    | CNot u cs =>
        let mentioned := vars_of (flat_map clause_vars cs) in
        if validate_not u mentioned then apply_not u mentioned (apply_clauses_with apply_clause cs) c
        else Err EAlgebrizer
    | COr u arms =>
        let mentioned := vars_of (flat_map arm_vars arms) in
        if negb (validate_or u arms) then Err EAlgebrizer
        else
          match deconstruct k c u arms with
          | DSuccess => Ok c
          | DEmpty => Ok (mark_empty c)
          | DUnit => (fix unit arms := match arms with [] => Ok c | a :: _ => apply_arm a c end) arms
          | DUnitPattern p =>
              match make_evolved k c p with
              | Some e => Ok (apply_pattern k e c)
              | None => Ok (mark_empty c)
              end
          | DSimple ps => apply_simple_or k ps mentioned c
          | DComplex mask =>
              let projected := if negb (fully_unified u mentioned) then match u with UExplicit vs => vars_of vs | UImplicit => mentioned end
                               else mentioned in
              let! (rs, n) := or_arms_with apply_arm (use_as_template projected c) mask arms (c_next c) in
              join_union k projected rs (with_next n c)
          end
    end
  with apply_arm (a : arm) (c : cc) {struct a} : res cc :=
    match a with
    | AClause cl => apply_clause cl c
    | AAnd cs => apply_clauses_with apply_clause cs c
    end.
  Definition apply_clauses (cs : list clause) (c : cc) : res cc := apply_clauses_with apply_clause cs c.
End apply.

(* ---------------------------------------------------------------- algebrizing *)

(** query-algebrizer/src/lib.rs:137-195 AlgebraicQuery *)
Record algebraic := Algebraic {
  aq_cc : cc;
  aq_order : list (direction * column);
  aq_named : list var;                (* named_projection *)
  aq_limit : qlimit }.

(** clauses/mod.rs:256-300 with_inputs; the types of the inputs are those of their values (clauses/inputs.rs) *)
Definition cc_with_inputs (ins : list var) (vals : gmap var typed_value) : cc :=
  let vals := restrict (vars_of ins) vals in
  CC (Scope false 0 [] ∅ (vars_of ins) vals ((fun x => vts_of_one (tv_type x)) <$> vals) ∅ ∅) [] [].
(** lib.rs:214-256 validate_and_simplify_order *)
Fixpoint simplify_order (c : cc) (l : list (direction * var)) : res (list (direction * column) * list var) :=
  match l with
  | [] => Ok ([], [])
  | (d, v) :: l =>
      if is_some (c_vals c !! v) then simplify_order c l
      else if negb (is_some (c_cols c !! v)) then Err EAlgebrizer
      else let! (os, vs) := simplify_order c l in
           Ok ((if is_some (known_type c v) then [(d, CVar v)] else [(d, CVarTag v); (d, CVar v)]) ++ os, v :: vs)
  end.
(** lib.rs:258-299 simplify_limit *)
Definition simplify_limit (c : cc) (l : qlimit) : res qlimit :=
  match l with
  | LVar v =>
      match c_vals c !! v with
      | Some (TVLong n) => if decide (n <= 0) then Err EAlgebrizer else Ok (LFixed (Z.to_nat n))
      | Some _ => Err EAlgebrizer
      | None => Ok l
      end
  | _ => Ok l
  end.
Definition unit_limited (f : find_spec) : bool := match f with FTuple _ | FScalar _ => true | _ => false end.
(** lib.rs:301-356 algebrize_with_inputs, 372-415 from_parsed_query (the checks on [:in] and [:limit]) *)
Definition algebrize (k : known) (q : query) (vals : gmap var typed_value) : res algebraic :=
  if negb (bool_decide (NoDup (q_in q))) then Err EAlgebrizer
  else if negb match q_limit q with LVar v => bool_decide (v ∈ q_in q) | _ => true end then Err EAlgebrizer
  else
    let c := cc_with_inputs (q_in q) vals in
    let c := match q_limit q with LVar v => constrain_var v VTLong c | _ => c end in
    let! c := apply_clauses k (q_where q) c in
    let! c := process_required (prune_extracted (expand_columns c)) in
    let! (order, extra) := simplify_order c (q_order q) in
    let! l := simplify_limit c (if unit_limited (q_find q) then LFixed 1 else q_limit q) in
    Ok (Algebraic c order (sorted_vars (vars_of extra)) l).

(* ---------------------------------------------------------------- SQL *)

(** What SQLite leaves open: the order in which rows come if none is asked for, and whether a number in a column is equal to a text,
    or how they compare, when the affinity of a column makes it convert one of them. *)
Record sqlite := Sqlite {
  sq_plan : list (list sqlval) -> list (list sqlval);
  sq_affine : sqlval -> sqlval -> bool;
  sq_mixed : sqlval -> sqlval -> comparison }.

(** Numbers compare by their value.  All are multiples of 2^-1074: a double whose bit pattern is [k]. *)
Definition double_value (k : Z) : Z :=
  let m := Z.abs k in
  Z.sgn k * (if decide (m < 2 ^ 52) then m else (2 ^ 52 + m mod 2 ^ 52) * 2 ^ (m / 2 ^ 52 - 1)).
Definition long_value (z : Z) : Z := z * 2 ^ 1074.
Definition number (v : sqlval) : option Z :=
  match v with SInt z => Some (long_value z) | SReal (DKey k) => Some (double_value k) | _ => None end.
(** Whether DISTINCT and UNION take two values for the same *)
Definition sql_same (x y : sqlval) : bool :=
  match x, y with
  | SNull, SNull | SReal DNaN, SNull | SNull, SReal DNaN | SReal DNaN, SReal DNaN => true
  | SText s, SText t => bool_decide (s = t)
  | SBlob a, SBlob b => N.eqb a b
  | SInt a, SInt b => Z.eqb a b
  | _, _ => match number x, number y with Some a, Some b => Z.eqb a b | _, _ => false end
  end.
(** [x = y] as a condition *)
Definition sql_eq (q : sqlite) (x y : sqlval) : bool :=
  match x, y with
  | SNull, _ | _, SNull | SReal DNaN, _ | _, SReal DNaN => false
  | SText _, (SInt _ | SReal _) | (SInt _ | SReal _), SText _ => sq_affine q x y
  | _, _ => sql_same x y
  end.
(** ORDER BY: NULL, numbers, texts, blobs *)
Definition sql_rank (v : sqlval) : Z :=
  match v with SNull | SReal DNaN => 0 | SInt _ | SReal _ => 1 | SText _ => 2 | SBlob _ => 3 end.
Definition sql_cmp (x y : sqlval) : comparison :=
  match Z.compare (sql_rank x) (sql_rank y) with
  | Eq =>
      match x, y with
      | SText s, SText t => string_cmp s t
      | SBlob a, SBlob b => N.compare a b
      | _, _ => match number x, number y with Some a, Some b => Z.compare a b | _, _ => Eq end
      end
  | r => r
  end.

(** an inequality as a condition (query-projector/src/translate.rs:183-191) *)
Definition sql_compare (q : sqlite) (op : inequality) (x y : sqlval) : bool :=
  match x, y with
  | SNull, _ | _, SNull | SReal DNaN, _ | _, SReal DNaN => false
  | SText _, (SInt _ | SReal _) | (SInt _ | SReal _), SText _ => operator_holds op (sq_mixed q x y)
  | _, _ => operator_holds op (sql_cmp x y)
  end.

(** A row of a table, and the rows that a part of the statement can refer to, the innermost first *)
Inductive row := RDatom (d : datom) | RComputed (l : list (column * sqlval)).
Notation env := (list (alias * row)) (only parsing).
Definition row_column (r : row) (c : column) : option sqlval :=
  match r with
  | RDatom d => match c with CE => Some (SInt (d_e d)) | CA => Some (SInt (d_a d)) | CV => Some (d_v d) | CTx => Some (SInt (d_tx d))
                | CTag => Some (SInt (d_tag d)) | _ => None end
  | RComputed l => snd <$> list_find (fun x => x.1 = c) l ≫= fun x => Some x.2
  end.
Fixpoint env_column (e : env) (q : qalias) : option sqlval :=
  match e with
  | [] => None
  | (al, r) :: e => if decide (al = q.1) then match row_column r q.2 with Some v => Some v | None => env_column e q end
                    else env_column e q
  end.
(** the literal or argument that stands for a value (sql/src/lib.rs:138-187) *)
Definition sql_of (v : typed_value) : sqlval := (to_sql_value_pair v).1.

Section eval.
  Context (q : sqlite) (st : store).
  Definition eq_columns (x y : option sqlval) : bool := match x, y with Some x, Some y => sql_eq q x y | _, _ => false end.
  Definition eval_value (e : env) (v : qvalue) : option sqlval :=
    match v with QColumn c => env_column e c | QEntid x => Some (SInt x) | QValue x => Some (sql_of x) | QLong z => Some (SInt z) end.
  (** translate.rs:78-240: the tags of the types; where two types share a tag and not both are meant, also [typeof] *)
  Definition typeof_check (ts : vts) (t : value_type) (v : option sqlval) : bool :=
    match t with
    | VTLong => vts_contains ts VTDouble || match v with Some (SInt _) => true | _ => false end
    | VTDouble => vts_contains ts VTLong || match v with Some (SReal (DKey _)) => true | _ => false end
    | _ => true
    end.
  Definition has_types (e : env) (al : alias) (ts : vts) (check : bool) : bool :=
    existsb (fun t => eq_columns (env_column e (al, CTag)) (Some (SInt (vt_tag t)))
                      && (negb check || typeof_check ts t (env_column e (al, CV)))) (vts_iter ts).
  Definition table_rows (computed : list (list row)) (t : table) : list row :=
    match t with
    | TDatoms => map RDatom (st_datoms st)
    | TFulltext => map RDatom (filter (fun d => d_ft d = true) (all_datoms st))
    | TAll => map RDatom (all_datoms st)
    | TComputed i => default [] (computed !! i)
    end.
  (** FROM: the combinations of a row of each table *)
  Fixpoint product (computed : list (list row)) (from : list (table * alias)) (e : env) : list env :=
    match from with
    | [] => [e]
    | (t, al) :: from => flat_map (fun r => product computed from ((al, r) :: e)) (table_rows computed t)
    end.
  (** translate.rs:261-326, project.rs:124-152: what an arm of a union projects *)
  Definition arm_value (s : scope) (e : env) (v : var) : sqlval :=
    match s_vals s !! v with
    | Some x => sql_of x
    | None => default SNull (match s_cols s !! v with Some (c :: _) => env_column e c | _ => None end)
    end.
  Definition var_types (s : scope) (v : var) : vts :=
    match s_vals s !! v with Some x => vts_of_one (tv_type x) | None => default vts_any (s_known s !! v) end.
  Definition arm_tag (s : scope) (e : env) (v : var) : sqlval :=
    match vts_unique_tag (var_types s v) with
    | Some t => SInt t
    | None => default SNull (s_extracted s !! v ≫= env_column e)
    end.
  Definition arm_row (projection extraction : list var) (s : scope) (e : env) : row :=
    RComputed (flat_map (fun v => (CVar v, arm_value s e v)
                                  :: (if decide (v ∈ extraction) then [(CVarTag v, arm_tag s e v)] else [])) projection).
  Definition row_same (x y : list sqlval) : bool :=
    (Nat.eqb (length x) (length y)) && forallb (fun p => sql_same p.1 p.2) (zip x y).
  Fixpoint dedup {A} (same : A -> A -> bool) (l : list A) : list A :=
    match l with
    | [] => []
    | x :: l => x :: filter (fun y => same x y = false) (dedup same l)
    end.
  Definition computed_values (r : row) : list sqlval := match r with RComputed l => map snd l | RDatom _ => [] end.

  Fixpoint holds_in (e : env) (k : constraint) {struct k} : bool :=
    match k with
    | KEquals c (QLong z) =>
        eq_columns (env_column e c) (Some (SInt z))
        && (if decide (z = 0 \/ z = 1) then negb (eq_columns (associated_tag c ≫= env_column e) (Some (SInt 1))) else true)
    | KEquals c v => eq_columns (env_column e c) (eval_value e v)
    | KCompare op l r => match eval_value e l, eval_value e r with Some x, Some y => sql_compare q op x y | _, _ => false end
    | KTypes al ts check => has_types e al ts check
    | KNotExists c => is_nil (select e c)
    | KOr l => existsb (forallb (holds_in e)) l
    end
  with select (e : env) (c : cc) {struct c} : list env :=
    match c with
    | CC s computed wheres =>
        filter (fun e => forallb (holds_in e) wheres = true) (product (map (computed_rows e) computed) (s_from s) e)
    end
  with computed_rows (e : env) (u : computed) {struct u} : list row :=
    match u with
    | Union projection extraction arms =>
        (* LIMIT 0 in the last arm applies to the whole union *)
        if match last arms with Some (CC s _ _) => s_empty s | None => false end then []
        else dedup (fun x y => row_same (computed_values x) (computed_values y))
               ((fix rows arms := match arms with
                                  | [] => []
                                  | a :: arms => map (arm_row projection extraction (c_scope a)) (select e a) ++ rows arms
                                  end) arms)
    end.
End eval.

(** What the translation and SQLite's compiler reject.  [sc]: the columns that can be referred to. *)
Definition columns_in (sc : list (alias * list column)) (q : qalias) : bool :=
  existsb (fun x => bool_decide (x.1 = q.1) && bool_decide (q.2 ∈ x.2)) sc.
(** a double that is not finite is printed as a name (sql/src/lib.rs:149-156) *)
Definition printable (v : typed_value) : bool :=
  match v with TVDouble DNaN => false | TVDouble (DKey k) => bool_decide (Z.abs k < 2047 * 2 ^ 52) | _ => true end.
Definition qvalue_ok (sc : list (alias * list column)) (v : qvalue) : bool :=
  match v with QColumn c => columns_in sc c | QValue x => printable x | _ => true end.
Definition datom_columns : list column := [CE; CA; CV; CTx; CTag].
Definition union_columns (projection extraction : list var) : list column :=
  flat_map (fun v => CVar v :: (if decide (v ∈ extraction) then [CVarTag v] else [])) projection.
Definition computed_columns (u : computed) : list column := match u with Union p x _ => union_columns p x end.
Definition from_columns (computed : list computed) (from : list (table * alias)) : list (alias * list column) :=
  map (fun x => (x.2, match x.1 with TComputed i => default [] (computed_columns <$> computed !! i) | _ => datom_columns end)) from.
(** translate.rs:261-326: [expect]s; then the arm's columns must be there *)
Definition arm_var_check (sc : list (alias * list column)) (s : scope) (extraction : list var) (v : var) : res unit :=
  let! ts := match s_vals s !! v, s_cols s !! v with
             | Some x, _ => if printable x then Ok tt else Err ESql
             | None, Some (c :: _) => if columns_in sc c then Ok tt else Err ESql
             | None, _ => Panic PQuery
             end in
  if decide (v ∈ extraction) then
    if vts_unique_tag (var_types s v) then Ok tt
    else match s_extracted s !! v with
         | None => Panic PQuery
         | Some c => if columns_in sc c then Ok tt else Err ESql
         end
  else Ok tt.
Fixpoint check_constraint (sc : list (alias * list column)) (k : constraint) {struct k} : res unit :=
  match k with
  | KEquals c v => if (columns_in sc c && qvalue_ok sc v)%bool then Ok tt else Err ESql
  | KCompare _ l r => if (qvalue_ok sc l && qvalue_ok sc r)%bool then Ok tt else Err ESql
  | KTypes al _ check => if (columns_in sc (al, CTag) && (negb check || columns_in sc (al, CV)))%bool then Ok tt else Err ESql
  | KNotExists c => check_cc sc c
  | KOr l =>
      (fix go l := match l with
                   | [] => Ok tt
                   | ks :: l => let! _ := (fix all ks := match ks with [] => Ok tt | k :: ks => let! _ := check_constraint sc k in all ks end) ks in go l
                   end) l
  end
with check_cc (sc : list (alias * list column)) (c : cc) {struct c} : res unit :=
  match c with
  | CC s computed wheres =>
      let! _ := (fix tables l := match l with [] => Ok tt | u :: l => let! _ := check_computed sc u in tables l end) computed in
      let sc := from_columns computed (s_from s) ++ sc in
      (fix all ks := match ks with [] => Ok tt | k :: ks => let! _ := check_constraint sc k in all ks end) wheres
  end
with check_computed (sc : list (alias * list column)) (u : computed) {struct u} : res unit :=
  match u with
  | Union projection extraction arms =>
      if is_nil projection then Panic PQuery     (* query-sql/src/lib.rs:295 *)
      else
        (fix go arms :=
           match arms with
           | [] => Ok tt
           | a :: arms =>
               let! _ := check_cc sc a in
               let sc' := from_columns (c_computed a) (c_from a) ++ sc in
               let! _ := rfold (fun _ v => arm_var_check sc' (c_scope a) extraction v) tt projection in
               (* LIMIT in an arm that is not the last *)
               if (c_empty a && negb (is_nil arms))%bool then Err ESql else go arms
           end) arms
  end.

(* ---------------------------------------------------------------- projection *)

(** project.rs:155-416 project_elements, for variables: the names and expressions of the SQL columns, and for each variable of the find
    specification the index of its value and either its tag or the index of its tag *)
Inductive pexpr := XValue (v : typed_value) | XColumn (c : qalias).
Inductive tindex := IKnown (i : nat) (tag : Z) | IUnknown (i j : nat).
Definition project_var (c : cc) (v : var) : res (pexpr * vts) :=
  match c_vals c !! v, c_cols c !! v with
  | Some x, _ => Ok (XValue x, vts_of_one (tv_type x))
  | None, Some (q :: _) => Ok (XColumn q, known_type_set c v)
  | None, _ => Err EProjector
  end.
Definition tag_column (c : cc) (v : var) : res (column * pexpr) :=
  match c_extracted c !! v with Some q => Ok (CVarTag v, XColumn q) | None => Err EProjector end.
Fixpoint project_vars (c : cc) (seen : list var) (i : nat) (vs : list var) : res (list (column * pexpr) * list tindex) :=
  match vs with
  | [] => Ok ([], [])
  | v :: vs =>
      if decide (v ∈ seen) then Err EProjector
      else
        let! (x, ts) := project_var c v in
        match vts_unique_tag ts with
        | Some t =>
            let! (cols, ixs) := project_vars c (v :: seen) (i + 1) vs in
            Ok ((CVar v, x) :: cols, IKnown i t :: ixs)
        | None =>
            let! tc := tag_column c v in
            let! (cols, ixs) := project_vars c (v :: seen) (i + 2) vs in
            Ok ((CVar v, x) :: tc :: cols, IUnknown i (i + 1) :: ixs)
        end
  end.
(** project.rs:374-406: what ORDER BY needs besides *)
Fixpoint project_named (c : cc) (outer : list var) (named : list var) : res (list (column * pexpr)) :=
  match named with
  | [] => Ok []
  | v :: named =>
      if (bool_decide (v ∈ outer) || is_some (c_vals c !! v))%bool then project_named c outer named
      else
        let! (x, ts) := project_var c v in
        let! tc := if vts_has_unique_tag ts then Ok [] else let! tc := tag_column c v in Ok [tc] in
        let! cols := project_named c outer named in
        Ok ((CVar v, x) :: tc ++ cols)
  end.

(** query-projector/src/lib.rs:326-365 TypedIndex::lookup *)
Definition typed_lookup (r : list sqlval) (i : tindex) : res typed_value :=
  match i with
  | IKnown i t => match r !! i with Some v => from_sql_value_pair v t | None => Panic PQuery end
  | IUnknown i j =>
      match r !! i, r !! j with
      | Some v, Some (SInt t) => from_sql_value_pair v t
      | _, _ => Panic PQuery
      end
  end.

(** query-projector/src/lib.rs QueryResults *)
Inductive results := RRel (rows : list (list typed_value)) | RColl (l : list typed_value) | RTuple (o : option (list typed_value))
  | RScalar (o : option typed_value).
(** QueryOutput::empty *)
Definition empty_results (f : find_spec) : results :=
  match f with FRel _ => RRel [] | FColl _ => RColl [] | FTuple _ => RTuple None | FScalar _ => RScalar None end.

(** ORDER BY over the projected columns: [None] if one is not projected *)
Fixpoint order_indices (cols : list (column * pexpr)) (order : list (direction * column)) : option (list (direction * nat)) :=
  match order with
  | [] => Some []
  | (d, c) :: order =>
      match list_find (fun x => x.1 = c) cols, order_indices cols order with
      | Some (i, _), Some l => Some ((d, i) :: l)
      | _, _ => None
      end
  end.
Fixpoint row_cmp (order : list (direction * nat)) (x y : list sqlval) : comparison :=
  match order with
  | [] => Eq
  | (d, i) :: order =>
      let r := sql_cmp (default SNull (x !! i)) (default SNull (y !! i)) in
      match (match d with Asc => r | Desc => CompOpp r end) with
      | Eq => row_cmp order x y
      | r => r
      end
  end.
Definition row_le (order : list (direction * nat)) (x y : list sqlval) : Prop := row_cmp order x y <> Gt.
Global Instance row_le_dec order x y : Decision (row_le order x y).
Proof. unfold row_le. apply _. Defined.

Definition eval_expr (e : env) (x : pexpr) : sqlval :=
  match x with XValue v => sql_of v | XColumn c => default SNull (env_column e c) end.
Definition expr_ok (sc : list (alias * list column)) (x : pexpr) : bool :=
  match x with XValue v => printable v | XColumn c => columns_in sc c end.

(** translate.rs:343-392, 479-530 query_to_select; the statement; the rows of its result *)
Definition sql_rows (q : sqlite) (st : store) (distinct : bool) (cols : list (column * pexpr)) (order : list (direction * nat))
    (lim : qlimit) (c : cc) : list (list sqlval) :=
  let rows := map (fun e => map (fun x => eval_expr e x.2) cols) (select q st [] c) in
  let rows := if distinct then dedup row_same (sq_plan q rows) else rows in
  let rows := merge_sort (row_le order) (sq_plan q rows) in
  match lim with LFixed n => take n rows | _ => rows end.
Definition is_fixed_one (l : qlimit) : bool := match l with LFixed 1 => true | _ => false end.

(** transaction/src/query.rs:331-361 run_algebrized_query; query-projector/src/lib.rs:418-500 query_projection;
    projectors/simple.rs *)
Definition run_algebrized (q : sqlite) (st : store) (f : find_spec) (a : algebraic) : res results :=
  let c := aq_cc a in
  if c_empty c then Ok (empty_results f)
  else if (is_nil (c_wheres c) && forallb (fun v => is_some (c_vals c !! v)) (find_vars f))%bool then
    let row := map (fun v => default (TVRef 0) (c_vals c !! v)) (find_vars f) in
    Ok (match f with
        | FRel _ => RRel [row]
        | FColl _ => RColl row
        | FTuple _ => RTuple (Some row)
        | FScalar _ => RScalar (head row)
        end)
  else
    let! (cols, ixs) := project_vars c [] 0 (find_vars f) in
    let! more := project_named c (find_vars f) (aq_named a) in
    let cols := cols ++ more in
    let! _ := check_cc [] c in
    let sc := from_columns (c_computed c) (c_from c) in
    if negb (forallb (fun x => expr_ok sc x.2) cols) then Err ESql
    else
      match order_indices cols (aq_order a) with
      | None => Err ESql
      | Some order =>
          let distinct := (negb (unit_limited f) && negb (is_fixed_one (aq_limit a)))%bool in
          let rows := sql_rows q st distinct cols order (aq_limit a) c in
          match f with
          | FRel _ => rmap RRel (rmapM (fun r => rmapM (typed_lookup r) ixs) rows)
          | FColl _ => rmap RColl (rmapM (fun r => match ixs with i :: _ => typed_lookup r i | [] => Panic PQuery end) rows)
          | FTuple _ =>
              match rows with
              | [] => Ok (RTuple None)
              | r :: _ => rmap (fun x => RTuple (Some x)) (rmapM (typed_lookup r) ixs)
              end
          | FScalar _ =>
              match rows, ixs with
              | [], _ => Ok (RScalar None)
              | r :: _, i :: _ => rmap (fun x => RScalar (Some x)) (typed_lookup r i)
              | _, [] => Panic PQuery
              end
          end
      end.

(** transaction/src/query.rs:144-159 algebrize_query (unbound inputs), 370-381 q_once *)
Definition q_once (q : sqlite) (k : known) (st : store) (qu : query) (vals : gmap var typed_value) : res results :=
  let! a := algebrize k qu vals in
  if bool_decide (s_inputs (c_scope (aq_cc a)) ⊆ dom (c_vals (aq_cc a))) then run_algebrized q st (q_find qu) a
  else Err EAlgebrizer.

(** Writing SQL: the query builder of sql/src/lib.rs and the rendering of query-sql/src/lib.rs.
    M_Query.v gives a meaning to what the translation produces; this file is about its text. *)
From stdpp Require Import base list strings sorting.
From Coq Require Import ZArith String Ascii DecimalString.
From Verif Require Import M_Base M_Value.
Local Open Scope Z_scope.
Local Open Scope string_scope.

(** Rust's [to_string] of an integer *)
Definition dec (z : Z) : string := NilZero.string_of_int (Z.to_int z).

(** sql/src/lib.rs:76-91.  The hash maps are association lists, newest first: what order a hash map
    has does not matter because [finish] sorts. *)
Record builder := Builder {
  b_sql : string;
  b_prefix : string;
  b_counter : Z;
  b_bytes : list (N * string);
  b_strings : list (string * string);
  b_args : list (string * sqlval) }.

(** sql/src/lib.rs:98-108 *)
Definition with_prefix (p : string) : builder := Builder "" p 0 [] [] [].
(** sql/src/lib.rs:94-96 *)
Definition new_builder : builder := with_prefix "$v".

(** sql/src/lib.rs:127-129 *)
Definition push_sql (s : string) (b : builder) : builder :=
  Builder (b_sql b ++ s) (b_prefix b) (b_counter b) (b_bytes b) (b_strings b) (b_args b).

(** sql/src/lib.rs:110-114.  The counter is an i64; its overflow is not modelled. *)
Definition argument_name (b : builder) : string := b_prefix b ++ dec (b_counter b).
Definition count_argument (b : builder) : builder :=
  Builder (b_sql b) (b_prefix b) (b_counter b + 1) (b_bytes b) (b_strings b) (b_args b).

(** sql/src/lib.rs:116-121 *)
Definition push_static_arg (v : sqlval) (b : builder) : builder :=
  let arg := argument_name b in
  let b := push_sql arg (count_argument b) in
  Builder (b_sql b) (b_prefix b) (b_counter b) (b_bytes b) (b_strings b) (b_args b ++ [(arg, v)]).

(** [str::replace("`", "``")] *)
Fixpoint double_ticks (s : string) : string :=
  match s with
  | "" => ""
  | String c s => if Ascii.eqb c "`" then String "`" (String "`" (double_ticks s)) else String c (double_ticks s)
  end.

(** sql/src/lib.rs:132-137 *)
Definition push_identifier (s : string) (b : builder) : builder :=
  push_sql "`" (push_sql (double_ticks s) (push_sql "`" b)).

Definition assoc {A B} `{EqDecision A} (x : A) (l : list (A * B)) : option B :=
  snd <$> head (filter (fun p => p.1 = x) l).

(** sql/src/lib.rs:139-187.  [exp]: how Rust's [{:e}] prints a double. *)
Definition push_typed_value (exp : dbl -> string) (v : typed_value) (b : builder) : builder :=
  match v with
  | TVRef e => push_sql (dec e) b
  | TVBoolean x => push_sql (if x then "1" else "0") b
  | TVLong z => push_sql (dec z) b
  | TVDouble d => push_sql (exp d) b
  | TVInstant ns => push_sql (dec (to_micros ns)) b
  | TVUuid u =>
      match assoc u (b_bytes b) with
      | Some arg => push_sql arg b
      | None =>
          let arg := argument_name b in
          let b := push_sql arg (count_argument b) in
          Builder (b_sql b) (b_prefix b) (b_counter b) ((u, arg) :: b_bytes b) (b_strings b) (b_args b)
      end
  | TVString s =>
      match assoc s (b_strings b) with
      | Some arg => push_sql arg b
      | None =>
          let arg := argument_name b in
          let b := push_sql arg (count_argument b) in
          Builder (b_sql b) (b_prefix b) (b_counter b) (b_bytes b) ((s, arg) :: b_strings b) (b_args b)
      end
  | TVKeyword k => push_static_arg (SText (kw_to_string k)) b
  end.

(** [char::is_ascii_digit], [is_ascii_alphanumeric].  [push_bind_param] uses Unicode's
    [is_alphanumeric] and [is_numeric]; here only ASCII names count as alphanumeric. *)
Definition in_range (c lo hi : ascii) : bool := (N_of_ascii lo <=? N_of_ascii c)%N && (N_of_ascii c <=? N_of_ascii hi)%N.
Definition is_digit (c : ascii) : bool := in_range c "0" "9".
Definition is_alnum (c : ascii) : bool := is_digit c || in_range c "a" "z" || in_range c "A" "Z".
Fixpoint all_chars (p : ascii -> bool) (s : string) : bool :=
  match s with "" => true | String c s => p c && all_chars p s end.
Fixpoint drop_chars (n : nat) (s : string) : string :=
  match n, s with S n, String _ s => drop_chars n s | _, _ => s end.

(** sql/src/lib.rs:195-217 *)
Definition push_bind_param (name : string) (b : builder) : res builder :=
  if negb (all_chars (fun c => is_alnum c || Ascii.eqb c "_") name) then Err ESql
  else if String.prefix (b_prefix b) name && all_chars is_digit (drop_chars (String.length (b_prefix b)) name) then Err ESql
  else Ok (push_sql name (push_sql "$" b)).

(** sql/src/lib.rs:219-247 *)
Definition arg_le (x y : string * sqlval) : Prop := String.leb x.1 y.1 = true.
Global Instance arg_le_dec x y : Decision (arg_le x y) := decide (String.leb x.1 y.1 = true).
Definition finish (b : builder) : string * list (string * sqlval) :=
  (b_sql b, merge_sort arg_le (b_args b ++ map (fun p => (p.2, SText p.1)) (b_strings b)
                                        ++ map (fun p => (p.2, SBlob p.1)) (b_bytes b))%list).

(** The calls that a fragment makes on the [QueryBuilder] it is given.  [Crash]: an index out of
    range, or chunks of size 0. *)
Inductive call := Sql (s : string) | Name (s : string) | Val (v : typed_value) | Bind (s : string) | Crash.

Definition do_call (exp : dbl -> string) (c : call) (b : builder) : res builder :=
  match c with
  | Sql s => Ok (push_sql s b)
  | Name s => Ok (push_identifier s b)
  | Val v => Ok (push_typed_value exp v b)
  | Bind s => push_bind_param s b
  | Crash => Panic POther
  end.
Fixpoint do_calls (exp : dbl -> string) (cs : list call) (b : builder) : res builder :=
  match cs with [] => Ok b | c :: cs => let! b := do_call exp c b in do_calls exp cs b end.

(* ------------------------------------------------------------- query-sql/src/lib.rs *)

(** query-algebrizer/src/types.rs:107-119 *)
Inductive var_column := Var (v : string) | VarTag (v : string).
(** query-algebrizer/src/types.rs:79-131 *)
Inductive sql_column :=
  | Fixed (c : string)            (* one of the fixed columns, by its name *)
  | VarCol (c : var_column).
Definition fixed_columns : list string := ["e"; "a"; "v"; "tx"; "value_type_tag"; "rowid"; "text"; "added"].
(** query-algebrizer/src/types.rs:46-57 *)
Definition table_names : list string := ["datoms"; "fulltext_values"; "fulltext_datoms"; "all_datoms"; "c"; "transactions"].

(** query-algebrizer/src/types.rs:343-359; query-sql/src/lib.rs:136-160 *)
Inductive infix := OpLess | OpLessEq | OpGreater | OpGreaterEq | OpNotEqual | OpEqual | OpMatch.
Definition infix_str (o : infix) : string :=
  match o with
  | OpLess => "<" | OpLessEq => "<=" | OpGreater => ">" | OpGreaterEq => ">=" | OpNotEqual => "<>" | OpEqual => "="
  | OpMatch => "MATCH"
  end.
(** query-projector-traits/aggregates.rs:31-40 *)
Inductive aggregate := Avg | Count | Max | Min | Sum.
Definition aggregate_str (a : aggregate) : string :=
  match a with Avg => "avg" | Count => "count" | Max => "max" | Min => "min" | Sum => "sum" end.
(** query-sql/src/lib.rs:392-399 *)
Inductive affinity := AffNull | AffInteger | AffReal | AffText | AffBlob.
Definition affinity_str (a : affinity) : string :=
  match a with
  | AffNull => "'null'" | AffInteger => "'integer'" | AffReal => "'real'" | AffText => "'text'" | AffBlob => "'blob'"
  end.

(** query-sql/src/lib.rs:43-62.  Entid, Integer and Long print alike; NullableAggregate and Expression
    print alike. *)
Inductive operand :=
  | OColumn (alias : string) (c : sql_column)
  | OExisting (name : string)
  | OInteger (z : Z)
  | OValue (v : typed_value)
  | OAggregate (a : aggregate) (x : operand).

(** query-sql/src/lib.rs:78-84 *)
Inductive projection := Columns (cols : list (operand * string)) | Star | One.
(** query-sql/src/lib.rs:87-91 *)
Inductive group_by := GroupColumn (name : string) | GroupQuery (alias : string) (c : sql_column).
(** query-sql/src/lib.rs:192-201 *)
Inductive values := Unnamed (size : nat) (vs : list typed_value) | Named (names : list string) (vs : list typed_value).
(** edn/src/query.rs Limit; the number is a u64 *)
Inductive limit := NoLimit | LimitFixed (n : Z) | LimitVariable (v : string).

(** query-sql/src/lib.rs:103-133, 170-190, 203-217 *)
Inductive cond :=
  | KInfix (o : infix) (l r : operand)
  | KOr (cs : list cond)
  | KAnd (cs : list cond)
  | KIn (l : operand) (list : list operand)
  | KIsNull (x : operand)
  | KIsNotNull (x : operand)
  | KNotExists (t : source)
  | KTypeCheck (x : operand) (a : affinity)
with source :=
  | STable (name alias : string)
  | SUnion (qs : list select) (alias : string)
  | SSubquery (q : select)
  | SValues (vs : values) (alias : string)
with from_clause := Tables (ts : list source) | Join (l r : source) | NoFrom
with select :=
  | Select (distinct : bool) (p : projection) (f : from_clause) (conds : list cond) (groups : list group_by)
           (order : list (bool * var_column)) (lim : limit).

(** the [interpose!] macro *)
Fixpoint interpose (sep : list call) (ls : list (list call)) : list call :=
  match ls with
  | [] => []
  | [x] => x
  | x :: ls => x ++ sep ++ interpose sep ls
  end%list.

(** query-sql/src/lib.rs:219-226 *)
Definition var_column_calls (c : var_column) : list call :=
  match c with Var v => [Name v] | VarTag v => [Name (v ++ "_value_type_tag")] end.
(** query-sql/src/lib.rs:228-244 *)
Definition column_calls (c : sql_column) : list call :=
  match c with Fixed s => [Sql s] | VarCol c => var_column_calls c end.
(** query-sql/src/lib.rs:415-419 *)
Definition qualified_calls (alias : string) (c : sql_column) : list call :=
  (Name alias :: Sql "." :: column_calls c)%list.
(** query-sql/src/lib.rs:249-287 *)
Fixpoint operand_calls (x : operand) : list call :=
  match x with
  | OColumn a c => qualified_calls a c
  | OExisting n => [Name n]
  | OInteger z => [Sql (dec z)]
  | OValue v => [Val v]
  | OAggregate a x => Sql (aggregate_str a) :: Sql "(" :: operand_calls x ++ [Sql ")"]
  end%list.
(** query-sql/src/lib.rs:289-313 *)
Definition projected_calls (p : operand * string) : list call := (operand_calls p.1 ++ [Sql " AS "; Name p.2])%list.
Definition projection_calls (p : projection) : list call :=
  match p with
  | One => [Sql "1"]
  | Star => [Sql "*"]
  | Columns [] => [Crash]
  | Columns cols => interpose [Sql ", "] (map projected_calls cols)
  end.

(** [slice::chunks] *)
Fixpoint chunks_of {A} (fuel n : nat) (l : list A) : list (list A) :=
  match fuel, l with
  | S fuel, _ :: _ => take n l :: chunks_of fuel n (drop n l)
  | _, _ => []
  end.
(** query-sql/src/lib.rs:480-531 *)
Definition values_rows (n : nat) (vs : list typed_value) : list call :=
  match n with
  | O => [Crash]
  | S _ => (Sql "VALUES " :: interpose [Sql ", "]
             (map (fun row => Sql "(" :: interpose [Sql ", "] (map (fun v => [Val v]) row) ++ [Sql ")"])
                  (chunks_of (length vs) n vs)))
  end%list.
Definition values_calls (v : values) : list call :=
  match v with
  | Unnamed n vs => values_rows n vs
  | Named names vs =>
      (Sql "SELECT " :: interpose [Sql ", "] (map (fun n => [Sql "0 AS "; Name n]) names)
         ++ [Sql " WHERE 0 UNION ALL "]) ++ values_rows (length names) vs
  end%list.

(** query-sql/src/lib.rs:93-100 *)
Definition group_calls (g : group_by) : list call :=
  match g with GroupColumn n => [Name n] | GroupQuery a c => qualified_calls a c end.
(** query-sql/src/lib.rs:617-634; [true]: ascending *)
Definition order_calls (o : bool * var_column) : list call :=
  (var_column_calls o.2 ++ [Sql (if o.1 then " ASC" else " DESC")])%list.
(** query-sql/src/lib.rs:552-568.  [split_at(1)] panics on an empty name. *)
Fixpoint underscored (s : string) : string :=
  match s with "" => "" | String c s => String (if is_alnum c then c else "_"%char) (underscored s) end.
Definition format_select_var (v : string) : option string :=
  match v with "" => None | String _ s => Some (String "i" (underscored s)) end.
(** query-sql/src/lib.rs:637-650 *)
Definition limit_calls (l : limit) : list call :=
  match l with
  | NoLimit => []
  | LimitFixed n => [Sql " LIMIT "; Sql (dec n)]
  | LimitVariable v => [Sql " LIMIT "; match format_select_var v with Some s => Bind s | None => Crash end]
  end.
Definition section (head : string) (sep : string) (parts : list (list call)) : list call :=
  match parts with [] => [] | _ => Sql head :: interpose [Sql sep] parts end.

(** query-sql/src/lib.rs:320-413 *)
Fixpoint cond_calls (c : cond) : list call :=
  match c with
  | KInfix o l r => operand_calls l ++ [Sql " "; Sql (infix_str o); Sql " "] ++ operand_calls r
  | KIsNull x => operand_calls x ++ [Sql " IS NULL"]
  | KIsNotNull x => operand_calls x ++ [Sql " IS NOT NULL"]
  | KAnd [] => [Sql "1"]
  | KAnd cs => Sql "(" :: interpose [Sql " AND "] (map cond_calls cs) ++ [Sql ")"]
  | KOr [] => [Sql "0"]
  | KOr cs => Sql "(" :: interpose [Sql " OR "] (map cond_calls cs) ++ [Sql ")"]
  | KIn l xs => operand_calls l ++ [Sql " IN ("] ++ interpose [Sql ", "] (map operand_calls xs) ++ [Sql ")"]
  | KNotExists t => Sql "NOT EXISTS " :: source_calls t
  | KTypeCheck x a => Sql "typeof(" :: operand_calls x ++ [Sql ") = "; Sql (affinity_str a)]
  end
(** query-sql/src/lib.rs:421-478 *)
with source_calls (t : source) : list call :=
  match t with
  | STable n a => [Name n; Sql " AS "; Name a]
  | SUnion qs a => Sql "(" :: interpose [Sql " UNION "] (map select_calls qs) ++ [Sql ") AS "; Name a]
  | SSubquery q => Sql "(" :: select_calls q ++ [Sql ")"]
  | SValues v a => Sql "(" :: values_calls v ++ [Sql ") AS "; Name a]
  end
(** query-sql/src/lib.rs:429-446, 533-550 *)
with from_calls (f : from_clause) : list call :=
  match f with
  | Tables ts => section " FROM " ", " (map source_calls ts)
  | Join l r => Sql " FROM " :: source_calls l ++ [Sql " JOIN "] ++ source_calls r
  | NoFrom => []
  end
(** query-sql/src/lib.rs:577-650 *)
with select_calls (q : select) : list call :=
  match q with
  | Select distinct p f conds groups order lim =>
      Sql (if distinct then "SELECT DISTINCT " else "SELECT ") :: projection_calls p ++ from_calls f
        ++ section " WHERE " " AND " (map cond_calls conds)
        ++ section " GROUP BY " ", " (map group_calls groups)
        ++ section " ORDER BY " ", " (map order_calls order)
        ++ limit_calls lim
  end%list.

(** query-sql/src/lib.rs:655-660 to_sql_query *)
Definition to_sql (exp : dbl -> string) (q : select) : res (string * list (string * sqlval)) :=
  rmap finish (do_calls exp (select_calls q) new_builder).

(** Values: keywords, value types, typed values, their SQL representation, instants. *)
From Verif Require Export M_Base.

(* ---------------------------------------------------------------- strings *)

(** Byte-wise comparison of strings: Rust's [Ord for str] and SQLite's BINARY collation. *)
Fixpoint string_cmp (s t : string) : comparison :=
  match s, t with
  | EmptyString, EmptyString => Eq
  | EmptyString, _ => Lt
  | _, EmptyString => Gt
  | String a s', String b t' =>
      match N.compare (Ascii.N_of_ascii a) (Ascii.N_of_ascii b) with
      | Eq => string_cmp s' t'
      | c => c
      end
  end.

(* ---------------------------------------------------------------- keywords *)

(** edn/src/namespaceable_name.rs:22-44, edn/src/symbols.rs struct Keyword.
    [components] + [boundary] are represented by the pair they encode. *)
Record keyword := Kw { kw_ns : option string; kw_name : string }.

Global Instance keyword_eq_dec : EqDecision keyword.
Proof. solve_decision. Defined.
Global Instance keyword_countable : Countable keyword.
Proof.
  refine (inj_countable' (fun k => (kw_ns k, kw_name k)) (fun p => Kw p.1 p.2) _).
  by intros [].
Defined.

(** namespaceable_name.rs:48-102 [plain], [namespaced], [new]: they panic on empty parts. *)
Definition kw_new (ns : option string) (n : string) : res keyword :=
  match n, ns with
  | EmptyString, _ => Panic PKeyword
  | _, Some EmptyString => Panic PKeyword
  | _, _ => Ok (Kw ns n)
  end.

(** Notation-like helper for the [ns_keyword!] macro. *)
Definition nskw (ns n : string) : keyword := Kw (Some ns) n.

(** namespaceable_name.rs:104-106 *)
Definition kw_is_namespaced (k : keyword) : bool := is_some (kw_ns k).

(** namespaceable_name.rs:108-116 *)
Definition starts_underscore (s : string) : bool :=
  match s with String c _ => Ascii.eqb c "_"%char | EmptyString => false end.
Definition kw_is_backward (k : keyword) : bool := starts_underscore (kw_name k).

(** namespaceable_name.rs:118-126 *)
Definition kw_to_reversed (k : keyword) : res keyword :=
  match kw_name k with
  | String c rest => if Ascii.eqb c "_"%char then kw_new (kw_ns k) rest
                     else kw_new (kw_ns k) (String "_" (String c rest))
  | EmptyString => kw_new (kw_ns k) "_"
  end.

(** edn/src/symbols.rs:265-271 *)
Definition kw_unreversed (k : keyword) : res (option keyword) :=
  if kw_is_backward k then rmap Some (kw_to_reversed k) else Ok None.

(** symbols.rs Display for Keyword: ":" followed by the components. *)
Definition kw_to_string (k : keyword) : string :=
  (":" +:+ match kw_ns k with Some ns => ns +:+ "/" +:+ kw_name k | None => kw_name k end)%string.

(** [str::split(&[':','/'])] *)
Definition is_sep (c : Ascii.ascii) : bool := Ascii.eqb c ":"%char || Ascii.eqb c "/"%char.
Fixpoint split_seps (s : string) : list string :=
  match s with
  | EmptyString => [EmptyString]
  | String c s' =>
      if is_sep c then EmptyString :: split_seps s'
      else match split_seps s' with
           | x :: xs => String c x :: xs
           | [] => [String c EmptyString]   (* not reachable: split never returns [] *)
           end
  end.

(** db/src/lib.rs:88-99 *)
Definition to_namespaced_keyword (s : string) : res keyword :=
  match split_seps s with
  | [EmptyString; ns; n] => kw_new (Some ns) n
  | _ => Err ENotYetImplemented
  end.

(** namespaceable_name.rs:175-179 [Ord]: lexicographic on (namespace-or-empty, name). *)
Definition kw_cmp (k l : keyword) : comparison :=
  match string_cmp (default "" (kw_ns k)) (default "" (kw_ns l)) with
  | Eq => string_cmp (kw_name k) (kw_name l)
  | c => c
  end.

(* ---------------------------------------------------------------- value types *)

(** core-traits/lib.rs:274-283 *)
Inductive value_type :=
  VTRef | VTBoolean | VTInstant | VTLong | VTDouble | VTString | VTKeyword | VTUuid.
Global Instance value_type_eq_dec : EqDecision value_type.
Proof. solve_decision. Defined.

(** Doubles.  [OrderedFloat<f64>]: NaN equals itself and is the greatest; +0 and -0 are equal.
    Non-NaN doubles are represented by an integer key that respects their order (for
    instance the bit pattern mapped to a sign-magnitude integer). *)
Inductive dbl := DNaN | DKey (k : Z).
Global Instance dbl_eq_dec : EqDecision dbl.
Proof. solve_decision. Defined.

(** core-traits/lib.rs:407-417.  An instant is the number of nanoseconds since the epoch
    (chrono's range limit and leap-second representation are not modelled); a UUID is its 128-bit
    number. *)
Inductive typed_value :=
  | TVRef (e : Z)
  | TVBoolean (b : bool)
  | TVLong (z : Z)
  | TVDouble (d : dbl)
  | TVInstant (ns : Z)
  | TVString (s : string)
  | TVKeyword (k : keyword)
  | TVUuid (u : N).
Global Instance typed_value_eq_dec : EqDecision typed_value.
Proof. solve_decision. Defined.

(** core-traits/lib.rs:438-449 *)
Definition tv_type (v : typed_value) : value_type :=
  match v with
  | TVRef _ => VTRef | TVBoolean _ => VTBoolean | TVLong _ => VTLong
  | TVDouble _ => VTDouble | TVInstant _ => VTInstant | TVString _ => VTString
  | TVKeyword _ => VTKeyword | TVUuid _ => VTUuid
  end.

(* ---------------------------------------------------------------- instants *)

(** edn/src/types.rs:663-670.  [timestamp] is the floored number of seconds,
    [timestamp_subsec_micros] the microseconds within the second. *)
Definition to_micros (ns : Z) : Z :=
  (ns / 1000000000) * 1000000 + (ns mod 1000000000) / 1000.

(** edn/src/types.rs:654-658.  Rust's [/] and [%] truncate towards zero. *)
Definition from_micros (ts : Z) : Z :=
  Z.quot ts 1000000 * 1000000000 + Z.abs (Z.rem ts 1000000) * 1000.

(** edn/src/types.rs:686-692 *)
Definition to_millis (ns : Z) : Z :=
  (ns / 1000000000) * 1000 + (ns mod 1000000000) / 1000000.

(** edn/src/types.rs:676-680 *)
Definition from_millis (ts : Z) : Z :=
  Z.quot ts 1000 * 1000000000 + Z.abs (Z.rem ts 1000) * 1000.

(** core-traits/lib.rs:  [From<DateTime<Utc>> for TypedValue] truncates to microseconds
    (via [mentat_core::microseconds / DateTime::with_nanosecond]). *)
Definition truncate_micros (ns : Z) : Z := (ns / 1000) * 1000.

(* ---------------------------------------------------------------- SQL values *)

(** rusqlite::types::Value.  Blobs are only ever UUIDs. *)
Inductive sqlval :=
  | SNull
  | SInt (z : Z)
  | SReal (d : dbl)
  | SText (s : string)
  | SBlob (u : N).
Global Instance sqlval_eq_dec : EqDecision sqlval.
Proof. solve_decision. Defined.

(** db/src/db.rs:461-473 value_type_tag; core/src/sql_types.rs value_type_tag *)
Definition vt_tag (t : value_type) : Z :=
  match t with
  | VTRef => 0 | VTBoolean => 1 | VTInstant => 4 | VTLong => 5 | VTDouble => 5
  | VTString => 10 | VTUuid => 11 | VTKeyword => 13
  end.

(** db/src/db.rs:461-473 to_sql_value_pair.  SQLite stores a NaN as NULL. *)
Definition to_sql_value_pair (v : typed_value) : sqlval * Z :=
  match v with
  | TVRef x => (SInt x, 0)
  | TVBoolean b => (SInt (if b then 1 else 0), 1)
  | TVInstant x => (SInt (to_micros x), 4)
  | TVLong x => (SInt x, 5)
  | TVDouble DNaN => (SNull, 5)
  | TVDouble (DKey k) => (SReal (DKey k), 5)
  | TVString s => (SText s, 10)
  | TVUuid u => (SBlob u, 11)
  | TVKeyword k => (SText (kw_to_string k), 13)
  end.

(** db/src/db.rs:406-438 from_sql_value_pair.  A blob is always 16 bytes here, so the
    [try_into().unwrap()] panic cannot be expressed. *)
Definition from_sql_value_pair (v : sqlval) (tag : Z) : res typed_value :=
  match v with
  | SInt x =>
      if decide (tag = 0) then Ok (TVRef x)
      else if decide (tag = 1) then Ok (TVBoolean (negb (Z.eqb 0 x)))
      else if decide (tag = 4) then Ok (TVInstant (from_micros x))
      else if decide (tag = 5) then Ok (TVLong x)
      else Err EBadSQLValuePair
  | SReal d => if decide (tag = 5) then Ok (TVDouble d) else Err EBadSQLValuePair
  | SText s =>
      if decide (tag = 10) then Ok (TVString s)
      else if decide (tag = 13) then rmap TVKeyword (to_namespaced_keyword s)
      else Err EBadSQLValuePair
  | SBlob u =>
      if decide (tag = 11) then if decide (u = 0%N) then Err EBadSQLValuePair else Ok (TVUuid u)
      else Err EBadSQLValuePair
  | SNull => Err EBadSQLValuePair
  end.

(** SQLite's ordering of values in ORDER BY: NULL < numbers < text < blob.  Integers and reals
    of the same column are never compared here (see DESIGN). *)
Definition sqlval_rank (v : sqlval) : Z :=
  match v with SNull => 0 | SInt _ => 1 | SReal _ => 1 | SText _ => 2 | SBlob _ => 3 end.
Definition sqlval_cmp (v w : sqlval) : comparison :=
  match v, w with
  | SInt x, SInt y => Z.compare x y
  | SReal (DKey x), SReal (DKey y) => Z.compare x y
  | SText s, SText t => string_cmp s t
  | SBlob x, SBlob y => N.compare x y
  | _, _ => Z.compare (sqlval_rank v) (sqlval_rank w)
  end.

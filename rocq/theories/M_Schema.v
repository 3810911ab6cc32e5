(** Attributes, attribute builders, schema (core-traits, core/src/lib.rs, db/src/schema.rs). *)
From Verif Require Export M_Value.

(* ---------------------------------------------------------------- well-known entids *)
(** db/src/entids.rs *)
Definition DB_IDENT := 1.            Definition DB_PART_DB := 2.
Definition DB_TX_INSTANT := 3.       Definition DB_INSTALL_PARTITION := 4.
Definition DB_INSTALL_VALUE_TYPE := 5. Definition DB_INSTALL_ATTRIBUTE := 6.
Definition DB_VALUE_TYPE := 7.       Definition DB_CARDINALITY := 8.
Definition DB_UNIQUE := 9.           Definition DB_IS_COMPONENT := 10.
Definition DB_INDEX := 11.           Definition DB_FULLTEXT := 12.
Definition DB_NO_HISTORY := 13.
Definition DB_TYPE_REF := 23.        Definition DB_TYPE_KEYWORD := 24.
Definition DB_TYPE_LONG := 25.       Definition DB_TYPE_DOUBLE := 26.
Definition DB_TYPE_STRING := 27.     Definition DB_TYPE_UUID := 28.
Definition DB_TYPE_BOOLEAN := 30.    Definition DB_TYPE_INSTANT := 31.
Definition DB_CARDINALITY_ONE := 33. Definition DB_CARDINALITY_MANY := 34.
Definition DB_UNIQUE_VALUE := 35.    Definition DB_UNIQUE_IDENTITY := 36.

(** db/src/entids.rs METADATA_SQL_LIST, might_update_metadata, is_a_schema_attribute. *)
Definition METADATA_LIST : list Z :=
  [DB_CARDINALITY; DB_FULLTEXT; DB_IDENT; DB_INDEX; DB_IS_COMPONENT; DB_UNIQUE; DB_VALUE_TYPE].
(** db/src/entids.rs SCHEMA_SQL_LIST *)
Definition SCHEMA_LIST : list Z :=
  [DB_CARDINALITY; DB_FULLTEXT; DB_INDEX; DB_IS_COMPONENT; DB_UNIQUE; DB_VALUE_TYPE].
Definition might_update_metadata (a : Z) : bool := bool_decide (a ∈ METADATA_LIST).
Definition is_a_schema_attribute (a : Z) : bool := bool_decide (a ∈ METADATA_LIST).

(* ---------------------------------------------------------------- attributes *)

(** core-traits/lib.rs:113-118 *)
Inductive uniq := UValue | UIdentity.
Global Instance uniq_eq_dec : EqDecision uniq.
Proof. solve_decision. Defined.

(** core-traits/lib.rs:136-180 *)
Record attribute := Attr {
  at_type : value_type;
  at_multival : bool;
  at_unique : option uniq;
  at_index : bool;
  at_fulltext : bool;
  at_component : bool;
  at_no_history : bool }.
Global Instance attribute_eq_dec : EqDecision attribute.
Proof. solve_decision. Defined.

(** core-traits/lib.rs:255-268 *)
Definition attribute_default : attribute := Attr VTRef false None false false false false.

(** core-traits/lib.rs:182-200 flags, expanded as db.rs:737-742 does. *)
Definition fl_avet (a : attribute) : bool := at_index a.
Definition fl_vaet (a : attribute) : bool := bool_decide (at_type a = VTRef).
Definition fl_fulltext (a : attribute) : bool := at_fulltext a.
Definition fl_unique (a : attribute) : bool := is_some (at_unique a).

(** db/src/schema.rs:30-71 validate *)
Definition attribute_validate (a : attribute) : res unit :=
  if (is_some (at_unique a) && negb (at_index a))%bool then Err EBadSchemaAssertion
  else if (at_fulltext a && negb (bool_decide (at_type a = VTString)))%bool then Err EBadSchemaAssertion
  else if (at_fulltext a && negb (at_index a))%bool then Err EBadSchemaAssertion
  else if (at_component a && negb (bool_decide (at_type a = VTRef)))%bool then Err EBadSchemaAssertion
  else Ok tt.

(* ---------------------------------------------------------------- attribute builder *)

(** db/src/schema.rs:87-97 (the [helpful] flag is only set by the client-side builder and is
    modelled separately). *)
Record builder := Builder {
  b_type : option value_type;
  b_multival : option bool;
  b_unique : option (option uniq);
  b_index : option bool;
  b_fulltext : option bool;
  b_component : option bool;
  b_no_history : option bool }.
Definition builder_default : builder := Builder None None None None None None None.

(** schema.rs:111-117 *)
Definition modify_attribute (a : attribute) : builder :=
  Builder None (Some (at_multival a)) (Some (at_unique a)) None None (Some (at_component a)) None.

Definition b_set_type (b : builder) (t : value_type) : builder :=
  Builder (Some t) (b_multival b) (b_unique b) (b_index b) (b_fulltext b) (b_component b) (b_no_history b).
Definition b_set_multival (b : builder) (x : bool) : builder :=
  Builder (b_type b) (Some x) (b_unique b) (b_index b) (b_fulltext b) (b_component b) (b_no_history b).
Definition b_set_unique (b : builder) (x : option uniq) : builder :=
  Builder (b_type b) (b_multival b) (Some x) (b_index b) (b_fulltext b) (b_component b) (b_no_history b).
Definition b_set_index (b : builder) (x : bool) : builder :=
  Builder (b_type b) (b_multival b) (b_unique b) (Some x) (b_fulltext b) (b_component b) (b_no_history b).
Definition b_set_fulltext (b : builder) (x : bool) : builder :=
  Builder (b_type b) (b_multival b) (b_unique b) (b_index b) (Some x) (b_component b) (b_no_history b).
Definition b_set_component (b : builder) (x : bool) : builder :=
  Builder (b_type b) (b_multival b) (b_unique b) (b_index b) (b_fulltext b) (Some x) (b_no_history b).
Definition b_set_no_history (b : builder) (x : bool) : builder :=
  Builder (b_type b) (b_multival b) (b_unique b) (b_index b) (b_fulltext b) (b_component b) (Some x).

(** schema.rs:165-172 *)
Definition validate_install (b : builder) : res unit :=
  match b_type b with None => Err EBadSchemaAssertion | Some _ => Ok tt end.

(** schema.rs:174-186 *)
Definition validate_alter (b : builder) : res unit :=
  match b_type b, b_fulltext b with
  | None, None => Ok tt
  | _, _ => Err EBadSchemaAssertion
  end.

(** schema.rs:188-213 *)
Definition build (b : builder) : attribute :=
  Attr (default VTRef (b_type b)) (default false (b_multival b)) (default None (b_unique b))
       (default false (b_index b)) (default false (b_fulltext b)) (default false (b_component b))
       (default false (b_no_history b)).

(** db/src/metadata.rs:48-61 *)
Inductive alteration := AltIndex | AltUnique | AltCardinality | AltNoHistory | AltIsComponent.
Global Instance alteration_eq_dec : EqDecision alteration.
Proof. solve_decision. Defined.

(** schema.rs:215-254.  Returns the mutated attribute and the list of mutations.  Lines 229-232:
    a builder which says nothing about uniqueness makes a unique attribute non-unique. *)
Definition mutate (b : builder) (a : attribute) : attribute * list alteration :=
  let '(mv, m1) := match b_multival b with
    | Some x => if decide (x = at_multival a) then (at_multival a, []) else (x, [AltCardinality])
    | None => (at_multival a, []) end in
  let '(un, m2) := match b_unique b with
    | Some x => if decide (x = at_unique a) then (at_unique a, []) else (x, [AltUnique])
    | None => if decide (at_unique a = None) then (None, []) else (None, [AltUnique]) end in
  let '(ix, m3) := match b_index b with
    | Some x => if decide (x = at_index a) then (at_index a, []) else (x, [AltIndex])
    | None => (at_index a, []) end in
  let '(co, m4) := match b_component b with
    | Some x => if decide (x = at_component a) then (at_component a, []) else (x, [AltIsComponent])
    | None => (at_component a, []) end in
  let '(nh, m5) := match b_no_history b with
    | Some x => if decide (x = at_no_history a) then (at_no_history a, []) else (x, [AltNoHistory])
    | None => (at_no_history a, []) end in
  (Attr (at_type a) mv un ix (at_fulltext a) co nh, m1 ++ m2 ++ m3 ++ m4 ++ m5).

(* ---------------------------------------------------------------- schema *)

(** core/src/lib.rs struct Schema.  [component_attributes] is a function of [attribute_map] in the
    constructor but is maintained separately, so it is a field. *)
Record schema := Schema {
  sc_entid_map : gmap Z keyword;
  sc_ident_map : gmap keyword Z;
  sc_attribute_map : gmap Z attribute;
  sc_component_attributes : list Z }.
Global Instance schema_eq_dec : EqDecision schema.
Proof. solve_decision. Defined.

(** core/src/lib.rs Schema::default *)
Definition schema_default : schema := Schema ∅ ∅ ∅ [].

(** core/src/lib.rs update_component_attributes: entids with [component], in BTreeMap order. *)
Definition component_attributes_of (m : gmap Z attribute) : list Z :=
  merge_sort Z.le (map fst (filter (fun p => at_component p.2 = true) (map_to_list m))).

(** core/src/lib.rs Schema::new *)
Definition schema_new (idents : gmap keyword Z) (entids : gmap Z keyword) (attrs : gmap Z attribute)
  : schema := Schema entids idents attrs (component_attributes_of attrs).

(** schema.rs:271-284, core/src/lib.rs get_entid, attribute_for_entid *)
Definition require_entid (s : schema) (k : keyword) : res Z :=
  ok_or (sc_ident_map s !! k) EUnrecognizedIdent.
Definition require_attribute (s : schema) (a : Z) : res attribute :=
  ok_or (sc_attribute_map s !! a) EUnrecognizedEntid.

(** schema.rs:74-85: attributes are validated in entid order; only whether one fails matters. *)
Definition validate_attribute_map (m : gmap Z attribute) : res unit :=
  rfold (fun _ p => attribute_validate p.2) tt (map_to_list m).

(** schema.rs:287-295.  The ident map of the store is given in the order of the rows of the
    view; [collect] into a map keeps the last entry of a key.  The entid map is built by iterating
    the ident map in keyword order, so for an entid with two idents the greatest keyword wins. *)
Definition kw_le (k l : keyword) : Prop := kw_cmp k l <> Gt.
Global Instance kw_le_dec k l : Decision (kw_le k l).
Proof. unfold kw_le. destruct (kw_cmp k l); [left|left|right]; congruence. Defined.
Definition entid_map_of (idents : gmap keyword Z) : gmap Z keyword :=
  fold_left (fun m p => <[p.2 := p.1]> m)
    (merge_sort (fun p q : keyword * Z => kw_le p.1 q.1) (map_to_list idents)) ∅.
Definition from_ident_map_and_attribute_map (idents : gmap keyword Z) (attrs : gmap Z attribute)
  : res schema :=
  let! _ := validate_attribute_map attrs in
  Ok (schema_new idents (entid_map_of idents) attrs).

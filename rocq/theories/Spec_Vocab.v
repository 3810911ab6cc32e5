(** What it means that a store has a vocabulary. *)
From Verif Require Import M_Vocab Spec_Value Spec_Partition Spec_Tx Spec_Conn Spec_Transact Spec_Schema.

(** db/src/entids.rs: :db.schema/version, :db.schema/attribute *)
Definition DB_SCHEMA_VERSION := 38.
Definition DB_SCHEMA_ATTRIBUTE := 39.

(** The vocabulary is an entity with the definition's name and version, and has each attribute of the definition, defined as it says. *)
Definition has_attribute (c : conn) (e : Z) (x : keyword * attribute) : Prop :=
  exists a, sc_ident_map (schema_of c) !! x.1 = Some a /\ holds (disk c) e DB_SCHEMA_ATTRIBUTE (TVRef a)
    /\ sc_attribute_map (schema_of c) !! a = Some x.2.
(** The vocabulary [e] has an attribute of that name, however it is defined. *)
Definition defines (c : conn) (e : Z) (k : keyword) : Prop :=
  exists a at_, sc_ident_map (schema_of c) !! k = Some a /\ holds (disk c) e DB_SCHEMA_ATTRIBUTE (TVRef a)
    /\ sc_attribute_map (schema_of c) !! a = Some at_.
Definition has_version (c : conn) (name : keyword) (e v : Z) : Prop :=
  sc_ident_map (schema_of c) !! name = Some e /\ holds (disk c) e DB_SCHEMA_VERSION (TVLong v).
Definition provides (c : conn) (d : definition) : Prop :=
  exists e, has_version c (df_name d) e (df_version d) /\ forall x, x ∈ df_attributes d -> has_attribute c e x.

(** A version that the code accepts *)
Definition version_ok (v : Z) : Prop := 0 < v < U32_MAX.

(** The names and attributes that vocabularies are described with are as the bootstrap defines them. *)
Definition core_names : list (keyword * Z) :=
  [ (nskw "db" "ident", DB_IDENT); (nskw "db" "valueType", DB_VALUE_TYPE); (nskw "db" "cardinality", DB_CARDINALITY);
    (nskw "db" "unique", DB_UNIQUE); (nskw "db" "isComponent", DB_IS_COMPONENT); (nskw "db" "index", DB_INDEX);
    (nskw "db" "fulltext", DB_FULLTEXT); (nskw "db" "noHistory", DB_NO_HISTORY);
    (nskw "db.schema" "version", DB_SCHEMA_VERSION); (nskw "db.schema" "attribute", DB_SCHEMA_ATTRIBUTE);
    (nskw "db.type" "ref", DB_TYPE_REF); (nskw "db.type" "keyword", DB_TYPE_KEYWORD); (nskw "db.type" "long", DB_TYPE_LONG);
    (nskw "db.type" "double", DB_TYPE_DOUBLE); (nskw "db.type" "string", DB_TYPE_STRING); (nskw "db.type" "uuid", DB_TYPE_UUID);
    (nskw "db.type" "boolean", DB_TYPE_BOOLEAN); (nskw "db.type" "instant", DB_TYPE_INSTANT);
    (nskw "db.cardinality" "one", DB_CARDINALITY_ONE); (nskw "db.cardinality" "many", DB_CARDINALITY_MANY);
    (nskw "db.unique" "value", DB_UNIQUE_VALUE); (nskw "db.unique" "identity", DB_UNIQUE_IDENTITY) ].
Definition plain_attribute (vt : value_type) : attribute := Attr vt false None false false false false.
Definition core_attributes : list (Z * attribute) :=
  [ (DB_IDENT, Attr VTKeyword false (Some UIdentity) true false false false);
    (DB_VALUE_TYPE, plain_attribute VTRef); (DB_CARDINALITY, plain_attribute VTRef); (DB_UNIQUE, plain_attribute VTRef);
    (DB_IS_COMPONENT, plain_attribute VTBoolean); (DB_INDEX, plain_attribute VTBoolean); (DB_FULLTEXT, plain_attribute VTBoolean);
    (DB_NO_HISTORY, plain_attribute VTBoolean); (DB_SCHEMA_VERSION, plain_attribute VTLong);
    (DB_SCHEMA_ATTRIBUTE, Attr VTRef true (Some UValue) true false false false) ].
Definition core_intact (s : schema) : Prop :=
  (forall x, x ∈ core_names -> sc_ident_map s !! x.1 = Some x.2)
  /\ (forall x, x ∈ core_attributes -> sc_attribute_map s !! x.1 = Some x.2).

(** A definition that can be ensured again: distinct names that the store can represent and that the core does not use, a version in
    range, and no attribute without history. *)
Definition acceptable (d : definition) : Prop :=
  NoDup (df_name d :: (df_attributes d).*1) /\ Forall (fun k => storable_keyword k /\ k ∉ core_names.*1) (df_name d :: (df_attributes d).*1)
  /\ version_ok (df_version d)
  /\ Forall (fun x : keyword * attribute => at_no_history x.2 = false) (df_attributes d).

(** An attribute that the definition declares not unique is not unique in the store, unless it belongs to an earlier version of the
    vocabulary. *)
Definition uniqueness_known (c : conn) (d : definition) : Prop :=
  forall x a old, x ∈ df_attributes d -> at_unique x.2 = None -> sc_ident_map (schema_of c) !! x.1 = Some a ->
    sc_attribute_map (schema_of c) !! a = Some old -> at_unique old <> None ->
    exists e v, has_version c (df_name d) e v /\ v < df_version d /\ holds (disk c) e DB_SCHEMA_ATTRIBUTE (TVRef a).

(** Every entity with a fact is allocated. *)
Definition all_allocated (c : conn) : Prop := forall e a p, (e, a, p) ∈ facts (disk c) -> allocated (parts_of c) e.

(** The entities that a definition describes *)
Definition described (c : conn) (d : definition) (e : Z) : Prop :=
  sc_ident_map (schema_of c) !! df_name d = Some e
  \/ exists x, x ∈ df_attributes d /\ sc_ident_map (schema_of c) !! x.1 = Some e.

(** The store has this version of the vocabulary, with an attribute that is defined otherwise. *)
Definition conflicting (c : conn) (d : definition) : Prop :=
  exists e x a other, has_version c (df_name d) e (df_version d) /\ x ∈ df_attributes d /\ sc_ident_map (schema_of c) !! x.1 = Some a
    /\ holds (disk c) e DB_SCHEMA_ATTRIBUTE (TVRef a) /\ sc_attribute_map (schema_of c) !! a = Some other /\ other <> x.2.

(** A definition without functions to run before and after an upgrade *)
Definition quiet (d : definition) : Prop := forall ig v, df_pre d ig v = (ig, Ok tt) /\ df_post d ig v = (ig, Ok tt).
Definition quiet_source (vs : voc_source) : Prop :=
  (forall ig work, vs_pre vs ig work = (ig, Ok tt)) /\ (forall ig, vs_post vs ig = (ig, Ok tt)) /\ forall d, d ∈ vs_definitions vs -> quiet d.
(** The names that a definition gives *)
Definition names_of (d : definition) : list keyword := df_name d :: (df_attributes d).*1.
Definition unchanged (c c' : conn) : Prop := disk c' = disk c /\ schema_of c' = schema_of c /\ parts_of c' = parts_of c.

(** The vocabulary cannot be ensured: the store has a newer version, or an invalid one, or other attributes. *)
Definition refused (c : conn) (d : definition) : Prop :=
  (exists e v, has_version c (df_name d) e v /\ version_ok v /\ df_version d < v)
  \/ (exists e v, has_version c (df_name d) e v /\ ~ version_ok v) \/ conflicting c d.

(** What was done is what the store lacked. *)
Definition needed (c : conn) (d : definition) (o : voc_outcome) : Prop :=
  match o with
  | Installed => forall e v, ~ has_version c (df_name d) e v
  | Upgraded => exists e v, has_version c (df_name d) e v /\ v < df_version d
  | InstalledMissingAttributes => (exists e, has_version c (df_name d) e (df_version d)) /\ ~ conflicting c d /\ ~ provides c d
  | Existed => provides c d
  end.
(** The name [k] means the same entity, or none; that entity has the same facts and is the same attribute, or none. *)
Definition alike (k : keyword) (c c' : conn) : Prop :=
  sc_ident_map (schema_of c') !! k = sc_ident_map (schema_of c) !! k
  /\ forall e, sc_ident_map (schema_of c) !! k = Some e ->
     (forall a p, a <> DB_TX_INSTANT -> (e, a, p) ∈ facts (disk c') <-> (e, a, p) ∈ facts (disk c))
     /\ sc_attribute_map (schema_of c') !! e = sc_attribute_map (schema_of c) !! e.

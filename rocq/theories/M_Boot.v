(** The bootstrap: db/src/bootstrap.rs, db/src/db.rs:279-374. *)
From Verif Require Export M_Entity.

(** bootstrap.rs:30, 33 *)
Definition TX0 := 268435456.    (* 0x1000_0000 *)
Definition USER0 := 65536.      (* 0x10000 *)
Definition I64_MAX := 9223372036854775807.

(** bootstrap.rs:39-112 V1_IDENTS: entids 1 to 40, in this order *)
Definition V1_IDENT_NAMES : list keyword := [
  nskw "db" "ident"; nskw "db.part" "db"; nskw "db" "txInstant"; nskw "db.install" "partition";
  nskw "db.install" "valueType"; nskw "db.install" "attribute"; nskw "db" "valueType"; nskw "db" "cardinality";
  nskw "db" "unique"; nskw "db" "isComponent"; nskw "db" "index"; nskw "db" "fulltext"; nskw "db" "noHistory";
  nskw "db" "add"; nskw "db" "retract"; nskw "db.part" "user"; nskw "db.part" "tx"; nskw "db" "excise";
  nskw "db.excise" "attrs"; nskw "db.excise" "beforeT"; nskw "db.excise" "before"; nskw "db.alter" "attribute";
  nskw "db.type" "ref"; nskw "db.type" "keyword"; nskw "db.type" "long"; nskw "db.type" "double";
  nskw "db.type" "string"; nskw "db.type" "uuid"; nskw "db.type" "uri"; nskw "db.type" "boolean";
  nskw "db.type" "instant"; nskw "db.type" "bytes"; nskw "db.cardinality" "one"; nskw "db.cardinality" "many";
  nskw "db.unique" "value"; nskw "db.unique" "identity"; nskw "db" "doc"; nskw "db.schema" "version";
  nskw "db.schema" "attribute"; nskw "db.schema" "core" ].
Definition V1_IDENTS : list (keyword * Z) :=
  zip V1_IDENT_NAMES (map (fun n => Z.of_nat n + 1) (seq 0 40)).

(** bootstrap.rs:113-131 V1_PARTS *)
Definition V1_PARTS : list (string * partition) := [
  (":db.part/db", Part 0 (USER0 - 1) false 41);
  (":db.part/user", Part USER0 (TX0 - 1) true USER0);
  (":db.part/tx", Part TX0 I64_MAX false TX0) ].
Definition bootstrap_partition_map : partition_map := list_to_map V1_PARTS.

(** bootstrap.rs:132-151 V1_CORE_SCHEMA *)
Definition V1_CORE_SCHEMA : list keyword := [
  nskw "db" "ident"; nskw "db.install" "partition"; nskw "db.install" "valueType"; nskw "db.install" "attribute";
  nskw "db" "txInstant"; nskw "db" "valueType"; nskw "db" "cardinality"; nskw "db" "doc"; nskw "db" "unique";
  nskw "db" "isComponent"; nskw "db" "index"; nskw "db" "fulltext"; nskw "db" "noHistory";
  nskw "db.alter" "attribute"; nskw "db.schema" "version"; nskw "db.schema" "attribute" ].

(** bootstrap.rs:152-203 V1_SYMBOLIC_SCHEMA, flattened *)
Definition tkw (n : string) : edn := EKw (nskw "db.type" n).
Definition one_ : edn := EKw (nskw "db.cardinality" "one").
Definition many_ : edn := EKw (nskw "db.cardinality" "many").
Definition sym_attr (k : keyword) (l : list (string * edn)) : list (keyword * keyword * edn) :=
  map (fun p => (k, nskw "db" p.1, p.2)) l.
Definition V1_SYMBOLIC_SCHEMA : list (keyword * keyword * edn) :=
  sym_attr (nskw "db" "ident") [("valueType", tkw "keyword"); ("cardinality", one_); ("index", EBool true); ("unique", EKw (nskw "db.unique" "identity"))]
  ++ sym_attr (nskw "db.install" "partition") [("valueType", tkw "ref"); ("cardinality", many_)]
  ++ sym_attr (nskw "db.install" "valueType") [("valueType", tkw "ref"); ("cardinality", many_)]
  ++ sym_attr (nskw "db.install" "attribute") [("valueType", tkw "ref"); ("cardinality", many_)]
  ++ sym_attr (nskw "db" "txInstant") [("valueType", tkw "instant"); ("cardinality", one_); ("index", EBool true)]
  ++ sym_attr (nskw "db" "valueType") [("valueType", tkw "ref"); ("cardinality", one_)]
  ++ sym_attr (nskw "db" "cardinality") [("valueType", tkw "ref"); ("cardinality", one_)]
  ++ sym_attr (nskw "db" "doc") [("valueType", tkw "string"); ("cardinality", one_)]
  ++ sym_attr (nskw "db" "unique") [("valueType", tkw "ref"); ("cardinality", one_)]
  ++ sym_attr (nskw "db" "isComponent") [("valueType", tkw "boolean"); ("cardinality", one_)]
  ++ sym_attr (nskw "db" "index") [("valueType", tkw "boolean"); ("cardinality", one_)]
  ++ sym_attr (nskw "db" "fulltext") [("valueType", tkw "boolean"); ("cardinality", one_)]
  ++ sym_attr (nskw "db" "noHistory") [("valueType", tkw "boolean"); ("cardinality", one_)]
  ++ sym_attr (nskw "db.alter" "attribute") [("valueType", tkw "ref"); ("cardinality", many_)]
  ++ sym_attr (nskw "db.schema" "version") [("valueType", tkw "long"); ("cardinality", one_)]
  ++ sym_attr (nskw "db.schema" "attribute") [("valueType", tkw "ref"); ("index", EBool true); ("unique", EKw (nskw "db.unique" "value")); ("cardinality", many_)].

(** bootstrap.rs:349-354 *)
Definition bootstrap_ident_map : gmap keyword Z := list_to_map V1_IDENTS.

(** bootstrap.rs:255-312 symbolic_schema_to_triples, schema.rs:299-328 from_ident_map_and_triples *)
Definition bootstrap_triple (t : keyword * keyword * edn) : res eav :=
  let '(i, a, v) := t in
  let! tv := match from_edn_value v with
    | Some (TVKeyword k) => rmap TVRef (ok_or (bootstrap_ident_map !! k) EUnrecognizedIdent)
    | Some tv => Ok tv
    | None => Err EBootstrap
    end in
  let! e := ok_or (bootstrap_ident_map !! i) EUnrecognizedIdent in
  let! a := ok_or (bootstrap_ident_map !! a) EUnrecognizedIdent in
  Ok (e, a, tv).
Definition bootstrap_schema_res : res schema :=
  let! triples := rmapM bootstrap_triple V1_SYMBOLIC_SCHEMA in
  let! s := from_ident_map_and_attribute_map bootstrap_ident_map ∅ in
  let! (m, rep) := update_attribute_map_from_entid_triples (sc_attribute_map s) triples [] in
  Ok (Schema (sc_entid_map s) (sc_ident_map s) m
        (if (is_nil (mr_installed rep) && is_nil (mr_altered rep))%bool
         then sc_component_attributes s else component_attributes_of m)).

(** bootstrap.rs:207-253, 314-338, 363-379 bootstrap_entities *)
Definition kw_atom (k : keyword) : value_place := VPAtom (VEdn (EKw k)).
Definition bootstrap_entities : list entity :=
  map (fun '(i, a, v) => EntAdd OAdd (EPEntid (EIdent i)) (EIdent a) (VPAtom (VEdn v))) V1_SYMBOLIC_SCHEMA
  ++ map (fun k => EntAdd OAdd (EPEntid (EIdent k)) (EIdent (nskw "db" "ident")) (kw_atom k)) V1_IDENT_NAMES
  ++ map (fun k => EntAdd OAdd (EPEntid (EIdent (nskw "db.schema" "core"))) (EIdent (nskw "db.schema" "attribute")) (kw_atom k)) V1_CORE_SCHEMA
  ++ [EntAdd OAdd (EPEntid (EIdent (nskw "db.schema" "core"))) (EIdent (nskw "db.schema" "version")) (VPAtom (VEdn (EInt 1)))].

(** db.rs:333-343 *)
Definition bootstrap_known_parts : list known_part :=
  map (fun p => KnownPart p.1 (pt_start p.2) (pt_end p.2) (pt_allow_excision p.2)) V1_PARTS.

(** db/src/types.rs:87-96 DB: partition map and schema, together with the store they describe. *)
Record db := Db { db_store : store; db_parts : partition_map; db_schema : schema }.

(** db.rs:325-374 create_current_version *)
Definition create_current_version (mv now : Z) : res db :=
  let! s := bootstrap_schema_res in
  let st := Store [] [] [] [] [] bootstrap_known_parts in
  match transact mv now st bootstrap_partition_map schema_default s bootstrap_entities with
  | (_, Err e) => Err e
  | (_, Panic p) => Panic p
  | (st, Ok r) =>
      match tr_schema r with
      | Some s' => if decide (s' = s) then Ok (Db st (tr_parts r) s) else Err ENotYetImplemented
      | None => Ok (Db st (tr_parts r) s)
      end
  end.

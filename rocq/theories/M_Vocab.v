(** Vocabularies: src/vocabulary.rs, with what it uses of transaction/src/entity_builder.rs and transaction/src/query.rs.

    Simplified: [lookup_value] and [lookup_values] (query.rs:204-253) run a query with one pattern; here they read the datoms directly
    (that such a query gives the facts is C41), and there is no cache (C36).  [read_vocabularies] is not modelled. *)
From Verif Require Export M_Conn.

(** vocabulary.rs:113; u32::max_value() *)
Definition U32_MAX := 4294967295.

(** vocabulary.rs:255-264 Vocabulary *)
Record vocabulary := Voc { vo_entity : Z; vo_version : Z; vo_attributes : list (Z * attribute) }.

(** vocabulary.rs:131-141 Definition.  The user's functions may do anything to the transaction in progress. *)
Record definition := Def {
  df_name : keyword; df_version : Z; df_attributes : list (keyword * attribute);
  df_pre : inprog -> vocabulary -> inprog * res unit; df_post : inprog -> vocabulary -> inprog * res unit }.
(** vocabulary.rs:223-239 no_op, new *)
Definition no_op (ig : inprog) (_ : vocabulary) : inprog * res unit := (ig, Ok tt).
Definition def_new (name : keyword) (version : Z) (attributes : list (keyword * attribute)) : definition :=
  Def name version attributes no_op no_op.

(** vocabulary.rs:294-310 *)
Definition kw_schema_core := nskw "db.schema" "core".
Definition kw_schema_attribute := nskw "db.schema" "attribute".
Definition kw_schema_version := nskw "db.schema" "version".

(* ---------------------------------------------------------------- describing a definition *)

(** core-traits/lib.rs:312-326 into_keyword *)
Definition vt_keyword (vt : value_type) : keyword :=
  nskw "db.type" (match vt with
    | VTRef => "ref" | VTBoolean => "boolean" | VTInstant => "instant" | VTLong => "long" | VTDouble => "double"
    | VTString => "string" | VTKeyword => "keyword" | VTUuid => "uuid" end).

(** vocabulary.rs:325-345 core_type, core_entid, core_attribute; core/src/lib.rs:154-182 *)
Definition core_entid (s : schema) (k : keyword) : res Z := ok_or (sc_ident_map s !! k) EMissingCoreVocabulary.
Definition core_type (s : schema) (vt : value_type) : res Z := core_entid s (vt_keyword vt).
Definition core_attribute (s : schema) (k : keyword) : res Z :=
  ok_or (match sc_ident_map s !! k with
         | Some e => match sc_attribute_map s !! e with Some _ => Some e | None => None end
         | None => None end) EMissingCoreVocabulary.

(** entity_builder.rs:122-154 add, retract, with the conversions of core-traits/lib.rs:88-98 and edn/src/entities.rs:139-143, 163-167,
    195-199: the entity is a named tempid, the attribute a known entid. *)
Definition build_add (n : string) (a : Z) (v : value_place) : entity := EntAdd OAdd (EPTempId (TExternal n)) (EEntid a) v.
Definition build_retract (n : string) (a : Z) (v : value_place) : entity := EntAdd ORetract (EPTempId (TExternal n)) (EEntid a) v.
Definition p_known (e : Z) : value_place := VPEntid (EEntid e).
Definition p_atom (v : typed_value) : value_place := VPAtom (VTyped v).
Definition p_tempid (n : string) : value_place := VPTempId (TExternal n).

(** vocabulary.rs:364-382: the entids of the core vocabulary *)
Record core_ids := CoreIds {
  ci_version : Z; ci_ident : Z; ci_attr : Z; ci_cardinality : Z; ci_fulltext : Z; ci_index : Z; ci_is_component : Z;
  ci_value_type : Z; ci_unique : Z; ci_no_history : Z; ci_many : Z; ci_one : Z; ci_identity : Z; ci_value : Z }.
Definition core_ids_of (s : schema) : res core_ids :=
  let! version := core_attribute s kw_schema_version in
  let! ident := core_attribute s (nskw "db" "ident") in
  let! attr := core_attribute s kw_schema_attribute in
  let! cardinality := core_attribute s (nskw "db" "cardinality") in
  let! fulltext := core_attribute s (nskw "db" "fulltext") in
  let! index := core_attribute s (nskw "db" "index") in
  let! is_component := core_attribute s (nskw "db" "isComponent") in
  let! value_type := core_attribute s (nskw "db" "valueType") in
  let! unique := core_attribute s (nskw "db" "unique") in
  let! no_history := core_attribute s (nskw "db" "noHistory") in
  let! many := core_entid s (nskw "db.cardinality" "many") in
  let! one := core_entid s (nskw "db.cardinality" "one") in
  let! identity := core_entid s (nskw "db.unique" "identity") in
  let! value := core_entid s (nskw "db.unique" "value") in
  Ok (CoreIds version ident attr cardinality fulltext index is_component value_type unique no_history many one identity value).

(** vocabulary.rs:399-465: one attribute.  [old] is the uniqueness that it has, if it is known to be part of the vocabulary. *)
Definition describe_attribute (ci : core_ids) (s : schema) (old : keyword -> option uniq) (x : keyword * attribute) : res (list entity) :=
  let '(k, at_) := x in
  let t := kw_to_string k in
  let uq u := p_known (match u with UIdentity => ci_identity ci | UValue => ci_value ci end) in
  let! vt := core_type s (at_type at_) in
  Ok ([ build_add t (ci_ident ci) (p_atom (TVKeyword k));
        build_add "s" (ci_attr ci) (p_tempid t);
        build_add t (ci_value_type ci) (p_known vt);
        build_add t (ci_cardinality ci) (p_known (if at_multival at_ then ci_many ci else ci_one ci));
        build_add t (ci_index ci) (p_atom (TVBoolean (at_index at_)));
        build_add t (ci_fulltext ci) (p_atom (TVBoolean (at_fulltext at_)));
        build_add t (ci_is_component ci) (p_atom (TVBoolean (at_component at_)));
        build_add t (ci_no_history ci) (p_atom (TVBoolean (at_no_history at_))) ]
      ++ match at_unique at_ with
         | Some u => [build_add t (ci_unique ci) (uq u)]
         | None => match old k with
                   | Some u => [build_retract t (ci_unique ci) (uq u)]
                   | None => []
                   end
         end).

(** vocabulary.rs:349-468 description_for_attributes *)
Definition description_for_attributes (d : definition) (attributes : list (keyword * attribute)) (s : schema)
    (old : keyword -> option uniq) : res (list entity) :=
  let! ci := core_ids_of s in
  let! l := rmapM (describe_attribute ci s old) attributes in
  Ok (build_add "s" (ci_version ci) (p_atom (TVLong (df_version d)))
      :: build_add "s" (ci_ident ci) (p_atom (TVKeyword (df_name d))) :: concat l).

(** vocabulary.rs:675-687 find *)
Definition voc_find (v : vocabulary) (e : Z) : option attribute := snd <$> List.find (fun x => bool_decide (x.1 = e)) (vo_attributes v).

(** vocabulary.rs:471-497 description_diff, description *)
Definition description_diff (d : definition) (s : schema) (from : vocabulary) : res (list entity) :=
  description_for_attributes d (df_attributes d) s
    (fun k => match sc_ident_map s !! k with Some e => match voc_find from e with Some a => at_unique a | None => None end | None => None end).
Definition description (d : definition) (s : schema) : res (list entity) :=
  description_for_attributes d (df_attributes d) s (fun _ => None).

(* ---------------------------------------------------------------- reading a vocabulary *)

(** query.rs:204-283 *)
Definition fact_rows (st : store) (e a : Z) : list datom := List.filter (fun d => (d_e d =? e) && (d_a d =? a)) (all_datoms st).
Definition lookup_values_for_attribute (st : store) (s : schema) (e : Z) (k : keyword) : res (list typed_value) :=
  let! a := ok_or (sc_ident_map s !! k) EUnknownAttribute in
  rmapM (fun d => from_sql_value_pair (d_v d) (d_tag d)) (fact_rows st e a).
Definition lookup_value_for_attribute (st : store) (s : schema) (e : Z) (k : keyword) : res (option typed_value) :=
  let! a := ok_or (sc_ident_map s !! k) EUnknownAttribute in
  match fact_rows st e a with
  | [] => Ok None
  | d :: _ => rmap Some (from_sql_value_pair (d_v d) (d_tag d))
  end.

(** vocabulary.rs:894-931 read_vocabulary_named *)
Definition voc_attributes (s : schema) (l : list typed_value) : list (Z * attribute) :=
  omap (fun v => match v with
                 | TVRef a => match sc_attribute_map s !! a with Some at_ => Some (a, at_) | None => None end
                 | _ => None end) l.
Definition read_vocabulary_named (st : store) (s : schema) (name : keyword) : res (option vocabulary) :=
  match sc_ident_map s !! name with
  | None => Ok None
  | Some e =>
      let! v := lookup_value_for_attribute st s e kw_schema_version in
      match v with
      | None => Ok None
      | Some (TVLong version) =>
          if (0 <? version) && (version <? U32_MAX) then
            let! l := lookup_values_for_attribute st s e kw_schema_attribute in
            Ok (Some (Voc e version (voc_attributes s l)))
          else Err EInvalidVocabularyVersion
      | Some _ => Err EInvalidVocabularyVersion
      end
  end.

(** vocabulary.rs:608-626 verify_core_schema *)
Definition verify_core_schema (st : store) (s : schema) : res unit :=
  let! v := read_vocabulary_named st s kw_schema_core in
  match v with
  | Some v => if decide (vo_version v = 1) then Ok tt else Err EUnexpectedCoreSchema
  | None => Err EUnexpectedCoreSchema
  end.

(* ---------------------------------------------------------------- checking and ensuring *)

(** vocabulary.rs:502-520 VocabularyCheck *)
Inductive voc_check :=
  | NotPresent | Present | NeedsUpdate (older : vocabulary) | TooNew (newer : vocabulary)
  | MissingAttributes (l : list (keyword * attribute)).
(** vocabulary.rs:524-540 VocabularyOutcome *)
Inductive voc_outcome := Installed | InstalledMissingAttributes | Existed | Upgraded.

(** vocabulary.rs:559-588: the attributes that are missing; an error if one is defined differently *)
Definition missing_attributes (s : schema) (v : vocabulary) (l : list (keyword * attribute)) : res (list (keyword * attribute)) :=
  rfold (fun missing x =>
    match sc_ident_map s !! x.1 with
    | Some e => match voc_find v e with
                | Some existing => if decide (existing = x.2) then Ok missing else Err EConflictingAttributeDefinitions
                | None => Ok (missing ++ [x])
                end
    | None => Ok (missing ++ [x])
    end) [] l.
(** vocabulary.rs:551-606 check_vocabulary *)
Definition check_vocabulary (st : store) (s : schema) (d : definition) : res voc_check :=
  let! v := read_vocabulary_named st s (df_name d) in
  match v with
  | None => Ok NotPresent
  | Some v =>
      if vo_version v =? df_version d then
        let! missing := missing_attributes s v (df_attributes d) in
        Ok (if is_nil missing then Present else MissingAttributes missing)
      else if vo_version v <? df_version d then Ok (NeedsUpdate v)
      else Ok (TooNew v)
  end.

(** [?] in a method of InProgress *)
Definition ibind {A B} (x : inprog * res A) (f : inprog -> A -> inprog * res B) : inprog * res B :=
  match x with
  | (ig, Ok a) => f ig a
  | (ig, Err e) => (ig, Err e)
  | (ig, Panic p) => (ig, Panic p)
  end.
Definition ilift {A} (ig : inprog) (x : res A) : inprog * res A := (ig, x).

(** vocabulary.rs:848-889 install_vocabulary, install_attributes_for, upgrade_vocabulary *)
Definition install_vocabulary (mv now : Z) (ig : inprog) (d : definition) : inprog * res voc_outcome :=
  ibind (ilift ig (description d (ig_schema ig))) (fun ig terms =>
  ibind (ig_transact mv now ig terms) (fun ig _ => (ig, Ok Installed))).
Definition install_attributes_for (mv now : Z) (ig : inprog) (d : definition) (l : list (keyword * attribute)) : inprog * res voc_outcome :=
  ibind (ilift ig (description_for_attributes d l (ig_schema ig) (fun _ => None))) (fun ig terms =>
  ibind (ig_transact mv now ig terms) (fun ig _ => (ig, Ok InstalledMissingAttributes))).
Definition upgrade_vocabulary (mv now : Z) (ig : inprog) (d : definition) (from : vocabulary) : inprog * res voc_outcome :=
  ibind (df_pre d ig from) (fun ig _ =>
  ibind (ilift ig (description_diff d (ig_schema ig) from)) (fun ig terms =>
  ibind (ig_transact mv now ig terms) (fun ig _ =>
  ibind (df_post d ig from) (fun ig _ => (ig, Ok Upgraded))))).

(** vocabulary.rs:690-710 ensure_vocabulary *)
Definition ig_check (ig : inprog) (d : definition) : inprog * res voc_check := (ig, check_vocabulary (ig_store ig) (ig_schema ig) d).
Definition ensure_vocabulary (mv now : Z) (ig : inprog) (d : definition) : inprog * res voc_outcome :=
  ibind (ig_check ig d) (fun ig c =>
  match c with
  | Present => (ig, Ok Existed)
  | NotPresent => install_vocabulary mv now ig d
  | NeedsUpdate v => upgrade_vocabulary mv now ig d v
  | MissingAttributes l => install_attributes_for mv now ig d l
  | TooNew _ => (ig, Err EExistingVocabularyTooNew)
  end).

(** vocabulary.rs:643-672 CheckedVocabularies: a BTreeMap by name *)
Notation work_item := (definition * voc_check)%type.
Fixpoint work_insert (k : keyword) (x : work_item) (l : list (keyword * work_item)) : list (keyword * work_item) :=
  match l with
  | [] => [(k, x)]
  | (k', x') :: l' =>
      match kw_cmp k k' with
      | Lt => (k, x) :: l
      | Eq => (k, x) :: l'
      | Gt => (k', x') :: work_insert k x l'
      end
  end.

(** vocabulary.rs:783-803 VocabularySource *)
Record voc_source := VocSource {
  vs_definitions : list definition;
  vs_pre : inprog -> list (keyword * work_item) -> inprog * res unit;
  vs_post : inprog -> inprog * res unit }.

(** vocabulary.rs:723-743: the checks, all made before anything is written *)
Definition check_all (st : store) (s : schema) (l : list definition) : res (gmap keyword voc_outcome * list (keyword * work_item)) :=
  rfold (fun '(out, work) d =>
    let! c := check_vocabulary st s d in
    match c with
    | Present => Ok (<[df_name d := Existed]> out, work)
    | TooNew _ => Err EExistingVocabularyTooNew
    | c => Ok (out, work_insert (df_name d) (d, c) work)
    end) (∅, []) l.
(** vocabulary.rs:752-776: first the vocabularies that are not present, then the upgrades, then the missing attributes.  Each
    transact has its own time. *)
Definition is_upgrade (x : keyword * work_item) : bool := match x.2.2 with NeedsUpdate _ => true | _ => false end.
Definition is_missing (x : keyword * work_item) : bool := match x.2.2 with MissingAttributes _ => true | _ => false end.
Definition is_neither (x : keyword * work_item) : bool := negb (is_upgrade x || is_missing x).
Definition do_work (mv now : Z) (ig : inprog) (x : work_item) : inprog * res voc_outcome :=
  match x with
  | (d, NotPresent) => install_vocabulary mv now ig d
  | (d, NeedsUpdate v) => upgrade_vocabulary mv now ig d v
  | (d, MissingAttributes l) => install_attributes_for mv now ig d l
  | (_, Present) | (_, TooNew _) => (ig, Panic POther)
  end.
Fixpoint do_all (mv : Z) (now : nat -> Z) (ig : inprog) (out : gmap keyword voc_outcome) (l : list (keyword * work_item))
    : inprog * res (gmap keyword voc_outcome) :=
  match l with
  | [] => (ig, Ok out)
  | (k, x) :: l => ibind (do_work mv (now (length l)) ig x) (fun ig o => do_all mv now ig (<[k := o]> out) l)
  end.
(** vocabulary.rs:712-780 ensure_vocabularies *)
Definition ensure_vocabularies (mv : Z) (now : nat -> Z) (ig : inprog) (vs : voc_source) : inprog * res (gmap keyword voc_outcome) :=
  ibind (ilift ig (check_all (ig_store ig) (ig_schema ig) (vs_definitions vs))) (fun ig '(out, work) =>
  if is_nil work then (ig, Ok out) else
  ibind (vs_pre vs ig work) (fun ig _ =>
  ibind (do_all mv now ig out (List.filter is_neither work ++ List.filter is_upgrade work ++ List.filter is_missing work)) (fun ig out =>
  ibind (vs_post vs ig) (fun ig _ => (ig, Ok out))))).

(* ---------------------------------------------------------------- through a connection *)

(** What the documentation (vocabulary.rs:150-219) tells users to do: begin a transaction, ensure, commit; if that fails, drop it. *)
Definition conn_finish {A} (c : conn) (x : inprog * res A) : conn * res A :=
  match x with
  | (ig, Ok a) => match conn_commit c ig with
                  | Ok (c', _) => (c', Ok a)
                  | Err e => (c, Err e)
                  | Panic p => (c, Panic p)
                  end
  | (_, Err e) => (c, Err e)
  | (_, Panic p) => (c, Panic p)
  end.
Definition conn_ensure (mv now : Z) (c : conn) (d : definition) : conn * res voc_outcome :=
  conn_finish c (ensure_vocabulary mv now (conn_begin c) d).
Definition conn_ensure_all (mv : Z) (now : nat -> Z) (c : conn) (vs : voc_source) : conn * res (gmap keyword voc_outcome) :=
  conn_finish c (ensure_vocabularies mv now (conn_begin c) vs).

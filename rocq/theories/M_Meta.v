(** Schema evolution: db/src/add_retract_alter_set.rs, db/src/metadata.rs and
    db/src/db.rs update_metadata, read_db. *)
From Verif Require Export M_Store.

(* ---------------------------------------------------------------- AddRetractAlterSet *)

Section AddRetractAlter.
  Context {K : Type} `{Countable K} {V : Type}.

  (** add_retract_alter_set.rs:21-25 *)
  Record aras := Aras { ar_asserted : gmap K V; ar_retracted : gmap K V; ar_altered : gmap K (V * V) }.
  Definition aras_empty : aras := Aras ∅ ∅ ∅.

  (** add_retract_alter_set.rs:44-56 *)
  Definition witness (s : aras) (k : K) (v : V) (added : bool) : aras :=
    if added then
      match ar_retracted s !! k with
      | Some r => Aras (ar_asserted s) (delete k (ar_retracted s)) (<[k := (r, v)]> (ar_altered s))
      | None => Aras (<[k := v]> (ar_asserted s)) (ar_retracted s) (ar_altered s)
      end
    else
      match ar_asserted s !! k with
      | Some x => Aras (delete k (ar_asserted s)) (ar_retracted s) (<[k := (v, x)]> (ar_altered s))
      | None => Aras (ar_asserted s) (<[k := v]> (ar_retracted s)) (ar_altered s)
      end.
End AddRetractAlter.
Arguments aras K {_ _} V.

(* ---------------------------------------------------------------- metadata.rs *)

(** [e a typed_value] *)
Definition eav : Type := Z * Z * typed_value.

(** BTreeMap<(Entid, Entid), _> iteration order *)
Definition ea_le (x y : (Z * Z)) : Prop := x.1 < y.1 \/ (x.1 = y.1 /\ x.2 <= y.2).
Global Instance ea_le_dec x y : Decision (ea_le x y).
Proof. unfold ea_le. apply _. Defined.
Definition sorted_ea {V} (m : gmap (Z * Z) V) : list (Z * Z * V) :=
  merge_sort (fun p q : Z * Z * V => ea_le p.1 q.1) (map_to_list m).
Definition e_le {V} (p q : Z * V) : Prop := p.1 <= q.1.
Global Instance e_le_dec {V} (p q : Z * V) : Decision (e_le p q).
Proof. unfold e_le. apply _. Defined.
Definition sorted_e {V} (m : gmap Z V) : list (Z * V) := merge_sort e_le (map_to_list m).

(** metadata.rs:99-156.  [attribute_map] is mutated even if a later retraction fails, but an error
    discards the schema being built. *)
Definition retraction_attrs (retractions : list eav) (e : Z) : list Z :=
  map (fun r : eav => r.1.2) (filter (fun r : eav => is_a_schema_attribute r.1.2 = true /\ r.1.1 = e) retractions).

Definition update_attribute_map_from_schema_retractions
    (m : gmap Z attribute) (retractions : list eav) (ident_retractions : gmap Z keyword)
    : res (gmap Z attribute * list eav) :=
  let filtered := filter (fun r : eav => is_a_schema_attribute r.1.2 = false) retractions in
  let suspect := filter (fun r : eav => is_a_schema_attribute r.1.2 = true) retractions in
  rfold (fun '(m, out) (r : eav) =>
      let e := r.1.1 in
      let attrs := retraction_attrs retractions e in
      if (bool_decide (DB_CARDINALITY ∈ attrs) && bool_decide (DB_VALUE_TYPE ∈ attrs))%bool then
        if is_some (ident_retractions !! e) then Ok (delete e m, out)
        else Err EBadSchemaAssertion
      else Ok (m, out ++ [r]))
    (m, filtered) suspect.

(** metadata.rs:184-233: one retraction *)
Definition retract_one (m : gmap Z attribute) (bs : gmap Z builder) (r : eav) : res (gmap Z builder) :=
  let '(e, a, v) := r in
  let b := match bs !! e with
           | Some b => b
           | None => match m !! e with Some at_ => modify_attribute at_ | None => builder_default end
           end in
  if decide (a = DB_IS_COMPONENT) then
    match v with
    | TVBoolean x => if decide (b_component b = Some x) then Ok (<[e := b_set_component b false]> bs)
                     else Err EBadSchemaAssertion
    | _ => Err EBadSchemaAssertion
    end
  else if decide (a = DB_UNIQUE) then
    match v with
    | TVRef u =>
        if decide (u = DB_UNIQUE_VALUE /\ b_unique b = Some (Some UValue)) then Ok (<[e := b_set_unique b None]> bs)
        else if decide (u = DB_UNIQUE_IDENTITY /\ b_unique b = Some (Some UIdentity)) then Ok (<[e := b_set_unique b None]> bs)
        else Err EBadSchemaAssertion
    | _ => Err EBadSchemaAssertion
    end
  else Err EBadSchemaAssertion.

(** metadata.rs:242-252 *)
Definition value_type_of_entid (e : Z) : option value_type :=
  if decide (e = DB_TYPE_BOOLEAN) then Some VTBoolean
  else if decide (e = DB_TYPE_DOUBLE) then Some VTDouble
  else if decide (e = DB_TYPE_INSTANT) then Some VTInstant
  else if decide (e = DB_TYPE_KEYWORD) then Some VTKeyword
  else if decide (e = DB_TYPE_LONG) then Some VTLong
  else if decide (e = DB_TYPE_REF) then Some VTRef
  else if decide (e = DB_TYPE_STRING) then Some VTString
  else if decide (e = DB_TYPE_UUID) then Some VTUuid
  else None.

(** metadata.rs:240-302: the effect of one assertion on a builder *)
Definition assert_builder (b : builder) (a : Z) (v : typed_value) : res builder :=
  if decide (a = DB_VALUE_TYPE) then
    match v with
    | TVRef t => match value_type_of_entid t with Some vt => Ok (b_set_type b vt) | None => Err EBadSchemaAssertion end
    | _ => Err EBadSchemaAssertion end
  else if decide (a = DB_CARDINALITY) then
    match v with
    | TVRef c => if decide (c = DB_CARDINALITY_MANY) then Ok (b_set_multival b true)
                 else if decide (c = DB_CARDINALITY_ONE) then Ok (b_set_multival b false)
                 else Err EBadSchemaAssertion
    | _ => Err EBadSchemaAssertion end
  else if decide (a = DB_UNIQUE) then
    match v with
    | TVRef u => if decide (u = DB_UNIQUE_VALUE) then Ok (b_set_unique b (Some UValue))
                 else if decide (u = DB_UNIQUE_IDENTITY) then Ok (b_set_unique b (Some UIdentity))
                 else Err EBadSchemaAssertion
    | _ => Err EBadSchemaAssertion end
  else if decide (a = DB_INDEX) then
    match v with TVBoolean x => Ok (b_set_index b x) | _ => Err EBadSchemaAssertion end
  else if decide (a = DB_FULLTEXT) then
    match v with TVBoolean x => Ok (b_set_fulltext b x) | _ => Err EBadSchemaAssertion end
  else if decide (a = DB_IS_COMPONENT) then
    match v with TVBoolean x => Ok (b_set_component b x) | _ => Err EBadSchemaAssertion end
  else if decide (a = DB_NO_HISTORY) then
    match v with TVBoolean x => Ok (b_set_no_history b x) | _ => Err EBadSchemaAssertion end
  else Err EBadSchemaAssertion.

(** metadata.rs:235-303 *)
Definition assert_one (bs : gmap Z builder) (r : eav) : res (gmap Z builder) :=
  let '(e, a, v) := r in
  let! b := assert_builder (default builder_default (bs !! e)) a v in
  Ok (<[e := b]> bs).

(** metadata.rs:71-81 *)
Record mreport := MReport {
  mr_installed : list Z;
  mr_altered : list (Z * list alteration);
  mr_idents : list (Z * keyword) }.

(** metadata.rs:308-337: apply one builder *)
Definition apply_builder (acc : gmap Z attribute * mreport) (p : Z * builder)
    : res (gmap Z attribute * mreport) :=
  let '(m, rep) := acc in
  let '(e, b) := p in
  match m !! e with
  | None =>
      let! _ := validate_install b in
      let a := build b in
      let! _ := attribute_validate a in
      Ok (<[e := a]> m, MReport (mr_installed rep ++ [e]) (mr_altered rep) (mr_idents rep))
  | Some a =>
      let! _ := validate_alter b in
      let '(a', muts) := mutate b a in
      Ok (<[e := a']> m, MReport (mr_installed rep) (mr_altered rep ++ [(e, muts)]) (mr_idents rep))
  end.

(** metadata.rs:164-344 *)
Definition update_attribute_map_from_entid_triples
    (m : gmap Z attribute) (assertions retractions : list eav) : res (gmap Z attribute * mreport) :=
  let! bs := rfold (retract_one m) ∅ retractions in
  let! bs := rfold assert_one bs assertions in
  rfold apply_builder (m, MReport [] [] []) (sorted_e bs).

(** metadata.rs:365-382: split the quadruples into ident and attribute changes *)
Definition witness_quad (acc : aras (Z * Z) typed_value * aras Z keyword) (q : quad)
    : res (aras (Z * Z) typed_value * aras Z keyword) :=
  let '(attrs, idents) := acc in
  let '(e, a, v, added) := q in
  if decide (a = DB_IDENT) then
    match v with
    | TVKeyword k => Ok (attrs, witness idents e k added)
    | _ => Panic PMetadata
    end
  else Ok (witness attrs (e, a) v added, idents).

(** metadata.rs:416-433: the effect of ident changes on the two maps *)
Definition ident_asserted (s : gmap Z keyword * gmap keyword Z) (p : Z * keyword) :=
  (<[p.1 := p.2]> s.1, <[p.2 := p.1]> s.2).
Definition ident_altered (s : gmap Z keyword * gmap keyword Z) (p : Z * (keyword * keyword)) :=
  (<[p.1 := p.2.2]> s.1, <[p.2.2 := p.1]> (delete p.2.1 s.2)).
Definition ident_retracted (s : gmap Z keyword * gmap keyword Z) (p : Z * keyword) :=
  (delete p.1 s.1, delete p.2 s.2).
Definition apply_idents (s : gmap Z keyword * gmap keyword Z) (i : aras Z keyword) :=
  let s := fold_left ident_asserted (sorted_e (ar_asserted i)) s in
  let s := fold_left ident_altered (sorted_e (ar_altered i)) s in
  fold_left ident_retracted (sorted_e (ar_retracted i)) s.

Definition triple_of {V} (f : V -> typed_value) (p : Z * Z * V) : eav := (p.1.1, p.1.2, f p.2).

(** metadata.rs:354-450 *)
Definition update_schema_from_entid_quadruples (s : schema) (quads : list quad)
    : res (schema * mreport) :=
  let! (attrs, idents) := rfold witness_quad (aras_empty, aras_empty) quads in
  let retracted := map (triple_of id) (sorted_ea (ar_retracted attrs)) in
  let asserted := map (triple_of id) (sorted_ea (ar_asserted attrs)) in
  let altered := map (triple_of snd) (sorted_ea (ar_altered attrs)) in
  let! (m, non_schema) :=
    update_attribute_map_from_schema_retractions (sc_attribute_map s) retracted (ar_retracted idents) in
  let! (m, rep) := update_attribute_map_from_entid_triples m (asserted ++ altered) non_schema in
  let '(em, im) := apply_idents (sc_entid_map s, sc_ident_map s) idents in
  let idents_altered :=
    map (fun p : Z * keyword => p) (sorted_e (ar_asserted idents))
    ++ map (fun p : Z * (keyword * keyword) => (p.1, p.2.2)) (sorted_e (ar_altered idents))
    ++ sorted_e (ar_retracted idents) in
  let did_change := negb (is_nil (mr_installed rep) && is_nil (mr_altered rep)) in
  let comps :=
    if (did_change || negb (bool_decide (ar_retracted idents = ∅)))%bool
    then component_attributes_of m else sc_component_attributes s in
  Ok (Schema em im m comps, MReport (mr_installed rep) (mr_altered rep) idents_altered).

(* ---------------------------------------------------------------- update_metadata *)

(** db.rs:1185-1199: [DELETE FROM idents; INSERT INTO idents SELECT ... WHERE a IN (1)] *)
Definition idents_view (ds : list datom) : list mrow :=
  map (fun d => (d_e d, d_a d, d_v d, d_tag d)) (filter (fun d => d_a d = DB_IDENT) ds).

(** db.rs:1212-1228.  The join with the entities that have a :db/valueType gives one row per such datom of the
    entity; :db/valueType is cardinality one. *)
Definition schema_view (ds : list datom) : list mrow :=
  flat_map (fun s =>
    map (fun d => (d_e d, d_a d, d_v d, d_tag d))
        (filter (fun d => d_e d = d_e s /\ d_a d ∈ SCHEMA_LIST) ds))
    (filter (fun d => d_a d = DB_VALUE_TYPE) ds).

(** db.rs:1231 *)
Definition set_avet (a : Z) (x : bool) (d : datom) : datom :=
  if decide (d_a d = a)
  then Datom (d_e d) (d_a d) (d_v d) (d_tag d) (d_tx d) x (d_vaet d) (d_ft d) (d_uq d) else d.
(** db.rs:1232 *)
Definition set_uq (a : Z) (x : bool) (d : datom) : datom :=
  if decide (d_a d = a)
  then Datom (d_e d) (d_a d) (d_v d) (d_tag d) (d_tx d) (d_avet d) (d_vaet d) (d_ft d) x else d.

(** db.rs:1247-1300: one alteration.  [SELECT EXISTS (...)] always yields exactly one row, so
    [rows.next()?.is_some()] (db.rs:1288) is always true: altering to cardinality one always fails. *)
Definition apply_alteration (e : Z) (at_ : attribute) (st : store) (alt : alteration) : store * res unit :=
  match alt with
  | AltIndex => (set_datoms st (map (set_avet e (at_index at_)) (st_datoms st)), Ok tt)
  | AltUnique =>
      let ds := map (set_uq e (is_some (at_unique at_))) (st_datoms st) in
      if datoms_unique ds then (set_datoms st ds, Ok tt)
      else match at_unique at_ with
           | Some _ => (st, Err ESchemaAlterationFailed)
           | None => (st, Panic PUniqueNone)
           end
  | AltCardinality =>
      if at_multival at_ then (st, Ok tt) else (st, Err ESchemaAlterationFailed)
  | AltNoHistory | AltIsComponent => (st, Ok tt)
  end.

Fixpoint apply_alterations (e : Z) (at_ : attribute) (st : store) (alts : list alteration) : store * res unit :=
  match alts with
  | [] => (st, Ok tt)
  | x :: xs => match apply_alteration e at_ st x with
               | (st', Ok _) => apply_alterations e at_ st' xs
               | r => r
               end
  end.

Fixpoint apply_altered (sc : schema) (st : store) (l : list (Z * list alteration)) : store * res unit :=
  match l with
  | [] => (st, Ok tt)
  | (e, alts) :: xs =>
      match require_attribute sc e with
      | Ok at_ => match apply_alterations e at_ st alts with
                  | (st', Ok _) => apply_altered sc st' xs
                  | r => r
                  end
      | Err x => (st, Err x)
      | Panic p => (st, Panic p)
      end
  end.

(** db.rs:1173-1304 update_metadata *)
Definition update_metadata (st : store) (new_schema : schema) (rep : mreport) : store * res unit :=
  let st := if is_nil (mr_idents rep) then st else set_idents st (idents_view (st_datoms st)) in
  let st := if (is_nil (mr_installed rep) && is_nil (mr_altered rep) && is_nil (mr_idents rep))%bool
            then st else set_schema_view st (schema_view (st_datoms st)) in
  apply_altered new_schema st (mr_altered rep).

(* ---------------------------------------------------------------- read_db *)

(** db.rs:492-502, 1161-1167 *)
Definition read_materialized_view (rows : list mrow) : res (list eav) :=
  rmapM (fun '(e, a, v, tag) => let! tv := from_sql_value_pair v tag in Ok (e, a, tv)) rows.

(** db.rs:550-562 *)
Definition read_ident_map (st : store) : res (gmap keyword Z) :=
  let! rows := read_materialized_view (st_idents st) in
  rfold (fun m (r : eav) =>
    let '(e, a, v) := r in
    if decide (a = DB_IDENT) then
      match v with TVKeyword k => Ok (<[k := e]> m) | _ => Err ENotYetImplemented end
    else Err ENotYetImplemented) ∅ rows.

(** db.rs:565-570 *)
Definition read_attribute_map (st : store) : res (gmap Z attribute) :=
  let! rows := read_materialized_view (st_schema st) in
  let! (m, _) := update_attribute_map_from_entid_triples ∅ rows [] in
  Ok m.

(** db.rs:298-322: view parts.  An entity belongs to the first known partition, by increasing end, whose
    end is not smaller; the next index is the greatest entity of the main timeline plus one. *)
Definition kp_le (x y : known_part) : Prop := kp_end x <= kp_end y.
Global Instance kp_le_dec x y : Decision (kp_le x y).
Proof. unfold kp_le. apply _. Defined.
Definition part_of (kps : list known_part) (e : Z) : option string :=
  kp_part <$> (head (filter (fun k => e <= kp_end k) (merge_sort kp_le kps))).

Definition list_max (l : list Z) : option Z :=
  match l with [] => None | x :: xs => Some (fold_left Z.max xs x) end.

(** db.rs:505-547 *)
Definition read_partition_map (st : store) : res partition_map :=
  rfold (fun pm k =>
    let es := map t_e (filter (fun r => part_of (st_parts st) (t_e r) = Some (kp_part k)) (transactions st)) in
    let! p := match list_max es with
              | Some mx => partition_new (kp_start k) (kp_end k) (mx + 1) (kp_exc k)
              | None => partition_new (kp_start k) (kp_end k) (kp_start k) (kp_exc k)
              end in
    Ok (<[kp_part k := p]> pm)) ∅ (st_parts st).

(** db.rs:574-580 read_db: opening an existing store *)
Definition read_db (st : store) : res (partition_map * schema) :=
  let! pm := read_partition_map st in
  let! im := read_ident_map st in
  let! am := read_attribute_map st in
  let! sc := from_ident_map_and_attribute_map im am in
  Ok (pm, sc).

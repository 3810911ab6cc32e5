(** Pull: query-pull/src/lib.rs, and the part of db/src/cache.rs that it uses. *)
From Verif Require Export M_Cache.

(** core-traits/lib.rs:716-723, those that a pull makes: cache.rs:266-268, 337-342 *)
Inductive binding :=
  | BScalar (v : typed_value)
  | BVec (vs : list typed_value).
(** core-traits/lib.rs:800-801 StructuredMap; the order of its entries plays no part in comparing. *)
Notation structured := (gmap keyword binding).
Notation pulled := (gmap Z structured).

(** edn/src/query.rs:463-490 *)
Inductive pull_attr := PuIdent (k : keyword) | PuEntid (a : Z).
Inductive pull_spec :=
  | PuWildcard
  | PuAttr (a : pull_attr) (alias : option keyword).

(** query-pull/src/lib.rs:120-134 and cache.rs:1106-1113 AttributeSpec::Specified, the only kind that is made *)
Record puller := Puller { pl_names : gmap Z keyword; pl_fts : list Z; pl_non_fts : list Z; pl_id : option keyword }.

Definition db_id : keyword := nskw "db" "id".
Definition lookup_name (s : schema) (a : Z) : res keyword := ok_or (sc_entid_map s !! a) EUnnamedAttribute.
(** query-pull/src/lib.rs:149-196, the loop; the state is [names] and [db_id_alias].  [attrs] has the keys of [names]. *)
Definition name_all (s : schema) (names : gmap Z keyword) (l : list Z) : res (gmap Z keyword) :=
  rfold (fun names a => let! k := lookup_name s a in Ok (<[a := k]> names)) names l.
Definition sorted_keys {A} (m : gmap Z A) : list Z := merge_sort Z.le (elements (dom m)).
Fixpoint name_attributes (s : schema) (l : list pull_spec) (names : gmap Z keyword) (id : option keyword) : res (gmap Z keyword * option keyword) :=
  match l with
  | [] => Ok (names, id)
  | PuWildcard :: _ => let! names := name_all s names (sorted_keys (sc_attribute_map s)) in Ok (names, id)
  | PuAttr (PuIdent i) alias :: l =>
      if decide (i = db_id) then
        match id with Some _ => Err ERepeatedDbId | None => name_attributes s l names (Some (default db_id alias)) end
      else match sc_ident_map s !! i with
           | Some a => name_attributes s l (<[a := default i alias]> names) id
           | None => name_attributes s l names id
           end
  | PuAttr (PuEntid a) alias :: l =>
      let! k := match alias with Some k => Ok k | None => lookup_name s a end in
      name_attributes s l (<[a := k]> names) id
  end.
(** cache.rs:1120-1135 AttributeSpec::specified *)
Definition is_fulltext (s : schema) (a : Z) : bool := match sc_attribute_map s !! a with Some at_ => at_fulltext at_ | None => false end.
Definition is_plain (s : schema) (a : Z) : bool := match sc_attribute_map s !! a with Some at_ => negb (at_fulltext at_) | None => false end.
(** query-pull/src/lib.rs:137-203 Puller::prepare *)
Definition prepare (s : schema) (l : list pull_spec) : res puller :=
  let! (names, id) := name_attributes s l ∅ None in
  Ok (Puller names (filter (fun a => is_fulltext s a = true) (sorted_keys names)) (filter (fun a => is_plain s a = true) (sorted_keys names)) id).

Definition row_le (d d' : datom) : Prop := d_a d < d_a d' \/ (d_a d = d_a d' /\ d_e d <= d_e d').
Global Instance row_le_dec d d' : Decision (row_le d d') := ltac:(unfold row_le; apply _).
(** cache.rs:1156-1212 the statement *)
Definition pull_rows (st : store) (fts non_fts es : list Z) : list datom :=
  merge_sort row_le
    (filter (fun d => d_e d ∈ es /\ d_a d ∈ non_fts) (st_datoms st)
     ++ filter (fun d => d_ft d = true /\ d_e d ∈ es /\ d_a d ∈ fts) (all_datoms st)).
(** cache.rs:1145-1220 populate_cache_for_entities_and_attributes, 1279-1289 make_cache_for_entities_and_attributes *)
Definition cache_for (st : store) (s : schema) (fts non_fts es : list Z) : res caches :=
  match fts, non_fts with
  | [], [] => Ok caches_empty
  | _, _ =>
      let! rows := rmapM row_to_aev (pull_rows st fts non_fts es) in
      accumulate_into None s (BAdd false) (Caches ∅ (list_to_set non_fts ∪ list_to_set fts) ∅ ∅ ∅ ∅) rows
  end.
(** cache.rs:1225-1240 forward_attribute_cache_for_attribute, and then binding_for_e *)
Definition binding_for (c : caches) (s : schema) (a e : Z) : option binding :=
  if is_cached_forward c a then
    sc_attribute_map s !! a ≫= fun at_ =>
      if at_multival at_ then ca_multi c !! a ≫= fun m => BVec <$> (m !! e)
      else ca_single c !! a ≫= fun m => BScalar <$> mjoin (m !! e)
  else None.

Definition put (maps : pulled) (e : Z) (k : keyword) (b : binding) : pulled := <[e := <[k := b]> (default ∅ (maps !! e))]> maps.
(** query-pull/src/lib.rs:205-271 Puller::pull *)
Definition pull (p : puller) (s : schema) (st : store) (es : list Z) : res pulled :=
  let! c := cache_for st s (pl_fts p) (pl_non_fts p) es in
  let maps := match pl_id p with Some k => fold_left (fun maps e => put maps e k (BScalar (TVRef e))) es ∅ | None => ∅ end in
  Ok (fold_left (fun maps a =>
        match pl_names p !! a with
        | Some k => fold_left (fun maps e => match binding_for c s a e with Some b => put maps e k b | None => maps end) es maps
        | None => maps
        end) (sorted_keys (pl_names p)) maps).

(** query-pull/src/lib.rs:106-122, and 79-104 *)
Definition pull_attributes_for_entities (s : schema) (st : store) (es attrs : list Z) : res pulled :=
  let! p := prepare s (map (fun a => PuAttr (PuEntid a) None) attrs) in pull p s st es.
Definition pull_attributes_for_entity (s : schema) (st : store) (e : Z) (attrs : list Z) : res structured :=
  let! p := prepare s (map (fun a => PuAttr (PuEntid a) None) attrs) in
  let! m := pull p s st [e] in
  match sorted_keys m with
  | [] => Ok ∅
  | k :: _ => if decide (k = e) then Ok (default ∅ (m !! k)) else Panic PPull
  end.

(** What the parts of a transaction's input stand for. *)
From Verif Require Import M_Entity Spec_Tx Spec_Partition.

Section reads.
  Context (st : store) (pm : partition_map) (s : schema) (tx : Z).

  (** An attribute, or an entity, named by number or by ident *)
  Definition reads_name (x : entid_or_ident) (e : Z) : Prop :=
    match x with EEntid n => e = n | EIdent k => sc_ident_map s !! k = Some e end.

  (** A literal read at a given type.  At type ref, a number is an entid and a keyword is an ident. *)
  Definition reads_literal (v : tval) (vt : value_type) (tv : typed_value) : Prop :=
    match v with
    | VTyped w => tv = w /\ tv_type w = vt
    | VEdn x =>
        if decide (vt = VTRef) then
          (exists n, x = EInt n /\ tv = TVRef n) \/ (exists k e, x = EKw k /\ sc_ident_map s !! k = Some e /\ tv = TVRef e)
        else from_edn_value x = Some tv /\ tv_type tv = vt
    end.

  (** A lookup ref (a v): the attribute must be unique, and [e] has the value. *)
  Definition reads_lookup (a : entid_or_ident) (v : tval) (e : Z) : Prop :=
    exists n at_ tv, reads_name a n /\ sc_attribute_map s !! n = Some at_ /\ is_Some (at_unique at_)
      /\ reads_literal v (at_type at_) tv /\ holds st e n tv.

  (** The entity position.  An entity named by number must be allocated; the transaction itself is. *)
  Definition reads_entity (x : entity_place) (r : Z + tempid) : Prop :=
    match x with
    | EPEntid (EEntid e) => r = inl e /\ (allocated pm e \/ e = tx)
    | EPEntid (EIdent k) => exists e, r = inl e /\ sc_ident_map s !! k = Some e
    | EPTempId t => r = inr t
    | EPLookup a v => exists e, r = inl e /\ reads_lookup a v e
    | EPTxFn f => r = inl tx /\ f = "transaction-tx"
    end.

  (** The value position, for values that are not vectors or maps, at the type of the attribute.  At type ref, a string is
      a tempid. *)
  Definition reads_value (x : value_place) (vt : value_type) (r : typed_value + tempid) : Prop :=
    match x with
    | VPAtom v =>
        match vt, as_tempid v with
        | VTRef, Some t => r = inr t
        | _, _ => exists tv, r = inl tv /\ reads_literal v vt tv
        end
    | VPEntid n => exists e, r = inl (TVRef e) /\ reads_name n e
    | VPTempId t => r = inr t
    | VPLookup a v => vt = VTRef /\ exists e, r = inl (TVRef e) /\ reads_lookup a v e
    | VPTxFn f => vt = VTRef /\ r = inl (TVRef tx) /\ f = "transaction-tx"
    | VPVector _ | VPMap _ => False
    end.

  Definition as_value (r : Z + tempid) : typed_value + tempid := match r with inl e => inl (TVRef e) | inr t => inr t end.

  (** [o e a v], where a is not in reversed notation *)
  Definition reads_forward (o : op) (e : entity_place) (a : entid_or_ident) (v : value_place) (t : term_t) : Prop :=
    exists at_, reads_name a (tm_a t) /\ sc_attribute_map s !! tm_a t = Some at_
      /\ tm_op t = o /\ reads_entity e (tm_e t) /\ reads_value v (at_type at_) (tm_v t).

  (** [:db/add e :ns/_name v]: v is the entity, e the value, of an assertion about :ns/name, of type ref. *)
  Definition reads_backward (e : entity_place) (k : keyword) (v : value_place) (t : term_t) : Prop :=
    exists k' at_ r, kw_unreversed k = Ok (Some k') /\ sc_ident_map s !! k' = Some (tm_a t)
      /\ sc_attribute_map s !! tm_a t = Some at_ /\ at_type at_ = VTRef
      /\ tm_op t = OAdd /\ reads_value v VTRef (as_value (tm_e t)) /\ reads_entity e r /\ tm_v t = as_value r.
End reads.

(** The attribute is written backwards, :ns/_name. *)
Definition written_backward (a : entid_or_ident) : bool := match a with EEntid _ => false | EIdent k => kw_is_backward k end.

(** An entity that is a single assertion or retraction of a single value *)
Definition flat (x : entity) : Prop :=
  match x with
  | EntAdd _ _ _ v => match v with VPVector _ | VPMap _ => False | _ => True end
  | EntMap _ => False
  end.
Definition reads (st : store) (pm : partition_map) (s : schema) (tx : Z) (x : entity) (t : term_t) : Prop :=
  match x with
  | EntAdd o e a v =>
      if written_backward a then match a with EIdent k => reads_backward st pm s tx e k v t | EEntid _ => False end
      else reads_forward st pm s tx o e a v t
  | EntMap _ => False
  end.

(* ---------------------------------------------------------------- maps and vectors *)

(** The entity that a map is about: its :db/id, or else a tempid of its own ([TInternal], which EDN cannot express; see C56 for builders). *)
Definition place_of (v : value_place) (d : entity_place) : Prop :=
  match v with
  | VPEntid e => d = EPEntid e
  | VPLookup a x => d = EPLookup a x
  | VPTempId t => d = EPTempId t
  | VPTxFn f => d = EPTxFn f
  | VPAtom x => into_entity_place x = Ok d
  | VPVector _ | VPMap _ => False
  end.
Inductive map_id (m : list (entid_or_ident * value_place)) : entity_place -> list Z -> Prop :=
  | id_given v d : (db_id_key, v) ∈ m -> place_of v d -> map_id m d []
  | id_own i : (forall v, (db_id_key, v) ∉ m) -> map_id m (EPTempId (TInternal i)) [i].
(** ... and as a value *)
Definition place_value (d : entity_place) : value_place :=
  match d with
  | EPEntid e => VPEntid e
  | EPLookup a x => VPLookup a x
  | EPTempId t => VPTempId t
  | EPTxFn f => VPTxFn f
  end.
(** The assertions of a map *)
Definition map_entries (d : entity_place) (m : list (entid_or_ident * value_place)) : list entity :=
  map (fun p => EntAdd OAdd d p.1 p.2) (filter (fun p => p.1 <> db_id_key) m).

(** [unfolds s es l own]: the entities [es] are notation for the flat entities [l], where [own] are the tempids of maps without
    :db/id.
    - a vector of values is one assertion per value;
    - a map is one assertion per entry;
    - a map as a value stands for its entity, and for its entries. *)
Inductive unfolds (s : schema) : list entity -> list entity -> list Z -> Prop :=
  | un_nil : unfolds s [] [] []
  | un_flat x es l own : flat x -> unfolds s es l own -> unfolds s (x :: es) (x :: l) own
  | un_vector o e a n vs es l1 own1 l own :
      written_backward a = false -> reads_name s a n ->
      unfolds s (map (fun v => EntAdd o e (EEntid n) v) vs) l1 own1 -> unfolds s es l own ->
      unfolds s (EntAdd o e a (VPVector vs) :: es) (l1 ++ l) (own1 ++ own)
  | un_map m d own0 es l1 own1 l own :
      map_id m d own0 -> unfolds s (map_entries d m) l1 own1 -> unfolds s es l own ->
      unfolds s (EntMap m :: es) (l1 ++ l) (own0 ++ own1 ++ own)
  | un_nested e a m d own0 es l1 own1 l own :
      written_backward a = false ->
      map_id m d own0 -> unfolds s (map_entries d m) l1 own1 -> unfolds s es l own ->
      unfolds s (EntAdd OAdd e a (VPMap m) :: es) (EntAdd OAdd e a (place_value d) :: l1 ++ l) (own0 ++ own1 ++ own).
Definition stands_for (s : schema) (es l : list entity) : Prop := exists own, unfolds s es l own /\ NoDup own.

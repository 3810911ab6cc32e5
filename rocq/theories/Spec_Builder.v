(** What the calls on an entity builder say, and when EDN says the same. *)
From Verif Require Import M_Builder Spec_Entity.

(** What a call says, in order: [BNamed] and [BNumbered] only make tempids. *)
Definition says (x : builder_call) : list entity :=
  match x with
  | BPush o e a v => [EntAdd o e a v]
  | BNamed _ | BNumbered _ => []
  | BDescribe e l => map (fun y => EntAdd y.1.1 e y.1.2 y.2) l
  | BDescribeTempid n l => map (fun y => EntAdd y.1.1 (EPTempId (TExternal n)) y.1.2 y.2) l
  end.

Section writes.
  Context (s : schema).

  (** The EDN value [x] is a literal for the typed value [v] of an attribute of type [vt]; a ref is written as a number or an ident *)
  Inductive literal : value_type -> edn -> typed_value -> Prop :=
    | lit_boolean vt b : vt <> VTRef -> literal vt (EBool b) (TVBoolean b)
    | lit_long vt n : vt <> VTRef -> literal vt (EInt n) (TVLong n)
    | lit_double vt d : vt <> VTRef -> literal vt (EFloat d) (TVDouble d)
    | lit_instant vt n : vt <> VTRef -> literal vt (EInst n) (TVInstant n)
    | lit_uuid vt u : vt <> VTRef -> literal vt (EUuid u) (TVUuid u)
    | lit_string vt n : vt <> VTRef -> literal vt (EText n) (TVString n)
    | lit_keyword vt k : vt <> VTRef -> literal vt (EKw k) (TVKeyword k)
    | lit_ref n : literal VTRef (EInt n) (TVRef n)
    | lit_ident k e : sc_ident_map s !! k = Some e -> literal VTRef (EKw k) (TVRef e).

  (** The attribute, written forwards or backwards, has the value type [vt] *)
  Definition has_type (a : entid_or_ident) (vt : value_type) : Prop :=
    exists n at_, reads_name s a n /\ sc_attribute_map s !! n = Some at_ /\ at_type at_ = vt.
  Definition about_type (a : entid_or_ident) (vt : value_type) : Prop :=
    match a with
    | EIdent k => if kw_is_backward k then exists k', kw_unreversed k = Ok (Some k') /\ has_type (EIdent k') vt else has_type a vt
    | EEntid _ => has_type a vt
    end.

  (** A lookup ref with a typed value, and with a literal *)
  Definition writes_lookup (a : entid_or_ident) (v : typed_value) (x : edn) : Prop := forall vt, has_type a vt -> literal vt x v.

  (** The entity [e] of the builder is written [e'] in EDN. *)
  Inductive writes_entity : entity_place -> entity_place -> Prop :=
    | we_same e : writes_entity e e
    | we_lookup a v x : writes_lookup a v x -> writes_entity (EPLookup a (VTyped v)) (EPLookup a (VEdn x)).

  (** The value [v] of the builder is written [x] in EDN, as a value of an attribute of type [vt].  In EDN a tempid, an entid or an
      ident in the place of the value is an atom; the transactor learns from the attribute what it is. *)
  Inductive writes_value (vt : value_type) : value_place -> value_place -> Prop :=
    | wv_same v : writes_value vt v v
    | wv_literal v x : literal vt x v -> writes_value vt (VPAtom (VTyped v)) (VPAtom (VEdn x))
    | wv_entid n : vt = VTRef -> writes_value vt (VPEntid (EEntid n)) (VPAtom (VEdn (EInt n)))
    | wv_ident k : vt = VTRef -> writes_value vt (VPEntid (EIdent k)) (VPAtom (VEdn (EKw k)))
    | wv_tempid n : vt = VTRef -> writes_value vt (VPTempId (TExternal n)) (VPAtom (VEdn (EText n)))
    | wv_lookup a v x : writes_lookup a v x -> writes_value vt (VPLookup a (VTyped v)) (VPLookup a (VEdn x))
    | wv_vector l l' : Forall2 (writes_value vt) l l' -> writes_value vt (VPVector l) (VPVector l')
    | wv_map m m' :
        Forall2 (fun p p' => p'.1 = p.1 /\ (p.1 = db_id_key -> p'.2 = p.2)
                             /\ (p.1 <> db_id_key -> forall t, about_type p.1 t -> writes_value t p.2 p'.2)) m m' ->
        writes_value vt (VPMap m) (VPMap m').

  (** The assertion or retraction [y] says in EDN what [x] says. *)
  Definition writes (x y : entity) : Prop :=
    match x, y with
    | EntAdd o e a v, EntAdd o' e' a' v' => o' = o /\ a' = a /\ writes_entity e e' /\ forall vt, about_type a vt -> writes_value vt v v'
    | _, _ => False
    end.
End writes.

(** The tempids named in a program *)
Definition place_names (e : entity_place) : list string := match e with EPTempId (TExternal n) => [n] | _ => [] end.
Fixpoint value_names (v : value_place) : list string :=
  match v with
  | VPTempId (TExternal n) | VPAtom (VTyped (TVString n)) | VPAtom (VEdn (EText n)) => [n]
  | VPVector l => flat_map value_names l
  | VPMap m => flat_map (fun p => value_names p.2) m
  | _ => []
  end.
Definition entity_names (x : entity) : list string :=
  match x with EntAdd _ e _ v => place_names e ++ value_names v | EntMap m => flat_map (fun p => value_names p.2) m end.
(** The program with the named tempid [z] instead of the numbered tempid [n], as an entity of single assertions *)
Definition named_instead (n : Z) (z : string) (x : builder_call) : builder_call :=
  match x with
  | BPush o (EPTempId (TInternal m)) a v => BPush o (EPTempId (if decide (m = n) then TExternal z else TInternal m)) a v
  | BNumbered m => if decide (m = n) then BNamed z else BNumbered m
  | x => x
  end.

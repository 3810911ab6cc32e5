(** EDN values: edn/src/types.rs:33-58. *)
From Verif Require Export M_Value.

(** Maps and sets are BTreeMap/BTreeSet: lists here, in the order of the collection. *)
Inductive edn :=
  | ENil
  | EBool (b : bool)
  | EInt (z : Z)
  | EBigInt (z : Z)
  | EFloat (d : dbl)
  | EInst (ns : Z)
  | EUuid (u : N)
  | EText (s : string)
  | EPlainSym (s : string)
  | ENsSym (ns name : string)
  | EKw (k : keyword)
  | EVec (l : list edn)
  | EList (l : list edn)
  | ESet (l : list edn)
  | EMapV (l : list (edn * edn)).

(** db/src/db.rs:447-458 from_edn_value *)
Definition from_edn_value (v : edn) : option typed_value :=
  match v with
  | EBool x => Some (TVBoolean x)
  | EInst x => Some (TVInstant x)
  | EInt x => Some (TVLong x)
  | EUuid x => Some (TVUuid x)
  | EFloat x => Some (TVDouble x)
  | EText x => Some (TVString x)
  | EKw x => Some (TVKeyword x)
  | _ => None
  end.

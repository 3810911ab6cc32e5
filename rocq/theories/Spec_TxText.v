(** How a transaction is written. *)
From Verif Require Export M_TxText Spec_Edn.
From Verif Require Import M_Base M_Value M_Upsert M_Entity.
From Coq Require Import Sorted.
Open Scope string_scope.
Open Scope Z_scope.

Definition line_ends : string := String "010" (String "013" "").
Definition white : string := " ," ++ String "009" line_ends.
(** White space, and comments up to the ends of their lines. *)
Inductive blank : string -> Prop :=
  | blank_none : blank ""
  | blank_char c s : occurs c white = true -> blank s -> blank (String c s)
  | blank_comment t c s : occurs "010" t = false -> occurs "013" t = false -> occurs c line_ends = true -> blank s ->
      blank (";" ++ t ++ String c s).
Definition gap (s : string) : Prop := blank s /\ s <> "".

(** A number or a keyword with a namespace. *)
Definition spells_ref (a : entid_or_ident) (s : string) : Prop :=
  match a with
  | EEntid z => - 2 ^ 63 <= z < 2 ^ 63 /\ s = dec z
  | EIdent (Kw (Some ns) n) => good_namespace ns = true /\ good_name n = true /\ s = ":" ++ ns ++ "/" ++ n
  | EIdent (Kw None _) => False
  end.
Definition forward (a : entid_or_ident) : Prop :=
  match a with EEntid _ => True | EIdent k => String.prefix "_" (kw_name k) = false end.
Definition op_text (o : op) : string := match o with OAdd => ":db/add" | ORetract => ":db/retract" end.
(** the order in which the pairs of a map are kept *)
Definition in_order {V} (m : list (entid_or_ident * V)) : Prop := StronglySorted (fun x y => eoi_cmp x y = Lt) (map fst m).

Section spells.
Context (show : dbl -> string).

Definition spells_lookup (a : entid_or_ident) (v : edn) (s : string) : Prop := exists g1 g2 g3 g4 ref,
  blank g1 /\ gap g2 /\ gap g3 /\ blank g4 /\ spells_ref a ref /\ Forall (readable show) (parts v)
  /\ s = "(" ++ g1 ++ "lookup-ref" ++ g2 ++ ref ++ g3 ++ print show v ++ g4 ++ ")".
Definition spells_function (f s : string) : Prop := exists g1 g2,
  blank g1 /\ blank g2 /\ good_name f = true /\ String.prefix "lookup-ref" f = false /\ s = "(" ++ g1 ++ f ++ g2 ++ ")".

(** What is in the place of a value: a value, a lookup ref, a function, or a vector or map of these.  Between two things there is
    white space, elsewhere there may be.  The pairs of a map come in any order. *)
Inductive spells : value_place -> string -> Prop :=
  | sp_atom v : single v -> readable show v -> spells (VPAtom (VEdn v)) (print show v)
  | sp_lookup a v s : spells_lookup a v s -> spells (VPLookup a (VEdn v)) s
  | sp_function f s : spells_function f s -> spells (VPTxFn f) s
  | sp_vector l g s : blank g -> spells_all l s -> spells (VPVector l) ("[" ++ g ++ s ++ "]")
  | sp_map m l g s : blank g -> spells_pairs l s -> in_order m -> l ≡ₚ m -> spells (VPMap m) ("{" ++ g ++ s ++ "}")
with spells_all : list value_place -> string -> Prop :=
  | sa_none : spells_all [] ""
  | sa_one v s g : spells v s -> blank g -> spells_all [v] (s ++ g)
  | sa_more v l s g t : spells v s -> gap g -> spells_all l t -> spells_all (v :: l) (s ++ g ++ t)
with spells_pairs : list (entid_or_ident * value_place) -> string -> Prop :=
  | ss_none : spells_pairs [] ""
  | ss_one k v ref g1 s g : spells_ref k ref -> gap g1 -> spells v s -> blank g -> spells_pairs [(k, v)] (ref ++ g1 ++ s ++ g)
  | ss_more k v l ref g1 s g t : spells_ref k ref -> gap g1 -> spells v s -> gap g -> spells_pairs l t ->
      spells_pairs ((k, v) :: l) (ref ++ g1 ++ s ++ g ++ t).

Definition spells_place (e : entity_place) (s : string) : Prop :=
  match e with
  | EPEntid a => spells_ref a s
  | EPTempId (TExternal t) => occurs """" t = false /\ occurs "\" t = false /\ s = """" ++ t ++ """"
  | EPTempId (TInternal _) => False
  | EPLookup a (VEdn v) => spells_lookup a v s
  | EPLookup _ (VTyped _) => False
  | EPTxFn f => spells_function f s
  end.
(** values that can stand for an entity *)
Definition for_entity (v : value_place) : Prop :=
  match v with
  | VPAtom (VEdn (EText _)) | VPAtom (VEdn (EInt _)) => True
  | VPAtom (VEdn (EKw k)) => kw_ns k <> None
  | VPAtom _ => False
  | _ => True
  end.

Inductive spells_entity : entity -> string -> Prop :=
  | se_forward o e a v g0 g1 g2 g3 g4 es ref vs :
      blank g0 -> gap g1 -> gap g2 -> gap g3 -> blank g4 -> spells_place e es -> spells_ref a ref -> forward a -> spells v vs ->
      spells_entity (EntAdd o e a v) ("[" ++ g0 ++ op_text o ++ g1 ++ es ++ g2 ++ ref ++ g3 ++ vs ++ g4 ++ "]")
  (** with the name of the attribute after an underscore, the value comes first *)
  | se_backward o e ns n v g0 g1 g2 g3 g4 es vs :
      blank g0 -> gap g1 -> gap g2 -> gap g3 -> blank g4 -> spells_place e es -> spells v vs -> for_entity v ->
      good_namespace ns = true -> only name_chars n = true -> n <> "" ->
      spells_entity (EntAdd o e (EIdent (Kw (Some ns) n)) v)
        ("[" ++ g0 ++ op_text o ++ g1 ++ vs ++ g2 ++ (":" ++ ns ++ "/_" ++ n) ++ g3 ++ es ++ g4 ++ "]")
  | se_map m l g s : blank g -> spells_pairs l s -> in_order m -> l ≡ₚ m -> spells_entity (EntMap m) ("{" ++ g ++ s ++ "}").
Inductive spells_entities : list entity -> string -> Prop :=
  | ses_none : spells_entities [] ""
  | ses_more x l s g t : spells_entity x s -> blank g -> spells_entities l t -> spells_entities (x :: l) (s ++ g ++ t).

Definition spells_transaction (l : list entity) (s : string) : Prop := exists g0 g1 g2 t,
  blank g0 /\ blank g1 /\ blank g2 /\ spells_entities l t /\ s = g0 ++ "[" ++ g1 ++ t ++ "]" ++ g2.
End spells.

(** What every text that is read gives: references are numbers of 64 bits or keywords with a namespace, a key occurs once in a map,
    and where a value is expected there is no list or set. *)
Definition whole_ref (a : entid_or_ident) : Prop :=
  match a with
  | EEntid z => - 2 ^ 63 <= z < 2 ^ 63
  | EIdent (Kw (Some ns) n) => good_namespace ns = true /\ only name_chars n = true /\ n <> ""
  | EIdent (Kw None _) => False
  end.
Inductive whole : value_place -> Prop :=
  | wh_atom v : single v -> whole (VPAtom (VEdn v))
  | wh_lookup a v : whole_ref a -> whole (VPLookup a (VEdn v))
  | wh_function f : good_name f = true -> whole (VPTxFn f)
  | wh_vector l : Forall whole l -> whole (VPVector l)
  | wh_map m : in_order m -> Forall (fun p => whole_ref p.1 /\ whole p.2) m -> whole (VPMap m).
Definition whole_place (e : entity_place) : Prop :=
  match e with
  | EPEntid a | EPLookup a (VEdn _) => whole_ref a
  | EPTempId (TExternal _) => True
  | EPTxFn f => good_name f = true
  | _ => False
  end.
Definition whole_entity (x : entity) : Prop :=
  match x with
  | EntAdd _ e a v => whole_place e /\ whole_ref a /\ whole v
  | EntMap m => whole (VPMap m)
  end.

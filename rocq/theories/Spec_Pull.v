(** What a pull should give. *)
From Verif Require Import M_Pull Spec_Tx Spec_Cache.

(** The expression asks for attribute [a], to be called [k]. *)
Definition asks (s : schema) (l : list pull_spec) (a : Z) (k : keyword) : Prop :=
  is_Some (sc_attribute_map s !! a)
  /\ ((PuWildcard ∈ l /\ sc_entid_map s !! a = Some k)
      \/ (exists i alias, PuAttr (PuIdent i) alias ∈ l /\ i <> db_id /\ sc_ident_map s !! i = Some a /\ k = default i alias)
      \/ (exists alias, PuAttr (PuEntid a) alias ∈ l /\ (alias = Some k \/ (alias = None /\ sc_entid_map s !! a = Some k)))).
(** The expression asks for the entity itself, to be called [k]. *)
Definition asks_id (l : list pull_spec) (k : keyword) : Prop := exists alias, PuAttr (PuIdent db_id) alias ∈ l /\ k = default db_id alias.
(** Each attribute is asked for under one name, no two under the same name, and nothing follows a wildcard. *)
Record unambiguous (s : schema) (l : list pull_spec) : Prop := {
  un_name : forall a k k', asks s l a k -> asks s l a k' -> k = k';
  un_attr : forall a a' k, asks s l a k -> asks s l a' k -> a = a';
  un_id : forall a k, asks_id l k -> ~ asks s l a k;
  un_last : forall l1 l2, l = l1 ++ PuWildcard :: l2 -> l2 = [] }.

(** The facts about an attribute of an entity *)
Definition facts_about (st : store) (e a : Z) : list fact := filter (fun f => f.1.1 = e /\ f.1.2 = a) (facts st).
(** The value of a cardinality-one attribute, or every value of a cardinality-many attribute once *)
Definition shows (st : store) (at_ : attribute) (e a : Z) (b : binding) : Prop :=
  if at_multival at_
  then exists vs, b = BVec vs /\ Permutation (map Ok vs) (map (fun f : fact => from_sql_value_pair f.2.1 f.2.2) (facts_about st e a))
  else exists v f, b = BScalar v /\ facts_about st e a = [f] /\ from_sql_value_pair f.2.1 f.2.2 = Ok v.

(** What is in the result *)
Definition said_of (m : pulled) (e : Z) (k : keyword) : option binding := m !! e ≫= (.!! k).
Definition pulls (st : store) (s : schema) (es : list Z) (asked : Z -> keyword -> Prop) (asked_id : keyword -> Prop) (m : pulled) : Prop :=
  (forall e k b, said_of m e k = Some b ->
     e ∈ es /\ ((asked_id k /\ b = BScalar (TVRef e))
                \/ exists a at_, asked a k /\ sc_attribute_map s !! a = Some at_ /\ shows st at_ e a b))
  /\ (forall e k, e ∈ es -> asked_id k -> said_of m e k = Some (BScalar (TVRef e)))
  /\ (forall e a k, e ∈ es -> asked a k -> facts_about st e a <> [] -> is_Some (said_of m e k))
  /\ (forall e sm, m !! e = Some sm -> sm <> ∅).

(** How a query is written: as EDN, with any white space and comments. *)
From Verif Require Export M_QueryText Spec_TxText.
From Verif Require Import M_Base M_Value M_Upsert M_Entity.
Open Scope string_scope.
Open Scope Z_scope.

(* ------------------------------------------------------------- texts of values *)

Section written.
Context (show : dbl -> string).
(** Atoms as they are printed; in lists and vectors white space between two things, elsewhere there may be. *)
Inductive written : edn -> string -> Prop :=
  | wr_atom v : single v -> readable show v -> written v (print show v)
  | wr_vector l g s : blank g -> written_all l s -> written (EVec l) ("[" ++ g ++ s ++ "]")
  | wr_list l g s : blank g -> written_all l s -> written (EList l) ("(" ++ g ++ s ++ ")")
with written_all : list edn -> string -> Prop :=
  | wa_none : written_all [] ""
  | wa_one v s g : written v s -> blank g -> written_all [v] (s ++ g)
  | wa_more v l s g t : written v s -> gap g -> written_all l t -> written_all (v :: l) (s ++ g ++ t).
End written.

(* ------------------------------------------------------------- the EDN of a query *)

Definition variable (v : string) : Prop := String.prefix "?" v = true.
Notation sym := EPlainSym.
Definition constant (c : edn) : Prop :=
  match c with EInst _ | EUuid _ | EBool _ | EFloat _ | EBigInt _ | EText _ => True | _ => False end.

Inductive arg_form : edn -> fn_arg -> Prop :=
  | af_variable v : variable v -> arg_form (sym v) (ArgVar v)
  | af_default : arg_form (sym "$") (ArgSrc DefaultSrc)
  | af_source n : n <> "" -> arg_form (sym ("$" ++ n)) (ArgSrc (NamedSrc n))
  | af_integer z : arg_form (EInt z) (ArgInt z)
  | af_keyword k : arg_form (EKw k) (ArgKw k)
  | af_constant c : constant c -> arg_form c (ArgConst c)
  | af_vector vs l : Forall2 arg_form vs l -> vs <> [] -> arg_form (EVec vs) (ArgVec l).

Inductive non_value_form : edn -> non_value -> Prop :=
  | nf_placeholder : non_value_form (sym "_") NvPlaceholder
  | nf_variable v : variable v -> non_value_form (sym v) (NvVar v)
  | nf_entid z : 0 <= z -> non_value_form (EInt z) (NvEntid z)
  | nf_ident k : non_value_form (EKw k) (NvIdent k).
Inductive value_form : edn -> value_at -> Prop :=
  | vf_placeholder : value_form (sym "_") VaPlaceholder
  | vf_variable v : variable v -> value_form (sym v) (VaVar v)
  | vf_integer z : value_form (EInt z) (VaInt z)
  | vf_keyword ns n : value_form (EKw (Kw (Some ns) n)) (VaKw (Kw (Some ns) n))
  | vf_constant c : constant c -> value_form c (VaConst c).
Inductive source_form : list edn -> option src -> Prop :=
  | sf_none : source_form [] None
  | sf_default : source_form [sym "$"] (Some DefaultSrc)
  | sf_named n : n <> "" -> source_form [sym ("$" ++ n)] (Some (NamedSrc n)).
(** A placeholder at the end may be left out. *)
Inductive tail_form : list edn -> value_at -> non_value -> Prop :=
  | tf_none : tail_form [] VaPlaceholder NvPlaceholder
  | tf_value v x : value_form v x -> tail_form [v] x NvPlaceholder
  | tf_both v x t y : value_form v x -> non_value_form t y -> tail_form [v; t] x y.
Definition backward (k : keyword) : Prop := String.prefix "_" (kw_name k) = true.
(** the same thing in the place of an entity and in the place of a value *)
Inductive same_place : non_value -> value_at -> Prop :=
  | sm_placeholder : same_place NvPlaceholder VaPlaceholder
  | sm_variable v : same_place (NvVar v) (VaVar v)
  | sm_entid z : 0 <= z -> same_place (NvEntid z) (VaInt z)
  | sm_ident k : same_place (NvIdent k) (VaKw k).
Inductive pattern_form : list edn -> qpattern -> Prop :=
  | pf_forward ls s ve e va a t v tx : source_form ls s -> non_value_form ve e -> non_value_form va a ->
      (forall k, a = NvIdent k -> ~ backward k) -> tail_form t v tx -> pattern_form (ls ++ ve :: va :: t) (QPattern s e a v tx)
  (** with an underscore before the name of the attribute, entity and value change places *)
  | pf_backward ls s ve x ns n t y e v tx : source_form ls s -> non_value_form ve x -> n <> "" -> ns <> Some "" -> tail_form t y tx ->
      same_place x v -> same_place e y ->
      pattern_form (ls ++ ve :: EKw (Kw ns ("_" ++ n)) :: t) (QPattern s e (NvIdent (Kw ns n)) v tx).

Inductive place_form : edn -> option string -> Prop :=
  | lf_placeholder : place_form (sym "_") None
  | lf_variable v : variable v -> place_form (sym v) (Some v).
Inductive binding_form : edn -> binding -> Prop :=
  | bf_scalar v : variable v -> binding_form (sym v) (BindScalar v)
  | bf_coll v : variable v -> binding_form (EVec [sym v; sym "..."]) (BindColl v)
  | bf_tuple vs l : Forall2 place_form vs l -> vs <> [] -> binding_form (EVec vs) (BindTuple l)
  | bf_rel vs l : Forall2 place_form vs l -> vs <> [] -> binding_form (EVec [EVec vs]) (BindRel l).

Inductive clause_form : edn -> where_clause -> Prop :=
  | cf_pattern l p : pattern_form l p -> clause_form (EVec l) (WPattern p)
  | cf_or vs l : Forall2 or_form vs l -> vs <> [] -> clause_form (EList (sym "or" :: vs)) (WOr Implicit l)
  | cf_or_join us vs l : Forall variable us -> NoDup us -> us <> [] -> Forall2 or_form vs l -> vs <> [] ->
      clause_form (EList (sym "or-join" :: EVec (map EPlainSym us) :: vs)) (WOr (Explicit us) l)
  | cf_not vs l : Forall2 clause_form vs l -> vs <> [] -> clause_form (EList (sym "not" :: vs)) (WNot Implicit l)
  | cf_not_join us vs l : Forall variable us -> NoDup us -> us <> [] -> Forall2 clause_form vs l -> vs <> [] ->
      clause_form (EList (sym "not-join" :: EVec (map EPlainSym us) :: vs)) (WNot (Explicit us) l)
  | cf_type v t : variable v -> clause_form (EVec [EList [sym "type"; sym v; EKw t]]) (WType v t)
  | cf_pred f vs l : good_name f = true -> String.prefix "type" f = false -> Forall2 arg_form vs l ->
      clause_form (EVec [EList (sym f :: vs)]) (WPred f l)
  | cf_fn f vs l v b : good_name f = true -> String.prefix "type" f = false -> Forall2 arg_form vs l -> binding_form v b ->
      clause_form (EVec [EList (sym f :: vs); v]) (WFn f l b)
with or_form : edn -> or_clause -> Prop :=
  | of_clause v c : clause_form v c -> or_form v (OClause c)
  | of_and vs l : Forall2 clause_form vs l -> vs <> [] -> or_form (EList (sym "and" :: vs)) (OAnd l).

(** a keyword with a namespace, not backward *)
Definition whole_keyword (k : keyword) : Prop := kw_ns k <> None /\ ~ backward k.
Inductive pull_form : list edn -> pull_attribute -> Prop :=
  | uf_all : pull_form [sym "*"] PullAll
  | uf_attribute k : whole_keyword k -> pull_form [EKw k] (PullAttr k None)
  | uf_alias k a : whole_keyword k -> ~ backward a -> pull_form [EKw k; EKw (Kw None "as"); EKw a] (PullAttr k (Some a)).
Inductive element_form : edn -> element -> Prop :=
  | ef_variable v : variable v -> element_form (sym v) (ElVar v)
  | ef_the v : variable v -> element_form (EList [sym "the"; sym v]) (ElThe v)
  | ef_pull v ls l : variable v -> Forall2 pull_form ls l -> ls <> [] -> element_form (EList [sym "pull"; sym v; EVec (concat ls)]) (ElPull v l)
  | ef_aggregate f vs l : good_name f = true -> String.prefix "the" f = false -> String.prefix "pull" f = false -> Forall2 arg_form vs l ->
      element_form (EList (sym f :: vs)) (ElAggregate f l).
Inductive find_form : list edn -> find_kind -> Prop :=
  | ff_rel vs l : Forall2 element_form vs l -> vs <> [] -> find_form vs (FindRel l)
  | ff_scalar v e : element_form v e -> find_form [v; sym "."] (FindScalar e)
  | ff_coll v e : element_form v e -> find_form [EVec [v; sym "..."]] (FindColl e)
  | ff_tuple vs l : Forall2 element_form vs l -> vs <> [] -> find_form [EVec vs] (FindTuple l).
Inductive order_form : edn -> qdirection * string -> Prop :=
  | rf_plain v : variable v -> order_form (sym v) (Ascending, v)
  | rf_asc v : variable v -> order_form (EList [sym "asc"; sym v]) (Ascending, v)
  | rf_desc v : variable v -> order_form (EList [sym "desc"; sym v]) (Descending, v).

Notation head n := (EKw (Kw None n)).
Inductive part_form : list edn -> query_part -> Prop :=
  | qf_find vs f : find_form vs f -> part_form (head "find" :: vs) (PFind f)
  | qf_in vs : Forall variable vs -> vs <> [] -> part_form (head "in" :: map EPlainSym vs) (PIn vs)
  | qf_with vs : Forall variable vs -> vs <> [] -> part_form (head "with" :: map EPlainSym vs) (PWith vs)
  | qf_limit z : 0 < z -> part_form [head "limit"; EInt z] (PLimit (FixedLimit z))
  | qf_limit_var v : variable v -> part_form [head "limit"; sym v] (PLimit (VarLimit v))
  | qf_order vs l : Forall2 order_form vs l -> vs <> [] -> part_form (head "order" :: vs) (POrder l)
  | qf_where vs l : Forall2 clause_form vs l -> vs <> [] -> part_form (head "where" :: vs) (PWhere l).
(** what a query consists of *)
Definition parts_of (q : parsed_query) : list query_part :=
  [PFind (pq_find q); PWhere (pq_where q)]
  ++ (match pq_with q with [] => [] | l => [PWith l] end) ++ (match pq_in q with [] => [] | l => [PIn l] end)
  ++ (match pq_limit q with Unlimited => [] | l => [PLimit l] end) ++ (match pq_order q with None => [] | Some l => [POrder l] end).
(** The parts come in any order. *)
Definition query_form (v : edn) (q : parsed_query) : Prop := exists ls ps,
  v = EVec (concat ls) /\ Forall2 part_form ls ps /\ ps ≡ₚ parts_of q.
Definition spells_query (show : dbl -> string) (q : parsed_query) (s : string) : Prop := exists v g t g',
  query_form v q /\ blank g /\ written show v t /\ blank g' /\ s = g ++ t ++ g'.

(** The grammar of queries, edn/src/lib.rs:322-525, and what edn/src/query.rs makes of the values in them. *)
From stdpp Require Import base list strings.
From Verif Require Import M_Base M_Value M_Edn M_Upsert M_Entity M_TxText.
Local Open Scope string_scope.
Local Open Scope Z_scope.

(* ------------------------------------------------------------- the parsed query *)

(** query.rs:47 Variable: its symbol, with the question mark; 151-154 SrcVar *)
Notation qvar := string (only parsing).
Inductive src := DefaultSrc | NamedSrc (n : string).
(** query.rs:204-213 FnArg.  A NonIntegerConstant (182-189) is given as the EDN value it comes from. *)
Inductive fn_arg := ArgVar (v : qvar) | ArgSrc (s : src) | ArgInt (z : Z) | ArgKw (k : keyword) | ArgConst (c : edn) | ArgVec (l : list fn_arg).
(** query.rs:277-282 PatternNonValuePlace, 353-359 PatternValuePlace *)
Inductive non_value := NvPlaceholder | NvVar (v : qvar) | NvEntid (z : Z) | NvIdent (k : keyword).
Inductive value_at := VaPlaceholder | VaVar (v : qvar) | VaInt (z : Z) | VaKw (k : keyword) | VaConst (c : edn).
(** query.rs:787-793 Pattern *)
Record qpattern := QPattern { qp_source : option src; qp_e : non_value; qp_a : non_value; qp_v : value_at; qp_tx : non_value }.
(** query.rs:693-720 VariableOrPlaceholder ([None] is the placeholder), Binding *)
Inductive binding := BindScalar (v : qvar) | BindColl (v : qvar) | BindRel (l : list (option qvar)) | BindTuple (l : list (option qvar)).
(** query.rs:855-945 UnifyVars (a set of variables is given as the list they were written in), WhereClause, OrWhereClause *)
Inductive unify_vars := Implicit | Explicit (vs : list qvar).
Inductive where_clause :=
  | WPattern (p : qpattern)
  | WOr (u : unify_vars) (arms : list or_clause)
  | WNot (u : unify_vars) (cs : list where_clause)
  | WType (v : qvar) (t : keyword)
  | WPred (f : string) (args : list fn_arg)
  | WFn (f : string) (args : list fn_arg) (b : binding)
with or_clause := OClause (c : where_clause) | OAnd (cs : list where_clause).
(** query.rs:463-545 PullAttributeSpec, Pull, Aggregate, Element; 618-634 FindSpec; 141-148 Direction, Order; 589-593 Limit *)
Inductive pull_attribute := PullAll | PullAttr (k : keyword) (as_ : option keyword).
Inductive element := ElVar (v : qvar) | ElThe (v : qvar) | ElPull (v : qvar) (l : list pull_attribute) | ElAggregate (f : string) (args : list fn_arg).
Inductive find_kind := FindRel (l : list element) | FindColl (e : element) | FindTuple (l : list element) | FindScalar (e : element).
Inductive qdirection := Ascending | Descending.
Inductive query_limit := Unlimited | FixedLimit (z : Z) | VarLimit (v : qvar).
(** query.rs:949-958 ParsedQuery; default_source and in_sources are constants.  961-968 QueryPart *)
Record parsed_query := ParsedQuery {
  pq_find : find_kind; pq_with : list qvar; pq_in : list qvar; pq_limit : query_limit; pq_where : list where_clause; pq_order : option (list (qdirection * qvar)) }.
Inductive query_part := PFind (f : find_kind) | PWith (l : list qvar) | PIn (l : list qvar) | PLimit (l : query_limit)
  | PWhere (l : list where_clause) | POrder (l : list (qdirection * qvar)).

(* ------------------------------------------------------------- from values *)

(** symbols.rs:97-105 is_var_symbol, is_src_symbol; query.rs:73-100 Variable::from_value *)
Definition variable_of (v : edn) : option qvar :=
  match v with EPlainSym s => if String.prefix "?" s then Some s else None | _ => None end.
(** query.rs:156-179 SrcVar::from_value *)
Definition src_of_symbol (s : string) : option src :=
  match s with String "$" "" => Some DefaultSrc | String "$" n => Some (NamedSrc n) | _ => None end.
Definition src_of (v : edn) : option src := match v with EPlainSym s => src_of_symbol s | _ => None end.
(** query.rs:215-239 FnArg::from_value *)
Definition arg_of (v : edn) : option fn_arg :=
  match v with
  | EInt z => Some (ArgInt z)
  | EPlainSym s => if String.prefix "$" s then ArgSrc <$> src_of_symbol s else ArgVar <$> variable_of v
  | EKw k => Some (ArgKw k)
  | EInst _ | EUuid _ | EBool _ | EFloat _ | EBigInt _ | EText _ => Some (ArgConst v)
  | _ => None
  end.
(** query.rs:318-341 PatternNonValuePlace::from_value *)
Definition non_value_of (v : edn) : option non_value :=
  match v with
  | EInt z => if 0 <=? z then Some (NvEntid z) else None
  | EPlainSym s => if String.eqb s "_" then Some NvPlaceholder else NvVar <$> variable_of v
  | EKw k => Some (NvIdent k)
  | _ => None
  end.
(** query.rs:373-415 PatternValuePlace::from_value *)
Definition value_at_of (v : edn) : option value_at :=
  match v with
  | EInt z => Some (VaInt z)
  | EPlainSym s => if String.eqb s "_" then Some VaPlaceholder else VaVar <$> variable_of v
  | EKw (Kw (Some ns) n) => Some (VaKw (Kw (Some ns) n))
  | EInst _ | EUuid _ | EBool _ | EFloat _ | EBigInt _ | EText _ => Some (VaConst v)
  | _ => None
  end.
(** query.rs:308-315 to_pattern_value_place, 436-451 to_pattern_non_value_place *)
Definition as_value (x : non_value) : value_at :=
  match x with NvPlaceholder => VaPlaceholder | NvVar v => VaVar v | NvEntid z => VaInt z | NvIdent k => VaKw k end.
Definition as_non_value (x : value_at) : option non_value :=
  match x with
  | VaPlaceholder => Some NvPlaceholder | VaVar v => Some (NvVar v) | VaInt z => if 0 <=? z then Some (NvEntid z) else None
  | VaKw k => Some (NvIdent k) | VaConst _ => None
  end.
(** query.rs:804-838 Pattern::new, as the conditional action of the rule pattern; to_reversed panics on [:a/_] *)
Definition new_pattern (s : option src) (e a : non_value) (v : value_at) (tx : non_value) : parser qpattern :=
  match a with
  | NvIdent k =>
      if kw_is_backward k then
        match as_non_value v with
        | Some e' => peg k' <- unwrap (match kw_to_reversed k with Ok k' => Some k' | _ => None end); yield (QPattern s e' (NvIdent k') (as_value e) tx)
        | None => check None
        end
      else yield (QPattern s e a v tx)
  | _ => yield (QPattern s e a v tx)
  end.
(** query.rs:976-1037 ParsedQuery::from_parts, errors without their messages *)
Record slots := Slots { s_find : option find_kind; s_with : option (list qvar); s_in : option (list qvar); s_limit : option query_limit;
  s_where : option (list where_clause); s_order : option (list (qdirection * qvar)) }.
Definition fill (o : option slots) (p : query_part) : option slots :=
  match o with
  | None => None
  | Some (Slots f w i l c r) =>
      match p with
      | PFind x => match f with Some _ => None | None => Some (Slots (Some x) w i l c r) end
      | PWith x => match w with Some _ => None | None => Some (Slots f (Some x) i l c r) end
      | PIn x => match i with Some _ => None | None => Some (Slots f w (Some x) l c r) end
      | PLimit x => match l with Some _ => None | None => Some (Slots f w i (Some x) c r) end
      | PWhere x => match c with Some _ => None | None => Some (Slots f w i l (Some x) r) end
      | POrder x => match r with Some _ => None | None => Some (Slots f w i l c (Some x)) end
      end
  end.
Definition from_parts (ps : list query_part) : option parsed_query :=
  match foldl fill (Some (Slots None None None None None None)) ps with
  | Some (Slots (Some f) w i l (Some c) r) => Some (ParsedQuery f (default [] w) (default [] i) (default Unlimited l) c r)
  | _ => None
  end.

(* ------------------------------------------------------------- the rules *)

(** [rule+] *)
Definition many1 {A} (p : parser A) : parser (list A) := fun s =>
  (peg x <- p; peg l <- many p (S (String.length s)); yield (x :: l)) s.
(** [rule*] *)
Definition many0 {A} (p : parser A) : parser (list A) := fun s => many p (S (String.length s)) s.
(** [rule?] *)
Definition optional {A} (p : parser A) : parser (option A) := alt (peg x <- p; yield (Some x)) (yield None).

Section grammar.
Context (float_of : string -> dbl).
(** v:value() {? … } *)
Definition valued {A} (f : edn -> option A) : parser A := peg v <- any_value_rule float_of; check (f v).
(** lib.rs:509-513 variable, src_var *)
Definition variable_rule : parser qvar := valued variable_of.
(** lib.rs:246-254 raw_keyword, 256-257 raw_forward_keyword *)
Definition raw_keyword_rule : parser keyword := eat tok ":"; peg ns <- prefix_rule; peg n <- name_rule; yield (Kw ns n).
Definition forward_keyword_rule : parser keyword := peg k <- raw_keyword_rule; check (if kw_is_backward k then None else Some k).

(** lib.rs:329-330 query_function *)
Definition function_rule : parser string := eat spaces; peg n <- name_rule; eat spaces; yield n.
(** lib.rs:332-334 fn_arg *)
Fixpoint arg_rule (n : nat) : parser fn_arg :=
  match n with
  | O => fun _ => Deep
  | S n => alt (valued arg_of) (eat spaces; eat tok "["; peg l <- many1 (arg_rule n); eat tok "]"; eat spaces; yield (ArgVec l))
  end.
Definition args_rule : parser (list fn_arg) := fun s => many0 (arg_rule (S (String.length s))) s.
(** lib.rs:348-358 pull_attribute *)
Definition pull_rule : parser pull_attribute :=
  alt (eat spaces; eat tok "*"; eat spaces; yield PullAll)
      (eat spaces; peg k <- forward_rule; eat spaces;
       peg a <- optional (eat tok ":as"; eat spaces; peg a <- forward_keyword_rule; eat spaces; yield a); yield (PullAttr k a)).
(** lib.rs:336-340 find_elem *)
Definition element_rule : parser element :=
  alt (eat spaces; peg v <- variable_rule; eat spaces; yield (ElVar v))
  (alt (eat spaces; eat tok "("; eat spaces; eat tok "the"; peg v <- variable_rule; eat tok ")"; eat spaces; yield (ElThe v))
  (alt (eat spaces; eat tok "("; eat spaces; eat tok "pull"; peg v <- variable_rule; eat tok "["; peg l <- many1 pull_rule; eat tok "]"; eat spaces;
        eat tok ")"; eat spaces; yield (ElPull v l))
       (eat spaces; eat tok "("; peg f <- function_rule; peg l <- args_rule; eat tok ")"; eat spaces; yield (ElAggregate f l)))).
(** lib.rs:342-346 find_spec *)
Definition find_rule : parser find_kind :=
  alt (peg e <- element_rule; eat tok "."; eat spaces; yield (FindScalar e))
  (alt (peg l <- many1 element_rule; yield (FindRel l))
  (alt (eat spaces; eat tok "["; peg e <- element_rule; eat spaces; eat tok "..."; eat spaces; eat tok "]"; eat spaces; yield (FindColl e))
       (eat spaces; eat tok "["; peg l <- many1 element_rule; eat tok "]"; eat spaces; yield (FindTuple l)))).
(** lib.rs:360-368 limit *)
Definition limit_rule : parser query_limit :=
  alt (eat spaces; peg v <- variable_rule; eat spaces; yield (VarLimit v))
      (eat spaces; peg v <- alt octal_rule (alt hex_rule (alt based_rule integer_rule)); eat spaces;
       check (match v with EInt z => if 0 <? z then Some (FixedLimit z) else None | _ => None end)).
(** lib.rs:370-373 order *)
Definition order_rule : parser (qdirection * qvar) :=
  alt (eat spaces; eat tok "("; eat spaces; eat tok "asc"; peg v <- variable_rule; eat tok ")"; eat spaces; yield (Ascending, v))
  (alt (eat spaces; eat tok "("; eat spaces; eat tok "desc"; peg v <- variable_rule; eat tok ")"; eat spaces; yield (Descending, v))
       (peg v <- variable_rule; yield (Ascending, v))).
(** lib.rs:376-416 pattern_value_place, pattern_non_value_place, pattern *)
Definition pattern_rule : parser qpattern :=
  eat spaces; eat tok "["; peg s <- optional (valued src_of); peg e <- valued non_value_of; peg a <- valued non_value_of;
  peg v <- optional (valued value_at_of); peg tx <- optional (valued non_value_of); eat tok "]"; eat spaces;
  new_pattern s e a (default VaPlaceholder v) (default NvPlaceholder tx).
(** lib.rs:418-427 rule_vars *)
Definition rule_vars_rule : parser (list qvar) :=
  peg l <- many1 variable_rule; check (if decide (NoDup l) then Some l else None).
(** lib.rs:515-523 variable_or_placeholder, binding *)
Definition place_rule : parser (option qvar) := alt (peg v <- variable_rule; yield (Some v)) (eat spaces; eat tok "_"; eat spaces; yield None).
Definition binding_rule : parser binding :=
  alt (eat spaces; eat tok "["; eat spaces; eat tok "["; peg l <- many1 place_rule; eat tok "]"; eat spaces; eat tok "]"; eat spaces; yield (BindRel l))
  (alt (eat spaces; eat tok "["; peg v <- variable_rule; eat tok "..."; eat spaces; eat tok "]"; eat spaces; yield (BindColl v))
  (alt (eat spaces; eat tok "["; peg l <- many1 place_rule; eat tok "]"; eat spaces; yield (BindTuple l))
       (peg v <- variable_rule; yield (BindScalar v)))).
(** lib.rs:459-485 type_annotation, pred, where_fn *)
Definition type_rule : parser where_clause :=
  eat spaces; eat tok "["; eat spaces; eat tok "("; eat spaces; eat tok "type"; peg v <- variable_rule; eat spaces; peg t <- raw_keyword_rule; eat spaces;
  eat tok ")"; eat spaces; eat tok "]"; eat spaces; yield (WType v t).
Definition pred_rule : parser where_clause :=
  eat spaces; eat tok "["; eat spaces; eat tok "("; peg f <- function_rule; peg l <- args_rule; eat tok ")"; eat spaces; eat tok "]"; eat spaces;
  yield (WPred f l).
Definition fn_rule : parser where_clause :=
  eat spaces; eat tok "["; eat spaces; eat tok "("; peg f <- function_rule; peg l <- args_rule; eat tok ")"; eat spaces; peg b <- binding_rule;
  eat tok "]"; eat spaces; yield (WFn f l b).
(** lib.rs:429-457, 487-496 or_where_clause, or_clause, or_join_clause, not_clause, not_join_clause, where_clause *)
Fixpoint where_rule (n : nat) : parser where_clause :=
  match n with
  | O => fun _ => Deep
  | S n =>
      let clause := where_rule n in
      let arm := alt (peg c <- clause; yield (OClause c))
                     (eat spaces; eat tok "("; eat spaces; eat tok "and"; peg l <- many1 clause; eat tok ")"; eat spaces; yield (OAnd l)) in
      alt (peg p <- pattern_rule; yield (WPattern p))
      (alt (eat spaces; eat tok "("; eat spaces; eat tok "or-join"; eat spaces; eat tok "["; peg vs <- rule_vars_rule; eat tok "]"; peg l <- many1 arm;
            eat tok ")"; eat spaces; yield (WOr (Explicit vs) l))
      (alt (eat spaces; eat tok "("; eat spaces; eat tok "or"; peg l <- many1 arm; eat tok ")"; eat spaces; yield (WOr Implicit l))
      (alt (eat spaces; eat tok "("; eat spaces; eat tok "not-join"; eat spaces; eat tok "["; peg vs <- rule_vars_rule; eat tok "]"; peg l <- many1 clause;
            eat tok ")"; eat spaces; yield (WNot (Explicit vs) l))
      (alt (eat spaces; eat tok "("; eat spaces; eat tok "not"; peg l <- many1 clause; eat tok ")"; eat spaces; yield (WNot Implicit l))
      (alt type_rule (alt pred_rule fn_rule))))))
  end.
Definition clauses_rule : parser (list where_clause) := fun s => many1 (where_rule (S (String.length s))) s.
(** lib.rs:498-504 query_part *)
Definition part_rule : parser query_part :=
  alt (eat spaces; eat tok ":find"; peg f <- find_rule; yield (PFind f))
  (alt (eat spaces; eat tok ":in"; peg l <- many1 variable_rule; yield (PIn l))
  (alt (eat spaces; eat tok ":limit"; peg l <- limit_rule; yield (PLimit l))
  (alt (eat spaces; eat tok ":order"; peg l <- many1 order_rule; yield (POrder l))
  (alt (eat spaces; eat tok ":where"; peg l <- clauses_rule; yield (PWhere l))
       (eat spaces; eat tok ":with"; peg l <- many1 variable_rule; yield (PWith l)))))).
(** lib.rs:506-507 parse_query, as called by parse_query of edn/src/lib.rs for the whole text *)
Definition query_rule : parser parsed_query :=
  eat spaces; eat tok "["; peg ps <- many1 part_rule; eat tok "]"; eat spaces; check (from_parts ps).
Inductive query_read := QueryRead (q : parsed_query) | QueryError | QueryPanic | QueryDeep.
Definition read_query (s : string) : query_read :=
  match query_rule s with
  | Got q "" => QueryRead q
  | Got _ _ => QueryError
  | No => QueryError
  | Boom => QueryPanic
  | Deep => QueryDeep
  end.
End grammar.

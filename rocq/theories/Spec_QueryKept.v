(** What can be relied on in a query that was read. *)
From Verif Require Import M_Edn M_QueryText Spec_QueryText.
Open Scope string_scope.
Open Scope Z_scope.

Definition some {A} (P : A -> Prop) (l : list A) : Prop := l <> [] /\ Forall P l.
Inductive whole_arg : fn_arg -> Prop :=
  | wg_variable v : variable v -> whole_arg (ArgVar v)
  | wg_source s : whole_arg (ArgSrc s)
  | wg_integer z : whole_arg (ArgInt z)
  | wg_keyword k : whole_arg (ArgKw k)
  | wg_constant c : constant c -> whole_arg (ArgConst c)
  | wg_vector l : l <> [] -> Forall whole_arg l -> whole_arg (ArgVec l).
Definition whole_place (x : non_value) : Prop := match x with NvVar v => variable v | NvEntid z => 0 <= z | _ => True end.
Definition whole_value (x : value_at) : Prop := match x with VaVar v => variable v | VaConst c => constant c | _ => True end.
Definition whole_pattern (p : qpattern) : Prop := whole_place (qp_e p) /\ whole_place (qp_a p) /\ whole_value (qp_v p) /\ whole_place (qp_tx p).
Definition whole_slot (o : option string) : Prop := match o with Some v => variable v | None => True end.
Definition whole_binding (b : binding) : Prop :=
  match b with BindScalar v | BindColl v => variable v | BindTuple l | BindRel l => some whole_slot l end.
Definition whole_unify (u : unify_vars) : Prop := match u with Implicit => True | Explicit us => some variable us /\ NoDup us end.
Inductive whole_clause : where_clause -> Prop :=
  | wc_pattern p : whole_pattern p -> whole_clause (WPattern p)
  | wc_or u l : whole_unify u -> l <> [] -> Forall whole_arm l -> whole_clause (WOr u l)
  | wc_not u l : whole_unify u -> l <> [] -> Forall whole_clause l -> whole_clause (WNot u l)
  | wc_type v t : variable v -> whole_clause (WType v t)
  | wc_pred f l : Forall whole_arg l -> whole_clause (WPred f l)
  | wc_fn f l b : Forall whole_arg l -> whole_binding b -> whole_clause (WFn f l b)
with whole_arm : or_clause -> Prop :=
  | wm_clause c : whole_clause c -> whole_arm (OClause c)
  | wm_and l : l <> [] -> Forall whole_clause l -> whole_arm (OAnd l).
Definition whole_pull (p : pull_attribute) : Prop :=
  match p with PullAll => True | PullAttr k None => whole_keyword k | PullAttr k (Some a) => whole_keyword k /\ ~ backward a end.
Definition whole_element (e : element) : Prop :=
  match e with ElVar v | ElThe v => variable v | ElPull v l => variable v /\ some whole_pull l | ElAggregate _ l => Forall whole_arg l end.
Definition whole_find (f : find_kind) : Prop :=
  match f with FindRel l | FindTuple l => some whole_element l | FindColl e | FindScalar e => whole_element e end.
Definition whole_limit (l : query_limit) : Prop := match l with Unlimited => True | FixedLimit z => 0 < z | VarLimit v => variable v end.
(** Variables begin with a question mark, numbers of entities are not negative, nothing that needs members is empty, the variables of a join
    are different, attributes to pull have a namespace, the limit is positive. *)
Definition whole_query (q : parsed_query) : Prop :=
  whole_find (pq_find q) /\ Forall variable (pq_with q) /\ Forall variable (pq_in q) /\ whole_limit (pq_limit q) /\ some whole_clause (pq_where q)
  /\ match pq_order q with Some l => some (fun o => variable o.2) l | None => True end.

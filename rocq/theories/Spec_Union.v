(** Vocabulary for the theorem about [or] clauses whose alternatives are conjunctions: those that become a table of their own. *)
From Verif Require Import M_Query Spec_Query.

Definition top_clauses (a : arm) : list clause := match a with AClause c => [c] | AAnd cs => cs end.
(** The pattern [p] says that the values of [x] have the type [t], or [x] is an input. *)
Definition gives_type (s : schema) (ins : list var) (p : pattern) (x : var) (t : value_type) : Prop := x ∈ pattern_vars p
  /\ (x ∈ ins \/ (x ∈ nplace_vars (p_e p) ++ nplace_vars (p_a p) ++ nplace_vars (p_tx p) -> t = VTRef)
                 /\ (p_v p = VVar x -> forall at_, attribute_of s p = Some at_ -> t = at_type at_)).
(** An alternative: a pattern with an attribute, or such patterns together with comparisons and negations *)
Definition plain_arm (a : arm) : Prop :=
  match a with
  | AClause (CPattern p) => named p
  | AAnd cs => Forall (fun c => match c with CPattern p => named p | CPred _ _ | CNot _ _ => True | _ => False end) cs
  | _ => False
  end.
(** At least two alternatives, one of them a conjunction; all their variables are shared with what is around the [or], and each has
    the same type in all of them, given by one of the patterns of each. *)
Definition branches (s : schema) (ins : list var) (vals : gmap var typed_value) (u : unify) (arms : list arm) : Prop :=
  (2 <= length arms)%nat /\ (exists cs, AAnd cs ∈ arms)
  /\ (forall x, x ∈ flat_map arm_vars arms -> x ∈ unified u (flat_map arm_vars arms))
  /\ (forall a, a ∈ arms -> plain_arm a /\ regular_arm s ins vals a)
  /\ exists T : var -> value_type, forall a x, a ∈ arms -> x ∈ flat_map arm_vars arms ->
       exists p, CPattern p ∈ top_clauses a /\ gives_type s ins p x (T x).
Definition branched (s : schema) (ins : list var) (vals : gmap var typed_value) (c : clause) : Prop :=
  regular s ins vals c \/ exists u arms, c = COr u arms /\ branches s ins vals u arms.
(** Something is asked for that is not an input. *)
Definition open_find (q : query) : Prop := exists x, x ∈ find_vars (q_find q) /\ x ∉ q_in q.

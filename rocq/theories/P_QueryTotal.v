(** The bounds in the model of the query grammar are never reached. *)
From Verif Require Import M_QueryText Spec_TxText M_TxText M_Upsert M_Entity P_EdnNum P_Edn P_EdnTotal P_TxTotal.
Open Scope string_scope.
Open Scope Z_scope.

Section total.
Context (float_of : string -> dbl).
Lemma b_less {A} N M k (p : parser A) : behaves N k p -> (M <= N)%nat -> behaves M k p.
Proof using Type. intros H L s Hs. apply H. lia. Qed.
Lemma b_many1 {A} N (p : parser A) : behaves N 1 p -> behaves N 1 (many1 p).
Proof using Type.
  intros H s Hs. unfold many1.
  assert (K : behaves (String.length s) (1 + (0 + 0)) (peg x <- p; peg l <- many p (S (String.length s)); yield (x :: l))).
  { apply b_follow; [by eapply b_less|]. intros L x. apply b_follow; [|intros; apply b_yield]. apply (b_many _ 0); [eapply b_less; [exact H|lia]|lia]. }
  exact (K s (le_n _)).
Qed.
Lemma b_many0 {A} N (p : parser A) : behaves N 1 p -> behaves N 0 (many0 p).
Proof using Type. intros H s Hs. unfold many0. refine (b_many (String.length s) 0 p _ _ _ s (le_n _)); [by eapply b_less|lia]. Qed.
Lemma b_optional {A} N (p : parser A) k : behaves N k p -> behaves N 0 (optional p).
Proof using Type. intros H. eapply b_weaken; [unfold optional; eapply b_alt; [eapply b_follow; [exact H|intros ? ?; apply b_yield]|apply b_yield]|lia]. Qed.
Lemma b_valued {A} N (f : edn -> option A) : behaves N 1 (valued float_of f).
Proof using Type. eapply b_weaken; [unfold valued; eapply b_follow; [apply b_any_value|intros ? ?; apply b_check]|lia]. Qed.
Lemma b_variable N : behaves N 1 (variable_rule float_of).
Proof using Type. unfold variable_rule. apply b_valued. Qed.
Lemma b_raw_keyword N : behaves N 1 raw_keyword_rule.
Proof using Type.
  eapply b_weaken; [unfold raw_keyword_rule; eapply b_follow; [apply (b_tok _ ":")|intros ? ?]; eapply b_follow; [apply b_prefix|intros ? ?];
    eapply b_follow; [apply b_name|intros ? ?]; apply b_yield|cbn; lia].
Qed.
Lemma b_forward_keyword N : behaves N 1 forward_keyword_rule.
Proof using Type. eapply b_weaken; [unfold forward_keyword_rule; eapply b_follow; [apply b_raw_keyword|intros ? ?; apply b_check]|lia]. Qed.
Lemma b_forward N : behaves N 1 forward_rule.
Proof using Type. eapply b_weaken; [unfold forward_rule; eapply b_follow; [apply b_namespaced|intros ? ?; apply b_check]|lia]. Qed.
Lemma b_query_function N : behaves N 1 function_rule.
Proof using Type.
  eapply b_weaken; [unfold function_rule; repeat first [apply b_name | apply b_spaces | apply b_yield | (eapply b_follow; [|intros ? ?])]|cbn; lia].
Qed.
Lemma b_arg n N : (N < n)%nat -> behaves N 1 (arg_rule float_of n).
Proof using Type.
  revert N. induction n as [|n IH]; intros N L; [lia|]. cbn [arg_rule]. eapply b_weaken.
  - eapply b_alt; [apply b_valued|]. eapply b_follow; [apply b_spaces|intros ? ?]. eapply b_follow; [apply (b_tok _ "[")|intros ? ?].
    eapply b_follow; [apply b_many1, IH; cbn in *; lia|intros ? ?]. behave.
  - cbn. lia.
Qed.
Lemma b_args N : behaves N 0 (args_rule float_of).
Proof using Type. intros s Hs. unfold args_rule. refine (b_many0 (String.length s) _ _ s (le_n _)). apply b_arg. lia. Qed.
Ltac step := repeat first [apply b_variable | apply b_valued | apply b_query_function | apply b_args | apply b_forward_keyword | apply b_forward | apply b_raw_keyword
  | apply b_tok | apply b_spaces | apply b_yield | apply b_check | (eapply b_alt) | (eapply b_follow; [|intros ? ?]) | (eapply b_optional)].
Lemma b_pull N : behaves N 1 pull_rule.
Proof using Type. eapply b_weaken; [unfold pull_rule; step|cbn; lia]. Qed.
Lemma b_element N : behaves N 1 (element_rule float_of).
Proof using Type. eapply b_weaken; [unfold element_rule; step; apply b_many1, b_pull|cbn; lia]. Qed.
Lemma b_find N : behaves N 1 (find_rule float_of).
Proof using Type.
  eapply b_weaken; [unfold find_rule; repeat first [apply b_element | (apply b_many1, b_element) | apply b_tok | apply b_spaces | apply b_yield | (eapply b_alt) | (eapply b_follow; [|intros ? ?])]|cbn; lia].
Qed.
Lemma b_limit N : behaves N 1 (limit_rule float_of).
Proof using Type.
  eapply b_weaken; [unfold limit_rule, based_rule, hex_rule, octal_rule, integer_rule, validbase, maybe; eapply b_alt; [step|behave]|cbn; lia].
Qed.
Lemma b_order N : behaves N 1 (order_rule float_of).
Proof using Type. eapply b_weaken; [unfold order_rule; step|cbn; lia]. Qed.
Lemma b_new N s e a v tx : behaves N 0 (new_pattern s e a v tx).
Proof using Type.
  unfold new_pattern. destruct a as [| | |k]; try apply b_yield. destruct (kw_is_backward k); [|apply b_yield]. destruct (as_non_value v); [|apply b_check].
  apply (b_follow _ 0 0); [apply b_unwrap|intros; apply b_yield].
Qed.
Lemma b_pattern N : behaves N 1 (pattern_rule float_of).
Proof using Type. eapply b_weaken; [unfold pattern_rule; step; apply b_new|cbn; lia]. Qed.
Lemma b_rule_vars N : behaves N 1 (rule_vars_rule float_of).
Proof using Type. eapply b_weaken; [unfold rule_vars_rule; step; apply b_many1, b_variable|cbn; lia]. Qed.
Lemma b_bound_place N : behaves N 1 (place_rule float_of).
Proof using Type. eapply b_weaken; [unfold place_rule; step|cbn; lia]. Qed.
Lemma b_binding N : behaves N 1 (binding_rule float_of).
Proof using Type. eapply b_weaken; [unfold binding_rule; step; apply b_many1, b_bound_place|cbn; lia]. Qed.
Lemma b_where n N : (N < n)%nat -> behaves N 1 (where_rule float_of n).
Proof using Type.
  revert N. induction n as [|n IH]; intros N L; [lia|]. cbn [where_rule]. cbv zeta. unfold type_rule, pred_rule, fn_rule.
  assert (Arm : forall M, (M < n)%nat -> behaves M 1 (alt (peg c <- where_rule float_of n; yield (OClause c))
    (eat spaces; eat tok "("; eat spaces; eat tok "and"; peg l <- many1 (where_rule float_of n); eat tok ")"; eat spaces; yield (OAnd l)))).
  { intros M LM. eapply b_weaken.
    - repeat first [(apply IH; cbn in *; lia) | (apply b_many1, IH; cbn in *; lia) | apply b_tok | apply b_spaces | apply b_yield | (eapply b_alt) | (eapply b_follow; [|intros ? ?])].
    - cbn. lia. }
  eapply b_weaken.
  - repeat first [apply b_pattern | apply b_rule_vars | apply b_binding | apply b_variable | apply b_query_function | apply b_args | apply b_raw_keyword
      | (apply b_many1, IH; cbn in *; lia) | (apply b_many1, Arm; cbn in *; lia) | apply b_tok | apply b_spaces | apply b_yield | (eapply b_alt) | (eapply b_follow; [|intros ? ?])].
  - cbn. lia.
Qed.
Lemma b_clauses N : behaves N 1 (clauses_rule float_of).
Proof using Type. intros s Hs. unfold clauses_rule. refine (b_many1 (String.length s) _ _ s (le_n _)). apply b_where. lia. Qed.
Lemma b_part N : behaves N 1 (part_rule float_of).
Proof using Type.
  eapply b_weaken; [unfold part_rule; repeat first [apply b_find | apply b_limit | apply b_clauses | (apply b_many1, b_variable) | (apply b_many1, b_order)
    | apply b_tok | apply b_spaces | apply b_yield | (eapply b_alt) | (eapply b_follow; [|intros ? ?])]|cbn; lia].
Qed.
Theorem query_never_deep s : read_query float_of s <> QueryDeep.
Proof using Type.
  assert (K : behaves (String.length s) 0 (query_rule float_of)).
  { eapply b_weaken; [unfold query_rule; repeat first [(apply b_many1, b_part) | apply b_tok | apply b_spaces | apply b_check | (eapply b_follow; [|intros ? ?])]|lia]. }
  unfold read_query. destruct (K s (le_n _)) as [K1 _]. destruct (query_rule float_of s) as [q [|]| | |]; done.
Qed.
End total.

(** What every text that is read as a query gives. *)
From Verif Require Import M_Base M_Value M_Upsert M_Entity Spec_Edn P_EdnNum P_Edn P_EdnOrd P_EdnParsed P_TxText P_TxKept Spec_QueryText Spec_QueryKept.
Open Scope string_scope.
Open Scope Z_scope.

Section kept.
Context (float_of : string -> dbl).
Lemma g_many1 {A} (P : A -> Prop) p : gives P p -> gives (some P) (many1 p).
Proof using Type.
  intros H s l r E. unfold many1 in E. revert s l r E. 
  assert (K : forall m, gives (some P) (peg x <- p; peg l <- many p m; yield (x :: l))).
  { intros m. eapply g_follow; [exact H|]. intros x Hx. eapply g_follow; [apply g_many; exact H|]. intros l Hl. apply g_yield. split; [done|by constructor]. }
  intros s l r E. by eapply (K (S (String.length s))).
Qed.
Lemma g_many0 {A} (P : A -> Prop) p : gives P p -> gives (Forall P) (many0 p).
Proof using Type. intros H s l r E. unfold many0 in E. by eapply (g_many P p (S (String.length s)) H). Qed.
Lemma g_optional {A} (P : A -> Prop) p : gives P p -> gives (fun o => match o with Some a => P a | None => True end) (optional p).
Proof using Type. intros H. unfold optional. apply g_alt; [|by apply g_yield]. eapply g_follow; [exact H|]. intros a Ha. by apply g_yield. Qed.
Lemma g_valued {A} (P : A -> Prop) (f : edn -> option A) : (forall v a, f v = Some a -> P a) -> gives P (valued float_of f).
Proof using Type. intros H. unfold valued. skip1. apply g_check. apply H. Qed.
Lemma variable_of_ok v x : variable_of v = Some x -> variable x.
Proof using Type. destruct v; try done. cbn. unfold variable. destruct (String.prefix _ _) eqn:E; [|done]. by intros [= <-]. Qed.
Lemma g_variable : gives variable (variable_rule float_of).
Proof using Type. unfold variable_rule. apply g_valued, variable_of_ok. Qed.
Lemma arg_of_ok v x : arg_of v = Some x -> whole_arg x.
Proof using Type.
  destruct v as [| | | | | | | |s| | | | | |]; cbn [arg_of]; try done; try (intros [= <-]; by constructor).
  destruct (String.prefix "$" s); [destruct (src_of_symbol s); [|done]; intros [= <-]; constructor|].
  destruct (variable_of (EPlainSym s)) as [y|] eqn:E; [|done]. intros [= <-]. constructor. by eapply variable_of_ok.
Qed.
Lemma g_arg n : gives whole_arg (arg_rule float_of n).
Proof using Type.
  induction n as [|n IH]; [done|]. cbn [arg_rule]. apply g_alt; [apply g_valued, arg_of_ok|]. do 2 skip1. keep (g_many1 _ _ IH). do 2 skip1.
  apply g_yield. destruct H. by constructor.
Qed.
Lemma g_args : gives (Forall whole_arg) (args_rule float_of).
Proof using Type. intros s l r E. unfold args_rule in E. by eapply (g_many0 _ _ (g_arg (S (String.length s)))). Qed.
Lemma not_backward' k : kw_is_backward k = false -> ~ backward k.
Proof using Type.
  unfold backward, kw_is_backward. destruct (kw_name k) as [|c n]; [done|]. cbn [String.prefix starts_underscore]. intros H.
  destruct (Ascii.eqb_spec c "_") as [-> | Hc]; [done|]. destruct (ascii_dec "_" c); [congruence|done].
Qed.
Lemma g_forward : gives whole_keyword forward_rule.
Proof using Type.
  unfold forward_rule. eapply (g_follow (fun k => kw_ns k <> None)).
  - unfold namespaced_rule. do 4 skip1. by apply g_yield.
  - intros k Hk. apply g_check. intros a E. destruct (kw_is_backward k) eqn:B; [done|]. injection E as <-. split; [done|by apply not_backward'].
Qed.
Lemma g_forward_keyword : gives (fun k => ~ backward k) forward_keyword_rule.
Proof using Type. unfold forward_keyword_rule. skip1. apply g_check. intros k E. destruct (kw_is_backward _) eqn:B; [done|]. injection E as <-. by apply not_backward'. Qed.
Lemma g_pull : gives whole_pull pull_rule.
Proof using Type.
  unfold pull_rule. apply g_alt; [do 3 skip1; by apply g_yield|]. skip1. keep g_forward. skip1.
  eapply g_follow.
  { apply (g_optional (fun k => ~ backward k)). do 2 skip1. keep g_forward_keyword. skip1. by apply g_yield. }
  intros [a'|] Ha; by apply g_yield.
Qed.
Lemma g_element : gives whole_element (element_rule float_of).
Proof using Type.
  unfold element_rule. apply g_alt; [skip1; keep g_variable; skip1; by apply g_yield|]. apply g_alt; [do 4 skip1; keep g_variable; do 2 skip1; by apply g_yield|].
  apply g_alt; [do 4 skip1; keep g_variable; skip1; keep (g_many1 _ _ g_pull); do 4 skip1; by apply g_yield|]. do 3 skip1. keep g_args. do 2 skip1. by apply g_yield.
Qed.
Lemma g_find : gives whole_find (find_rule float_of).
Proof using Type.
  unfold find_rule. apply g_alt; [keep g_element; do 2 skip1; by apply g_yield|]. apply g_alt; [keep (g_many1 _ _ g_element); by apply g_yield|].
  apply g_alt; [do 2 skip1; keep g_element; do 5 skip1; by apply g_yield|]. do 2 skip1. keep (g_many1 _ _ g_element). do 2 skip1. by apply g_yield.
Qed.
Lemma g_limit : gives whole_limit (limit_rule float_of).
Proof using Type.
  unfold limit_rule. apply g_alt; [skip1; keep g_variable; skip1; by apply g_yield|]. do 3 skip1. apply g_check. intros l E.
  match type of E with match ?x with _ => _ end = _ => destruct x; try done end. destruct (Z.ltb_spec 0 z); [|done]. by injection E as <-.
Qed.
Lemma g_order : gives (fun o : qdirection * string => variable o.2) (order_rule float_of).
Proof using Type.
  unfold order_rule. do 2 (apply g_alt; [do 4 skip1; keep g_variable; do 2 skip1; by apply g_yield|]). keep g_variable. by apply g_yield.
Qed.
Lemma g_non_value : gives whole_place (valued float_of non_value_of).
Proof using Type.
  apply g_valued. intros v x. destruct v as [| |z| | | | | |s| | | | | |]; cbn [non_value_of]; try done; [|destruct (String.eqb s "_")|]; try (by intros [= <-]).
  - destruct (Z.leb_spec 0 z); [|done]. by intros [= <-].
  - destruct (variable_of (EPlainSym s)) eqn:E; [|done]. intros [= <-]. by eapply variable_of_ok.
Qed.
Lemma g_value : gives whole_value (valued float_of value_at_of).
Proof using Type.
  apply g_valued. intros v x. destruct v as [| |z| | | | | |s| |[[ns|] n]| | | |]; cbn [value_at_of]; try done; try (by intros [= <-]).
  destruct (String.eqb s "_"); [by intros [= <-]|]. destruct (variable_of (EPlainSym s)) eqn:E; [|done]. intros [= <-]. by eapply variable_of_ok.
Qed.
Lemma g_new s e a v tx : whole_place e -> whole_place a -> whole_value v -> whole_place tx -> gives whole_pattern (new_pattern s e a v tx).
Proof using Type.
  intros E A V T. unfold new_pattern. destruct a as [| | |k]; try by apply g_yield. destruct (kw_is_backward k); [|by apply g_yield].
  destruct (as_non_value v) as [e'|] eqn:Ev; [|by apply g_check]. skip1. apply g_yield. split_and!; cbn; try done.
  - destruct v as [| |z| |]; cbn in *; try done; try (by injection Ev as <-). destruct (Z.leb_spec 0 z); [|done]. by injection Ev as <-.
  - by destruct e.
Qed.
Lemma g_pattern : gives whole_pattern (pattern_rule float_of).
Proof using Type.
  unfold pattern_rule. do 3 skip1. keep g_non_value. keep g_non_value. eapply g_follow; [apply (g_optional _ _ g_value)|]. intros v Hv.
  eapply g_follow; [apply (g_optional _ _ g_non_value)|]. intros tx Ht. do 2 skip1. apply g_new; try done; [by destruct v|by destruct tx].
Qed.
Lemma g_rule_vars : gives (fun us => whole_unify (Explicit us)) (rule_vars_rule float_of).
Proof using Type. unfold rule_vars_rule. keep (g_many1 _ _ g_variable). apply g_check. intros l E. destruct (decide _); [|done]. by injection E as <-. Qed.
Lemma g_slot : gives whole_slot (place_rule float_of).
Proof using Type. unfold place_rule. apply g_alt; [keep g_variable; by apply g_yield|]. do 3 skip1. by apply g_yield. Qed.
Lemma g_binding : gives whole_binding (binding_rule float_of).
Proof using Type.
  unfold binding_rule. apply g_alt; [do 4 skip1; keep (g_many1 _ _ g_slot); do 4 skip1; by apply g_yield|].
  apply g_alt; [do 2 skip1; keep g_variable; do 4 skip1; by apply g_yield|]. apply g_alt; [do 2 skip1; keep (g_many1 _ _ g_slot); do 2 skip1; by apply g_yield|].
  keep g_variable. by apply g_yield.
Qed.
Lemma g_where n : gives whole_clause (where_rule float_of n).
Proof using Type.
  induction n as [|n IH]; [done|]. cbn [where_rule]. cbv zeta.
  assert (Arm : gives whole_arm (alt (peg c <- where_rule float_of n; yield (OClause c))
    (eat spaces; eat tok "("; eat spaces; eat tok "and"; peg l <- many1 (where_rule float_of n); eat tok ")"; eat spaces; yield (OAnd l)))).
  { apply g_alt; [keep IH; apply g_yield; by constructor|]. do 4 skip1. keep (g_many1 _ _ IH). do 2 skip1. apply g_yield. destruct H. by constructor. }
  apply g_alt; [keep g_pattern; apply g_yield; by constructor|].
  apply g_alt; [do 6 skip1; keep g_rule_vars; skip1; keep (g_many1 _ _ Arm); do 2 skip1; apply g_yield; destruct H0; by constructor|].
  apply g_alt; [do 4 skip1; keep (g_many1 _ _ Arm); do 2 skip1; apply g_yield; destruct H; by constructor|].
  apply g_alt; [do 6 skip1; keep g_rule_vars; skip1; keep (g_many1 _ _ IH); do 2 skip1; apply g_yield; destruct H0; by constructor|].
  apply g_alt; [do 4 skip1; keep (g_many1 _ _ IH); do 2 skip1; apply g_yield; destruct H; by constructor|].
  apply g_alt; [unfold type_rule; do 6 skip1; keep g_variable; do 7 skip1; apply g_yield; by constructor|].
  apply g_alt; [unfold pred_rule; do 5 skip1; keep g_args; do 4 skip1; apply g_yield; by constructor|].
  unfold fn_rule; do 5 skip1; keep g_args; do 2 skip1; keep g_binding; do 2 skip1; apply g_yield; by constructor.
Qed.
Lemma g_clauses : gives (some whole_clause) (clauses_rule float_of).
Proof using Type. intros s l r E. unfold clauses_rule in E. by eapply (g_many1 _ _ (g_where (S (String.length s)))). Qed.
Definition whole_part (p : query_part) : Prop :=
  match p with
  | PFind f => whole_find f | PWith l | PIn l => Forall variable l | PLimit l => whole_limit l | PWhere l => some whole_clause l
  | POrder l => some (fun o => variable o.2) l
  end.
Lemma g_part : gives whole_part (part_rule float_of).
Proof using Type.
  unfold part_rule. apply g_alt; [do 2 skip1; keep g_find; by apply g_yield|]. apply g_alt; [do 2 skip1; keep (g_many1 _ _ g_variable); apply g_yield; by destruct H|].
  apply g_alt; [do 2 skip1; keep g_limit; by apply g_yield|]. apply g_alt; [do 2 skip1; keep (g_many1 _ _ g_order); by apply g_yield|].
  apply g_alt; [do 2 skip1; keep g_clauses; by apply g_yield|]. do 2 skip1. keep (g_many1 _ _ g_variable). apply g_yield. by destruct H.
Qed.
Definition opt {A} (P : A -> Prop) (o : option A) : Prop := match o with Some a => P a | None => True end.
Definition whole_slots (s : slots) : Prop := opt whole_find (s_find s) /\ opt (Forall variable) (s_with s) /\ opt (Forall variable) (s_in s)
  /\ opt whole_limit (s_limit s) /\ opt (some whole_clause) (s_where s) /\ opt (some (fun o => variable o.2)) (s_order s).
Lemma filled ps : Forall whole_part ps -> forall o, opt whole_slots o -> opt whole_slots (foldl fill o ps).
Proof using Type.
  induction 1 as [|p ps H _ IH]; intros o O; [done|]. cbn [foldl]. apply IH. destruct o as [[f w i l c r]|]; [|done]. destruct O as (Of & Ow & Oi & Ol & Oc & Oo). cbn in *.
  destruct p; cbn in *; match goal with |- opt _ (match ?x with _ => _ end) => destruct x end; try done; split_and!; done.
Qed.
Theorem query_kept s q : read_query float_of s = QueryRead q -> whole_query q.
Proof using Type.
  assert (K : gives whole_query (query_rule float_of)).
  { unfold query_rule. do 2 skip1. keep (g_many1 _ _ g_part). do 2 skip1. apply g_check. intros q' E. unfold from_parts in E.
    pose proof (filled _ (proj2 H) (Some (Slots None None None None None None)) ltac:(by split_and!)) as F.
    destruct (foldl _ _ _) as [[[f|] w i l [c|] r]|]; try done. injection E as <-. destruct F as (Of & Ow & Oi & Ol & Oc & Oo). cbn in *.
    split; [exact Of|]. split; [destruct w; [exact Ow|constructor]|]. split; [destruct i; [exact Oi|constructor]|].
    split; [destruct l; [exact Ol|exact Logic.I]|]. split; [exact Oc|exact Oo]. }
  unfold read_query. destruct (query_rule float_of s) as [q' [|]| | |] eqn:E; try done. intros [= <-]. by eapply K.
Qed.
End kept.

(** The bounds in the model of the transaction grammar are never reached. *)
From Verif Require Import Spec_TxText M_TxText M_Upsert M_Entity P_EdnNum P_Edn P_EdnTotal.
Open Scope string_scope.
Open Scope Z_scope.

Section total.
Context (float_of : string -> dbl).
Lemma b_namespaced N : behaves N 1 namespaced_rule.
Proof using Type.
  eapply b_weaken; [unfold namespaced_rule; eapply b_follow; [apply (b_tok _ ":")|intros ? ?]; eapply b_follow; [apply b_namespace|intros ? ?];
    eapply b_follow; [apply (b_tok _ "/")|intros ? ?]; eapply b_follow; [apply b_name|intros ? ?]; apply b_yield|cbn; lia].
Qed.
Lemma b_raw_integer N : behaves N 1 raw_integer_rule.
Proof using Type.
  eapply b_weaken; [unfold raw_integer_rule, based_rule, hex_rule, octal_rule, integer_rule, validbase, maybe; behave|cbn; lia].
Qed.
Lemma b_entid N : behaves N 1 entid_rule.
Proof using Type.
  eapply b_weaken; [unfold entid_rule; eapply b_alt; (eapply b_follow; [apply b_raw_integer || apply b_namespaced|intros ? ?]); apply b_yield|cbn; lia].
Qed.
Lemma b_forward_entid N : behaves N 1 forward_entid_rule.
Proof using Type.
  eapply b_weaken; [unfold forward_entid_rule, forward_rule; eapply b_alt; (eapply b_follow; [apply b_raw_integer || (eapply b_follow; [apply b_namespaced|intros ? ?; apply b_check])|intros ? ?]); apply b_yield|cbn; lia].
Qed.
Lemma b_backward_entid N : behaves N 1 backward_entid_rule.
Proof using Type.
  eapply b_weaken; [unfold backward_entid_rule, backward_rule; eapply b_follow; [eapply b_follow; [apply b_namespaced|intros ? ?; apply b_check]|intros ? ?]; behave|cbn; lia].
Qed.
Lemma b_any_value N : behaves N 1 (any_value_rule float_of).
Proof using Type. intros s Hs. unfold any_value_rule. exact (b_value float_of (String.length s) s (le_n _)). Qed.
Lemma b_lookup N : behaves N 1 (lookup_rule float_of).
Proof using Type.
  eapply b_weaken; [unfold lookup_rule; repeat first [apply b_entid | apply b_any_value | apply b_tok | apply b_spaces | apply b_yield | (eapply b_follow; [|intros ? ?])]|cbn; lia].
Qed.
Lemma b_function N : behaves N 1 tx_function_rule.
Proof using Type.
  eapply b_weaken; [unfold tx_function_rule; repeat first [apply b_name | apply b_tok | apply b_spaces | apply b_yield | (eapply b_follow; [|intros ? ?])]|cbn; lia].
Qed.
Lemma b_atom N : behaves N 1 (atom_rule float_of).
Proof using Type. eapply b_weaken; [unfold atom_rule; eapply b_follow; [apply b_any_value|intros ? ?; apply b_check]|lia]. Qed.
Lemma b_entity_place N : behaves N 1 (entity_place_rule float_of).
Proof using Type.
  eapply b_weaken; [unfold entity_place_rule; repeat first [apply b_entid | apply b_lookup | apply b_function | apply b_text | apply b_tok | apply b_yield | (eapply b_alt) | (eapply b_follow; [|intros ? ?])]|cbn; lia].
Qed.
Lemma b_map_notation N p : ((1 <= N)%nat -> behaves (N - 1) 1 p) -> behaves N 1 (map_notation_rule p).
Proof using Type.
  intros H s Hs. unfold map_notation_rule.
  assert (K : behaves (String.length s) (1 + (0 + (0 + (0 + (1 + 0)))))
    (eat tok "{"; eat spaces; peg l <- many (peg k <- entid_rule; eat spaces; peg v <- p; yield (k, v)) (S (String.length s));
     eat spaces; eat tok "}"; yield (pairs_from l))).
  { apply b_follow; [apply (b_tok _ "{")|]. intros L1 _. apply b_follow; [apply b_spaces|]. intros _ _. apply b_follow.
    - apply (b_many _ 1); [|lia]. change 2%nat with (1 + (0 + (1 + 0)))%nat. apply b_follow; [apply b_entid|]. intros L2 k. apply b_follow; [apply b_spaces|].
      intros _ _. apply b_follow; [|intros; apply b_yield]. intros t Ht. apply H; lia.
    - intros _ l. apply b_follow; [apply b_spaces|]. intros _ _. apply b_follow; [apply (b_tok _ "}")|]. intros _ _. apply b_yield. }
  destruct (K s (le_n _)) as [K1 K2]. split; [done|]. intros a r E. apply K2 in E. lia.
Qed.
Lemma b_place n N : (N < n)%nat -> behaves N 1 (value_place_rule float_of n).
Proof using Type.
  revert N. induction n as [|n IH]; intros N L; [lia|]. cbn [value_place_rule].
  assert (Item : (1 <= N)%nat -> behaves (N - 1) 1 (value_place_rule float_of n)) by (intros; apply IH; lia).
  eapply b_weaken.
  - eapply b_alt; [eapply b_follow; [apply b_spaces|intros ? ?]; eapply b_follow; [apply b_lookup|intros ? ?]; behave|].
    eapply b_alt; [eapply b_follow; [apply b_spaces|intros ? ?]; eapply b_follow; [apply b_function|intros ? ?]; behave|].
    eapply b_alt.
    { eapply b_follow; [apply b_spaces|intros ? ?]. eapply b_follow; [apply (b_tok _ "[")|intros ? ?]. eapply b_follow; [apply b_spaces|intros ? ?].
      match goal with |- behaves ?X _ _ => assert (B : forall M, (M <= X)%nat -> behaves M (0 + (0 + (1 + (0 + 0)))) (peg l <- many (value_place_rule float_of n) (S M);
            eat spaces; eat tok "]"; eat spaces; yield (VPVector l))) end.
      { intros M LM. apply b_follow; [apply (b_many _ 0); [|lia]|intros ? ?; behave]. intros t Ht. apply Item; cbn in *; lia. }
      intros s Hs. exact (B (String.length s) Hs s (le_n _)). }
    eapply b_alt; [eapply b_follow; [apply b_spaces|intros ? ?]; eapply b_follow; [apply b_map_notation|intros ? ?; behave]|].
    { intros LL t Ht. apply Item; cbn in *; lia. }
    eapply b_follow; [apply b_spaces|intros ? ?]; eapply b_follow; [apply b_atom|intros ? ?]; behave.
  - cbn. lia.
Qed.
Lemma b_entity N : behaves N 1 (entity_rule float_of).
Proof using Type.
  intros s Hs. unfold entity_rule. cbv zeta. set (p := value_place_rule float_of (S (String.length s))).
  assert (Bp : forall M, (M <= String.length s)%nat -> behaves M 1 p) by (intros; apply b_place; lia). clearbody p.
  match goal with |- ?q s <> _ /\ _ => assert (K : behaves (String.length s) 1 q) end.
  { eapply b_weaken.
    - unfold op_rule. eapply b_alt; [|eapply b_alt];
      repeat first [apply b_entity_place | apply b_forward_entid | apply b_backward_entid | apply b_map_notation
        | (apply Bp; cbn in *; lia) | apply b_tok | apply b_spaces | apply b_yield | (eapply b_alt) | (eapply b_follow; [|intros ? ?])].
      all: try (intros; apply Bp; cbn in *; lia).
    - cbn. lia. }
  exact (K s (le_n _)).
Qed.
Theorem never_deep s : read_entities float_of s <> TxParseDeep.
Proof using Type.
  unfold read_entities, entities_rule.
  assert (K : behaves (String.length s) 0 (eat spaces; eat tok "["; eat spaces; peg l <- many (entity_rule float_of) (S (String.length s));
    eat spaces; eat tok "]"; eat spaces; yield l)).
  { eapply b_weaken; [|apply le_0_n]. eapply b_follow; [apply b_spaces|intros ? ?]. eapply b_follow; [apply b_tok|intros ? ?].
    eapply b_follow; [apply b_spaces|intros ? ?]. eapply b_follow; [apply (b_many _ 0); [apply b_entity|cbn; lia]|intros ? ?]. behave. }
  destruct (K s (le_n _)) as [K1 _]. revert K1. match goal with |- ?x <> _ -> _ => destruct x as [l [|]| | |] end; done.
Qed.
End total.

(** The bounds in the model of the parser are never reached; which texts are values alone. *)
From Coq Require Import Decimal DecimalString DecimalZ Sorted.
From Verif Require P_Sql.
From Verif Require Import Spec_Edn P_EdnNum P_Edn P_EdnOrd P_EdnRound P_EdnParsed.
Open Scope string_scope.
Open Scope Z_scope.
Local Arguments String.append !s1 s2 : simpl nomatch.

(* ------------------------------------------------------------- the bounds *)

(** on texts of at most [N] characters the parser answers, and takes at least [k] characters *)
Definition behaves {A} (N k : nat) (p : parser A) : Prop := forall s, (String.length s <= N)%nat ->
  p s <> Deep /\ forall a r, p s = Got a r -> (String.length r + k <= String.length s)%nat.
Lemma b_weaken {A} N k k' (p : parser A) : behaves N k p -> (k' <= k)%nat -> behaves N k' p.
Proof. intros H L s Hs. destruct (H s Hs) as [H1 H2]. split; [done|]. intros a r E. apply H2 in E. lia. Qed.
Lemma b_follow {A B} N k j (p : parser A) (q : A -> parser B) : behaves N k p ->
  ((k <= N)%nat -> forall a, behaves (N - k) j (q a)) -> behaves N (k + j) (follow p q).
Proof.
  intros H K s Hs. destruct (H s Hs) as [H1 H2]. unfold follow. destruct (p s) as [a r| | |]; try done.
  specialize (H2 a r eq_refl). destruct (K ltac:(lia) a r) as [K1 K2]; [lia|]. split; [done|]. intros b r' E. apply K2 in E. lia.
Qed.
Lemma b_alt {A} N k j (p q : parser A) : behaves N k p -> behaves N j q -> behaves N (Nat.min k j) (alt p q).
Proof.
  intros H K s Hs. destruct (H s Hs) as [H1 H2], (K s Hs) as [K1 K2]. unfold alt. destruct (p s) as [a r| | |]; try done.
  - split; [done|]. intros b r' E. apply H2 in E. lia.
  - split; [done|]. intros b r' E. apply K2 in E. lia.
Qed.
Lemma b_yield {A} N (a : A) : behaves N 0 (yield a).
Proof. split; [done|]. intros b r [= <- <-]. lia. Qed.
Lemma b_unwrap {A} N (o : option A) : behaves N 0 (unwrap o).
Proof. unfold unwrap. split; destruct o; try done. intros b r [= <- <-]. lia. Qed.
Lemma b_check {A} N (o : option A) : behaves N 0 (check o).
Proof. unfold check. split; destruct o; try done. intros b r [= <- <-]. lia. Qed.
Lemma b_not_next N p : behaves N 0 (not_next p).
Proof. intros [|c s] _; cbn; [|destruct (p c)]; split; try done; intros b r [= <- <-]; cbn; lia. Qed.
Lemma b_tok N t : behaves N (String.length t) (tok t).
Proof.
  intros s _. split; [apply calm_tok|]. intros a r H%tok_inv. subst. rewrite length_app_str. lia.
Qed.
Lemma b_one N p : behaves N 1 (one p).
Proof. intros s _. split; [apply calm_one|]. intros a r (c & _ & -> & _)%one_inv. cbn. lia. Qed.
Lemma b_run N p : behaves N 0 (run p).
Proof. intros s _. split; [apply calm_run|]. intros a r (-> & _)%run_inv. rewrite length_app_str. lia. Qed.
Lemma b_run1 N p : behaves N 1 (run1 p).
Proof. intros s _. split; [apply calm_run1|]. intros a r (-> & _ & _ & H)%run1_inv. rewrite length_app_str. destruct a; [done|]. cbn. lia. Qed.
Lemma b_times N n p : behaves N n (times n p).
Proof.
  revert N. induction n as [|n IH]; intros N; cbn [times]; [apply b_yield|]. change (S n) with (1 + n)%nat. apply b_follow; [apply b_one|].
  intros _ a. rewrite <- (Nat.add_0_r n) at 1. apply b_follow; [apply IH|]. intros _ b. apply b_yield.
Qed.
Lemma skip_length b s : (String.length (skip b s) <= String.length s)%nat.
Proof.
  revert b. induction s as [|c s IH]; intros b; cbn; [lia|]. destruct b; [|destruct (is_space c); [|destruct (Ascii.eqb c ";")]];
    repeat match goal with |- context [skip ?x s] => pose proof (IH x); generalize dependent (skip x s); intros end; cbn; lia.
Qed.
Lemma b_spaces N : behaves N 0 spaces.
Proof. intros s _. unfold spaces. split; [done|]. intros a r [= <- <-]. pose proof (skip_length false s). lia. Qed.
Lemma b_text N : behaves N 1 text_chars.
Proof.
  intros s _. remember (String.length s) as n eqn:Hn. revert s Hn. induction (lt_wf n) as [n _ IH]. intros [|c s] ->; cbn [text_chars]; [done|].
  destruct (Ascii.eqb c """"); [split; [done|]; intros a r [= <- <-]; cbn; lia|].
  destruct (Ascii.eqb c "\").
  - destruct s as [|e s]; [done|]. destruct (_ || _ || _ || _ || _)%bool; [|done].
    destruct (IH (String.length s)) with (s := s) as [H1 H2]; [cbn; lia|done|].
    destruct (text_chars s) as [t r| | |]; try done. split; [done|]. intros a r' [= <- <-]. specialize (H2 _ _ eq_refl). cbn. lia.
  - destruct (IH (String.length s)) with (s := s) as [H1 H2]; [cbn; lia|done|].
    destruct (text_chars s) as [t r| | |]; try done. split; [done|]. intros a r' [= <- <-]. specialize (H2 _ _ eq_refl). cbn. lia.
Qed.
Lemma b_many {A} N k (p : parser A) m : behaves N (S k) p -> (N < m)%nat -> behaves N 0 (many p m).
Proof.
  intros H. revert N H. induction m as [|m IH]; intros N H L s Hs; [lia|]. cbn [many]. destruct (H s Hs) as [H1 H2].
  destruct (p s) as [a r| | |]; try done.
  - specialize (H2 _ _ eq_refl). destruct N as [|N]; [lia|].
    destruct (IH N) with (s := r) as [K1 K2]; [|lia|lia|].
    { intros t Ht. apply H. lia. }
    destruct (many p m r) as [l r'| | |]; try done. split; [done|]. intros b r'' [= <- <-]. specialize (K2 _ _ eq_refl). lia.
  - split; [done|]. intros b r [= <- <-]. lia.
Qed.
Lemma b_sections N m : (N < m)%nat -> behaves N 0 (sections m).
Proof.
  revert N. induction m as [|m IH]; intros N L; [lia|]. intros s Hs. cbn [sections]. revert s Hs.
  change (behaves N 0 (alt (eat tok "."; peg t <- run1 is_subsequent; peg u <- sections m; yield ("." ++ t ++ u)) (yield ""))).
  apply (b_alt N (1 + (1 + (0 + 0))) 0); [|apply b_yield]. apply b_follow; [apply (b_tok _ ".")|]. intros _ _. apply b_follow; [apply b_run1|]. intros L1 t.
  apply b_follow; [apply IH; lia|]. intros _ u. apply b_yield.
Qed.
Ltac behave := repeat first
  [ apply b_tok | apply b_run1 | apply b_one | apply b_run | apply b_times | apply b_yield | apply b_unwrap | apply b_check | apply b_not_next | apply b_spaces
  | apply b_text | (eapply b_alt) | (eapply b_follow; [|intros ? ?]) ].
Lemma b_namespace N : behaves N 1 namespace_rule.
Proof.
  intros s Hs. unfold namespace_rule. 
  assert (H : behaves (String.length s) (1 + (0 + (0 + 0))) (peg a <- one is_initial; peg t <- run is_subsequent; peg u <- sections (S (String.length s)); yield (a ++ t ++ u))).
  { apply b_follow; [apply b_one|]. intros _ a. apply b_follow; [apply b_run|]. intros _ t. apply b_follow; [apply b_sections; lia|]. intros _ u. apply b_yield. }
  apply (H s). lia.
Qed.
Lemma b_name N : behaves N 1 name_rule.
Proof. eapply b_weaken; [unfold name_rule; behave|]. cbn; lia. Qed.
Lemma b_plain_name N : behaves N 1 plain_name_rule.
Proof. eapply b_weaken; [unfold plain_name_rule; eapply b_alt; [apply b_name|]; behave|]. cbn; lia. Qed.
Lemma b_prefix N : behaves N 0 prefix_rule.
Proof. eapply b_weaken; [unfold prefix_rule; eapply b_alt; [eapply b_follow; [apply b_namespace|intros ? ?]; behave|apply b_yield]|]. lia. Qed.

Section total.
Context (float_of : string -> dbl).
Lemma b_number N : behaves N 1 (number_rule float_of).
Proof using Type.
  eapply b_weaken.
  - unfold number_rule, bigint_rule, based_rule, hex_rule, octal_rule, integer_rule, float_rule, validbase, maybe. behave.
  - cbn. lia.
Qed.
Lemma b_inst N : behaves N 1 inst_rule.
Proof using Type.
  eapply b_weaken.
  - unfold inst_rule, inst_millis_rule, inst_micros_rule, inst_string_rule, space1, two, maybe. behave.
  - cbn. lia.
Qed.
Lemma b_uuid N : behaves N 1 uuid_rule.
Proof using Type. eapply b_weaken; [unfold uuid_rule, space1; behave|]. cbn. lia. Qed.
Lemma b_collection {A} N op cl (item : parser A) f : (1 <= String.length op)%nat -> (1 <= String.length cl)%nat ->
  ((1 <= N)%nat -> behaves (N - 1) 1 item) -> behaves N 1 (collection op cl item f).
Proof using Type.
  intros O C I s Hs. unfold collection.
  assert (H' : behaves (String.length s) 1 (eat tok op; eat spaces; peg l <- many item (S (String.length s)); eat spaces; eat tok cl; yield (f l))).
  { eapply b_weaken.
    - eapply b_follow; [apply b_tok|intros L _]. eapply b_follow; [apply b_spaces|intros _ _]. eapply b_follow.
      { eapply b_many; [|lia]. intros t Ht. apply (I ltac:(lia)). lia. }
      intros _ l. behave.
    - lia. }
  by apply H'.
Qed.
Lemma b_value n : behaves n 1 (value_rule float_of (S n)).
Proof using Type.
  induction n as [n IH] using lt_wf_ind.
  assert (V : (1 <= n)%nat -> behaves (n - 1) 1 (value_rule float_of n)).
  { intros L. destruct n as [|n]; [lia|]. replace (S n - 1)%nat with n by lia. apply IH. lia. }
  change (value_rule float_of (S n)) with (eat spaces; peg v <- kinds float_of n; eat spaces; yield v).
  eapply b_weaken.
  - eapply b_follow; [apply b_spaces|intros _ _]. replace (n - 0)%nat with n by lia. eapply b_follow; [|intros _ v; behave].
    unfold kinds. eapply b_alt; [unfold nil_rule; behave|]. eapply b_alt; [unfold nan_rule, space1; behave|].
    eapply b_alt; [unfold infinity_rule, space1; behave|]. eapply b_alt; [unfold boolean_rule; behave|].
    eapply b_alt; [apply b_number|]. eapply b_alt; [apply b_inst|]. eapply b_alt; [apply b_uuid|].
    eapply b_alt; [unfold text_rule; behave|].
    eapply b_alt; [unfold keyword_rule; eapply b_follow; [apply b_tok|intros _ _]; eapply b_follow; [apply b_prefix|intros _ ?]; eapply b_follow; [apply b_name|intros _ ?]; behave|].
    eapply b_alt; [unfold symbol_rule; eapply b_follow; [apply b_prefix|intros _ ?]; eapply b_follow; [apply b_plain_name|intros _ ?]; behave|].
    eapply b_alt; [apply b_collection; [cbn; lia|cbn; lia|exact V]|]. eapply b_alt; [apply b_collection; [cbn; lia|cbn; lia|exact V]|].
    eapply b_alt; [|apply b_collection; [cbn; lia|cbn; lia|exact V]].
    apply b_collection; [cbn; lia|cbn; lia|]. intros L. eapply b_weaken; [eapply b_follow; [exact (V L)|intros _ k]|].
    { eapply b_weaken; [eapply b_follow; [|intros _ x; apply b_yield]|apply Nat.le_0_l]. intros t Ht. apply (V L). lia. }
    lia.
  - cbn. lia.
Qed.
Lemma parse_answers s : parse float_of s <> ParseDeep.
Proof using Type.
  unfold parse. destruct (b_value (String.length s) s) as [H _]; [lia|]. by destruct (value_rule _ _ _) as [v [|]| | |].
Qed.
End total.

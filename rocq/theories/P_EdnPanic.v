(** Texts the parser does not panic on. *)
From Coq Require Import Decimal DecimalString DecimalZ Sorted.
From Verif Require P_Sql.
From Verif Require Import Spec_Edn P_EdnNum P_Edn P_EdnOrd P_EdnRound P_EdnParsed P_EdnTotal.
Open Scope string_scope.
Open Scope Z_scope.
Local Arguments String.append !s1 s2 : simpl nomatch.

Definition suffix (r s : string) : Prop := exists t, s = t ++ r.
Lemma suffix_refl s : suffix s s.
Proof. by exists "". Qed.
Lemma suffix_trans a b c : suffix a b -> suffix b c -> suffix a c.
Proof. intros (t & ->) (u & ->). exists (u ++ t). by rewrite P_Sql.app_assoc_str. Qed.
Lemma mild_suffix r s : suffix r s -> mild s -> mild r.
Proof.
  intros (t & ->) [A B]. split.
  - intros t' u r' ->. apply (A (t ++ t') u r'). by rewrite P_Sql.app_assoc_str.
  - intros t' c r' ->. apply (B (t ++ t') c r'). by rewrite P_Sql.app_assoc_str.
Qed.

(** the parser goes forward, and does not panic in a mild text *)
Definition forward {A} (p : parser A) : Prop := forall s a r, p s = Got a r -> suffix r s.
Definition safe {A} (p : parser A) : Prop := forward p /\ forall s, mild s -> p s <> Boom.
Lemma f_follow {A B} (p : parser A) (q : A -> parser B) : forward p -> (forall a, forward (q a)) -> forward (follow p q).
Proof. intros P Q s b r (a & s' & H & K)%follow_inv. eapply suffix_trans; [by eapply Q|by eapply P]. Qed.
Lemma s_follow {A B} (p : parser A) (q : A -> parser B) : safe p -> (forall a, safe (q a)) -> safe (follow p q).
Proof.
  intros [P1 P2] Q. split; [apply f_follow; [done|]; intros a; apply Q|]. intros s M. unfold follow. specialize (P2 s M). destruct (p s) as [a r| | |] eqn:E; try done.
  apply Q. eapply mild_suffix; [by eapply P1|done].
Qed.
Lemma s_alt {A} (p q : parser A) : safe p -> safe q -> safe (alt p q).
Proof.
  intros [P1 P2] [Q1 Q2]. split.
  - intros s a r [H|[_ H]]%alt_inv; [by eapply P1|by eapply Q1].
  - intros s M. unfold alt. specialize (P2 s M). destruct (p s); try done. by apply Q2.
Qed.
Lemma s_yield {A} (a : A) : safe (yield a).
Proof. split; [|done]. intros s b r [= <- <-]. apply suffix_refl. Qed.
Lemma s_check {A} (o : option A) : safe (check o).
Proof. unfold check. split; destruct o; try done. intros s b r [= <- <-]. apply suffix_refl. Qed.
Lemma f_unwrap {A} (o : option A) : forward (unwrap o).
Proof. unfold unwrap. destruct o; [|done]. intros s b r [= <- <-]. apply suffix_refl. Qed.
Lemma s_unwrap {A} (o : option A) : is_Some o -> safe (unwrap o).
Proof. intros (a & ->). split; [apply f_unwrap|done]. Qed.
Lemma s_not_next p : safe (not_next p).
Proof.
  split.
  - intros [|c s] a r; cbn; [|destruct (p c)]; intros [= <- <-]; apply suffix_refl.
  - intros [|c s] _; cbn; [|destruct (p c)]; done.
Qed.
Lemma s_tok t : safe (tok t).
Proof. split; [|intros s _; apply calm_tok]. intros s a r H%tok_inv. by exists t. Qed.
Lemma s_one p : safe (one p).
Proof. split; [|intros s _; apply calm_one]. intros s a r (c & _ & -> & _)%one_inv. by exists (String c ""). Qed.
Lemma s_run p : safe (run p).
Proof. split; [|intros s _; apply calm_run]. intros s a r (-> & _)%run_inv. by exists a. Qed.
Lemma s_run1 p : safe (run1 p).
Proof. split; [|intros s _; apply calm_run1]. intros s a r (-> & _)%run1_inv. by exists a. Qed.
Lemma s_times n p : safe (times n p).
Proof. induction n as [|n IH]; cbn [times]; [apply s_yield|]. apply s_follow; [apply s_one|]. intros a. apply s_follow; [done|]. intros b. apply s_yield. Qed.
Lemma s_spaces : safe spaces.
Proof.
  split; [|done]. intros s a r [= <- <-]. generalize false. induction s as [|c s IH]; intros b; cbn; [apply suffix_refl|].
  assert (K : forall b, suffix (skip b s) (String c s)). { intros b'. eapply suffix_trans; [apply IH|]. by exists (String c ""). }
  destruct b; [apply K|]. destruct (is_space c); [apply K|]. destruct (Ascii.eqb c ";"); [apply K|apply suffix_refl].
Qed.
Lemma s_text : safe text_chars.
Proof.
  split.
  - intros s. remember (String.length s) as n eqn:Hn. revert s Hn. induction (lt_wf n) as [n _ IH]. intros [|c s] -> a r; cbn [text_chars]; [done|].
    assert (K : forall t s' s, suffix s' s -> suffix s' (String t s)). { intros t s' s0 (u & ->). by exists (String t u). }
    destruct (Ascii.eqb c """"); [intros [= <- <-]; apply K, suffix_refl|].
    destruct (Ascii.eqb c "\").
    + destruct s as [|e s]; [done|]. destruct (_ || _ || _ || _ || _)%bool; [|done].
      destruct (text_chars s) as [t r'| | |] eqn:E; try done. intros [= <- <-]. do 2 apply K. eapply IH; [|done|exact E]. cbn. lia.
    + destruct (text_chars s) as [t r'| | |] eqn:E; try done. intros [= <- <-]. apply K. eapply IH; [|done|exact E]. cbn. lia.
  - intros s _. remember (String.length s) as n eqn:Hn. revert s Hn. induction (lt_wf n) as [n _ IH]. intros [|c s] ->; cbn [text_chars]; [done|].
    destruct (Ascii.eqb c """"); [done|]. destruct (Ascii.eqb c "\").
    + destruct s as [|e s]; [done|]. destruct (_ || _ || _ || _ || _)%bool; [|done].
      specialize (IH (String.length s) ltac:(cbn; lia) s eq_refl). by destruct (text_chars s).
    + specialize (IH (String.length s) ltac:(cbn; lia) s eq_refl). by destruct (text_chars s).
Qed.
Lemma s_many {A} (p : parser A) m : safe p -> safe (many p m).
Proof.
  intros [P1 P2]. split.
  - induction m as [|m IH]; intros s l r; cbn; [done|]. destruct (p s) as [a s'| | |] eqn:E; try done; [|intros [= <- <-]; apply suffix_refl].
    destruct (many p m s') as [l' r'| | |] eqn:E'; try done. intros [= <- <-]. eapply suffix_trans; [by eapply IH|by eapply P1].
  - induction m as [|m IH]; intros s M; cbn; [done|]. specialize (P2 s M). destruct (p s) as [a s'| | |] eqn:E; try done.
    assert (M' : mild s') by (eapply mild_suffix; [by eapply P1|done]). specialize (IH s' M'). by destruct (many p m s').
Qed.
Lemma s_sections m : safe (sections m).
Proof.
  induction m as [|m IH]; [done|].
  change (sections (S m)) with (alt (eat tok "."; peg t <- run1 is_subsequent; peg u <- sections m; yield ("." ++ t ++ u)) (yield "")).
  apply s_alt; [|apply s_yield]. apply s_follow; [apply s_tok|]. intros _. apply s_follow; [apply s_run1|]. intros t. apply s_follow; [done|]. intros u. apply s_yield.
Qed.
Ltac tame := repeat first
  [ apply s_tok | apply s_run1 | apply s_one | apply s_run | apply s_times | apply s_yield | apply s_check | apply s_not_next | apply s_spaces
  | apply s_text | apply s_sections | (apply s_alt) | (apply s_follow; [|intros ?]) ].
Lemma s_namespace : safe namespace_rule.
Proof.
  assert (K : forall m, safe (peg a <- one is_initial; peg t <- run is_subsequent; peg u <- sections m; yield (a ++ t ++ u))) by (intros; tame).
  split; [intros s a r; apply K|intros s M; by apply K].
Qed.
Lemma s_prefix : safe prefix_rule.
Proof. unfold prefix_rule. apply s_alt; [|apply s_yield]. apply s_follow; [apply s_namespace|]. intros ns. tame. Qed.

(* ------------------------------------------------------------- the numbers fit *)

Lemma alnum_chars c : occurs c (letters ++ digits) = is_alnum c.
Proof. by destruct c as [[] [] [] [] [] [] [] []]. Qed.
Lemma short_run p u r : (forall c, p c = true -> is_alnum c = true) -> mild (u ++ r) -> all_chars p u = true -> (String.length u <= 15)%nat.
Proof.
  intros Hp [M _] H. apply (M "" u r eq_refl). unfold only. rewrite (all_chars_ext _ _ u alnum_chars). by eapply all_chars_impl.
Qed.
(** digits of a base up to 16 are read, and the number is small *)
Lemma read_small b p s acc : 0 < b -> (forall c, p c = true -> exists d, digit_value c = Some d /\ 0 <= d < b) -> all_chars p s = true -> 0 <= acc ->
  exists z, read_digits b acc s = Some z /\ 0 <= z < (acc + 1) * b ^ Z.of_nat (String.length s).
Proof.
  intros Hb Hp. revert acc. induction s as [|c s IH]; intros acc H Ha; cbn [read_digits String.length].
  - exists acc. split; [done|]. cbn. lia.
  - cbn [all_chars] in H. apply andb_true_iff in H as [Hc H]. destruct (Hp c Hc) as (d & -> & Hd). destruct (Z.ltb_spec d b); [|lia].
    destruct (IH (acc * b + d) H ltac:(nia)) as (z & E & Hz). exists z. split; [done|]. rewrite Nat2Z.inj_succ, Z.pow_succ_r by lia.
    assert (P : 0 < b ^ Z.of_nat (String.length s)) by (apply Z.pow_pos_nonneg; lia). nia.
Qed.
Lemma pow_15 b n : 0 < b <= 16 -> (n <= 15)%nat -> b ^ Z.of_nat n <= 2 ^ 60.
Proof.
  intros Hb Hn. transitivity (16 ^ 15); [|done]. transitivity (16 ^ Z.of_nat n).
  - apply Z.pow_le_mono_l. lia.
  - apply Z.pow_le_mono_r; lia.
Qed.
Lemma radix_small b p d r : 0 < b <= 16 -> (forall c, p c = true -> is_alnum c = true) -> (forall c, p c = true -> exists d, digit_value c = Some d /\ 0 <= d < b) ->
  mild (d ++ r) -> all_chars p d = true -> is_Some (radix (Some b) d).
Proof.
  intros Hb Ha Hp M H. destruct (read_small b p d 0) as (z & E & Hz); [lia|done|done|lia|]. unfold radix. rewrite E. cbn [in_i64].
  pose proof (pow_15 b (String.length d) Hb (short_run p d r Ha M H)). replace (fits_i64 z) with true; [done|]. symmetry. unfold fits_i64.
  rewrite andb_true_iff, Z.leb_le, Z.ltb_lt. assert (2 ^ 60 < 2 ^ 63) by done. assert (0 < 2 ^ 63) by done. lia.
Qed.
Lemma digit_alnum c : is_digit c = true -> is_alnum c = true.
Proof. intros H. unfold is_alnum. by rewrite H. Qed.
Lemma digit_small c : is_digit c = true -> exists d, digit_value c = Some d /\ 0 <= d < 10.
Proof.
  intros H. assert (K : match digit_value c with Some d => (0 <=? d) && (d <? 10) | None => false end = true).
  { revert H. by destruct c as [[] [] [] [] [] [] [] []]. }
  destruct (digit_value c) as [d|]; [|done]. exists d. rewrite andb_true_iff, Z.leb_le, Z.ltb_lt in K. done.
Qed.
Lemma octal_small c : is_octal c = true -> exists d, digit_value c = Some d /\ 0 <= d < 8.
Proof.
  intros H. assert (K : match digit_value c with Some d => (0 <=? d) && (d <? 8) | None => false end = true).
  { revert H. by destruct c as [[] [] [] [] [] [] [] []]. }
  destruct (digit_value c) as [d|]; [|done]. exists d. rewrite andb_true_iff, Z.leb_le, Z.ltb_lt in K. done.
Qed.
Lemma hex_small c : is_hex c = true -> exists d, digit_value c = Some d /\ 0 <= d < 16.
Proof.
  intros H. assert (K : match digit_value c with Some d => (0 <=? d) && (d <? 16) | None => false end = true).
  { revert H. by destruct c as [[] [] [] [] [] [] [] []]. }
  destruct (digit_value c) as [d|]; [|done]. exists d. rewrite andb_true_iff, Z.leb_le, Z.ltb_lt in K. done.
Qed.
Lemma octal_alnum c : is_octal c = true -> is_alnum c = true.
Proof. by destruct c as [[] [] [] [] [] [] [] []]. Qed.
Lemma hex_alnum c : is_hex c = true -> is_alnum c = true.
Proof. by destruct c as [[] [] [] [] [] [] [] []]. Qed.
(** decimal digits, as str::parse reads them *)
Lemma digits_read d : d <> "" -> all_chars is_digit d = true -> exists u, NilZero.uint_of_string d = Some u.
Proof.
  intros N H. destruct d as [|c d]; [done|]. unfold NilZero.uint_of_string. clear N.
  enough (K : forall s, all_chars is_digit s = true -> exists u, NilEmpty.uint_of_string s = Some u) by (by apply K).
  clear. induction s as [|c s IH]; cbn [all_chars]; [by exists Nil|]. rewrite andb_true_iff. intros [Hc H]. destruct (IH H) as (u & E). cbn [NilEmpty.uint_of_string]. rewrite E.
  cbn. destruct c as [[] [] [] [] [] [] [] []]; try (by vm_compute in Hc); eauto.
Qed.
Lemma uint_char c o u : uint_of_char c o = Some u -> exists v, o = Some v
  /\ (u = D0 v \/ u = D1 v \/ u = D2 v \/ u = D3 v \/ u = D4 v \/ u = D5 v \/ u = D6 v \/ u = D7 v \/ u = D8 v \/ u = D9 v).
Proof.
  destruct o as [v|]; [|done]. intros H. exists v. split; [done|]. revert H. cbn. destruct c as [[] [] [] [] [] [] [] []]; try done; intros [= <-]; auto 20.
Qed.
Lemma acc_small s : forall u acc, NilEmpty.uint_of_string s = Some u -> Zpos (Pos.of_uint_acc u acc) < (Zpos acc + 1) * 10 ^ Z.of_nat (String.length s).
Proof.
  induction s as [|c s IH]; intros u acc H.
  - injection H as <-. cbn. lia.
  - cbn [NilEmpty.uint_of_string] in H. apply uint_char in H as (v & Hv & H). cbn [String.length]. rewrite Nat2Z.inj_succ, Z.pow_succ_r by lia.
    assert (P : 0 < 10 ^ Z.of_nat (String.length s)) by (apply Z.pow_pos_nonneg; lia).
    assert (K : forall k, Zpos k < (Zpos acc + 1) * 10 -> Zpos (Pos.of_uint_acc v k) < (Zpos acc + 1) * (10 * 10 ^ Z.of_nat (String.length s))).
    { intros k Hk. specialize (IH v k Hv). nia. }
    decompose [or] H; subst u; cbn [Pos.of_uint_acc]; apply K; lia.
Qed.
Lemma of_small s : forall u, NilEmpty.uint_of_string s = Some u -> 0 <= Z.of_uint u < 10 ^ Z.of_nat (String.length s).
Proof.
  unfold Z.of_uint. induction s as [|c s IH]; intros u H.
  - injection H as <-. cbn. lia.
  - cbn [NilEmpty.uint_of_string] in H. apply uint_char in H as (v & Hv & H). cbn [String.length]. rewrite Nat2Z.inj_succ, Z.pow_succ_r by lia.
    assert (P : 0 < 10 ^ Z.of_nat (String.length s)) by (apply Z.pow_pos_nonneg; lia).
    assert (K : forall k, Zpos k < 10 -> 0 <= Z.of_N (Npos (Pos.of_uint_acc v k)) < 10 * 10 ^ Z.of_nat (String.length s)).
    { intros k Hk. pose proof (acc_small s v k Hv). cbn [Z.of_N]. nia. }
    decompose [or] H; subst u; cbn [Pos.of_uint]; try (apply K; lia). specialize (IH v Hv). lia.
Qed.
Lemma signed_small sg d r : d <> "" -> mild (d ++ r) -> all_chars is_digit d = true -> exists z, signed sg d = Some z /\ - 10 ^ 15 < z < 10 ^ 15 /\ (sg = "" -> 0 <= z).
Proof.
  intros N M H. destruct (digits_read d N H) as (u & E). unfold signed. rewrite E. eexists. split; [done|].
  pose proof (short_run is_digit d r digit_alnum M H) as L. destruct d as [|c d]; [done|]. apply (of_small (String c d) u) in E.
  assert (10 ^ Z.of_nat (String.length (String c d)) <= 10 ^ 15) by (apply Z.pow_le_mono_r; lia). destruct (String.eqb_spec sg "-") as [-> |]; split; try done; lia.
Qed.
Lemma signed_fits sg d r : d <> "" -> mild (d ++ r) -> all_chars is_digit d = true -> exists z, in_i64 (signed sg d) = Some z /\ - 10 ^ 15 < z < 10 ^ 15 /\ (sg = "" -> 0 <= z).
Proof.
  intros N M H. destruct (signed_small sg d r N M H) as (z & -> & Hz & Hp). exists z. split; [|done]. cbn [in_i64]. replace (fits_i64 z) with true; [done|].
  symmetry. unfold fits_i64. rewrite andb_true_iff, Z.leb_le, Z.ltb_lt. assert (10 ^ 15 < 2 ^ 63) by done. lia.
Qed.

(* ------------------------------------------------------------- the rules *)

(** a run of characters, and then something that is safe for such a run *)
Lemma s_run1_then {B} p (q : string -> parser B) : (forall d, forward (q d)) ->
  (forall d r, d <> "" -> mild (d ++ r) -> all_chars p d = true -> q d r <> Boom) -> safe (peg d <- run1 p; q d).
Proof.
  intros F Q. split; [apply f_follow; [apply s_run1|done]|]. intros s M. unfold follow. pose proof (proj1 (calm_run1 p s)).
  destruct (run1 p s) as [d r| | |] eqn:E; try done. apply run1_inv in E as (-> & A & _ & N). by apply Q.
Qed.
Lemma f_unwrap_yield {A B} (o : option A) (k : A -> B) : forward (peg z <- unwrap o; yield (k z)).
Proof. apply f_follow; [apply f_unwrap|]. intros a. apply s_yield. Qed.
Lemma unwrap_yield {A B} (o : option A) (k : A -> B) s : is_Some o -> (peg z <- unwrap o; yield (k z)) s <> Boom.
Proof. by intros (a & ->). Qed.
Lemma s_sign : safe (maybe (one is_sign)).
Proof. unfold maybe. tame. Qed.

Lemma s_bigint : safe bigint_rule.
Proof.
  apply s_follow; [apply s_sign|]. intros sg. apply s_run1_then.
  - intros d. apply f_follow; [apply s_tok|]. intros _. apply f_unwrap_yield.
  - intros d r N M H. destruct (signed_small sg d r N M H) as (z & -> & _). unfold follow. pose proof (proj1 (calm_tok "N" r)). by destruct (tok "N" r).
Qed.
Lemma s_octal : safe octal_rule.
Proof.
  apply s_follow; [apply s_tok|]. intros _. apply s_run1_then; [intros; apply f_unwrap_yield|].
  intros d r N M H. apply unwrap_yield. eapply radix_small; [|exact octal_alnum|exact octal_small|exact M|exact H]. lia.
Qed.
Lemma s_hex : safe hex_rule.
Proof.
  apply s_follow; [apply s_tok|]. intros _. apply s_run1_then; [intros; apply f_unwrap_yield|].
  intros d r N M H. apply unwrap_yield. eapply radix_small; [|exact hex_alnum|exact hex_small|exact M|exact H]. lia.
Qed.
Lemma validbase_inv s b r : validbase s = Got b r -> exists u c, s = u ++ String c r /\ is_digit c = true.
Proof.
  intros [H|[_ [H|[_ H]]%alt_inv]]%alt_inv.
  - apply follow_inv in H as (? & s1 & H1%tok_inv & (c & s2 & H2 & [= <- <-])%follow_inv). apply one_inv in H2 as (c' & -> & -> & Hc).
    exists "3", c'. split; [by subst|]. revert Hc. by destruct c' as [[] [] [] [] [] [] [] []].
  - apply follow_inv in H as (? & s1 & H1 & (c & s2 & H2 & [= <- <-])%follow_inv). apply one_inv in H1 as (a & -> & -> & _). apply one_inv in H2 as (c' & -> & -> & Hc).
    by exists (String a ""), c'.
  - apply one_inv in H as (c & -> & -> & Hc). exists "", c. split; [done|]. revert Hc. by destruct c as [[] [] [] [] [] [] [] []].
Qed.
Lemma s_based : safe based_rule.
Proof.
  split.
  - apply f_follow; [unfold validbase; tame|]. intros b. apply f_follow; [apply s_tok|]. intros _. apply f_follow; [apply s_run1|]. intros d. apply f_unwrap_yield.
  - intros s M. unfold based_rule, follow at 1. pose proof (proj1 (validbase_quiet s)). destruct (validbase s) as [b r| | |] eqn:E; try done.
    apply validbase_inv in E as (u & c & -> & Hc). unfold follow at 1. pose proof (proj1 (calm_tok "r" r)). destruct (tok "r" r) as [? r'| | |] eqn:E; try done.
    apply tok_inv in E as ->. exfalso. destruct M as [_ M]. specialize (M u c r' eq_refl). rewrite digits_chars in M. congruence.
Qed.
Lemma s_integer : safe integer_rule.
Proof.
  apply s_follow; [apply s_sign|]. intros sg. apply s_run1_then.
  - intros d. apply f_follow; [apply s_not_next|]. intros _. apply f_unwrap_yield.
  - intros d r N M H. destruct (signed_fits sg d r N M H) as (z & -> & _). unfold follow. destruct (not_next _ r) eqn:E; try done.
    exfalso. revert E. destruct r as [|c r]; cbn; [done|]. by destruct (_ || _)%bool.
Qed.
Lemma timestamp_fine z ns : 0 <= z < 10 ^ 12 -> is_Some (timestamp z ns).
Proof.
  intros H. unfold timestamp. replace ((year_start (-262144) <=? z / 86400 + epoch) && (z / 86400 + epoch <? year_start 262144)) with true; [done|].
  symmetry. rewrite andb_true_iff, Z.leb_le, Z.ltb_lt. assert (E : year_start (-262144) < 0) by done. assert (F : 90000000 < year_start 262144) by done.
  unfold epoch. change (10 ^ 12) with 1000000000000 in H. assert (0 <= z / 86400) by (apply Z.div_pos; lia).
  assert (z / 86400 < 12000000) by (apply Z.div_lt_upper_bound; lia). lia.
Qed.
Lemma s_inst : safe inst_rule.
Proof.
  unfold inst_rule. apply s_alt; [|apply s_alt].
  - apply s_follow; [apply s_tok|]. intros _. apply s_follow; [apply s_run1|]. intros _. apply s_run1_then.
    + intros d. apply f_follow; [apply f_unwrap|]. intros z. apply f_unwrap_yield.
    + intros d r N M H. destruct (signed_fits "" d r N M H) as (z & -> & Hz & Hp). specialize (Hp eq_refl). unfold follow at 1. cbn [unwrap].
      apply unwrap_yield, timestamp_fine. change (10 ^ 15) with (1000 * 10 ^ 12) in Hz. split; [apply Z.div_pos; lia|]. apply Z.div_lt_upper_bound; lia.
  - apply s_follow; [apply s_tok|]. intros _. apply s_follow; [apply s_run1|]. intros _. apply s_run1_then.
    + intros d. apply f_follow; [apply f_unwrap|]. intros z. apply f_unwrap_yield.
    + intros d r N M H. destruct (signed_fits "" d r N M H) as (z & -> & Hz & Hp). specialize (Hp eq_refl). unfold follow at 1. cbn [unwrap].
      apply unwrap_yield, timestamp_fine. change (10 ^ 15) with (1000 * 10 ^ 12) in Hz. split; [apply Z.div_pos; lia|]. apply Z.div_lt_upper_bound; lia.
  - unfold inst_string_rule, space1, two, maybe. tame.
Qed.
Lemma lower_hex_small c : is_lower_hex c = true -> exists d, digit_value c = Some d /\ 0 <= d < 16.
Proof. intros H. apply hex_small. revert H. by destruct c as [[] [] [] [] [] [] [] []]. Qed.
(** a fixed number of characters, and then something that does not panic after them *)
Definition hushed {A} (p : parser A) : Prop := forall s, p s <> Boom.
Lemma h_follow {A B} (p : parser A) (q : A -> parser B) : calm p -> (forall a, hushed (q a)) -> hushed (follow p q).
Proof. intros P Q s. unfold follow. destruct (P s) as [P1 _]. destruct (p s); try done. apply Q. Qed.
Lemma h_times {B} n p (q : string -> parser B) : (forall a, all_chars p a = true -> hushed (q a)) -> hushed (peg a <- times n p; q a).
Proof.
  intros Q s. unfold follow. destruct (times n p s) as [a r| | |] eqn:E; try done.
  - apply times_inv in E as (_ & A & _). by apply Q.
  - exfalso. clear Q. revert s E. induction n as [|n IH]; intros s; cbn [times]; [done|]. unfold follow at 1. pose proof (proj1 (calm_one p s)). destruct (one p s); try done.
    unfold follow. intros E. specialize (IH rest). destruct (times n p rest); try done.
Qed.
Lemma s_uuid : safe uuid_rule.
Proof.
  split.
  - unfold uuid_rule. repeat (apply f_follow; [first [apply s_tok | apply s_run1 | apply s_times | apply f_unwrap]|intros ?]). apply s_yield.
  - intros s _. revert s. change (hushed uuid_rule). unfold uuid_rule.
    apply h_follow; [apply calm_tok|]. intros _. apply h_follow; [apply calm_run1|]. intros _. apply h_follow; [apply calm_tok|]. intros _.
    apply h_times. intros a Ha. apply h_follow; [apply calm_tok|]. intros _. apply h_times. intros b Hb. apply h_follow; [apply calm_tok|]. intros _.
    apply h_times. intros c Hc. apply h_follow; [apply calm_tok|]. intros _. apply h_times. intros d Hd. apply h_follow; [apply calm_tok|]. intros _.
    apply h_times. intros e He. apply h_follow; [apply calm_tok|]. intros _. intros s. apply unwrap_yield.
    destruct (read_small 16 is_lower_hex (a ++ b ++ c ++ d ++ e) 0) as (z & E & _); [lia|exact lower_hex_small| |lia|by rewrite E].
    by rewrite !all_chars_app, Ha, Hb, Hc, Hd, He.
Qed.

Section mild.
Context (float_of : string -> dbl).
Lemma s_number : safe (number_rule float_of).
Proof using Type.
  unfold number_rule. apply s_alt; [apply s_bigint|]. apply s_alt; [apply s_based|]. apply s_alt; [apply s_hex|]. apply s_alt; [apply s_octal|]. apply s_alt; [apply s_integer|].
  unfold float_rule, maybe. tame.
Qed.
Lemma s_collection {A} op cl (item : parser A) f : safe item -> safe (collection op cl item f).
Proof using Type.
  intros I. assert (K : forall m, safe (eat tok op; eat spaces; peg l <- many item m; eat spaces; eat tok cl; yield (f l))).
  { intros m. apply s_follow; [apply s_tok|]. intros _. apply s_follow; [apply s_spaces|]. intros _. apply s_follow; [by apply s_many|]. intros l. tame. }
  split; [intros s a r; apply K|intros s M; by apply K].
Qed.
Lemma s_value n : safe (value_rule float_of n).
Proof using Type.
  induction n as [|n IH]; [done|].
  change (value_rule float_of (S n)) with (eat spaces; peg v <- kinds float_of n; eat spaces; yield v).
  apply s_follow; [apply s_spaces|]. intros _. apply s_follow; [|intros v; tame].
  unfold kinds. apply s_alt; [unfold nil_rule; tame|]. apply s_alt; [unfold nan_rule, space1; tame|]. apply s_alt; [unfold infinity_rule, space1; tame|].
  apply s_alt; [unfold boolean_rule; tame|]. apply s_alt; [apply s_number|]. apply s_alt; [apply s_inst|]. apply s_alt; [apply s_uuid|]. apply s_alt; [unfold text_rule; tame|].
  apply s_alt; [unfold keyword_rule, name_rule; apply s_follow; [apply s_tok|intros _]; apply s_follow; [apply s_prefix|intros ?]; tame|].
  apply s_alt; [unfold symbol_rule, plain_name_rule, name_rule; apply s_follow; [apply s_prefix|intros ?]; tame|].
  apply s_alt; [by apply s_collection|]. apply s_alt; [by apply s_collection|]. apply s_alt; [|by apply s_collection].
  apply s_collection. apply s_follow; [done|]. intros k. apply s_follow; [done|]. intros x. apply s_yield.
Qed.
Lemma parse_mild s : mild s -> parse float_of s <> ParsePanic.
Proof using Type.
  intros M. unfold parse. pose proof (proj2 (s_value (S (String.length s))) s M). by destruct (value_rule _ _ _) as [v [|]| | |].
Qed.
End mild.

(** Digits, dates and UUIDs of printed EDN values are read back. *)
From Coq Require Import Decimal DecimalString DecimalZ DecimalPos DecimalFacts.
From Verif Require Import Spec_Edn P_Sql.
Open Scope string_scope.
Open Scope Z_scope.
Local Arguments String.append !s1 s2 : simpl nomatch.

(* ------------------------------------------------------------- strings *)

Lemma all_chars_app p s t : all_chars p (s ++ t) = all_chars p s && all_chars p t.
Proof. induction s as [|c s IH]; cbn; [done|]. by rewrite IH, andb_assoc. Qed.
Lemma all_chars_impl (p q : ascii -> bool) s : (forall c, p c = true -> q c = true) -> all_chars p s = true -> all_chars q s = true.
Proof. intros H. induction s as [|c s IH]; cbn; [done|]. rewrite !andb_true_iff. naive_solver. Qed.
Lemma all_chars_ext (p q : ascii -> bool) s : (forall c, p c = q c) -> all_chars p s = all_chars q s.
Proof. intros H. induction s as [|c s IH]; cbn; [done|]. by rewrite H, IH. Qed.
Lemma length_app_str s t : String.length (s ++ t) = (String.length s + String.length t)%nat.
Proof. induction s as [|c s IH]; cbn; [done|]. by rewrite IH. Qed.

(** every character: a decision by cases *)
Lemma every_char (p : ascii -> bool) :
  (let fix go n := match n with O => true | S n => p (ascii_of_nat n) && go n end in go 256%nat) = true -> forall c, p c = true.
Proof.
  intros H c. rewrite <- (ascii_nat_embedding c).
  assert (B : (nat_of_ascii c < 256)%nat) by apply nat_ascii_bounded.
  revert H B. generalize (nat_of_ascii c) as k. generalize 256%nat as n.
  induction n as [|n IH]; intros k H B; [lia|]. apply andb_true_iff in H as [H1 H2].
  destruct (decide (k = n)) as [-> | N]; [done|]. apply IH; [done|lia].
Qed.
Lemma digits_chars c : occurs c digits = is_digit c.
Proof. apply Bool.eqb_prop. revert c. apply every_char. vm_compute. reflexivity. Qed.
Lemma only_digits s : only digits s = all_chars is_digit s.
Proof. apply all_chars_ext, digits_chars. Qed.
Lemma first_chars_initial c : occurs c first_chars = is_initial c.
Proof. apply Bool.eqb_prop. revert c. apply every_char. vm_compute. reflexivity. Qed.
Lemma name_chars_subsequent c : occurs c name_chars = is_subsequent c.
Proof. apply Bool.eqb_prop. revert c. apply every_char. vm_compute. reflexivity. Qed.

(* ------------------------------------------------------------- digits *)

Lemma below_16 d : 0 <= d < 16 ->
  d = 0 \/ d = 1 \/ d = 2 \/ d = 3 \/ d = 4 \/ d = 5 \/ d = 6 \/ d = 7 \/ d = 8 \/ d = 9 \/ d = 10 \/ d = 11 \/ d = 12 \/ d = 13 \/ d = 14 \/ d = 15.
Proof. lia. Qed.
Lemma digit_back d : 0 <= d < 16 -> digit_value (digit_char d) = Some d.
Proof. intros H. pose proof (below_16 _ H) as K. repeat (destruct K as [-> | K]; [reflexivity|]). by subst. Qed.
Lemma digit_is d : 0 <= d < 10 -> is_digit (digit_char d) = true.
Proof. intros H. assert (H' : 0 <= d < 16) by lia. pose proof (below_16 _ H') as K.
  repeat (destruct K as [-> | K]; [first [reflexivity | lia]|]). subst. lia. Qed.
Lemma hex_is d : 0 <= d < 16 -> is_lower_hex (digit_char d) = true.
Proof. intros H. pose proof (below_16 _ H) as K. repeat (destruct K as [-> | K]; [reflexivity|]). by subst. Qed.

Lemma pad_digits w z : all_chars is_digit (pad 10 w z) = true.
Proof.
  revert z. induction w as [|w IH]; intros z; [done|]. cbn [pad]. rewrite all_chars_app, IH. cbn.
  rewrite andb_true_r. apply digit_is, Z.mod_pos_bound. lia.
Qed.
Lemma pad_hex w z : all_chars is_lower_hex (pad 16 w z) = true.
Proof.
  revert z. induction w as [|w IH]; intros z; [done|]. cbn [pad]. rewrite all_chars_app, IH. cbn.
  rewrite andb_true_r. apply hex_is, Z.mod_pos_bound. lia.
Qed.
Lemma pad_length b w z : String.length (pad b w z) = w.
Proof. revert z. induction w as [|w IH]; intros z; [done|]. cbn [pad]. rewrite length_app_str, IH. cbn. lia. Qed.
Lemma read_digits_app b acc s t :
  read_digits b acc (s ++ t) = match read_digits b acc s with Some a => read_digits b a t | None => None end.
Proof.
  revert acc. induction s as [|c s IH]; intros acc; cbn; [done|].
  destruct (digit_value c) as [d|]; [|done]. destruct (d <? b); [|done]. apply IH.
Qed.
Lemma read_pad b w acc z : 2 <= b <= 16 ->
  read_digits b acc (pad b w z) = Some (acc * b ^ Z.of_nat w + z mod b ^ Z.of_nat w).
Proof.
  intros B. revert z acc. induction w as [|w IH]; intros z acc.
  - cbn. f_equal. rewrite Z.mod_1_r. lia.
  - cbn [pad]. rewrite read_digits_app, IH. cbn [read_digits].
    assert (M : 0 <= z mod b < b) by (apply Z.mod_pos_bound; lia).
    rewrite digit_back by lia. destruct (Z.ltb_spec (z mod b) b) as [_|]; [|lia]. f_equal.
    rewrite Nat2Z.inj_succ, Z.pow_succ_r by lia.
    rewrite (Z.rem_mul_r z b (b ^ Z.of_nat w)) by (try lia; apply Z.pow_pos_nonneg; lia). ring.
Qed.
Lemma field_pad w z : 0 <= z < 10 ^ Z.of_nat w -> field (pad 10 w z) = z.
Proof. intros H. unfold field. rewrite read_pad by lia. cbn [default]. rewrite Z.mod_small by lia. cbn. lia. Qed.

(** the fraction of a second *)
Lemma fraction_app n s t : (String.length s <= n)%nat ->
  fraction n (s ++ t) = fraction n s + fraction (n - String.length s) t.
Proof.
  revert n. induction s as [|c s IH]; intros [|n] H; cbn [String.length] in H; try lia; cbn [append fraction String.length].
  - cbn. lia.
  - cbn. lia.
  - rewrite IH by lia. replace (S n - S (String.length s))%nat with (n - String.length s)%nat by lia. lia.
Qed.
Lemma fraction_pad w n z : (w <= n)%nat -> 0 <= z < 10 ^ Z.of_nat w ->
  fraction n (pad 10 w z) = z * 10 ^ Z.of_nat (n - w).
Proof.
  revert z. induction w as [|w IH]; intros z Hn Hz.
  - cbn in *. assert (z = 0) as -> by lia. destruct n; cbn; lia.
  - rewrite Nat2Z.inj_succ, Z.pow_succ_r in Hz by lia. cbn [pad].
    rewrite fraction_app by (rewrite pad_length; lia). rewrite pad_length.
    assert (M : 0 <= z mod 10 < 10) by (apply Z.mod_pos_bound; lia).
    rewrite IH; [|lia|split; [apply Z.div_pos; lia|apply Z.div_lt_upper_bound; lia]].
    replace (n - w)%nat with (S (n - S w)) by lia. cbn [fraction]. rewrite digit_back by lia. cbn [default id].
    assert (D : z = 10 * (z / 10) + z mod 10) by (apply Z.div_mod; lia).
    remember (z / 10) as q eqn:Eq. remember (z mod 10) as r eqn:Er. rewrite D.
    assert (F : forall m, fraction m "" = 0) by (by intros []). rewrite F.
    generalize (n - S w)%nat. intros m. rewrite Nat2Z.inj_succ, Z.pow_succ_r by lia. ring.
Qed.

(* ------------------------------------------------------------- decimal texts *)

Lemma dec_pos p : dec (Zpos p) = NilZero.string_of_uint (Pos.to_uint p).
Proof. reflexivity. Qed.
Lemma dec_digits z : 0 <= z -> all_chars is_digit (dec z) = true.
Proof. intros H. destruct z; [done| |lia]. rewrite dec_pos. apply uint_digits'. Qed.
Lemma dec_neg z : z < 0 -> dec z = "-" ++ dec (- z).
Proof. destruct z; [lia|lia|done]. Qed.
Lemma dec_nonempty z : dec z <> "".
Proof. intros E. pose proof (dec_read z) as K. rewrite E in K. discriminate. Qed.
Lemma signed_dec sg z : 0 <= z -> signed sg (dec z) = Some (if String.eqb sg "-" then - z else z).
Proof.
  intros H. unfold signed. destruct z as [|p|]; [| |lia].
  - cbn. by destruct (String.eqb sg "-").
  - rewrite dec_pos, NilZero.usu by apply DecimalPos.Unsigned.to_uint_nonnil.
    assert (E : Z.of_uint (Pos.to_uint p) = Zpos p); [|by rewrite E].
    exact (DecimalZ.of_to (Zpos p)).
Qed.
(** no number begins with 0 but 0 *)
Lemma dec_zero z s : 0 <= z -> dec z = String "0" s -> s = "".
Proof.
  intros H. destruct z as [|p|p]; [by intros [= <-]| |lia]. rewrite dec_pos.
  assert (E : Pos.to_uint p = unorm (Pos.to_uint p)).
  { rewrite <- DecimalPos.Unsigned.to_of. by rewrite DecimalPos.Unsigned.of_to. }
  unfold unorm in E. pose proof (nzhead_nonzero (Pos.to_uint p)) as Z.
  destruct (Pos.to_uint p) as [|u|u|u|u|u|u|u|u|u|u] eqn:U; intros T; try discriminate T.
  { by apply DecimalPos.Unsigned.to_uint_nonnil in U. }
  destruct (nzhead (D0 u)) as [|u'|u'|u'|u'|u'|u'|u'|u'|u'|u'] eqn:N; try discriminate E.
  + injection E as ->. cbn in T. by injection T.
  + exfalso. eapply Z. reflexivity.
Qed.

(* ------------------------------------------------------------- the calendar *)

Lemma year_of_day_ok n : year_start (year_of_day n) <= n < year_start (year_of_day n + 1).
Proof.
  unfold year_of_day. set (y := n * 400 / 146097).
  assert (Hy : y * 146097 <= n * 400 < (y + 1) * 146097) by (unfold y; Z.to_euclidean_division_equations; lia).
  clearbody y. destruct (Z.leb_spec (year_start (y + 1)) n) as [A|A];
    [|destruct (Z.ltb_spec n (year_start y)) as [B|B]];
    unfold year_start in *; Z.to_euclidean_division_equations; lia.
Qed.
Lemma year_length y : year_start (y + 1) = year_start y + 365 + (if leap y then 1 else 0).
Proof.
  unfold year_start, leap.
  destruct (Z.eqb_spec (y mod 4) 0), (Z.eqb_spec (y mod 100) 0), (Z.eqb_spec (y mod 400) 0); cbn;
    Z.to_euclidean_division_equations; lia.
Qed.
Lemma month_of_ok (l : bool) (d : Z) : 0 <= d < 365 + (if l then 1 else 0) ->
  1 <= month_of l d <= 12 /\ month_start l (month_of l d) <= d < month_start l (month_of l d + 1).
Proof.
  intros H. unfold month_of. destruct l; cbn [month_start] in *;
    repeat match goal with |- context [Z.ltb ?a ?b] => destruct (Z.ltb_spec a b) end;
    cbv [month_start Z.add Pos.add Pos.succ Pos.add_carry] in *; lia.
Qed.
Lemma month_days l m : month_start l (m + 1) <= month_start l m + 31 \/ m < 1 \/ 12 < m.
Proof.
  destruct (decide (1 <= m <= 12)) as [H|H]; [left|lia].
  assert (K : m = 1 \/ m = 2 \/ m = 3 \/ m = 4 \/ m = 5 \/ m = 6 \/ m = 7 \/ m = 8 \/ m = 9 \/ m = 10 \/ m = 11 \/ m = 12) by lia.
  repeat (destruct K as [-> | K]; [destruct l; cbv [month_start Z.add Pos.add Pos.succ Pos.add_carry]; lia|]). subst. destruct l; cbv [month_start Z.add Pos.add Pos.succ Pos.add_carry]; lia.
Qed.

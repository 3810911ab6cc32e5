(** Printed EDN values are read back. *)
From Coq Require Import Decimal DecimalString DecimalZ Sorted.
From Verif Require Import Spec_Edn P_EdnNum.
From Verif Require P_Sql.
Open Scope string_scope.
Open Scope Z_scope.
Local Arguments String.append !s1 s2 : simpl nomatch.
Notation app_assoc_str := P_Sql.app_assoc_str.
Notation app_nil_str := P_Sql.app_nil_str.

(* ------------------------------------------------------------- combinators *)

Definition stops (p : ascii -> bool) (r : string) : Prop := match r with String c _ => p c = false | "" => True end.
(** the end of the text, white space, a comment, or the end of a collection *)
Definition edges : string := " )]},;" ++ String "010" (String "013" (String "009" "")).
Definition edge (r : string) : Prop := match r with String c _ => occurs c edges = true | "" => True end.
Lemma edge_stops p r : all_chars (fun c => negb (p c)) edges = true -> edge r -> stops p r.
Proof.
  destruct r as [|c r]; [done|]. cbn [edge stops]. generalize edges. intros t H E. induction t as [|d t IH]; [done|].
  cbn [all_chars occurs] in *. apply andb_true_iff in H as [Hd H]. apply orb_true_iff in E as [E|E]; [|auto].
  apply Ascii.eqb_eq in E as ->. by apply negb_true_iff.
Qed.

Lemma run_ok p t r : all_chars p t = true -> stops p r -> run p (t ++ r) = Got t r.
Proof.
  intros H S. induction t as [|c t IH]; cbn.
  - destruct r as [|c r]; cbn; [done|]. cbn in S. by rewrite S.
  - cbn in H. apply andb_true_iff in H as [-> H]. by rewrite IH.
Qed.
Lemma run1_ok p t r : t <> "" -> all_chars p t = true -> stops p r -> run1 p (t ++ r) = Got t r.
Proof.
  intros N H S. destruct t as [|c t]; [done|]. cbn in H. apply andb_true_iff in H as [Hc H].
  unfold run1, follow. cbn. rewrite Hc. rewrite run_ok by done. done.
Qed.
Lemma run1_no p r : stops p r -> run1 p r = No.
Proof. destruct r as [|c r]; cbn; unfold run1, follow; cbn; [done|]. by intros ->. Qed.
Lemma times_ok n p t r : String.length t = n -> all_chars p t = true -> times n p (t ++ r) = Got t r.
Proof.
  revert t. induction n as [|n IH]; intros [|c t] L H; try discriminate L; cbn; [done|].
  cbn in H. apply andb_true_iff in H as [Hc H]. unfold follow; cbn. rewrite Hc. rewrite IH; [done| |done]. by injection L.
Qed.
Lemma tok_ok t r : tok t (t ++ r) = Got tt r.
Proof. induction t as [|c t IH]; cbn; [done|]. by rewrite Ascii.eqb_refl. Qed.
Lemma tok_no t s : String.prefix t s = false -> tok t s = No.
Proof.
  revert s. induction t as [|a t IH]; intros [|c s]; cbn; try done.
  destruct (ascii_dec a c) as [-> | N].
  - rewrite Ascii.eqb_refl. apply IH.
  - intros _. apply Ascii.eqb_neq in N. by rewrite N.
Qed.
Lemma prefix_edge t n r : edge r -> all_chars (fun c => negb (occurs c edges)) t = true ->
  String.prefix t n = false -> String.prefix t (n ++ r) = false.
Proof.
  intros E. revert n. induction t as [|a t IH]; intros n H P; [by destruct n|].
  cbn [all_chars] in H. apply andb_true_iff in H as [Ha H]. destruct n as [|c n]; cbn.
  - destruct r as [|c r]; cbn; [done|]. cbn [edge] in E. destruct (ascii_dec a c) as [-> |]; [by rewrite E in Ha|done].
  - cbn in P. destruct (ascii_dec a c); [|done]. by apply IH.
Qed.
Lemma follow_got {A B} (p : parser A) (k : A -> parser B) s a r : p s = Got a r -> follow p k s = k a r.
Proof. unfold follow. by intros ->. Qed.
Lemma follow_no {A B} (p : parser A) (k : A -> parser B) s : p s = No -> follow p k s = No.
Proof. unfold follow. by intros ->. Qed.
Lemma alt_no {A} (p q : parser A) s : p s = No -> alt p q s = q s.
Proof. unfold alt. by intros ->. Qed.
Lemma alt_got {A} (p q : parser A) s a r : p s = Got a r -> alt p q s = Got a r.
Proof. unfold alt. by intros ->. Qed.

(* ------------------------------------------------------------- numbers *)

(** What begins with digits is not a number in a base. *)
Lemma validbase_digits s b r : validbase s = Got b r -> s = b ++ r /\ all_chars is_digit b = true.
Proof.
  assert (O : forall (q : ascii -> bool) s b r, one q s = Got b r -> exists c, s = String c r /\ b = String c "" /\ q c = true).
  { intros q [|c t] b' r'; cbn; [done|]. destruct (q c) eqn:E; [|done]. intros [= <- <-]. eauto. }
  assert (D : forall lo hi, (48 <= N_of_ascii lo)%N -> (N_of_ascii hi <= 57)%N -> forall c, in_range c lo hi = true -> is_digit c = true).
  { intros lo hi L H c. unfold is_digit, in_range. rewrite !andb_true_iff, !N.leb_le. change (N_of_ascii "0") with 48%N. change (N_of_ascii "9") with 57%N. lia. }
  unfold validbase, alt.
  destruct (follow (tok "3") _ s) as [b1 r1| | |] eqn:E1; [|clear E1|done|done].
  { intros [= -> ->]. unfold follow in E1. destruct s as [|c s]; [done|]. cbn [tok] in E1.
    destruct (Ascii.eqb_spec "3" c) as [<- |]; [|done].
    destruct (one _ s) as [b1 r1| | |] eqn:E2; try done. injection E1 as <- <-.
    apply O in E2 as (c & -> & -> & Q). split; [done|]. cbn. rewrite (D "0"%char "6"%char ltac:(vm_compute; discriminate) ltac:(vm_compute; discriminate) c Q). done. }
  destruct (follow (one _) _ s) as [b1 r1| | |] eqn:E1; [|clear E1|done|done].
  { intros [= -> ->]. unfold follow in E1.
    destruct (one _ s) as [a r1| | |] eqn:E3; try done. apply O in E3 as (c0 & -> & -> & Q0).
    destruct (one is_digit r1) as [b1 r2| | |] eqn:E2; try done. injection E1 as <- <-.
    apply O in E2 as (c & -> & -> & Q). split; [done|]. cbn. rewrite Q.
    rewrite (D "1"%char "2"%char ltac:(vm_compute; discriminate) ltac:(vm_compute; discriminate) c0 Q0). done. }
  intros E. apply O in E as (c & -> & -> & Q). split; [done|]. cbn.
  rewrite (D "2"%char "9"%char ltac:(vm_compute; discriminate) ltac:(vm_compute; discriminate) c Q). done.
Qed.
(** rules that match or do not *)
Definition calm {A} (p : parser A) : Prop := forall s, p s <> Boom /\ p s <> Deep.
Lemma calm_yield {A} (a : A) : calm (yield a).
Proof. done. Qed.
Lemma calm_follow {A B} (p : parser A) (k : A -> parser B) : calm p -> (forall a, calm (k a)) -> calm (follow p k).
Proof. intros P K s. unfold follow. destruct (P s). destruct (p s); [apply K|done..]. Qed.
Lemma calm_alt {A} (p q : parser A) : calm p -> calm q -> calm (alt p q).
Proof. intros P Q s. unfold alt. destruct (P s). destruct (p s); [done|apply Q|done..]. Qed.
Lemma calm_tok t : calm (tok t).
Proof. induction t as [|a t IH]; intros [|c s]; cbn; try done. destruct (Ascii.eqb a c); [apply IH|done]. Qed.
Lemma calm_one p : calm (one p).
Proof. intros [|c s]; cbn; [done|]. by destruct (p c). Qed.
Lemma calm_run p : calm (run p).
Proof. intros s. induction s as [|c s IH]; cbn; [done|]. destruct (p c); [|done]. by destruct (run p s). Qed.
Lemma calm_run1 p : calm (run1 p).
Proof. apply calm_follow; [apply calm_one|]. intros. apply calm_follow; [apply calm_run|]. intros. apply calm_yield. Qed.
Lemma validbase_quiet s : validbase s <> Boom /\ validbase s <> Deep.
Proof.
  revert s. change (calm validbase). unfold validbase. repeat apply calm_alt; repeat (apply calm_follow; intros);
    first [apply calm_tok | apply calm_one | apply calm_yield].
Qed.

(** the digits at the start of a text are the same however the text is cut *)
Lemma digits_prefix b t r r' : b ++ r = t ++ r' -> all_chars is_digit b = true -> stops is_digit r' ->
  exists u, t = b ++ u /\ r = u ++ r'.
Proof.
  revert t. induction b as [|c b IH]; intros t E H S; cbn in *; [eauto|].
  apply andb_true_iff in H as [Hc H]. destruct t as [|d t]; cbn in E.
  - subst r'. cbn in S. congruence.
  - injection E as -> E. destruct (IH _ E H S) as (u & -> & ->). eauto.
Qed.

Lemma based_no t r : t <> "" -> all_chars is_digit t = true -> stops is_digit r -> stops (Ascii.eqb "r") r ->
  based_rule (t ++ r) = No.
Proof.
  intros _ H S R. unfold based_rule, follow at 1. destruct (validbase_quiet (t ++ r)) as [Q1 Q2].
  destruct (validbase (t ++ r)) as [b r1| | |] eqn:E; try done.
  apply validbase_digits in E as [E D]. destruct (digits_prefix _ _ _ _ (eq_sym E) D S) as (u & -> & ->).
  apply follow_no. rewrite all_chars_app in H. apply andb_true_iff in H as [_ H].
  destruct u as [|c u]; cbn [append tok].
  - destruct r as [|c r]; cbn; [done|]. cbn in R. by rewrite R.
  - cbn in H. apply andb_true_iff in H as [Hc _]. destruct (Ascii.eqb_spec "r" c) as [<- |]; [by vm_compute in Hc|done].
Qed.

Lemma stops_x_digits t r : t <> "" -> all_chars is_digit t = true -> stops (Ascii.eqb "x") r -> stops is_digit r -> hex_rule (t ++ r) = No.
Proof.
  intros N H R S. apply follow_no, tok_no. destruct t as [|c t]; [done|]. cbn [append String.prefix].
  destruct (ascii_dec "0" c); [|done]. cbn in H. apply andb_true_iff in H as [_ H].
  destruct t as [|d t]; cbn [append].
  - destruct r as [|d r]; [done|]. cbn [stops] in R. destruct (Ascii.eqb_spec "x" d) as [|N']; [done|].
    cbn [String.prefix]. by destruct (ascii_dec "x" d).
  - cbn [String.prefix]. destruct (ascii_dec "x" d) as [<- |]; [|done]. by vm_compute in H.
Qed.
Lemma octal_no z r : 0 <= z -> stops is_octal r -> octal_rule (dec z ++ r) = No.
Proof.
  intros Z S. unfold octal_rule, follow at 1. destruct (dec z) as [|c t] eqn:E; [by apply dec_nonempty in E|].
  cbn [append tok]. destruct (Ascii.eqb_spec "0" c) as [<- |]; [|done].
  apply dec_zero in E as ->; [|done]. cbn [append]. apply follow_no, run1_no, S.
Qed.

(** A sign, the digits of a number, and what follows. *)
Definition is_sign_text (sg : string) : Prop := sg = "" \/ sg = "-".
Lemma sign_read sg z r : is_sign_text sg -> 0 <= z -> maybe (one is_sign) (sg ++ dec z ++ r) = Got sg (dec z ++ r).
Proof.
  intros [-> | ->] Z; [|done]. cbn [append]. pose proof (dec_digits z Z) as D.
  destruct (dec z) as [|c t] eqn:E; [by apply dec_nonempty in E|]. cbn in D. apply andb_true_iff in D as [D _].
  unfold maybe, alt. cbn. destruct (is_sign c) eqn:Sg; [|done].
  exfalso. revert D Sg. unfold is_sign. destruct (Ascii.eqb_spec c "+") as [-> |]; [done|].
  destruct (Ascii.eqb_spec c "-") as [-> |]; done.
Qed.
Lemma not_digit_start sg z r : is_sign_text sg -> sg <> "" -> based_rule (sg ++ dec z ++ r) = No /\ hex_rule (sg ++ dec z ++ r) = No /\ octal_rule (sg ++ dec z ++ r) = No.
Proof. intros [-> | ->] N; done. Qed.
Lemma middle_no sg z r : is_sign_text sg -> 0 <= z -> stops is_digit r -> stops (Ascii.eqb "r") r -> stops (Ascii.eqb "x") r ->
  based_rule (sg ++ dec z ++ r) = No /\ hex_rule (sg ++ dec z ++ r) = No /\ octal_rule (sg ++ dec z ++ r) = No.
Proof.
  intros Sg Z S R X. destruct (decide (sg = "")) as [-> | N]; [|by apply not_digit_start]. cbn [append].
  pose proof (dec_nonempty z) as Ne. pose proof (dec_digits z Z) as D.
  split_and!; [by apply based_no|by apply stops_x_digits|]. apply octal_no; [done|].
  destruct r as [|c r]; [done|]. cbn in *. revert S. unfold is_octal, is_digit, in_range.
  rewrite !andb_false_iff, !N.leb_gt. change (N_of_ascii "0") with 48%N. change (N_of_ascii "9") with 57%N. change (N_of_ascii "7") with 55%N. lia.
Qed.

Definition with_sign (sg : string) (z : Z) : Z := if String.eqb sg "-" then - z else z.
Section numbers.
Context (float_of : string -> dbl).
Lemma bigint_ok sg z r : is_sign_text sg -> 0 <= z -> number_rule float_of (sg ++ dec z ++ "N" ++ r) = Got (EBigInt (with_sign sg z)) r.
Proof using Type.
  intros Sg Z. apply alt_got. unfold bigint_rule.
  erewrite follow_got by (by apply sign_read). erewrite follow_got by (apply run1_ok; [apply dec_nonempty|by apply dec_digits|done]).
  erewrite follow_got by apply (tok_ok "N"). erewrite follow_got; [reflexivity|]. by rewrite signed_dec.
Qed.
Lemma bigint_no sg z r : is_sign_text sg -> 0 <= z -> stops is_digit r -> stops (Ascii.eqb "N") r -> bigint_rule (sg ++ dec z ++ r) = No.
Proof using Type.
  intros Sg Z S N. unfold bigint_rule.
  erewrite follow_got by (by apply sign_read). erewrite follow_got by (apply run1_ok; [apply dec_nonempty|by apply dec_digits|done]).
  apply follow_no. destruct r as [|c r]; cbn; [done|]. cbn in N. by rewrite N.
Qed.
Lemma integer_read sg z r : is_sign_text sg -> 0 <= z -> edge r ->
  number_rule float_of (sg ++ dec z ++ r) = if fits_i64 (with_sign sg z) then Got (EInt (with_sign sg z)) r else Boom.
Proof using Type.
  intros Sg Z E. unfold number_rule.
  rewrite alt_no by (apply bigint_no; [done|done|by apply edge_stops|by apply edge_stops]).
  destruct (middle_no sg z r) as (A & B & C); [done|done|by apply edge_stops|by apply edge_stops|by apply edge_stops|].
  rewrite alt_no by done. rewrite alt_no by done. rewrite alt_no by done.
  unfold alt, integer_rule.
  erewrite follow_got by (by apply sign_read). erewrite follow_got by (apply run1_ok; [apply dec_nonempty|by apply dec_digits|by apply edge_stops]).
  erewrite (follow_got (not_next _)) with (a := tt) (r := r).
  2: { apply (edge_stops (fun c => Ascii.eqb c "." || is_exp c)) in E; [|done]. destruct r as [|c r]; [done|]. cbn [stops] in E. cbn [not_next]. by rewrite E. }
  rewrite signed_dec by done. unfold in_i64, with_sign, follow, unwrap. by destruct (fits_i64 _).
Qed.
Lemma float_ok sg z frac r : is_sign_text sg -> 0 <= z -> frac <> "" -> all_chars is_digit frac = true -> edge r ->
  number_rule float_of (sg ++ dec z ++ "." ++ frac ++ r) = Got (EFloat (float_of (sg ++ dec z ++ "." ++ frac))) r.
Proof using Type.
  intros Sg Z F D E. unfold number_rule.
  rewrite alt_no by (by apply bigint_no).
  destruct (middle_no sg z ("." ++ frac ++ r)) as (A & B & C); [done..|].
  rewrite alt_no by done. rewrite alt_no by done. rewrite alt_no by done.
  rewrite alt_no.
  2: { unfold integer_rule.
       erewrite follow_got by (by apply sign_read). erewrite follow_got by (apply run1_ok; [apply dec_nonempty|by apply dec_digits|done]).
       by apply follow_no. }
  unfold float_rule.
  erewrite follow_got by (by apply sign_read). erewrite follow_got by (apply run1_ok; [apply dec_nonempty|by apply dec_digits|done]).
  erewrite (follow_got (maybe _)) with (a := ("." ++ frac)) (r := r).
  2: { apply alt_got. erewrite follow_got by apply (tok_ok "."). erewrite follow_got; [reflexivity|].
       apply run1_ok; [done|done|by apply edge_stops]. }
  erewrite (follow_got (maybe _)) with (a := "") (r := r).
  2: { unfold maybe. rewrite alt_no; [done|]. apply follow_no. apply (edge_stops is_exp) in E; [|done]. destruct r as [|c r]; [done|]. cbn [stops] in E. cbn [one]. by rewrite E. }
  by rewrite app_nil_str.
Qed.
End numbers.

(* ------------------------------------------------------------- dates and UUIDs *)

Lemma space1_ok r : stops is_space r -> space1 (" " ++ r) = Got " " r.
Proof. intros S. by apply (run1_ok is_space " " r). Qed.

Lemma two_ok hi z r : 0 <= z < 10 * (Z.of_N (N_of_ascii hi) - 47) -> z < 100 -> two hi (pad 10 2 z ++ r) = Got (pad 10 2 z) r.
Proof.
  intros H Z. cbn [pad append].
  assert (A : 0 <= z / 10 mod 10 < 10) by (apply Z.mod_pos_bound; lia).
  assert (A' : z / 10 mod 10 = z / 10) by (apply Z.mod_small; Z.to_euclidean_division_equations; lia).
  assert (B : 0 <= z mod 10 < 10) by (apply Z.mod_pos_bound; lia).
  unfold two, follow. cbn [one append].
  assert (I : in_range (digit_char (z / 10 mod 10)) "0" hi = true).
  { rewrite A' in *. assert (C : z / 10 <= Z.of_N (N_of_ascii hi) - 48) by (Z.to_euclidean_division_equations; lia).
    unfold in_range, digit_char. destruct (Z.ltb_spec (z / 10) 10); [|lia].
    rewrite N_ascii_embedding by lia. rewrite andb_true_iff, !N.leb_le. change (N_of_ascii "0") with 48%N. lia. }
  rewrite I. cbn [append one]. by rewrite digit_is.
Qed.

Ltac char_lia :=
  try match goal with |- context [Z.of_N (N_of_ascii ?c)] =>
        let v := eval vm_compute in (Z.of_N (N_of_ascii c)) in change (Z.of_N (N_of_ascii c)) with v end; lia.
Lemma rfc3339_read ns r : -62167219200 * 1000000000 <= ns < 253402300800 * 1000000000 ->
  inst_string_rule ("#inst """ ++ rfc3339 ns ++ """" ++ r) = Got (EInst ns) r.
Proof.
  intros H. unfold rfc3339, inst_string_rule.
  set (s := ns / second_ns). set (f := ns mod second_ns). set (day := s / 86400 + epoch). set (t := s mod 86400).
  set (y := year_of_day day). set (l := leap y). set (d := day - year_start y). set (m := month_of l d).
  assert (Hf : 0 <= f < second_ns) by (apply Z.mod_pos_bound; done).
  assert (Hns : ns = s * second_ns + f) by (unfold s, f; rewrite (Z.div_mod ns second_ns) at 1 by done; ring).
  assert (Ht : 0 <= t < 86400) by (apply Z.mod_pos_bound; done).
  assert (Hs : s = (day - epoch) * 86400 + t) by (unfold day, t; rewrite (Z.div_mod s 86400) at 1 by done; ring).
  assert (Hday : 0 <= day < year_start 10000).
  { unfold second_ns, epoch in *. change (year_start 10000) with 3652425. lia. }
  destruct (year_of_day_ok day) as [Y1 Y2]. fold y in Y1, Y2.
  assert (Hy : 0 <= y < 10000).
  { revert Y1 Y2 Hday. change (year_start 10000) with 3652425. unfold year_start. clear. Z.to_euclidean_division_equations. lia. }
  rewrite year_length in Y2. fold l in Y2.
  destruct (month_of_ok l d) as [M1 M2]; [unfold d; lia|]. fold m in M1, M2.
  assert (Hd : 1 <= d - month_start l m + 1 <= 31) by (destruct (month_days l m); lia).
  destruct (Z.leb_spec 0 y); [|lia]. destruct (Z.ltb_spec y 10000); [|lia]. cbn [andb].
  assert (Hh : 0 <= t / 3600 <= 23) by (Z.to_euclidean_division_equations; lia).
  assert (Hmi : 0 <= t / 60 mod 60 < 60) by (apply Z.mod_pos_bound; lia).
  assert (Hse : 0 <= t mod 60 < 60) by (apply Z.mod_pos_bound; lia).
  assert (Htt : t = t / 3600 * 3600 + t / 60 mod 60 * 60 + t mod 60) by (Z.to_euclidean_division_equations; lia).
  set (dd := d - month_start l m + 1) in *. set (hh := t / 3600) in *. set (mi := t / 60 mod 60) in *. set (se := t mod 60) in *.
  clearbody hh mi se.
  (** the fraction *)
  set (fr := if f =? 0 then "" else _).
  assert (Fr : exists fs, (fr = "" /\ fs = "" \/ fr = "." ++ fs /\ fs <> "") /\ all_chars is_digit fs = true /\ fraction 9 fs = f).
  { unfold fr. unfold second_ns in Hf. destruct (Z.eqb_spec f 0) as [-> |].
    { exists "". split_and!; auto. }
    assert (Nz : forall b w z, (0 < w)%nat -> pad b w z <> "").
    { intros b w z Hw E. apply (f_equal String.length) in E. rewrite pad_length in E. cbn in E. lia. }
    destruct (Z.eqb_spec (f mod 1000000) 0) as [E6|].
    { exists (pad 10 3 (f / 1000000)). split_and!; [right; split; [done|apply Nz; lia]|apply pad_digits|].
      rewrite fraction_pad; [|lia|cbn; Z.to_euclidean_division_equations; lia].
      change (10 ^ Z.of_nat (9 - 3)) with 1000000. Z.to_euclidean_division_equations; lia. }
    destruct (Z.eqb_spec (f mod 1000) 0) as [E3|].
    { exists (pad 10 6 (f / 1000)). split_and!; [right; split; [done|apply Nz; lia]|apply pad_digits|].
      rewrite fraction_pad; [|lia|cbn; Z.to_euclidean_division_equations; lia].
      change (10 ^ Z.of_nat (9 - 6)) with 1000. Z.to_euclidean_division_equations; lia. }
    exists (pad 10 9 f). split_and!; [right; split; [done|apply Nz; lia]|apply pad_digits|].
    rewrite fraction_pad; [|lia|cbn; lia]. change (10 ^ Z.of_nat (9 - 9)) with 1. lia. }
  clearbody fr. destruct Fr as (fs & Fr & Fd & Ff).
  change ("#inst """ ++ ?x) with ("#inst" ++ " " ++ """" ++ x) || idtac.
  rewrite !app_assoc_str. cbn [append].
  erewrite follow_got by apply (tok_ok "#inst").
  erewrite follow_got by (by apply space1_ok).
  erewrite follow_got by apply (tok_ok """").
  erewrite follow_got by (apply times_ok; [apply pad_length|apply pad_digits]).
  erewrite follow_got by apply (tok_ok "-").
  erewrite follow_got by (apply two_ok; char_lia).
  erewrite follow_got by apply (tok_ok "-").
  erewrite follow_got by (apply two_ok; char_lia).
  erewrite follow_got by apply (tok_ok "T").
  erewrite follow_got by (apply two_ok; char_lia).
  erewrite follow_got by apply (tok_ok ":").
  erewrite follow_got by (apply two_ok; char_lia).
  erewrite follow_got by apply (tok_ok ":").
  erewrite follow_got by (apply two_ok; char_lia).
  erewrite (follow_got (maybe _)) with (a := fs) (r := ("Z" ++ """" ++ r)).
  2: { destruct Fr as [[-> ->] | [-> Fn]]; [done|]. cbn [append]. apply alt_got.
       erewrite follow_got by apply (tok_ok "."). by apply run1_ok. }
  erewrite (follow_got (alt _ _)) with (a := Some 0) (r := ("""" ++ r)) by done.
  erewrite follow_got by apply (tok_ok """").
  erewrite (follow_got (check _)) with (a := ns) (r := r); [done|]. unfold check.
  assert (V : rfc3339_value (pad 10 4 y) (pad 10 2 m) (pad 10 2 dd) (pad 10 2 hh) (pad 10 2 mi) (pad 10 2 se) fs 0 = Some ns).
  { unfold rfc3339_value. rewrite !field_pad by (cbn; lia). fold l. unfold dd.
    destruct (Z.leb_spec 1 m); [|lia]. destruct (Z.leb_spec m 12); [|lia].
    destruct (Z.leb_spec 1 (d - month_start l m + 1)); [|lia].
    destruct (Z.ltb_spec (month_start l m + (d - month_start l m + 1) - 1) (month_start l (m + 1))); [|lia].
    destruct (Z.leb_spec hh 23); [|lia]. destruct (Z.leb_spec mi 59); [|lia]. destruct (Z.leb_spec se 60); [|lia].
    cbn [andb]. f_equal. rewrite Ff. unfold d. lia. }
  by rewrite V.
Qed.

Lemma uuid_read u r : (u < 2 ^ 128)%N -> uuid_rule ("#uuid """ ++ hyphenated u ++ """" ++ r) = Got (EUuid u) r.
Proof.
  intros H. unfold hyphenated, uuid_rule. set (z := Z.of_N u).
  assert (Hz : 0 <= z < 2 ^ 128) by (unfold z; lia).
  rewrite !app_assoc_str. cbn [append].
  erewrite follow_got by apply (tok_ok "#uuid").
  erewrite follow_got by (by apply space1_ok).
  erewrite follow_got by apply (tok_ok """").
  erewrite follow_got by (apply times_ok; [apply pad_length|apply pad_hex]).
  erewrite follow_got by apply (tok_ok "-").
  erewrite follow_got by (apply times_ok; [apply pad_length|apply pad_hex]).
  erewrite follow_got by apply (tok_ok "-").
  erewrite follow_got by (apply times_ok; [apply pad_length|apply pad_hex]).
  erewrite follow_got by apply (tok_ok "-").
  erewrite follow_got by (apply times_ok; [apply pad_length|apply pad_hex]).
  erewrite follow_got by apply (tok_ok "-").
  erewrite follow_got by (apply times_ok; [apply pad_length|apply pad_hex]).
  erewrite follow_got by apply (tok_ok """").
  do 4 (rewrite read_digits_app, read_pad by lia; cbv beta iota). rewrite read_pad by lia.
  unfold follow, unwrap, yield. cbv beta iota.
  match goal with |- Got (EUuid (Z.to_N ?e)) _ = _ => assert (E : e = z) end.
  { change (Z.of_nat 8) with 8. change (Z.of_nat 4) with 4. change (Z.of_nat 12) with 12.
    clearbody z. clear H u r.
    change (16 ^ 24) with 79228162514264337593543950336. change (16 ^ 20) with 1208925819614629174706176.
    change (16 ^ 16) with 18446744073709551616. change (16 ^ 12) with 281474976710656. change (16 ^ 8) with 4294967296.
    change (16 ^ 4) with 65536. change (2 ^ 128) with 340282366920938463463374607431768211456 in Hz.
    Z.to_euclidean_division_equations. lia. }
  rewrite E. unfold z. by rewrite N2Z.id.
Qed.

(* ------------------------------------------------------------- texts and names *)

Lemma text_ok s r : occurs """" s = false -> occurs "\" s = false -> text_chars (s ++ """" ++ r) = Got s r.
Proof.
  induction s as [|c s IH]; intros Q B; [done|]. cbn [occurs] in Q, B. apply orb_false_iff in Q as [Q1 Q2], B as [B1 B2].
  cbn [append] in IH. cbn [append text_chars]. rewrite Ascii.eqb_sym, Q1. rewrite Ascii.eqb_sym, B1. by rewrite IH.
Qed.

Lemma good_name_initial n : good_name n = true -> exists a b, n = a ++ b /\ a <> "" /\ all_chars is_initial a = true
  /\ all_chars is_subsequent b = true /\ stops is_initial b.
Proof.
  destruct n as [|c n]; [done|]. cbn [good_name]. rewrite andb_true_iff, first_chars_initial. intros [Hc Hn].
  assert (K : forall n, only name_chars n = true -> exists a b, n = a ++ b /\ all_chars is_initial a = true
            /\ all_chars is_subsequent b = true /\ stops is_initial b).
  { clear. induction n as [|c n IH]; intros H; [by exists "", ""|]. pose proof H as H'.
    unfold only in H. cbn [all_chars] in H. rewrite name_chars_subsequent in H. apply andb_true_iff in H as [Hc H].
    destruct (is_initial c) eqn:E.
    - destruct (IH H) as (a & b & -> & A & B & S). exists (String c a), b. cbn [all_chars append]. by rewrite E, A.
    - exists "", (String c n). split; [done|]. split; [done|]. split; [|done].
      cbn [all_chars]. rewrite Hc. unfold only in H. rewrite <- (all_chars_ext _ _ n name_chars_subsequent). done. }
  destruct (K n Hn) as (a & b & -> & A & B & S). exists (String c a), b. cbn [all_chars append]. by rewrite Hc, A.
Qed.
Lemma subsequent_not_initial c : is_subsequent c = false -> is_initial c = false.
Proof. unfold is_subsequent. rewrite orb_false_iff. tauto. Qed.
Lemma name_ok n r : good_name n = true -> stops is_subsequent r -> name_rule (n ++ r) = Got n r.
Proof.
  intros G S. destruct (good_name_initial _ G) as (a & b & -> & Na & A & B & Sb). rewrite app_assoc_str.
  unfold name_rule. erewrite follow_got.
  2: { apply run1_ok; [done|done|]. destruct b; [|done]. cbn [append]. destruct r; [done|]. by apply subsequent_not_initial. }
  erewrite follow_got by (by apply run_ok). done.
Qed.
Lemma good_name_subsequent n : good_name n = true -> all_chars is_subsequent n = true.
Proof.
  destruct n as [|c n]; [done|]. cbn [good_name]. rewrite andb_true_iff, first_chars_initial. intros [Hc Hn].
  cbn [all_chars]. unfold only in Hn. rewrite (all_chars_ext _ _ n name_chars_subsequent) in Hn. rewrite Hn.
  unfold is_subsequent. by rewrite Hc.
Qed.

Fixpoint dotted (t : list string) : string := match t with [] => "" | x :: t => "." ++ x ++ dotted t end.
Lemma split_dots_join s : let (h, t) := split_dots s in s = h ++ dotted t.
Proof.
  induction s as [|c s IH]; [done|]. cbn [split_dots]. destruct (split_dots s) as [h t].
  destruct (Ascii.eqb_spec c ".") as [-> |]; cbn [append dotted]; by rewrite IH.
Qed.
Lemma sections_ok m t r : (List.length t < m)%nat -> Forall (fun x => x <> "" /\ all_chars is_subsequent x = true) t ->
  stops (Ascii.eqb ".") r -> stops is_subsequent r -> sections m (dotted t ++ r) = Got (dotted t) r.
Proof.
  revert m. induction t as [|x t IH]; intros [|m] L F D S; cbn [List.length] in L; try lia; cbn [sections dotted append].
  - unfold alt, follow. destruct r as [|c r]; [done|]. cbn [stops] in D. cbn [tok]. by rewrite D.
  - apply Forall_cons in F as [[X1 X2] F]. apply alt_got. rewrite !app_assoc_str.
    erewrite follow_got by apply (tok_ok ".").
    erewrite follow_got.
    2: { apply run1_ok; [done|done|]. destruct t; [done|]. cbn [dotted append]. by vm_compute. }
    erewrite follow_got by (apply IH; [lia|done..]). done.
Qed.
Lemma dotted_length t : (List.length t <= String.length (dotted t))%nat.
Proof. induction t as [|x t IH]; cbn; [lia|]. rewrite length_app_str. lia. Qed.
Lemma namespace_ok s r : good_namespace s = true -> stops (Ascii.eqb ".") r -> stops is_subsequent r ->
  namespace_rule (s ++ r) = Got s r.
Proof.
  intros G D St. pose proof (split_dots_join s) as J. unfold good_namespace in G. destruct (split_dots s) as [h t].
  apply andb_true_iff in G as [G F]. subst s. unfold namespace_rule.
  assert (F' : Forall (fun x => x <> "" /\ all_chars is_subsequent x = true) t).
  { apply Forall_forall. intros x Hx. apply forallb_forall with (x := x) in F; [|by apply elem_of_list_In].
    apply andb_true_iff in F as [F1 F2]. split.
    - intros ->. done.
    - unfold only in F2. by rewrite (all_chars_ext _ _ x name_chars_subsequent) in F2. }
  set (len := String.length ((h ++ dotted t) ++ r)).
  assert (L : (List.length t < S len)%nat).
  { unfold len. rewrite !length_app_str. pose proof (dotted_length t). lia. }
  clearbody len. rewrite app_assoc_str.
  destruct h as [|c h]; [done|]. cbn [good_name] in G. apply andb_true_iff in G as [Gc Gh].
  rewrite first_chars_initial in Gc. cbn [append].
  erewrite (follow_got (one is_initial)) with (a := String c "") (r := h ++ dotted t ++ r) by (cbn [one]; by rewrite Gc).
  erewrite (follow_got (run is_subsequent)).
  2: { apply run_ok.
       - unfold only in Gh. by rewrite (all_chars_ext _ _ h name_chars_subsequent) in Gh.
       - destruct t; [done|]. cbn [dotted append]. by vm_compute. }
  erewrite follow_got by (by apply sections_ok). cbn [append]. done.
Qed.
(** no slash after a name: the name is not a namespace *)
Lemma prefix_none n r : good_name n = true -> stops is_subsequent r -> stops (Ascii.eqb ".") r -> stops (Ascii.eqb "/") r ->
  prefix_rule (n ++ r) = Got None (n ++ r).
Proof.
  intros G S D L. unfold prefix_rule. rewrite alt_no; [done|].
  erewrite follow_got.
  2: { apply (namespace_ok n r); [|done|done]. unfold good_namespace.
       assert (E : split_dots n = (n, [])).
       { apply good_name_subsequent in G. clear -G. induction n as [|c n IH]; [done|]. cbn [all_chars] in G. apply andb_true_iff in G as [Gc G].
         cbn [split_dots]. rewrite (IH G). destruct (Ascii.eqb_spec c ".") as [-> |]; [|done]. by vm_compute in Gc. }
       by rewrite E, G. }
  apply follow_no. destruct r as [|c r]; [done|]. cbn [stops] in L. cbn [tok]. by rewrite L.
Qed.
Lemma prefix_some ns r : good_namespace ns = true -> prefix_rule (ns ++ "/" ++ r) = Got (Some ns) r.
Proof.
  intros G. apply alt_got. erewrite follow_got by (by apply namespace_ok).
  erewrite follow_got by apply (tok_ok "/"). done.
Qed.

Lemma keyword_ok k r : match kw_ns k with Some ns => good_namespace ns = true | None => True end ->
  good_name (kw_name k) = true -> edge r -> keyword_rule (":" ++ name_text (kw_ns k) (kw_name k) ++ r) = Got (EKw k) r.
Proof.
  destruct k as [[ns|] n]; cbn [kw_ns kw_name name_text]; intros N G E; unfold keyword_rule;
    erewrite follow_got by apply (tok_ok ":").
  - rewrite !app_assoc_str. erewrite follow_got by (by apply prefix_some).
    erewrite follow_got by (apply name_ok; [done|by apply edge_stops]). done.
  - erewrite follow_got by (apply prefix_none; [done|by apply edge_stops..]).
    erewrite follow_got by (apply name_ok; [done|by apply edge_stops]). done.
Qed.
Lemma plain_name_ok n r : good_symbol_name n = true -> edge r -> plain_name_rule (n ++ r) = Got n r.
Proof.
  unfold good_symbol_name. rewrite !orb_true_iff, !String.eqb_eq. intros [[G | ->] | ->] E; unfold plain_name_rule.
  - apply alt_got. apply name_ok; [done|by apply edge_stops].
  - rewrite alt_no by done. rewrite alt_no; [done|]. apply (edge_stops (Ascii.eqb ".")) in E; [|done]. destruct r as [|c r]; [done|]. cbn [stops] in E. apply follow_no. cbn [append tok]. by rewrite E.
  - rewrite alt_no by done. done.
Qed.
Lemma prefix_dots n r : n = "." \/ n = "..." -> prefix_rule (n ++ r) = Got None (n ++ r).
Proof. intros [-> | ->]; done. Qed.
Lemma symbol_ok n r : good_symbol_name n = true -> edge r -> symbol_rule (n ++ r) = Got (EPlainSym n) r.
Proof.
  intros G E. unfold symbol_rule. erewrite (follow_got prefix_rule) with (a := None) (r := (n ++ r)).
  - erewrite follow_got by (by apply plain_name_ok). done.
  - unfold good_symbol_name in G. rewrite !orb_true_iff, !String.eqb_eq in G. destruct G as [[G | G] | G].
    + apply prefix_none; [done|by apply edge_stops..].
    + apply prefix_dots. auto.
    + apply prefix_dots. auto.
Qed.
Lemma ns_symbol_ok ns n r : good_namespace ns = true -> good_symbol_name n = true -> edge r ->
  symbol_rule (ns ++ "/" ++ n ++ r) = Got (ENsSym ns n) r.
Proof.
  intros N G E. unfold symbol_rule. erewrite follow_got by (by apply prefix_some).
  erewrite follow_got by (by apply plain_name_ok). done.
Qed.

(** Which values alone are read back, and reading what was read. *)
From Coq Require Import Decimal DecimalString DecimalZ Sorted.
From Verif Require P_Sql.
From Verif Require Import Spec_Edn P_EdnNum P_Edn P_EdnOrd P_EdnRound P_EdnParsed P_EdnTotal.
Open Scope string_scope.
Open Scope Z_scope.
Local Arguments String.append !s1 s2 : simpl nomatch.

Lemma occurs_app c s t : occurs c (s ++ t) = occurs c s || occurs c t.
Proof. induction s as [|d s IH]; cbn [append occurs]; [done|]. rewrite IH. by rewrite orb_assoc. Qed.
Lemma every_sign_start c : sign_or_digit c = true -> good_start c = true.
Proof. by destruct c as [[] [] [] [] [] [] [] []]. Qed.

Section exact.
Context (show : dbl -> string) (float_of : string -> dbl) (Hshow : shows_floats show float_of).

Lemma readable_established v : established v -> survives show v -> readable show v.
Proof using Type. by destruct v. Qed.
Lemma reparse s v : parse float_of s = Parsed v -> Forall (survives show) (parts v) -> parse float_of (print show v) = Parsed v.
Proof using Hshow.
  intros P F. apply print_parse; [done|]. apply parse_sound in P. unfold sound in P. rewrite Forall_forall in *. intros x Hx. apply readable_established; auto.
Qed.

(* ------------------------------------------------------------- a text alone *)

Lemma text_chars_length s t r : text_chars s = Got t r ->
  (String.length t + String.length r + 1 <= String.length s)%nat
  /\ ((String.length t + String.length r + 1 = String.length s)%nat -> s = t ++ """" ++ r /\ occurs """" t = false /\ occurs "\" t = false).
Proof using Type.
  remember (String.length s) as n eqn:Hn. revert s Hn t r. induction (lt_wf n) as [n _ IH]. intros [|c s] -> t r; cbn [text_chars]; [done|].
  destruct (Ascii.eqb_spec c """") as [-> | N1].
  { intros [= <- <-]. cbn. split; [lia|]. done. }
  destruct (Ascii.eqb_spec c "\") as [-> | N2].
  - destruct s as [|e s]; [done|]. destruct (_ || _ || _ || _ || _)%bool; [|done].
    destruct (text_chars s) as [t' r'| | |] eqn:E; try done. intros [= <- <-].
    destruct (IH (String.length s)) with (s := s) (t := t') (r := r') as [H1 H2]; [cbn; lia|done|done|]. cbn. split; [lia|]. lia.
  - destruct (text_chars s) as [t' r'| | |] eqn:E; try done. intros [= <- <-].
    destruct (IH (String.length s)) with (s := s) (t := t') (r := r') as [H1 H2]; [cbn; lia|done|done|]. cbn [String.length]. split; [lia|].
    intros H. destruct H2 as (-> & A & B); [lia|]. cbn [append occurs]. rewrite A, B, !orb_false_r. split; [done|]. rewrite !Ascii.eqb_neq. split; congruence.
Qed.
Lemma text_alone t n : value_rule float_of n (print show (EText t)) = Got (EText t) "" -> occurs """" t = false /\ occurs "\" t = false.
Proof using Type.
  destruct n as [|n]; [done|]. cbn [print append].
  change (value_rule float_of (S n) (String """" (t ++ """"))) with ((eat spaces; peg v <- kinds float_of n; eat spaces; yield v) (String """" (t ++ """"))).
  erewrite (follow_got spaces) with (a := tt) (r := String """" (t ++ """")) by done.
  unfold kinds. unfold follow at 1. do 4 (rewrite alt_no by done). rewrite alt_no by (by eapply not_number). do 2 (rewrite alt_no by done).
  assert (T : text_rule (String """" (t ++ """")) = match text_chars (t ++ """") with Got t' r => Got (EText t') r | No => No | Boom => Boom | Deep => Deep end).
  { unfold text_rule, follow. by cbn [tok Ascii.eqb Bool.eqb]. }
  unfold alt at 1. rewrite T. destruct (text_chars (t ++ """")) as [t' r| | |] eqn:E; try done.
  - unfold follow, spaces, yield. intros [= -> S]. apply text_chars_length in E as [E1 E2]. rewrite length_app_str in *. cbn [String.length] in *.
    destruct E2 as (_ & E2); [lia|]. done.
Qed.

(* ------------------------------------------------------------- an instant alone *)

Lemma parse_value s v : parse float_of s = Parsed v -> value_rule float_of (S (String.length s)) s = Got v "".
Proof using Type. unfold parse. destruct (value_rule _ _ _) as [w [|]| | |]; try done. by intros [= ->]. Qed.
Lemma far_year ns : ~ (-62167219200 * 1000000000 <= ns < 253402300800 * 1000000000) -> exists c t, rfc3339 ns = String c t /\ is_digit c = false.
Proof using Type.
  intros H. unfold rfc3339.
  set (s := ns / second_ns). set (day := s / 86400 + epoch). set (y := year_of_day day).
  destruct (year_of_day_ok day) as [Y1 Y2]. fold y in Y1, Y2.
  assert (Hy : y < 0 \/ 10000 <= y).
  { assert (Hday : day < 0 \/ year_start 10000 <= day).
    { unfold day, s, second_ns, epoch in *. change (year_start 10000) with 3652425. clear -H. Z.to_euclidean_division_equations. lia. }
    revert Y1 Y2 Hday. change (year_start 10000) with 3652425. unfold year_start. clear. Z.to_euclidean_division_equations. lia. }
  replace ((0 <=? y) && (y <? 10000)) with false.
  2: { symmetry. apply andb_false_iff. rewrite Z.leb_gt, Z.ltb_ge. lia. }
  destruct (y <? 0); cbn [append]; eauto.
Qed.
Lemma value_none n s : skip false s = s -> kinds float_of n s = No -> value_rule float_of (S n) s = No.
Proof using Type.
  intros K H. change (value_rule float_of (S n) s) with ((eat spaces; peg v <- kinds float_of n; eat spaces; yield v) s).
  unfold spaces at 1. unfold follow at 1. rewrite K. unfold follow at 1. by rewrite H.
Qed.
Lemma far_kinds n c t : is_digit c = false -> kinds float_of n ("#inst" ++ " " ++ """" ++ String c t) = No.
Proof using Type.
  intros D. unfold kinds. do 4 (rewrite alt_no by done). rewrite alt_no by (by eapply not_number).
  rewrite alt_no.
  2: { unfold inst_rule. do 2 (rewrite alt_no by done). unfold inst_string_rule.
       erewrite follow_got by apply tok_ok. erewrite follow_got by (by apply space1_ok). erewrite follow_got by apply tok_ok.
       apply follow_no. unfold times. apply follow_no. unfold one. by rewrite D. }
  do 7 (rewrite alt_no by done). unfold collection. apply follow_no. done.
Qed.
Lemma far_instant ns : ~ (-62167219200 * 1000000000 <= ns < 253402300800 * 1000000000) -> parse float_of (print show (EInst ns)) = ParseError.
Proof using Type.
  intros H. apply far_year in H as (c & t & E & D). cbn [print]. rewrite E.
  assert (X : "#inst """ ++ String c t ++ """" = "#inst" ++ " " ++ """" ++ String c (t ++ """")) by done.
  rewrite X. unfold parse. rewrite value_none; [done|done|by apply far_kinds].
Qed.

(* ------------------------------------------------------------- a number alone *)

Lemma no_dot sg z : is_sign_text sg -> 0 <= z -> occurs "." (sg ++ dec z) = false.
Proof using Type.
  intros Sg Hz. assert (D : occurs "." (dec z) = false).
  { pose proof (dec_digits z Hz) as D. revert D. generalize (dec z). intros u. induction u as [|c u IH]; [done|]. cbn [all_chars occurs].
    rewrite andb_true_iff. intros [A B]. rewrite IH by done. rewrite orb_false_r. apply Ascii.eqb_neq. intros <-. by vm_compute in A. }
  by destruct Sg as [-> | ->].
Qed.
Lemma whole_text sg z : is_sign_text sg -> 0 <= z ->
  parse float_of (sg ++ dec z) = if fits_i64 (with_sign sg z) then Parsed (EInt (with_sign sg z)) else ParsePanic.
Proof using Type.
  intros Sg Hz. unfold parse. set (m := String.length _). clearbody m.
  pose proof (number_starts sg z "" Sg Hz) as St. rewrite app_nil_str in St.
  change (value_rule float_of (S m) (sg ++ dec z)) with ((eat spaces; peg v <- kinds float_of m; eat spaces; yield v) (sg ++ dec z)).
  unfold follow at 1. unfold spaces at 1. rewrite skip_start.
  2: { eapply starts_impl; [|exact St]. intros c. by apply every_sign_start. }
  pose proof (integer_read float_of sg z "" Sg Hz I) as R. rewrite app_nil_str in R.
  destruct (sg ++ dec z) as [|c s] eqn:Es; [done|]. cbn [starts] in St.
  destruct (not_word (String c s) c s) as (A & B & C & D & _ & _); [done|..]; try (intros ->; by vm_compute in St).
  unfold kinds. unfold follow at 1. do 4 (rewrite alt_no by done). unfold alt at 1. rewrite R. by destruct (fits_i64 _).
Qed.
Lemma whole_float d : d <> DNaN -> d <> the_infinity -> d <> minus_infinity -> occurs "." (show d) = false ->
  exists z, parse float_of (print show (EFloat d)) = if fits_i64 z then Parsed (EInt z) else ParsePanic.
Proof using Hshow.
  intros N1 N2 N3 O. destruct (Hshow d N1 N2 N3) as (_ & sg & z & fr & Sg & Hz & _ & E).
  cbn [print]. rewrite !decide_False by done.
  destruct (String.eqb_spec fr "") as [-> | Nf].
  - rewrite app_nil_str in E. exists (with_sign sg z). rewrite E. by apply whole_text.
  - exfalso. rewrite E in O. clear -O. rewrite !occurs_app in O. apply orb_false_iff in O as [_ O]. apply orb_false_iff in O as [_ O]. revert O. destruct (String.eqb_spec fr ""); done.
Qed.

(* ------------------------------------------------------------- sets written in any order *)

Lemma set_any l : Forall (readable show) (concat (map parts l)) -> parse float_of (print show (ESet l)) = Parsed (ESet (set_from l)).
Proof using Hshow.
  intros F. apply fine_list in F. unfold parse. rewrite <- (app_nil_str (print show (ESet l))) at 2. set (m := String.length _).
  assert (L : (String.length (print show (ESet l) ++ "") < S m)%nat) by (rewrite app_nil_str; unfold m; lia). clearbody m.
  rewrite print_set in *. rewrite !P_Sql.app_assoc_str in *. erewrite value_step with (r := "") (v := ESet (set_from l)); [done|done|].
  unfold kinds. do 4 (rewrite alt_no by done). rewrite alt_no by (by eapply not_number). do 8 (rewrite alt_no by done).
  change ("#{" ++ each show l ++ " }" ++ "") with ("#{" ++ each show l ++ " " ++ "}" ++ "").
  rewrite (collection_ok _ l (fun l => ESet (set_from l))); [done|unfold closer; auto| |apply each_length].
  intros k Hk. apply items_ok; [done|done| |unfold closer; auto|cbn in L; cbn [append]; lia|done].
  eapply Forall_impl; [exact F|]. intros x Fx. by apply value_ok.
Qed.
Lemma set_any_elements l : Forall (readable show) (concat (map parts l)) -> Forall proper l ->
  exists m, parse float_of (print show (ESet l)) = Parsed (ESet m) /\ NoDup m /\ forall y, y ∈ m <-> y ∈ l.
Proof using Hshow.
  intros F P. exists (set_from l). split; [by apply set_any|]. split; [|intros y; by apply set_from_all].
  pose proof (set_from_is_sorted l) as S. induction S as [|x k S IH H]; constructor; [|done].
  intros E. rewrite Forall_forall in H. apply H in E. unfold edn_lt in E. by rewrite ecmp_refl in E.
Qed.

(* ------------------------------------------------------------- exactly these *)

Lemma alone_exact v : single v -> (parse float_of (print show v) = Parsed v <-> readable show v).
Proof using Hshow.
  intros A. split.
  - intros P. pose proof (parse_sound _ _ _ P) as S. assert (S' : established v).
    { unfold sound in S. destruct v; by apply Forall_cons_1 in S as [S _]. }
    clear S. destruct v; try done.
    + cbn. destruct (decide (d = DNaN)); [auto|]. destruct (decide (d = the_infinity)); [auto|]. destruct (decide (d = minus_infinity)); [auto|].
      do 3 right. apply not_false_is_true. intros O. destruct (whole_float d) as (z & W); try done. rewrite W in P. by destruct (fits_i64 z).
    + cbn [readable]. destruct (decide (-62167219200 * 1000000000 <= ns < 253402300800 * 1000000000)) as [H|H]; [done|].
      rewrite far_instant in P by done. done.
    + apply parse_value in P. by eapply text_alone.
  - intros R. apply print_parse; [done|]. destruct v; try done; (apply Forall_cons_2; [done|apply Forall_nil_2]).
Qed.
End exact.

(** C46 and C52: EDN text. *)
From Coq Require Import Decimal DecimalString DecimalZ Sorted.
From stdpp Require Import base list strings.
From Verif Require Import M_Base M_Value M_Edn Spec_Edn P_EdnOrd P_EdnRound P_EdnParsed P_EdnTotal P_EdnExact P_EdnPanic Cases_Edn.
Local Open Scope string_scope.
Local Open Scope Z_scope.

(** [show] stands for Rust's way of printing a finite double and [float_of] for its way of reading one: whatever they are, as long
    as one undoes the other.  A value of which every part is readable (see [readable]) is what the parser makes of its printed form. *)
Theorem C46_roundtrip : forall show float_of v, shows_floats show float_of -> Forall (readable show) (parts v) ->
  parse float_of (print show v) = Parsed v.
Proof. intros show float_of v H. exact (print_parse show float_of H v). Qed.
Print Assumptions C46_roundtrip.
Definition sorted_value : edn := EVec [ESet [EVec [EInt 1]; ESet []]; EMapV [(EKw (Kw None "k"), EMapV [(EInt 2, EFloat (DKey 3)); (EInt 1, EText "it's {:a 1} ; #{}")])];
  EInst 1500000000123000000; EUuid 1234567890123456789; ENsSym "my.ns" "f"; EPlainSym "..."; EFloat DNaN; EBigInt (10 ^ 30)].
Example C46_roundtrip_case : shows_floats show0 float0 /\ Forall (readable show0) (parts sorted_value)
  /\ print show0 sorted_value = "[ #{ [ 1 ] #{ } } { :k { 2 1.5 1 ""it's {:a 1} ; #{}"" } } #inst ""2017-07-14T02:40:00.123Z"" #uuid ""00000000-0000-0000-1122-10f47de98115"" my.ns/f ... #f NaN 1000000000000000000000000000000N ]".
Proof.
  split; [exact show0_ok|]. split; [|vm_compute; reflexivity].
  cbn -[Z.pow]. repeat (apply Forall_cons_2 || apply Forall_nil_2); cbn -[Z.pow]; try exact I; try (split; [reflexivity|]); try reflexivity; auto;
    repeat constructor; try done; try lia.
Qed.

(** For values with nothing inside them these are exactly the values that are read back. *)
Theorem C46_exactly : forall show float_of v, shows_floats show float_of -> single v ->
  (parse float_of (print show v) = Parsed v <-> readable show v).
Proof. intros show float_of v H. exact (alone_exact show float_of H v). Qed.
Print Assumptions C46_exactly.
Example C46_exactly_case : readable show0 (EFloat (DKey 3)) /\ ~ readable show0 (EFloat (DKey 2))
  /\ readable show0 (EText "a") /\ ~ readable show0 (EText "\n").
Proof.
  split; [do 3 right; reflexivity|]. split.
  - intros [H|[H|[H|H]]]; done.
  - split; [split; reflexivity|]. intros [_ H]. discriminate.
Qed.

(** What was read and is printed is read as the same again, if its doubles have a fraction, its instants are of the years 0 to 9999
    and its texts have no quotes and backslashes: names, numbers and collections that were read need no condition. *)
Theorem C46_reread : forall show float_of s v, shows_floats show float_of ->
  parse float_of s = Parsed v -> Forall (survives show) (parts v) -> parse float_of (print show v) = Parsed v.
Proof. intros show float_of s v H. exact (reparse show float_of H s v). Qed.
Print Assumptions C46_reread.
Example C46_reread_case : parse float0 " ,[nilly #{1 0x1 017, 2r11} {:a/b a.b/c.d} ;; x" = ParseError
  /\ exists v, parse float0 "[nilly #{1 0x1, 017 ;; x
    +1} {:a/b a.b/c :a/b d}]" = Parsed v /\ Forall (survives show0) (parts v) /\ print show0 v = "[ nil ly #{ 15 1 } { :a/b d } ]".
Proof.
  split; [vm_compute; reflexivity|]. eexists. split; [vm_compute; reflexivity|]. split; [|vm_compute; reflexivity].
  cbn. repeat (apply Forall_cons_2 || apply Forall_nil_2); exact I.
Qed.

(** The order of values, by which sets and maps are kept: a strict total order that tells apart all values that are different … *)
Theorem C46_order : forall x y z,
  (proper x -> proper y -> (edn_cmp x y = Eq <-> x = y)) /\ edn_cmp y x = CompOpp (edn_cmp x y)
  /\ (edn_cmp x y = Lt -> edn_cmp y z = Lt -> edn_cmp x z = Lt).
Proof. intros x y z. split; [exact (edn_cmp_eq x y)|]. split; [exact (edn_cmp_opp x y)|exact (edn_lt_trans x y z)]. Qed.
Print Assumptions C46_order.
(** … so that a set written with its elements in any order and any number of times is read as the set of exactly these elements. *)
Theorem C46_sets : forall show float_of l, shows_floats show float_of -> Forall (readable show) (concat (map parts l)) -> Forall proper l ->
  exists m, parse float_of (print show (ESet l)) = Parsed (ESet m) /\ NoDup m /\ forall y, y ∈ m <-> y ∈ l.
Proof. intros show float_of l H. exact (set_any_elements show float_of H l). Qed.
Print Assumptions C46_sets.
Example C46_sets_case : parse float0 (print show0 (ESet [EInt 1; EText "a"; EInt 2; EInt 1])) = Parsed (ESet [EInt 2; EInt 1; EText "a"]).
Proof. vm_compute. reflexivity. Qed.
Example C46_order_case : proper big_value /\ edn_cmp (EInt 1) (EInt 2) = Gt /\ edn_cmp (EVec [EInt 1]) (EVec [EInt 2]) = Lt /\ edn_cmp (EText "a") (EPlainSym "a") = Lt.
Proof. split; [|done]. unfold proper. cbn -[Z.pow]. repeat (apply Forall_cons_2 || apply Forall_nil_2); done. Qed.

(** Not all values are read back: printing does not escape, so that texts can become anything; … *)
Theorem C46_injection_refuted : exists v w, v <> w /\ forall show, print show v = print show w /\ forall float_of, parse float_of (print show v) = Parsed w.
Proof. exists (EVec [EText "a"" ""b"]), (EVec [EText "a"; EText "b"]). split; [done|]. intros show. split; [reflexivity|]. intros float_of. reflexivity. Qed.
Print Assumptions C46_injection_refuted.
(** … a double without a fraction becomes an integer, or panics the parser if it is too large for one. *)
Theorem C46_whole_doubles_refuted : forall show float_of d, shows_floats show float_of -> d <> DNaN -> d <> the_infinity -> d <> minus_infinity ->
  occurs "." (show d) = false ->
  exists z, parse float_of (print show (EFloat d)) = if decide (- 2 ^ 63 <= z < 2 ^ 63) then Parsed (EInt z) else ParsePanic.
Proof.
  intros show float_of d H N1 N2 N3 O. destruct (whole_float show float_of H d N1 N2 N3 O) as (z & E). exists z. rewrite E. unfold fits_i64.
  destruct (decide (- 2 ^ 63 <= z < 2 ^ 63)) as [[L1 L2]|N].
  - apply Z.leb_le in L1 as ->. apply Z.ltb_lt in L2 as ->. reflexivity.
  - destruct (Z.leb_spec (- 2 ^ 63) z), (Z.ltb_spec z (2 ^ 63)); try reflexivity. destruct N. split; assumption.
Qed.
Print Assumptions C46_whole_doubles_refuted.
Example C46_whole_doubles_case : parse float0 (print show0 (EFloat (DKey 2))) = Parsed (EInt 1)
  /\ parse float0 (print show0 (EFloat (DKey (2 ^ 64)))) = ParsePanic.
Proof. split; vm_compute; reflexivity. Qed.
(** … and so do other things that can be made with the constructors of values. *)
Theorem C46_others_refuted : forall show float_of,
  parse float_of (print show (EPlainSym "nilly")) = ParseError
  /\ parse float_of (print show (EVec [EPlainSym "nilly"])) = Parsed (EVec [ENil; EPlainSym "ly"])
  /\ parse float_of (print show (EVec [EPlainSym "a.b"])) = Parsed (EVec [EPlainSym "a"; EPlainSym "."; EPlainSym "b"])
  /\ parse float_of (print show (EText "\n")) = Parsed (EText "n")
  /\ parse float_of (print show (EInst (253402300800 * 1000000000))) = ParseError.
Proof. intros show float_of. repeat split; vm_compute; reflexivity. Qed.
Print Assumptions C46_others_refuted.

(** The parser always answers: with a value, an error or a panic.  (In the model, the bounds it is given are enough.) *)
Theorem C52_answers : forall float_of s, parse float_of s <> ParseDeep.
Proof. exact parse_answers. Qed.
Print Assumptions C52_answers.
(** A text without more than 15 letters and digits in a row and without a digit before the letter r does not make it panic, whatever
    else is in it. *)
Theorem C52_no_panic : forall float_of s, mild s -> parse float_of s <> ParsePanic.
Proof. exact parse_mild. Qed.
Print Assumptions C52_no_panic.
Example C52_no_panic_case : mild "[-12 ""unclosed" /\ parse float0 "[-12 ""unclosed" = ParseError /\ parse float0 "{1 2 3}" = ParseError /\ parse float0 "" = ParseError.
Proof.
  split; [|split; [|split]; vm_compute; reflexivity]. split.
  - intros t u r E H. pose proof (f_equal String.length E) as L. rewrite !P_EdnNum.length_app_str in L. cbn in L. lia.
  - intros t c r E. exfalso.
    do 14 (destruct t as [|? t]; [cbn in E; discriminate E|cbn in E; injection E as _ E]). destruct t; discriminate.
Qed.
(** Other texts do. *)
Theorem C52_panics_refuted : forall float_of,
  parse float_of "99999999999999999999" = ParsePanic /\ parse float_of "3r9" = ParsePanic
  /\ parse float_of "#instmillis 9223372036854775807" = ParsePanic /\ parse float_of "0x8000000000000000" = ParsePanic.
Proof. intros float_of. repeat split; vm_compute; reflexivity. Qed.
Print Assumptions C52_panics_refuted.

(** Printing EDN values and parsing them back: edn/src/types.rs Display, edn/src/lib.rs grammar. *)
From Coq Require Import Decimal DecimalString String Ascii.
From Verif Require Export M_EdnValue M_Sql.
Open Scope string_scope.
Open Scope Z_scope.

(* ------------------------------------------------------------- digits *)

(** The character of a digit, lower case above nine. *)
Definition digit_char (d : Z) : ascii :=
  ascii_of_N (Z.to_N (if d <? 10 then 48 + d else 87 + d)).
(** char::to_digit, before its comparison with the base *)
Definition digit_value (c : ascii) : option Z :=
  let n := Z.of_N (N_of_ascii c) in
  if in_range c "0" "9" then Some (n - 48)
  else if in_range c "a" "z" then Some (n - 87)
  else if in_range c "A" "Z" then Some (n - 55)
  else None.
(** The last [w] digits of [z] in the base [b], as {:0w} prints a number of at most [w] digits. *)
Fixpoint pad (b : Z) (w : nat) (z : Z) : string :=
  match w with
  | O => ""
  | S w => pad b w (z / b) ++ String (digit_char (z mod b)) ""
  end.
(** A number read from its digits in the base [b]. *)
Fixpoint read_digits (b acc : Z) (s : string) : option Z :=
  match s with
  | "" => Some acc
  | String c s => match digit_value c with
                  | Some d => if d <? b then read_digits b (acc * b + d) s else None
                  | None => None
                  end
  end.
Definition fits_i64 (z : Z) : bool := (- 2 ^ 63 <=? z) && (z <? 2 ^ 63).

(* ------------------------------------------------------------- the calendar *)

(** chrono's calendar is the proleptic Gregorian one.  Days are counted from 0000-01-01. *)
Definition leap (y : Z) : bool := (y mod 4 =? 0) && (negb (y mod 100 =? 0) || (y mod 400 =? 0)).
(** days before the first of January of the year [y] *)
Definition year_start (y : Z) : Z := 365 * y + (y + 3) / 4 - (y + 99) / 100 + (y + 399) / 400.
(** days of the year before the first of the month [m] *)
Definition month_start (l : bool) (m : Z) : Z :=
  let e := if l then 1 else 0 in
  match m with
  | 1 => 0 | 2 => 31 | 3 => 59 + e | 4 => 90 + e | 5 => 120 + e | 6 => 151 + e | 7 => 181 + e
  | 8 => 212 + e | 9 => 243 + e | 10 => 273 + e | 11 => 304 + e | 12 => 334 + e | _ => 365 + e
  end.
Definition year_of_day (n : Z) : Z :=
  let y := n * 400 / 146097 in
  if year_start (y + 1) <=? n then y + 1 else if n <? year_start y then y - 1 else y.
(** the month of the day [d] of a year *)
Definition month_of (l : bool) (d : Z) : Z :=
  if d <? month_start l 2 then 1 else if d <? month_start l 3 then 2 else if d <? month_start l 4 then 3
  else if d <? month_start l 5 then 4 else if d <? month_start l 6 then 5 else if d <? month_start l 7 then 6
  else if d <? month_start l 8 then 7 else if d <? month_start l 9 then 8 else if d <? month_start l 10 then 9
  else if d <? month_start l 11 then 10 else if d <? month_start l 12 then 11 else 12.
(** 1970-01-01 *)
Definition epoch : Z := 719528.
Definition second_ns : Z := 1000000000.

(** DateTime::to_rfc3339_opts(SecondsFormat::AutoSi, true) *)
Definition rfc3339 (ns : Z) : string :=
  let s := ns / second_ns in
  let f := ns mod second_ns in
  let day := s / 86400 + epoch in
  let t := s mod 86400 in
  let y := year_of_day day in
  let l := leap y in
  let d := day - year_start y in
  let m := month_of l d in
  (if (0 <=? y) && (y <? 10000) then pad 10 4 y
   else (if y <? 0 then "-" else "+") ++ (if Z.abs y <? 10000 then pad 10 4 (Z.abs y) else dec (Z.abs y)))
  ++ "-" ++ pad 10 2 m ++ "-" ++ pad 10 2 (d - month_start l m + 1)
  ++ "T" ++ pad 10 2 (t / 3600) ++ ":" ++ pad 10 2 (t / 60 mod 60) ++ ":" ++ pad 10 2 (t mod 60)
  ++ (if f =? 0 then ""
      else if f mod 1000000 =? 0 then "." ++ pad 10 3 (f / 1000000)
      else if f mod 1000 =? 0 then "." ++ pad 10 6 (f / 1000)
      else "." ++ pad 10 9 f)
  ++ "Z".

(** Uuid::to_hyphenated().to_string() *)
Definition hyphenated (u : N) : string :=
  let z := Z.of_N u in
  pad 16 8 (z / 16 ^ 24) ++ "-" ++ pad 16 4 (z / 16 ^ 20) ++ "-" ++ pad 16 4 (z / 16 ^ 16)
  ++ "-" ++ pad 16 4 (z / 16 ^ 12) ++ "-" ++ pad 16 12 z.

(* ------------------------------------------------------------- printing *)

Definition the_infinity : dbl := DKey (2047 * 2 ^ 52).
Definition minus_infinity : dbl := DKey (- (2047 * 2 ^ 52)).

(** symbols.rs:276-332, namespaceable_name.rs:190-194 *)
Definition name_text (ns : option string) (n : string) : string :=
  match ns with Some ns => ns ++ "/" ++ n | None => n end.

Section print.
(** [show] is the Display of f64 for finite numbers. *)
Context (show : dbl -> string).

(** types.rs:535-595 def_common_value_display *)
Fixpoint print (v : edn) : string :=
  let each := fix each (l : list edn) : string :=
    match l with [] => "" | x :: l => " " ++ print x ++ each l end in
  let each_pair := fix each_pair (l : list (edn * edn)) : string :=
    match l with [] => "" | (k, x) :: l => " " ++ print k ++ " " ++ print x ++ each_pair l end in
  match v with
  | ENil => "nil"
  | EBool b => if b then "true" else "false"
  | EInt z => dec z
  | EInst ns => "#inst """ ++ rfc3339 ns ++ """"
  | EBigInt z => dec z ++ "N"
  | EFloat d => if decide (d = the_infinity) then "#f +Infinity"
                else if decide (d = minus_infinity) then "#f -Infinity"
                else if decide (d = DNaN) then "#f NaN"
                else show d
  | EText s => """" ++ s ++ """"
  | EUuid u => "#uuid """ ++ hyphenated u ++ """"
  | EPlainSym s => s
  | ENsSym ns n => name_text (Some ns) n
  | EKw k => ":" ++ name_text (kw_ns k) (kw_name k)
  | EVec l => "[" ++ each l ++ " ]"
  | EList l => "(" ++ each l ++ " )"
  | ESet l => "#{" ++ each l ++ " }"
  | EMapV l => "{" ++ each_pair l ++ " }"
  end.
End print.

(* ------------------------------------------------------------- the order of values *)

(** types.rs:452-470 precedence *)
Definition precedence (v : edn) : Z :=
  match v with
  | ENil => 0 | EBool _ => 1 | EInt _ => 2 | EBigInt _ => 3 | EFloat _ => 4 | EInst _ => 5 | EText _ => 6
  | EUuid _ => 7 | EPlainSym _ => 8 | ENsSym _ _ => 9
  | EKw k => if kw_is_namespaced k then 11 else 10
  | EVec _ => 12 | EList _ => 13 | ESet _ => 14 | EMapV _ => 15
  end.

Definition bool_cmp (x y : bool) : comparison :=
  match x, y with false, true => Lt | true, false => Gt | _, _ => Eq end.
(** OrderedFloat: NaN is the greatest. *)
Definition dbl_cmp (x y : dbl) : comparison :=
  match x, y with DNaN, DNaN => Eq | DNaN, _ => Gt | _, DNaN => Lt | DKey a, DKey b => a ?= b end.
Definition ord_if (fwd : bool) {A} (c : A -> A -> comparison) (x y : A) : comparison :=
  if fwd then c x y else c y x.

(** types.rs:509-530 def_common_value_ord.  Within a kind the order is that of the contents, upside
    down.  [ecmp false x y] is [x.cmp(y)] and [ecmp true x y] is [y.cmp(x)]. *)
Fixpoint ecmp (flip : bool) (x y : edn) {struct x} : comparison :=
  let shorter := if flip then Lt else Gt in
  let lex := fix lex (a b : list edn) {struct a} : comparison :=
    match a, b with
    | [], [] => Eq
    | [], _ => shorter
    | _, [] => CompOpp shorter
    | u :: a, w :: b => match ecmp (negb flip) u w with Eq => lex a b | c => c end
    end in
  let lex_pairs := fix lex_pairs (a b : list (edn * edn)) {struct a} : comparison :=
    match a, b with
    | [], [] => Eq
    | [], _ => shorter
    | _, [] => CompOpp shorter
    | (k, u) :: a, (j, w) :: b =>
        match ecmp (negb flip) k j with
        | Eq => match ecmp (negb flip) u w with Eq => lex_pairs a b | c => c end
        | c => c
        end
    end in
  match x, y with
  | ENil, ENil => Eq
  | EBool a, EBool b => ord_if flip bool_cmp a b
  | EInt a, EInt b => ord_if flip Z.compare a b
  | EInst a, EInst b => ord_if flip Z.compare a b
  | EBigInt a, EBigInt b => ord_if flip Z.compare a b
  | EFloat a, EFloat b => ord_if flip dbl_cmp a b
  | EText a, EText b => ord_if flip string_cmp a b
  | EUuid a, EUuid b => ord_if flip N.compare a b
  | EPlainSym a, EPlainSym b => ord_if flip string_cmp a b
  | ENsSym a m, ENsSym b n => ord_if flip kw_cmp (Kw (Some a) m) (Kw (Some b) n)
  | EKw a, EKw b => ord_if flip kw_cmp a b
  | EVec a, EVec b => lex a b
  | EList a, EList b => lex a b
  | ESet a, ESet b => lex a b
  | EMapV a, EMapV b => lex_pairs a b
  | _, _ => if flip then precedence y ?= precedence x else precedence x ?= precedence y
  end.
Definition edn_cmp : edn -> edn -> comparison := ecmp false.

(** BTreeSet::from_iter: equal elements are kept once. *)
Fixpoint set_insert (x : edn) (l : list edn) : list edn :=
  match l with
  | [] => [x]
  | y :: l' => match edn_cmp x y with Lt => x :: l | Eq => l | Gt => y :: set_insert x l' end
  end.
Definition set_from (l : list edn) : list edn := foldl (fun s x => set_insert x s) [] l.
(** BTreeMap::from_iter: the last value of a key is kept. *)
Fixpoint map_insert (k v : edn) (l : list (edn * edn)) : list (edn * edn) :=
  match l with
  | [] => [(k, v)]
  | (j, w) :: l' => match edn_cmp k j with
                    | Lt => (k, v) :: l | Eq => (j, v) :: l' | Gt => (j, w) :: map_insert k v l'
                    end
  end.
Definition map_from (l : list (edn * edn)) : list (edn * edn) := foldl (fun s x => map_insert x.1 x.2 s) [] l.

(* ------------------------------------------------------------- parsing expression grammars *)

(** What a rule does at a position of the text: match and go on at a later position, not match,
    panic (an [unwrap] in its action).  [Deep]: the bound on the recursion of this model was reached;
    [parse] never does (P_Edn.v). *)
Inductive pr (A : Type) := Got (a : A) (rest : string) | No | Boom | Deep.
Arguments Got {A} _ _. Arguments No {A}. Arguments Boom {A}. Arguments Deep {A}.
Definition parser (A : Type) := string -> pr A.

Definition yield {A} (a : A) : parser A := fun s => Got a s.
Definition follow {A B} (p : parser A) (k : A -> parser B) : parser B := fun s =>
  match p s with Got a s' => k a s' | No => No | Boom => Boom | Deep => Deep end.
(** ordered choice *)
Definition alt {A} (p q : parser A) : parser A := fun s => match p s with No => q s | r => r end.
Notation "'peg' x <- p ; k" := (follow p (fun x => k)) (at level 200, x name, p at level 100, k at level 200).
Notation "'eat' p ; k" := (follow p (fun _ => k)) (at level 200, p at level 100, k at level 200).
(** an [unwrap] *)
Definition unwrap {A} (o : option A) : parser A := fun s => match o with Some a => Got a s | None => Boom end.
(** a conditional action, {? } *)
Definition check {A} (o : option A) : parser A := fun s => match o with Some a => Got a s | None => No end.
(** a literal *)
Fixpoint tok (t : string) : parser unit := fun s =>
  match t, s with
  | "", _ => Got tt s
  | String a t, String c s => if Ascii.eqb a c then tok t s else No
  | _, "" => No
  end.
(** one character of a class *)
Definition one (p : ascii -> bool) : parser string := fun s =>
  match s with String c s => if p c then Got (String c "") s else No | "" => No end.
(** [class*], [class+], [class*<n>] and [class?], with the text matched *)
Fixpoint run (p : ascii -> bool) (s : string) : pr string :=
  match s with
  | "" => Got "" ""
  | String c s' => if p c then match run p s' with Got t r => Got (String c t) r | x => x end else Got "" s
  end.
Definition run1 (p : ascii -> bool) : parser string :=
  peg c <- one p; peg t <- run p; yield (c ++ t).
Fixpoint times (n : nat) (p : ascii -> bool) : parser string :=
  match n with O => yield "" | S n => peg c <- one p; peg t <- times n p; yield (c ++ t) end.
Definition maybe (p : parser string) : parser string := alt p (yield "").
(** [!( … )] on classes: the next character is not one of these *)
Definition not_next (p : ascii -> bool) : parser unit := fun s =>
  match s with String c _ => if p c then No else Got tt s | "" => Got tt s end.
(** [rule*] *)
Fixpoint many {A} (p : parser A) (m : nat) : parser (list A) := fun s =>
  match m with
  | O => Deep
  | S m => match p s with
           | Got a s' => match many p m s' with Got l r => Got (a :: l) r | x => x end
           | No => Got [] s
           | Boom => Boom
           | Deep => Deep
           end
  end.

(* ------------------------------------------------------------- the grammar *)

(** lib.rs:235 *)
Definition is_space (c : ascii) : bool :=
  Ascii.eqb c " " || Ascii.eqb c "013" || Ascii.eqb c "010" || Ascii.eqb c "009" || Ascii.eqb c ",".
Definition is_eol (c : ascii) : bool := Ascii.eqb c "013" || Ascii.eqb c "010".
(** lib.rs:236-238 __; [true] inside a comment *)
Fixpoint skip (comment : bool) (s : string) : string :=
  match s with
  | "" => ""
  | String c s' =>
      if comment then skip (negb (is_eol c)) s'
      else if is_space c then skip false s'
      else if Ascii.eqb c ";" then skip true s'
      else s
  end.
Definition spaces : parser unit := fun s => Got tt (skip false s).
Definition space1 : parser string := run1 is_space.

(** lib.rs:85-90 *)
Definition is_octal (c : ascii) : bool := in_range c "0" "7".
Definition is_hex (c : ascii) : bool := is_digit c || in_range c "a" "f" || in_range c "A" "F".
Definition is_sign (c : ascii) : bool := Ascii.eqb c "+" || Ascii.eqb c "-".
Definition is_exp (c : ascii) : bool := Ascii.eqb c "e" || Ascii.eqb c "E".
Definition validbase : parser string :=
  alt (peg a <- tok "3"; peg c <- one (fun c => in_range c "0" "6"); yield ("3" ++ c))
  (alt (peg a <- one (fun c => in_range c "1" "2"); peg c <- one is_digit; yield (a ++ c))
       (one (fun c => in_range c "2" "9"))).

(** the number in digits with a sign, str::parse *)
Definition signed (sg d : string) : option Z :=
  match NilZero.uint_of_string d with
  | Some u => Some (if String.eqb sg "-" then - Z.of_uint u else Z.of_uint u)
  | None => None
  end.
Definition in_i64 (o : option Z) : option Z :=
  match o with Some z => if fits_i64 z then Some z else None | None => None end.
(** i64::from_str_radix on digits without a sign *)
Definition radix (b : option Z) (d : string) : option Z :=
  match b with Some b => in_i64 (read_digits b 0 d) | None => None end.

Section grammar.
(** [float_of] is str::parse::<f64>. *)
Context (float_of : string -> dbl).

(** lib.rs:75-83 *)
Definition nil_rule : parser edn := eat tok "nil"; yield ENil.
Definition nan_rule : parser edn := eat tok "#f"; eat space1; eat tok "NaN"; yield (EFloat DNaN).
Definition infinity_rule : parser edn :=
  eat tok "#f"; eat space1; peg s <- one is_sign; eat tok "Infinity";
  yield (EFloat (if String.eqb s "+" then the_infinity else minus_infinity)).
Definition boolean_rule : parser edn :=
  alt (eat tok "true"; yield (EBool true)) (eat tok "false"; yield (EBool false)).

(** lib.rs:92-112 *)
Definition bigint_rule : parser edn :=
  peg sg <- maybe (one is_sign); peg d <- run1 is_digit; eat tok "N"; peg z <- unwrap (signed sg d); yield (EBigInt z).
Definition octal_rule : parser edn :=
  eat tok "0"; peg d <- run1 is_octal; peg z <- unwrap (radix (Some 8) d); yield (EInt z).
Definition hex_rule : parser edn :=
  eat tok "0x"; peg d <- run1 is_hex; peg z <- unwrap (radix (Some 16) d); yield (EInt z).
Definition based_rule : parser edn :=
  peg b <- validbase; eat tok "r"; peg d <- run1 is_alnum; peg z <- unwrap (radix (signed "" b) d); yield (EInt z).
Definition integer_rule : parser edn :=
  peg sg <- maybe (one is_sign); peg d <- run1 is_digit;
  eat not_next (fun c => Ascii.eqb c "." || is_exp c); peg z <- unwrap (in_i64 (signed sg d)); yield (EInt z).
Definition float_rule : parser edn :=
  peg sg <- maybe (one is_sign); peg d <- run1 is_digit;
  peg f <- maybe (eat tok "."; peg t <- run1 is_digit; yield ("." ++ t));
  peg e <- maybe (peg x <- one is_exp; peg es <- maybe (one is_sign); peg t <- run1 is_digit; yield (x ++ es ++ t));
  yield (EFloat (float_of (sg ++ d ++ f ++ e))).
Definition number_rule : parser edn :=
  alt bigint_rule (alt based_rule (alt hex_rule (alt octal_rule (alt integer_rule float_rule)))).

(** lib.rs:116-130.  The pieces of the text are joined as they are read. *)
Fixpoint text_chars (s : string) : pr string :=
  match s with
  | "" => No
  | String c s =>
      if Ascii.eqb c """" then Got "" s
      else if Ascii.eqb c "\" then
        match s with
        | String e s =>
            if Ascii.eqb e "\" || Ascii.eqb e """" || Ascii.eqb e "n" || Ascii.eqb e "t" || Ascii.eqb e "r"
            then match text_chars s with Got t r => Got (String e t) r | x => x end
            else No
        | "" => No
        end
      else match text_chars s with Got t r => Got (String c t) r | x => x end
  end.
Definition text_rule : parser edn := eat tok """"; peg t <- text_chars; yield (EText t).

(** lib.rs:132-146 and chrono's DateTime::parse_from_rfc3339: the fields must be in range and the day
    must exist; digits of the fraction beyond the ninth are dropped; the second may be 60.  (chrono
    keeps a second 60 apart from the second after it; here they are one.) *)
Definition field (s : string) : Z := default 0 (read_digits 10 0 s).
Fixpoint fraction (w : nat) (s : string) : Z :=
  match w, s with
  | O, _ => 0
  | S w, "" => 0
  | S w, String c s => default 0 (digit_value c) * 10 ^ (Z.of_nat w) + fraction w s
  end.
Definition rfc3339_value (y mo d h mi s f : string) (offset : Z) : option Z :=
  let l := leap (field y) in
  let day := month_start l (field mo) + field d - 1 in
  if (1 <=? field mo) && (field mo <=? 12) && (1 <=? field d) && (day <? month_start l (field mo + 1))
     && (field h <=? 23) && (field mi <=? 59) && (field s <=? 60)
  then Some (((year_start (field y) + day - epoch) * 86400
              + field h * 3600 + field mi * 60 + field s - offset) * second_ns + fraction 9 f)
  else None.
(** an offset from UTC in seconds: chrono takes hours up to 23 and minutes up to 59 *)
Definition offset_value (sg h m : string) : option Z :=
  if field h <=? 23
  then Some (let z := field h * 3600 + field m * 60 in if String.eqb sg "-" then - z else z) else None.
Definition two (hi : ascii) : parser string :=
  peg a <- one (fun c => in_range c "0" hi); peg c <- one is_digit; yield (a ++ c).
Definition inst_string_rule : parser edn :=
  eat tok "#inst"; eat space1; eat tok """";
  peg y <- times 4 is_digit; eat tok "-"; peg mo <- two "2"; eat tok "-"; peg d <- two "3"; eat tok "T";
  peg h <- two "2"; eat tok ":"; peg mi <- two "5"; eat tok ":"; peg s <- two "6";
  peg f <- maybe (eat tok "."; run1 is_digit);
  peg o <- alt (eat tok "Z"; yield (Some 0))
               (peg sg <- one is_sign; peg oh <- two "2"; eat tok ":"; peg om <- two "5"; yield (offset_value sg oh om));
  eat tok """";
  peg z <- check (match o with Some o => rfc3339_value y mo d h mi s f o | None => None end);
  yield (EInst z).
(** lib.rs:148-165; Utc.timestamp panics outside the years -262144 to 262143 *)
Definition timestamp (seconds ns : Z) : option Z :=
  if (year_start (-262144) <=? seconds / 86400 + epoch) && (seconds / 86400 + epoch <? year_start 262144)
  then Some (seconds * second_ns + ns) else None.
Definition inst_micros_rule : parser edn :=
  eat tok "#instmicros"; eat space1; peg d <- run1 is_digit; peg z <- unwrap (in_i64 (signed "" d));
  peg t <- unwrap (timestamp (z / 1000000) (z mod 1000000 * 1000)); yield (EInst t).
Definition inst_millis_rule : parser edn :=
  eat tok "#instmillis"; eat space1; peg d <- run1 is_digit; peg z <- unwrap (in_i64 (signed "" d));
  peg t <- unwrap (timestamp (z / 1000) (z mod 1000 * 1000000)); yield (EInst t).
Definition inst_rule : parser edn := alt inst_millis_rule (alt inst_micros_rule inst_string_rule).

(** lib.rs:167-173 *)
Definition is_lower_hex (c : ascii) : bool := in_range c "a" "f" || is_digit c.
Definition uuid_rule : parser edn :=
  eat tok "#uuid"; eat space1; eat tok """";
  peg a <- times 8 is_lower_hex; eat tok "-"; peg b <- times 4 is_lower_hex; eat tok "-";
  peg c <- times 4 is_lower_hex; eat tok "-"; peg d <- times 4 is_lower_hex; eat tok "-";
  peg e <- times 12 is_lower_hex; eat tok """";
  peg u <- unwrap (read_digits 16 0 (a ++ b ++ c ++ d ++ e)); yield (EUuid (Z.to_N u)).

(** lib.rs:181-186 *)
Definition is_initial (c : ascii) : bool :=
  is_alnum c || Ascii.eqb c "*" || Ascii.eqb c "!" || Ascii.eqb c "_" || Ascii.eqb c "?" || Ascii.eqb c "$"
  || Ascii.eqb c "%" || Ascii.eqb c "&" || Ascii.eqb c "=" || Ascii.eqb c "<" || Ascii.eqb c ">".
Definition is_subsequent (c : ascii) : bool := is_initial c || is_sign c.
(** [(namespace_divider() symbol_char_subsequent()+)*]; the bound is the length of the text *)
Fixpoint sections (m : nat) : parser string := fun s =>
  match m with
  | O => Deep
  | S m => alt (eat tok "."; peg t <- run1 is_subsequent; peg u <- sections m; yield ("." ++ t ++ u)) (yield "") s
  end.
Definition namespace_rule : parser string := fun s =>
  (peg a <- one is_initial; peg t <- run is_subsequent; peg u <- sections (S (String.length s)); yield (a ++ t ++ u)) s.
Definition name_rule : parser string :=
  peg a <- run1 is_initial; peg t <- run is_subsequent; yield (a ++ t).
Definition plain_name_rule : parser string :=
  alt name_rule (alt (eat tok "..."; yield "...") (eat tok "."; yield ".")).
(** [( sns:$(symbol_namespace()) namespace_separator() { sns })?] *)
Definition prefix_rule : parser (option string) :=
  alt (peg ns <- namespace_rule; eat tok "/"; yield (Some ns)) (yield None).
(** lib.rs:190-201; the constructors cannot panic here, the parts are not empty *)
Definition symbol_rule : parser edn :=
  peg ns <- prefix_rule; peg n <- plain_name_rule;
  yield (match ns with Some ns => ENsSym ns n | None => EPlainSym n end).
Definition keyword_rule : parser edn :=
  eat tok ":"; peg ns <- prefix_rule; peg n <- name_rule; yield (EKw (Kw ns n)).

(** the shape of the rules list, vector, set and map, lib.rs:203-218 *)
Definition collection (opening closing : string) {A} (item : parser A) (f : list A -> edn) : parser edn := fun s =>
  (eat tok opening; eat spaces; peg l <- many item (S (String.length s)); eat spaces; eat tok closing; yield (f l)) s.

(** lib.rs:203-228 list, vector, set, pair, map, value *)
Fixpoint value_rule (n : nat) : parser edn :=
  match n with
  | O => fun _ => Deep
  | S n =>
      eat spaces;
      peg v <- alt nil_rule (alt nan_rule (alt infinity_rule (alt boolean_rule (alt number_rule (alt inst_rule
                 (alt uuid_rule (alt text_rule (alt keyword_rule (alt symbol_rule
                 (alt (collection "(" ")" (value_rule n) EList)
                 (alt (collection "[" "]" (value_rule n) EVec)
                 (alt (collection "{" "}" (peg k <- value_rule n; peg x <- value_rule n; yield (k, x)) (fun l => EMapV (map_from l)))
                      (collection "#{" "}" (value_rule n) (fun l => ESet (set_from l)))))))))))))));
      eat spaces; yield v
  end.

(** edn::parse::value: the whole text must be a value. *)
Inductive parsed := Parsed (v : edn) | ParseError | ParsePanic | ParseDeep.
Definition parse (s : string) : parsed :=
  match value_rule (S (String.length s)) s with
  | Got v "" => Parsed v
  | Got _ _ => ParseError
  | No => ParseError
  | Boom => ParsePanic
  | Deep => ParseDeep
  end.
End grammar.

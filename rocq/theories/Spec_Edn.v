(** Which EDN values can be printed and read back. *)
From Verif Require Export M_Edn.
From Coq Require Import Sorted.
Open Scope string_scope.
Open Scope Z_scope.

(** A value and everything inside it. *)
Fixpoint parts (v : edn) : list edn :=
  v :: match v with
       | EVec l | EList l | ESet l => concat (map parts l)
       | EMapV l => concat (map (fun kx => parts kx.1 ++ parts kx.2)%list l)
       | _ => []
       end.

Fixpoint occurs (c : ascii) (s : string) : bool :=
  match s with "" => false | String d s => Ascii.eqb c d || occurs c s end.
Definition only (allowed s : string) : bool := all_chars (fun c => occurs c allowed) s.
Definition digits : string := "0123456789".
Definition letters : string := "abcdefghijklmnopqrstuvwxyzABCDEFGHIJKLMNOPQRSTUVWXYZ".
(** the characters a name may begin with *)
Definition first_chars : string := letters ++ digits ++ "*!_?$%&=<>".
Definition name_chars : string := first_chars ++ "+-".

(** A name: one character it may begin with, then any characters of names. *)
Definition good_name (n : string) : bool :=
  match n with String c n => occurs c first_chars && only name_chars n | "" => false end.
(** A namespace: names with dots between them; after a dot also + or - may come first. *)
Fixpoint split_dots (s : string) : string * list string :=
  match s with
  | "" => ("", [])
  | String c s => let (h, t) := split_dots s in
                  if Ascii.eqb c "." then ("", h :: t) else (String c h, t)
  end.
Definition good_namespace (s : string) : bool :=
  let (h, t) := split_dots s in
  good_name h && forallb (fun x => negb (String.eqb x "") && only name_chars x) t.
(** A symbol is not one of these when it begins like another value. *)
Definition begins_otherwise (s : string) : bool :=
  String.prefix "nil" s || String.prefix "true" s || String.prefix "false" s
  || match s with String c _ => occurs c digits | "" => false end.
Definition good_symbol_name (n : string) : bool := good_name n || String.eqb n "." || String.eqb n "...".

(** [show] prints a finite number as digits, with a dot and more digits if it is not whole, and
    [float_of] reads that as the number. *)
Definition shows_floats (show : dbl -> string) (float_of : string -> dbl) : Prop :=
  forall d, d <> DNaN -> d <> the_infinity -> d <> minus_infinity ->
    float_of (show d) = d
    /\ exists (sign : string) (whole : Z) (frac : string),
         (sign = "" \/ sign = "-") /\ 0 <= whole /\ only digits frac = true
         /\ show d = sign ++ dec whole ++ (if String.eqb frac "" then "" else "." ++ frac).

(** A value of which the printed form is read as that value, as far as the value itself is concerned
    and not what is inside it.  (The conditions on integers, UUIDs, sets and maps hold of all values
    there are: 64 bits, 128 bits, collections in order.) *)
Definition readable (show : dbl -> string) (v : edn) : Prop :=
  match v with
  | EInt z => - 2 ^ 63 <= z < 2 ^ 63
  | EUuid u => (u < 2 ^ 128)%N
  | EFloat d => d = DNaN \/ d = the_infinity \/ d = minus_infinity \/ occurs "." (show d) = true
  | EInst ns => -62167219200 * 1000000000 <= ns < 253402300800 * 1000000000
  | EText s => occurs """" s = false /\ occurs "\" s = false
  | EPlainSym n => good_symbol_name n = true /\ begins_otherwise n = false
  | ENsSym ns n => good_namespace ns = true /\ good_symbol_name n = true /\ begins_otherwise ns = false
  | EKw k => match kw_ns k with Some ns => good_namespace ns = true | None => True end /\ good_name (kw_name k) = true
  | ESet l => StronglySorted (fun x y => edn_cmp x y = Lt) l
  | EMapV l => StronglySorted (fun x y => edn_cmp x y = Lt) (map fst l)
  | _ => True
  end.

(** What has to be asked of a value that came out of the parser. *)
Definition survives (show : dbl -> string) (v : edn) : Prop :=
  match v with EFloat _ | EInst _ | EText _ => readable show v | _ => True end.

(** A value with nothing inside it. *)
Definition single (v : edn) : Prop := match v with EVec _ | EList _ | ESet _ | EMapV _ => False | _ => True end.

(** No keyword has an empty namespace: mentat cannot make one. *)
Definition proper (v : edn) : Prop :=
  Forall (fun p => match p with EKw k => kw_ns k <> Some "" | _ => True end) (parts v).

(** No more than 15 letters and digits in a row, and no digit with the letter r after it. *)
Definition mild (s : string) : Prop :=
  (forall t u r, s = t ++ u ++ r -> only (letters ++ digits) u = true -> (String.length u <= 15)%nat)
  /\ (forall t c r, s = t ++ String c (String "r" r) -> occurs c digits = false).

(** Data for the examples about EDN: a way of printing and reading doubles, and some values. *)
From Coq Require Import Decimal DecimalString DecimalZ Sorted.
From Verif Require P_Sql.
From Verif Require Import Spec_Edn P_EdnNum P_Edn P_EdnRound P_EdnExact.
Open Scope string_scope.
Open Scope Z_scope.
Local Arguments String.append !s1 s2 : simpl nomatch.

(** the double of key [k] is printed as k/2 *)
Definition show0 (d : dbl) : string :=
  match d with
  | DNaN => ""
  | DKey k => (if k <? 0 then "-" else "") ++ dec (Z.abs k / 2) ++ (if Z.abs k mod 2 =? 0 then "" else ".5")
  end.
Definition halves (s : string) : Z :=
  let (h, t) := split_dots s in
  2 * default 0 (signed "" h) + match t with [] => 0 | _ => 1 end.
Definition float0 (s : string) : dbl :=
  match s with
  | String "-" s => DKey (- halves s)
  | _ => DKey (halves s)
  end.
Lemma split_digits s t : all_chars is_digit s = true -> split_dots (s ++ t) = (s ++ (split_dots t).1, (split_dots t).2).
Proof.
  induction s as [|c s IH]; cbn [append all_chars split_dots].
  - by destruct (split_dots t).
  - rewrite andb_true_iff. intros [A B]. rewrite IH by done. destruct (Ascii.eqb_spec c ".") as [-> |]; [by vm_compute in A|done].
Qed.
Lemma halves_show w (b : bool) : 0 <= w -> halves (dec w ++ (if b then "" else ".5")) = 2 * w + (if b then 0 else 1).
Proof.
  intros H. unfold halves. rewrite split_digits by (by apply dec_digits).
  destruct b; cbn [split_dots fst snd append Ascii.eqb Bool.eqb]; rewrite ?app_nil_str, signed_dec by done; cbn [default id String.eqb]; done.
Qed.
Lemma show0_ok : shows_floats show0 float0.
Proof.
  intros [|k] N0 N1 N2; [done|]. cbn [show0]. split.
  - assert (H := halves_show (Z.abs k / 2) (Z.abs k mod 2 =? 0) ltac:(Z.to_euclidean_division_equations; lia)).
    assert (K : halves (dec (Z.abs k / 2) ++ (if Z.abs k mod 2 =? 0 then "" else ".5")) = Z.abs k).
    { rewrite H. destruct (Z.eqb_spec (Z.abs k mod 2) 0); Z.to_euclidean_division_equations; lia. }
    destruct (Z.ltb_spec k 0).
    + cbn [append float0]. f_equal. rewrite K. lia.
    + cbn [append]. pose proof (dec_digits (Z.abs k / 2) ltac:(Z.to_euclidean_division_equations; lia)) as D.
      destruct (dec (Z.abs k / 2)) as [|c s] eqn:E; [by apply dec_nonempty in E|]. cbn [append] in *.
      cbn [all_chars] in D. apply andb_true_iff in D as [D _].
      assert (F : float0 (String c (s ++ (if Z.abs k mod 2 =? 0 then "" else ".5"))) = DKey (halves (String c (s ++ (if Z.abs k mod 2 =? 0 then "" else ".5"))))).
      { unfold float0. destruct c as [[] [] [] [] [] [] [] []]; try done; by vm_compute in D. }
      rewrite F, K. f_equal. lia.
  - exists (if k <? 0 then "-" else ""), (Z.abs k / 2), (if Z.abs k mod 2 =? 0 then "" else "5"). split_and!.
    + destruct (k <? 0); auto.
    + Z.to_euclidean_division_equations; lia.
    + by destruct (Z.abs k mod 2 =? 0).
    + by destruct (Z.abs k mod 2 =? 0).
Qed.

(** a value of every kind, nested *)
Definition big_value : edn :=
  EVec [ENil; EBool true; EInt (-42); EBigInt (10 ^ 30); EFloat (DKey 3); EFloat DNaN; EFloat minus_infinity;
        EInst 1500000000123000000; EUuid 1234567890123456789; EText "it's {:a 1} ; #{}"; EPlainSym "?x"; EPlainSym "..."; ENsSym "my.ns" "f";
        EKw (Kw (Some "person") "name"); EKw (Kw None "a-b");
        EList [EVec []; EList []];
        ESet [ESet []; EVec [EInt 1]];
        EMapV [(EKw (Kw None "k"), EMapV [(EInt 1, ENil); (EInt 2, ENil)])]].

(** C59: pretty printing of EDN. *)
From Coq Require Import Sorted.
From stdpp Require Import base list strings.
From Verif Require Import M_Base M_Value M_Edn M_Pretty Spec_Edn Spec_Pretty P_Pretty Cases_Edn.
Local Open Scope string_scope.
Local Open Scope Z_scope.

(** However the document of a value is laid out, what is written is read as that value, if every part of it is readable (as for C46).
    [layout] allows any choice of the groups that are put on one line … *)
Theorem C59_layouts : forall show float_of v s, shows_floats show float_of -> Forall (readable show) (parts v) ->
  layout false 0 (as_doc show v) s -> parse float_of s = Parsed v.
Proof. intros show float_of v s H. exact (layout_parse show float_of H v s). Qed.
Print Assumptions C59_layouts.
(** … so also with the choice that depends on the width, whatever the width. *)
Theorem C59_widths : forall show float_of v w, shows_floats show float_of -> Forall (readable show) (parts v) ->
  parse float_of (to_pretty show w v) = Parsed v.
Proof. intros show float_of v w H. exact (pretty_parse show float_of H v w). Qed.
Print Assumptions C59_widths.
(** A value that was read is read as the same again, with the conditions of C46_reread. *)
Theorem C59_reread : forall show float_of t v w, shows_floats show float_of ->
  parse float_of t = Parsed v -> Forall (survives show) (parts v) -> parse float_of (to_pretty show w v) = Parsed v.
Proof. intros show float_of t v w H. exact (pretty_reread show float_of H t v w). Qed.
Print Assumptions C59_reread.
(** A value that fits on one line is on one line. *)
Theorem C59_line : forall show v w, (String.length (on_one_line show v) <= w)%nat -> to_pretty show w v = on_one_line show v.
Proof. exact pretty_line. Qed.
Print Assumptions C59_line.

Definition pretty_value : edn := EVec [EInt 1; EList [EFloat (DKey 7)]; ESet [EBigInt 4];
  EMapV [(ENsSym "foo" "bar", EInt 42); (EKw (Kw (Some "baz") "boz"), EMapV [])]; EVec []; EPlainSym "eight"; EText "; ]"; EFloat DNaN].
Example C59_case : shows_floats show0 float0 /\ Forall (readable show0) (parts pretty_value)
  /\ to_pretty show0 80 pretty_value = "[1 (3.5) #{4N} {:baz/boz {} foo/bar 42} [] eight ""; ]"" #f NaN]"
  /\ to_pretty show0 30 pretty_value = "[1
 (3.5)
 #{4N}
 {:baz/boz {} foo/bar 42}
 []
 eight
 ""; ]""
 #f NaN]"
  /\ to_pretty show0 0 (EMapV [(EInt 1, EVec [EInt 2; EInt 3])]) = "{1
 [2
  3]}"
  /\ (String.length (on_one_line show0 pretty_value) <= 80)%nat.
Proof.
  split; [exact show0_ok|]. split; [|vm_compute; repeat split; repeat constructor].
  cbn -[Z.pow]. repeat (apply Forall_cons_2 || apply Forall_nil_2); cbn -[Z.pow]; try exact I; try (split; [reflexivity|]); try reflexivity; auto;
    repeat constructor; try done; try lia.
Qed.

(** Texts are printed without escapes here too: a vector of one text is read as a vector of two. *)
Theorem C59_injection_refuted : ~ forall show float_of v w, shows_floats show float_of ->
  Forall proper [v] -> parse float_of (to_pretty show w v) = Parsed v.
Proof.
  intros H. specialize (H show0 float0 (EVec [EText "a"" ""b"]) 80%nat show0_ok).
  assert (K : parse float0 (to_pretty show0 80 (EVec [EText "a"" ""b"])) = Parsed (EVec [EText "a"; EText "b"])) by (vm_compute; reflexivity).
  rewrite K in H. assert (P : Forall proper [EVec [EText "a"" ""b"]]) by (repeat constructor). specialize (H P). discriminate H.
Qed.
Print Assumptions C59_injection_refuted.

(** Proofs about writing SQL. *)
From stdpp Require Import base list strings sorting.
From Coq Require Import ZArith String Ascii DecimalString DecimalZ Lia.
From Verif Require Import M_Base M_Value M_Sql Spec_Sql.
Local Open Scope Z_scope.
Local Open Scope string_scope.
Local Arguments String.append !s1 s2 : simpl nomatch.

(* ------------------------------------------------------------- decimal text *)

Lemma dec_read z : NilZero.int_of_string (dec z) = Some (Z.to_int z).
Proof. unfold dec. apply NilZero.isi; destruct z as [|p|p]; cbn; try discriminate; intros H; injection H; apply DecimalPos.Unsigned.to_uint_nonnil. Qed.
Lemma dec_inj x y : dec x = dec y -> x = y.
Proof.
  intros H. apply (f_equal NilZero.int_of_string) in H. rewrite !dec_read in H. injection H as H.
  rewrite <- (DecimalZ.of_to x), <- (DecimalZ.of_to y). by rewrite H.
Qed.
Lemma app_assoc_str a b c : (a ++ b) ++ c = a ++ (b ++ c).
Proof. induction a as [|x a IH]; cbn; [done|]. by rewrite IH. Qed.
Lemma app_nil_str a : a ++ "" = a.
Proof. induction a as [|x a IH]; cbn; [done|]. by rewrite IH. Qed.
Lemma app_inj_str a b c : a ++ b = a ++ c -> b = c.
Proof. induction a as [|x a IH]; cbn; [done|]. intros H. injection H. done. Qed.

Lemma all_chars_app p a b : all_chars p (a ++ b) = all_chars p a && all_chars p b.
Proof. induction a as [|x a IH]; cbn; [done|]. by rewrite IH, andb_assoc. Qed.
Lemma uint_digits d : all_chars is_digit (NilEmpty.string_of_uint d) = true.
Proof. induction d; cbn; done. Qed.
Lemma uint_digits' d : all_chars is_digit (NilZero.string_of_uint d) = true.
Proof. destruct d; try reflexivity; apply uint_digits. Qed.

(** the digits of a number, one by one *)
Lemma lex_digits s d : all_chars is_digit s = true -> lex_from (LNumber d) s = Some ([], LNumber (d ++ s)).
Proof.
  revert d. induction s as [|c s IH]; intros d H; cbn in *; [by rewrite app_nil_str|].
  apply andb_true_iff in H as [Hc H]. unfold lex_char at 1.
  assert (Hz : Ascii.eqb c zero = false).
  { destruct (Ascii.eqb_spec c zero) as [->|]; [discriminate|done]. }
  rewrite Hz, Hc; cbn. rewrite IH by done. unfold add_char. by rewrite app_assoc_str.
Qed.
Lemma lex_uint s : s <> "" -> all_chars is_digit s = true -> lex_from LReady s = Some ([], LNumber s).
Proof.
  destruct s as [|c s]; [done|]. intros _ H. cbn in H. apply andb_true_iff in H as [Hc H]. cbn [lex_from].
  assert (E : lex_char LReady c = Some ([], LNumber (String c ""))).
  { unfold lex_char, start. unfold is_digit, in_range in Hc.
    destruct c as [[] [] [] [] [] [] [] []]; cbn in Hc |- *; try discriminate; reflexivity. }
  rewrite E, (lex_digits s _ H). done.
Qed.
Lemma lex_negative s : s <> "" -> all_chars is_digit s = true -> lex_from LReady (String "-" s) = Some ([], LNumber (String "-" s)).
Proof.
  destruct s as [|c s]; [done|]. intros _ H. cbn in H. apply andb_true_iff in H as [Hc H].
  change (lex_from LReady (String "-" (String c s))) with
    (match lex_from LMinus (String c s) with Some (ts', l) => Some (([] ++ ts')%list, l) | None => None end).
  cbn [lex_from].
  assert (E : lex_char LMinus c = Some ([], LNumber (String "-" (String c "")))).
  { unfold lex_char. rewrite Hc. destruct (Ascii.eqb_spec c zero) as [->|]; [discriminate|done]. }
  rewrite E, (lex_digits s _ H). done.
Qed.
Lemma uint_nonempty d : NilZero.string_of_uint d <> "".
Proof. destruct d; discriminate. Qed.
Lemma lex_dec z : lex_from LReady (dec z) = Some ([], LNumber (dec z)).
Proof.
  unfold dec. destruct z as [|p|p]; cbn [Z.to_int NilZero.string_of_int].
  - apply lex_uint; [apply uint_nonempty|apply uint_digits'].
  - apply lex_uint; [apply uint_nonempty|apply uint_digits'].
  - apply lex_negative; [apply uint_nonempty|apply uint_digits'].
Qed.

(* ------------------------------------------------------------- the lexer, piece by piece *)

Lemma lex_app l s t : lex_from l (s ++ t) =
  match lex_from l s with
  | Some (ts, l) => match lex_from l t with Some (ts', l) => Some ((ts ++ ts')%list, l) | None => None end
  | None => None
  end.
Proof.
  revert l. induction s as [|c s IH]; intros l; cbn.
  - destruct (lex_from l t) as [[ts l']|]; done.
  - destruct (lex_char l c) as [[ts l']|]; [|done]. rewrite IH. destruct (lex_from l' s) as [[ts1 l1]|]; [|done].
    destruct (lex_from l1 t) as [[ts2 l2]|]; [|done]. by rewrite app_assoc.
Qed.

(** how a text leaves the lexer *)
Inductive edge := ERdy | EDot | EWord | EName | EOther | EBad.
Definition edge_of (l : lexing) : edge :=
  match l with
  | LReady => ERdy | LDot => EDot | LWord _ => EWord | LNameTick _ => EName
  | LNumber _ | LOp _ | LParam _ | LTextTick _ => EOther
  | LMinus | LExponent _ | LName _ | LText _ => EBad
  end.
Definition pending (l : lexing) : list token := match l with LDot => [] | _ => default [] (last_token l) end.
Definition follow (e : edge) (c : ascii) : bool :=
  match e with
  | ERdy => true
  | EDot => word_start c || Ascii.eqb c "`"
  | EWord => breaks c || Ascii.eqb c "("
  | EName => breaks c || Ascii.eqb c "."
  | EOther => breaks c
  | EBad => false
  end.

Lemma resume l c s ts l' :
  follow (edge_of l) c = true -> lex_from LReady (String c s) = Some (ts, l') -> lex_from l (String c s) = Some ((pending l ++ ts)%list, l').
Proof.
  intros F H. cbn [lex_from] in *.
  assert (E : lex_char l c = match lex_char LReady c with Some (t, l1) => Some ((pending l ++ t)%list, l1) | None => None end).
  { assert (B : forall b d, breaks c || Ascii.eqb c d = b -> b = true -> c = " "%char \/ c = ")"%char \/ c = ","%char \/ c = d).
    { intros b d <- Hb. unfold breaks in Hb. rewrite !orb_true_iff in Hb. rewrite !Ascii.eqb_eq in Hb. tauto. }
    assert (B' : breaks c = true -> c = " "%char \/ c = ")"%char \/ c = ","%char).
    { intros Hb. unfold breaks in Hb. rewrite !orb_true_iff in Hb. rewrite !Ascii.eqb_eq in Hb. tauto. }
    destruct l; cbn [edge_of follow] in F; try discriminate.
    - destruct (lex_char LReady c) as [[t l1]|]; done.
    - unfold lex_char. rewrite F. destruct (Ascii.eqb c zero); [done|]. destruct (start c) as [[t l1]|]; done.
    - destruct (B _ _ eq_refl F) as [-> | [-> | [-> | ->]]]; reflexivity.
    - destruct (B' F) as [-> | [-> | ->]]; reflexivity.
    - destruct (B' F) as [-> | [-> | ->]]; reflexivity.
    - destruct (B' F) as [-> | [-> | ->]]; reflexivity.
    - destruct (B _ _ eq_refl F) as [-> | [-> | [-> | ->]]]; reflexivity.
    - destruct (B' F) as [-> | [-> | ->]]; reflexivity. }
  rewrite E. destruct (lex_char LReady c) as [[t l1]|]; [|discriminate].
  destruct (lex_from l1 s) as [[t2 l2]|]; [|discriminate]. injection H as <- <-. by rewrite app_assoc.
Qed.

Lemma lex_name_body s n :
  writable_name s -> lex_from (LName n) (double_ticks s) = Some ([], LName (n ++ s)).
Proof.
  revert n. unfold writable_name. induction s as [|c s IH]; intros n H; cbn [double_ticks all_chars] in *; [cbn; by rewrite app_nil_str|].
  apply andb_true_iff in H as [Hc H]. apply negb_true_iff in Hc.
  destruct (Ascii.eqb c "`") eqn:E.
  - apply Ascii.eqb_eq in E as ->. cbn. rewrite IH by done. unfold add_char. by rewrite app_assoc_str.
  - cbn [lex_from]. unfold lex_char. rewrite Hc, E. rewrite IH by done. unfold add_char. by rewrite app_assoc_str.
Qed.
Lemma lex_name s : writable_name s -> lex_from LReady ("`" ++ double_ticks s ++ "`") = Some ([], LNameTick s).
Proof.
  intros H. rewrite lex_app. change (lex_from LReady "`") with (Some (@nil token, LName "")). cbv beta iota.
  rewrite lex_app, (lex_name_body s "" H). reflexivity.
Qed.
Lemma lex_word_chars s n : all_chars word_char s = true -> lex_from (LParam n) s = Some ([], LParam (n ++ s)).
Proof.
  revert n. induction s as [|c s IH]; intros n H; cbn in *; [by rewrite app_nil_str|].
  apply andb_true_iff in H as [Hc H]. unfold lex_char at 1.
  assert (Hz : Ascii.eqb c zero = false).
  { destruct (Ascii.eqb_spec c zero) as [->|]; [discriminate|done]. }
  rewrite Hz, Hc. rewrite IH by done. unfold add_char. by rewrite app_assoc_str.
Qed.
Lemma lex_param s : all_chars word_char s = true -> lex_from LReady ("$" ++ s) = Some ([], LParam ("$" ++ s)).
Proof.
  intros H. rewrite lex_app. change (lex_from LReady "$") with (Some (@nil token, LParam "$")). cbv beta iota.
  rewrite (lex_word_chars s _ H). reflexivity.
Qed.
Lemma digit_word s : all_chars is_digit s = true -> all_chars word_char s = true.
Proof.
  induction s as [|c s IH]; cbn; [done|]. intros H. apply andb_true_iff in H as [Hc H].
  unfold word_char at 1. by rewrite Hc, orb_true_r, IH.
Qed.

(* ------------------------------------------------------------- the arguments *)

Definition bound (b : builder) : list (string * sqlval) :=
  (b_args b ++ map (fun p => (p.2, SText p.1)) (b_strings b) ++ map (fun p => (p.2, SBlob p.1)) (b_bytes b))%list.
Definition generated (n : string) (k : Z) : Prop := exists i, 0 <= i < k /\ n = "$v" ++ dec i.
Record names_ok (b : builder) : Prop := {
  no_prefix : b_prefix b = "$v";
  no_counter : 0 <= b_counter b;
  no_generated : forall n v, (n, v) ∈ bound b -> generated n (b_counter b);
  no_nodup : NoDup (map fst (bound b)) }.

Lemma assoc_elem {A B} `{EqDecision A} (x : A) (l : list (A * B)) y : assoc x l = Some y -> (x, y) ∈ l.
Proof.
  unfold assoc. intros H. apply fmap_Some in H as ([a b] & H & ->). apply head_Some_elem_of, elem_of_list_filter in H as [H1 H2].
  cbn in *. by subst.
Qed.
Lemma elem_assoc {A B} `{EqDecision A} (x : A) (l : list (A * B)) y : NoDup (map fst l) -> (x, y) ∈ l -> assoc x l = Some y.
Proof.
  unfold assoc. induction l as [|[a b] l IH]; intros ND H; [by apply elem_of_nil in H|].
  cbn in ND. apply NoDup_cons in ND as [Hn ND]. rewrite filter_cons. cbn [fst]. destruct (decide (a = x)) as [->|Hax].
  - apply elem_of_cons in H as [H|H]; [by injection H as ->|].
    exfalso. apply Hn. apply (elem_of_list_fmap_1 fst) in H. exact H.
  - apply elem_of_cons in H as [H|H]; [injection H as -> ->; done|]. by apply IH.
Qed.
Lemma assoc_none {A B} `{EqDecision A} (x : A) (l : list (A * B)) : assoc x l = None <-> x ∉ map fst l.
Proof.
  unfold assoc. rewrite fmap_None, head_None. split.
  - intros H Hx. apply elem_of_list_fmap in Hx as ([a b] & -> & Hx). cbn in *.
    assert ((a, b) ∈ filter (fun p => p.1 = a) l) by by apply elem_of_list_filter. rewrite H in H0. by apply elem_of_nil in H0.
  - intros H. destruct (filter (fun p => p.1 = x) l) as [|[a b] t] eqn:E; [done|]. exfalso. apply H.
    assert ((a, b) ∈ filter (fun p => p.1 = x) l) by (rewrite E; constructor).
    apply elem_of_list_filter in H0 as [H1 H2]. cbn in H1. subst. apply (elem_of_list_fmap_1 fst) in H2. exact H2.
Qed.

(** adding one argument *)
Lemma names_ok_extend b b' n v :
  names_ok b -> n = argument_name b -> b_prefix b' = b_prefix b -> b_counter b' = b_counter b + 1 ->
  Permutation (bound b') ((n, v) :: bound b) -> names_ok b'.
Proof.
  intros [P C G N] -> Hp Hc Hb. split.
  - by rewrite Hp.
  - lia.
  - intros m w H. rewrite Hb in H. apply elem_of_cons in H as [H|H].
    + injection H as -> ->. exists (b_counter b). unfold argument_name. rewrite P. split; [lia|done].
    + destruct (G _ _ H) as (i & Hi & ->). exists i. split; [lia|done].
  - rewrite Hb. cbn. apply NoDup_cons. split; [|done]. intros H. apply elem_of_list_fmap in H as ([m w] & E & H). cbn in E.
    destruct (G _ _ H) as (i & Hi & ->). unfold argument_name in E. rewrite P in E. apply app_inj_str, dec_inj in E. lia.
Qed.

Section calls.
Context (exp : dbl -> string).

(** the text that a call adds, given the arguments at the end *)
Definition call_text (args : list (string * sqlval)) (c : call) (t : string) : Prop :=
  match c with
  | Sql s => t = s
  | Name s => t = "`" ++ double_ticks s ++ "`"
  | Val v =>
      match v with
      | TVRef z | TVLong z => t = dec z
      | TVBoolean x => t = dec (if x then 1 else 0)
      | TVInstant ns => t = dec (to_micros ns)
      | TVDouble d => t = exp d
      | TVString _ | TVKeyword _ | TVUuid _ => exists i, 0 <= i /\ t = "$v" ++ dec i /\ (t, (to_sql_value_pair v).1) ∈ args
      end
  | Bind s => t = "$" ++ s /\ all_chars (fun c => is_alnum c || Ascii.eqb c "_") s = true
  | Crash => False
  end.
Lemma call_text_grow A A' c t : A ⊆ A' -> call_text A c t -> call_text A' c t.
Proof.
  intros S. destruct c as [s|s|v|s|]; cbn; try done. destruct v; cbn; try done; intros (i & Hi & Ht & H); eauto.
Qed.

Lemma do_call_text c b b' :
  names_ok b -> do_call exp c b = Ok b' ->
  names_ok b' /\ bound b ⊆ bound b' /\ exists t, b_sql b' = b_sql b ++ t /\ call_text (bound b') c t.
Proof.
  intros N H. destruct c as [s|s|v|s|]; cbn in H; try discriminate.
  - injection H as <-. destruct N. split; [by split|]. split; [done|]. by exists s.
  - injection H as <-. destruct N. split; [by split|]. split; [done|]. eexists. split; [|reflexivity]. cbn. by rewrite !app_assoc_str.
  - injection H as <-. destruct N as [P C G D] eqn:EN. clear EN.
    assert (K : forall t, names_ok (push_sql t b) /\ bound b ⊆ bound (push_sql t b) /\ b_sql (push_sql t b) = b_sql b ++ t).
    { intros t. split; [by split|]. split; done. }
    destruct v as [z|x|z|d|ns|s|k|u]; cbn [push_typed_value call_text].
    + destruct (K (dec z)) as (K1 & K2 & K3). split_and!; [done|done|]. eauto.
    + destruct (K (if x then "1" else "0")) as (K1 & K2 & K3). split_and!; [done|done|]. eexists. split; [exact K3|]. by destruct x.
    + destruct (K (dec z)) as (K1 & K2 & K3). split_and!; [done|done|]. eauto.
    + destruct (K (exp d)) as (K1 & K2 & K3). split_and!; [done|done|]. eauto.
    + destruct (K (dec (to_micros ns))) as (K1 & K2 & K3). split_and!; [done|done|]. eauto.
    + destruct (assoc s (b_strings b)) as [arg|] eqn:E.
      * destruct (K arg) as (K1 & K2 & K3). split_and!; [done|done|]. eexists. split; [exact K3|].
        apply assoc_elem in E. assert (In : (arg, SText s) ∈ bound b).
        { unfold bound. rewrite !elem_of_app. right; left. apply elem_of_list_fmap. by exists (s, arg). }
        destruct (G _ _ In) as (i & Hi & ->). exists i. split_and!; [lia|done|exact In].
      * match goal with |- names_ok ?X /\ _ => set (b' := X) end.
        assert (Pm : Permutation (bound b') ((argument_name b, SText s) :: bound b)).
        { unfold bound, b'. cbn. by rewrite <- Permutation_middle. }
        assert (K1 : names_ok b') by (eapply (names_ok_extend b); [by split|reflexivity|reflexivity|reflexivity|exact Pm]).
        split_and!; [done|intros y Hy; rewrite Pm; by right|]. eexists. split; [reflexivity|].
        exists (b_counter b). unfold argument_name in Pm |- *. rewrite P in Pm |- *. split_and!; [lia|done|].
        rewrite Pm. left.
    + match goal with |- names_ok ?X /\ _ => set (b' := X) end.
      assert (Pm : Permutation (bound b') ((argument_name b, SText (kw_to_string k)) :: bound b)).
      { unfold bound, b'. cbn. rewrite <- app_assoc. cbn. by rewrite <- Permutation_middle. }
      assert (K1 : names_ok b') by (eapply (names_ok_extend b); [by split|reflexivity|reflexivity|reflexivity|exact Pm]).
      split_and!; [done|intros y Hy; rewrite Pm; by right|]. eexists. split; [reflexivity|].
      exists (b_counter b). unfold argument_name in Pm |- *. rewrite P in Pm |- *. split_and!; [lia|done|].
      rewrite Pm. left.
    + destruct (assoc u (b_bytes b)) as [arg|] eqn:E.
      * destruct (K arg) as (K1 & K2 & K3). split_and!; [done|done|]. eexists. split; [exact K3|].
        apply assoc_elem in E. assert (In : (arg, SBlob u) ∈ bound b).
        { unfold bound. rewrite !elem_of_app. right; right. apply elem_of_list_fmap. by exists (u, arg). }
        destruct (G _ _ In) as (i & Hi & ->). exists i. split_and!; [lia|done|exact In].
      * match goal with |- names_ok ?X /\ _ => set (b' := X) end.
        assert (Pm : Permutation (bound b') ((argument_name b, SBlob u) :: bound b)).
        { unfold bound, b'. cbn. rewrite !app_assoc. by rewrite <- Permutation_middle. }
        assert (K1 : names_ok b') by (eapply (names_ok_extend b); [by split|reflexivity|reflexivity|reflexivity|exact Pm]).
        split_and!; [done|intros y Hy; rewrite Pm; by right|]. eexists. split; [reflexivity|].
        exists (b_counter b). unfold argument_name in Pm |- *. rewrite P in Pm |- *. split_and!; [lia|done|].
        rewrite Pm. left.
  - unfold push_bind_param in H. destruct (all_chars _ s) eqn:E; [|discriminate]. cbn [negb] in H.
    destruct (String.prefix _ _ && _); [discriminate|]. injection H as <-. destruct N. split; [by split|]. split; [done|].
    exists ("$" ++ s). split; [cbn; by rewrite app_assoc_str|]. done.
Qed.

Definition concat_str (ts : list string) : string := fold_right String.append "" ts.
Lemma do_calls_text cs b b' :
  names_ok b -> do_calls exp cs b = Ok b' ->
  names_ok b' /\ bound b ⊆ bound b' /\ exists ts, b_sql b' = b_sql b ++ concat_str ts /\ Forall2 (call_text (bound b')) cs ts.
Proof.
  revert b. induction cs as [|c cs IH]; intros b N H; cbn in H.
  - injection H as <-. split; [done|]. split; [done|]. exists []. cbn. by rewrite app_nil_str.
  - destruct (do_call exp c b) as [b1| |] eqn:E; cbn in H; try discriminate.
    destruct (do_call_text c b b1 N E) as (N1 & S1 & t & T1 & C1). destruct (IH b1 N1 H) as (N2 & S2 & ts & T2 & C2).
    split; [done|]. split; [set_solver|]. exists (t :: ts). split; [rewrite T2, T1; cbn; by rewrite app_assoc_str|].
    constructor; [by eapply call_text_grow|done].
Qed.
End calls.

(* ------------------------------------------------------------- what a list of calls says *)

(** [c], called when the lexer is at [e], says [its] and leaves the lexer at [e'] *)
Definition fixed_text (s : string) (e : edge) (its : list item) : Prop :=
  exists ts l, lex_from LReady s = Some (ts, l) /\ edge_of l = e /\ forall real args, mapM (read_token real args) (ts ++ pending l)%list = Some its.
Inductive step : edge -> call -> edge -> list item -> Prop :=
  | step_sql e c s e' its : follow e c = true -> fixed_text (String c s) e' its -> step e (Sql (String c s)) e' its
  | step_name e s : e = ERdy \/ e = EDot -> writable_name s -> step e (Name s) EName [Ident s]
  | step_val v : writable_value v -> step ERdy (Val v) EOther [value_says v]
  | step_bind s : all_chars (fun c => is_alnum c || Ascii.eqb c "_") (String "i" s) = true -> step ERdy (Bind (String "i" s)) EOther [Hole ("$" ++ String "i" s)].
Inductive run : edge -> list call -> edge -> list item -> Prop :=
  | run_nil e : run e [] e []
  | run_cons e c e1 i1 cs e2 i2 : step e c e1 i1 -> run e1 cs e2 i2 -> run e (c :: cs) e2 (i1 ++ i2).

Lemma mapM_app_Some {A B} (f : A -> option B) a b x y : mapM f a = Some x -> mapM f b = Some y -> mapM f (a ++ b)%list = Some (x ++ y)%list.
Proof. rewrite !mapM_Some. by apply Forall2_app. Qed.
Lemma run_app e a e1 i1 b e2 i2 : run e a e1 i1 -> run e1 b e2 i2 -> run e (a ++ b) e2 (i1 ++ i2).
Proof.
  induction 1 as [|e c e0 i0 cs e3 i3 S R IH]; intros H; [done|]. cbn. rewrite <- app_assoc. econstructor; [done|by apply IH].
Qed.

Lemma alnum_word s : all_chars (fun c => is_alnum c || Ascii.eqb c "_") s = true -> all_chars word_char s = true.
Proof.
  induction s as [|c s IH]; cbn [all_chars]; [done|]. intros H. apply andb_true_iff in H as [Hc H]. rewrite IH by done. rewrite andb_true_r.
  revert Hc. unfold is_alnum, word_char, word_start.
  destruct (is_digit c), (in_range c "a" "z"), (in_range c "A" "Z"), (Ascii.eqb c "_"); done.
Qed.

Section reading.
Context (exp : dbl -> string) (real : string -> option dbl) (Hexp : prints_doubles exp real).
Context (args : list (string * sqlval)) (Hnd : NoDup (map fst args)) (Hgen : forall n v, (n, v) ∈ args -> exists i, n = "$v" ++ dec i).

(** every text comes out as one piece for the lexer *)
Lemma step_text e c e' its t l :
  step e c e' its -> call_text exp args c t -> edge_of l = e ->
  exists ts l', lex_from l t = Some (ts, l') /\ edge_of l' = e'
    /\ exists ts', (ts ++ pending l' = pending l ++ ts')%list /\ mapM (read_token real args) ts' = Some its.
Proof using Type*.
  intros S T <-.
  assert (K : forall t ts l' its, t <> "" -> (forall d s, t = String d s -> follow (edge_of l) d = true) -> lex_from LReady t = Some (ts, l') ->
              mapM (read_token real args) (ts ++ pending l')%list = Some its ->
              exists ts l'0, lex_from l t = Some (ts, l'0) /\ edge_of l'0 = edge_of l'
                /\ exists ts', (ts ++ pending l'0 = pending l ++ ts')%list /\ mapM (read_token real args) ts' = Some its).
  { intros t0 ts l' its0 Hne F L M. destruct t0 as [|d s]; [done|].
    exists (pending l ++ ts)%list, l'. split; [by apply resume; [by eapply F|]|]. split; [done|].
    exists (ts ++ pending l')%list. split; [by rewrite app_assoc|done]. }
  assert (R : forall z, read_number real (dec z) = Some (SInt z)).
  { intros z. unfold read_number. by rewrite dec_read, DecimalZ.of_to. }
  remember (edge_of l) as e eqn:Ee.
  destruct S as [e c s e' its F (ts & l' & L & <- & M)|e s He W|v W|s W].
  - cbn in T. subst t. destruct (K (String c s) ts l' its) as (ts1 & l1 & A); [done| |done|apply M|eauto].
    intros d s' [= <- <-]. exact F.
  - cbn [call_text] in T. subst t.
    destruct (K ("`" ++ double_ticks s ++ "`") [] (LNameTick s) [Ident s]) as (ts1 & l1 & A); [done| |by apply lex_name|done|eauto].
    intros d s' [= <- <-]. destruct He as [-> | ->]; done.
  - assert (Num : forall z, t = dec z -> (to_sql_value_pair v).1 = SInt z -> exists ts l'0, lex_from l t = Some (ts, l'0) /\ edge_of l'0 = EOther
                /\ exists ts', (ts ++ pending l'0 = pending l ++ ts')%list /\ mapM (read_token real args) ts' = Some [value_says v]).
    { intros z -> E. apply (K (dec z) [] (LNumber (dec z))).
      - intros E0. apply (f_equal NilZero.int_of_string) in E0. rewrite dec_read in E0. discriminate.
      - intros; done.
      - apply lex_dec.
      - cbn. rewrite R. unfold value_says. by rewrite E. }
    assert (Par : (exists i, 0 <= i /\ t = "$v" ++ dec i /\ (t, (to_sql_value_pair v).1) ∈ args) ->
                exists ts l'0, lex_from l t = Some (ts, l'0) /\ edge_of l'0 = EOther
                /\ exists ts', (ts ++ pending l'0 = pending l ++ ts')%list /\ mapM (read_token real args) ts' = Some [value_says v]).
    { intros (i & Hi & E & In). apply (K t [] (LParam t)).
      - by rewrite E.
      - intros; done.
      - rewrite E. apply (lex_param (String "v" (dec i))). cbn. apply digit_word. unfold dec.
        destruct i as [|p|p]; [apply uint_digits'|apply uint_digits'|lia].
      - cbn. by rewrite (elem_assoc _ _ _ Hnd In). }
    destruct v; cbn [call_text] in T; try (by apply Num with (1 := T)); try (by apply Par).
    cbn in W. subst t. destruct (Hexp _ W) as (L & I & Rd). apply (K (exp d) [] (LNumber (exp d))).
    + intros E0. rewrite E0 in L. discriminate.
    + intros; done.
    + done.
    + cbn. unfold read_number. rewrite I, Rd. destruct d; done.
  - cbn [call_text] in T. destruct T as [-> T].
    apply (K ("$" ++ String "i" s) [] (LParam ("$" ++ String "i" s))).
    + done.
    + intros; done.
    + apply lex_param. by apply alnum_word.
    + cbn. rewrite (proj2 (assoc_none _ _)); [done|]. intros H. apply elem_of_list_fmap in H as ([n v] & E & H).
      destruct (Hgen _ _ H) as (i & Hi). cbn in E. rewrite Hi in E. discriminate.
Qed.

Lemma run_text e cs e' its ts l :
  run e cs e' its -> Forall2 (call_text exp args) cs ts -> edge_of l = e ->
  exists tks l', lex_from l (concat_str ts) = Some (tks, l') /\ edge_of l' = e'
    /\ exists tks', (tks ++ pending l' = pending l ++ tks')%list /\ mapM (read_token real args) tks' = Some its.
Proof using Type*.
  intros R. revert ts l. induction R as [e|e c e1 i1 cs e2 i2 S R IH]; intros ts l F E.
  - apply Forall2_nil_inv_l in F as ->. exists [], l. split; [done|]. split; [done|]. exists []. by rewrite app_nil_r.
  - apply Forall2_cons_inv_l in F as (t & ts' & T & F & ->).
    destruct (step_text _ _ _ _ _ _ S T E) as (k1 & l1 & L1 & E1 & k1' & P1 & M1).
    destruct (IH ts' l1 F E1) as (k2 & l2 & L2 & E2 & k2' & P2 & M2).
    exists (k1 ++ k2)%list, l2. split; [cbn [concat_str fold_right]; rewrite lex_app, L1; fold (concat_str ts'); by rewrite L2|].
    split; [done|]. exists (k1' ++ k2')%list. split; [by rewrite <- app_assoc, P2, app_assoc, P1, app_assoc|].
    by apply mapM_app_Some.
Qed.
End reading.

(* ------------------------------------------------------------- what the rendering says *)

Definition closed (e : edge) : Prop := e <> EDot /\ e <> EBad.
Definition whole (cs : list call) (its : list item) : Prop := exists e, closed e /\ run ERdy cs e its.

Lemma closed_breaks e c : closed e -> breaks c = true -> follow e c = true.
Proof. intros [C1 C2] B. destruct e; cbn; rewrite ?B; done. Qed.

(** a text that starts a fragment and leaves the lexer between two tokens *)
Definition opens (s : string) (its : list item) : Prop := s <> "" /\ fixed_text s ERdy its.
(** … that can follow a complete token *)
Definition joins (s : string) (its : list item) : Prop := opens s its /\ (exists c r, s = String c r /\ breaks c = true).
(** … and that may end in a complete token *)
Definition closes (s : string) (its : list item) : Prop := (exists e, closed e /\ fixed_text s e its) /\ (exists c r, s = String c r /\ breaks c = true).

Lemma whole_nil : whole [] [].
Proof. exists ERdy. split; [done|constructor]. Qed.
Lemma whole_opens s j cs its : opens s j -> whole cs its -> whole (Sql s :: cs) (j ++ its).
Proof.
  intros [Hs F] (e & C & R). exists e. split; [done|]. destruct s as [|c s]; [done|]. econstructor; [by constructor|done].
Qed.
Lemma whole_joins a ia s j b ib : whole a ia -> joins s j -> whole b ib -> whole (a ++ Sql s :: b) (ia ++ j ++ ib).
Proof.
  intros (e & C & R) ((Hs & F) & (c & r & -> & B)) (e' & C' & R'). exists e'. split; [done|].
  eapply run_app; [done|]. econstructor; [constructor; [by apply closed_breaks|done]|done].
Qed.
Lemma whole_closes a ia s j : whole a ia -> closes s j -> whole (a ++ [Sql s]) (ia ++ j).
Proof.
  intros (e & C & R) ((e' & C' & F) & (c & r & -> & B)). exists e'. split; [done|].
  eapply run_app; [done|]. rewrite <- (app_nil_r j). econstructor; [constructor; [by apply closed_breaks|done]|constructor].
Qed.
Lemma whole_fixed s j : s <> "" -> (exists e, closed e /\ fixed_text s e j) -> whole [Sql s] j.
Proof.
  intros Hs (e & C & F). exists e. split; [done|]. destruct s as [|c s]; [done|]. rewrite <- (app_nil_r j). econstructor; [by constructor|constructor].
Qed.
Lemma whole_name s : writable_name s -> whole [Name s] [Ident s].
Proof. intros H. exists EName. split; [done|]. rewrite <- (app_nil_r [Ident s]). econstructor; [constructor; [by left|done]|constructor]. Qed.
Lemma whole_val v : writable_value v -> whole [Val v] [value_says v].
Proof. intros H. exists EOther. split; [done|]. rewrite <- (app_nil_r [value_says v]). econstructor; [by constructor|constructor]. Qed.
Lemma whole_interpose sep j cs its : joins sep [j] -> Forall2 whole cs its -> whole (interpose [Sql sep] cs) (separated j its).
Proof.
  intros J. induction 1 as [|c i cs its W F IH]; cbn [interpose separated]; [apply whole_nil|].
  destruct F as [|c' i' cs its W' F]; [done|]. cbn [app].
  apply (whole_joins c i sep [j] _ _ W J IH).
Qed.
(** an optional clause after a fragment *)
Lemma whole_section a ia head h sep j cs its :
  whole a ia -> joins head h -> joins sep [j] -> Forall2 whole cs its -> whole (a ++ section head sep cs) (ia ++ clause h j its).
Proof.
  intros A H J F. destruct F as [|c i cs its W F]; cbn [section clause]; [by rewrite !app_nil_r|].
  apply whole_joins; [done|done|]. by apply whole_interpose; [|constructor].
Qed.

Ltac fixed := eexists _, _; split; [vm_compute; reflexivity|split; [reflexivity|intros; reflexivity]].
Ltac joined := split; [split; [done|fixed]|eexists _, _; split; [reflexivity|reflexivity]].
Ltac closing := split; [eexists; split; [|fixed]; done|eexists _, _; split; [reflexivity|reflexivity]].
Ltac opening := split; [done|fixed].

Lemma dec_nonempty z : dec z <> "".
Proof. intros E. apply (f_equal NilZero.int_of_string) in E. rewrite dec_read in E. discriminate. Qed.
Lemma dec_fixed z : fixed_text (dec z) EOther [Lit (SInt z)].
Proof.
  exists [], (LNumber (dec z)). split; [apply lex_dec|]. split; [done|]. intros real args. cbn. unfold read_number.
  by rewrite dec_read, DecimalZ.of_to.
Qed.
Lemma whole_dec z : whole [Sql (dec z)] [Lit (SInt z)].
Proof. apply whole_fixed; [apply dec_nonempty|]. exists EOther. split; [done|]. apply dec_fixed. Qed.

Lemma all_of_Forall {A} (P : A -> Prop) l : all_of P l <-> Forall P l.
Proof.
  induction l as [|x l IH]; cbn; [split; [constructor|done]|].
  split; [intros [H1 H2]; constructor; [done|by apply IH]|intros H; apply Forall_cons in H as [H1 H2]; split; [done|by apply IH]].
Qed.

Lemma writable_app a b : writable_name a -> writable_name b -> writable_name (a ++ b).
Proof. unfold writable_name. rewrite all_chars_app. by intros -> ->. Qed.
Lemma var_whole c : writable_var c -> whole (var_column_calls c) [var_column_says c].
Proof. destruct c as [v|v]; intros H; apply whole_name; [done|]. by apply writable_app. Qed.
Lemma column_whole a c : writable_name a -> writable_column c -> whole (qualified_calls a c) (column_says a c).
Proof.
  intros Ha Hc. unfold qualified_calls, column_says.
  assert (D : fixed_text "." EDot [Sym "."]) by fixed.
  assert (N : forall n, writable_name n -> whole [Name a; Sql "."; Name n] [Ident a; Sym "."; Ident n]).
  { intros n Hn. exists EName. split; [done|]. change [Ident a; Sym "."; Ident n] with ([Ident a] ++ [Sym "."] ++ [Ident n] ++ [])%list.
    econstructor; [constructor; [by left|done]|]. econstructor; [constructor; [done|exact D]|].
    econstructor; [constructor; [by right|done]|constructor]. }
  destruct c as [s|[v|v]]; cbn [writable_column writable_var column_calls var_column_calls var_column_says] in *.
  - assert (F : exists c r, s = String c r /\ word_start c = true /\ fixed_text s EWord [Word s]).
    { unfold fixed_columns in Hc. rewrite !elem_of_cons, elem_of_nil in Hc.
      destruct Hc as [-> | [-> | [-> | [-> | [-> | [-> | [-> | [-> | []]]]]]]]];
        eexists _, _; (split; [reflexivity|split; [reflexivity|fixed]]). }
    destruct F as (c & r & -> & Hw & F). exists EWord. split; [done|].
    change [Ident a; Sym "."; Word (String c r)] with ([Ident a] ++ [Sym "."] ++ [Word (String c r)] ++ [])%list.
    econstructor; [constructor; [by left|done]|]. econstructor; [constructor; [done|exact D]|].
    econstructor; [constructor; [cbn; by rewrite Hw|exact F]|constructor].
  - by apply N.
  - apply N. by apply writable_app.
Qed.
Lemma operand_whole x : writable_operand x -> whole (operand_calls x) (operand_says x).
Proof.
  induction x as [a c|n|z|v|a x IH]; cbn [writable_operand operand_calls operand_says]; intros H.
  - destruct H. by apply column_whole.
  - by apply whole_name.
  - apply whole_dec.
  - by apply whole_val.
  - destruct (IH H) as (e & C & R). exists ERdy.
    { change ([Word (aggregate_str a); Sym "("] ++ operand_says x ++ [Sym ")"])%list with ([Word (aggregate_str a)] ++ [Sym "("] ++ operand_says x ++ [Sym ")"] ++ [])%list.
      split; [done|]. econstructor 2 with (e1 := EWord).
      - destruct a; (constructor; [done|fixed]).
      - econstructor 2 with (e1 := ERdy); [constructor; [done|fixed]|]. eapply run_app; [exact R|].
        econstructor 2 with (e1 := ERdy); [constructor; [by apply closed_breaks|fixed]|constructor]. }
Qed.
Lemma wholes {A} (P : A -> Prop) (f : A -> list call) (g : A -> list item) l :
  (forall x, P x -> whole (f x) (g x)) -> all_of P l -> Forall2 whole (map f l) (map g l).
Proof.
  intros H. rewrite all_of_Forall. induction 1 as [|x l Hx Hl IH]; cbn; constructor; [by apply H|done].
Qed.
Lemma wholes_ind {A} (P : A -> Prop) (f : A -> list call) (g : A -> list item) l :
  Forall (fun x => P x -> whole (f x) (g x)) l -> all_of P l -> Forall2 whole (map f l) (map g l).
Proof.
  rewrite all_of_Forall. induction 1 as [|x l Hx Hl IH]; intros Hp; cbn; [constructor|].
  apply Forall_cons in Hp as [Hp1 Hp2]. constructor; [by apply Hx|by apply IH].
Qed.
Lemma projected_whole c : writable_operand c.1 /\ writable_name c.2 -> whole (projected_calls c) (operand_says c.1 ++ [Word "AS"; Ident c.2])%list.
Proof.
  intros [H1 H2]. unfold projected_calls. change [Word "AS"; Ident c.2] with ([Word "AS"] ++ [Ident c.2])%list.
  apply (whole_joins _ _ " AS " [Word "AS"] [Name c.2] [Ident c.2]); [by apply operand_whole|joined|by apply whole_name].
Qed.
Lemma projection_whole p : writable_projection p -> whole (projection_calls p) (projection_says p).
Proof.
  destruct p as [cols| |]; cbn [writable_projection projection_calls projection_says].
  - intros [Hne H]. assert (W : whole (interpose [Sql ", "] (map projected_calls cols))
                                  (listed (map (fun c => (operand_says c.1 ++ [Word "AS"; Ident c.2])%list) cols))).
    { apply whole_interpose; [joined|]. by eapply wholes; [apply projected_whole|]. }
    destruct cols; done.
  - intros _. apply whole_fixed; [done|]. exists ERdy. split; [done|fixed].
  - intros _. apply (whole_dec 1).
Qed.
Lemma chunks_all {A} (P : A -> Prop) fuel n l : Forall P l -> Forall (Forall P) (chunks_of fuel n l).
Proof.
  revert l. induction fuel as [|fuel IH]; intros l H; cbn; [constructor|]. destruct l as [|x l]; [constructor|].
  constructor; [by apply Forall_take|]. apply IH. by apply Forall_drop.
Qed.
Lemma in_rows_step {A} n (row vs : list A) : (length row < n)%nat -> vs <> [] ->
  in_rows n row vs = (row ++ take (n - length row) vs)%list :: in_rows n [] (drop (n - length row) vs).
Proof.
  revert row. induction vs as [|v vs IH]; intros row L N; [done|]. cbn [in_rows]. destruct (Nat.eqb_spec (S (length row)) n) as [E|E].
  - replace (n - length row)%nat with 1%nat by lia. done.
  - destruct vs as [|w vs].
    + cbn [in_rows]. rewrite take_ge, drop_ge by (cbn; lia). destruct row; done.
    + rewrite IH by (rewrite ?app_length; cbn; first [lia|done]). rewrite app_length. cbn [length].
      replace (n - length row)%nat with (S (n - (length row + 1))) by lia. cbn [take drop]. by rewrite <- app_assoc.
Qed.
Lemma in_rows_chunks {A} n (vs : list A) fuel : n <> O -> (length vs <= fuel)%nat -> chunks_of fuel n vs = in_rows n [] vs.
Proof.
  intros Hn. revert vs. induction fuel as [|fuel IH]; intros [|v vs] L; cbn [length] in L; try done; [lia|].
  rewrite in_rows_step by (cbn; first [lia|done]). cbn [length app]. rewrite Nat.sub_0_r. cbn [chunks_of]. f_equal. apply IH. rewrite drop_length. cbn. lia.
Qed.
Lemma rows_whole n vs : n <> O -> all_of writable_value vs -> whole (values_rows n vs) (rows_say (in_rows n [] vs)).
Proof.
  intros Hn H. rewrite <- (in_rows_chunks n vs (length vs)) by done. destruct n as [|n]; [done|]. unfold values_rows, rows_say.
  change (Word "VALUES" :: ?x) with ([Word "VALUES"] ++ x)%list. apply whole_opens; [opening|].
  apply whole_interpose; [joined|]. apply all_of_Forall, (chunks_all _ (length vs) (S n)) in H.
  eapply (wholes (Forall writable_value)); [|by apply all_of_Forall].
  intros row Hr. cbn [app]. apply (whole_opens "(" [Sym "("]); [opening|]. apply whole_closes; [|closing].
  apply whole_interpose; [joined|]. eapply wholes; [|by apply all_of_Forall]. intros v Hv. by apply whole_val.
Qed.
Lemma values_whole v : writable_values v -> whole (values_calls v) (values_say v).
Proof.
  destruct v as [n vs|names vs]; cbn [writable_values values_calls values_say].
  - intros [H1 H2]. by apply rows_whole.
  - intros (H1 & H2 & H3). cbn [app].
    apply (whole_opens "SELECT " [Word "SELECT"]); [opening|]. rewrite <- app_assoc. cbn [app].
    apply (whole_joins _ _ " WHERE 0 UNION ALL " [Word "WHERE"; Lit (SInt 0); Word "UNION"; Word "ALL"]).
    + apply whole_interpose; [joined|]. eapply wholes; [|done]. intros n Hn.
      apply (whole_opens "0 AS " [Lit (SInt 0); Word "AS"]); [opening|]. by apply whole_name.
    + joined.
    + apply rows_whole; [by destruct names|done].
Qed.
Lemma group_whole g : writable_group g -> whole (group_calls g) (group_says g).
Proof. destruct g as [n|a c]; cbn; intros H; [by apply whole_name|]. destruct H. by apply column_whole. Qed.
Lemma order_whole o : writable_var o.2 -> whole (order_calls o) (order_says o).
Proof.
  intros H. unfold order_calls, order_says. change [var_column_says o.2; ?x] with ([var_column_says o.2] ++ [x])%list.
  apply whole_closes; [by apply var_whole|]. destruct o.1; closing.
Qed.
Lemma underscored_ok s : all_chars (fun c => is_alnum c || Ascii.eqb c "_") (underscored s) = true.
Proof.
  induction s as [|c s IH]; cbn; [done|]. rewrite IH. destruct (is_alnum c) eqn:E; [by rewrite E|done].
Qed.
Lemma limit_whole a ia l : writable_limit l -> whole a ia -> whole (a ++ limit_calls l) (ia ++ limit_says l).
Proof.
  destruct l as [|n|v]; cbn [writable_limit limit_calls limit_says]; intros H A.
  - by rewrite !app_nil_r.
  - change [Word "LIMIT"; ?x] with ([Word "LIMIT"] ++ [x])%list. apply whole_joins; [done|joined|apply whole_dec].
  - destruct v as [|c v]; [done|]. cbn [format_select_var default]. change [Word "LIMIT"; ?x] with ([Word "LIMIT"] ++ [x])%list.
    apply whole_joins; [done|joined|]. exists EOther. split; [done|].
    apply (run_cons ERdy _ EOther [Hole ("$" ++ String "i" (underscored v))] [] EOther []); [constructor|constructor]. cbn. apply underscored_ok.
Qed.

Section select_ind.
Context (Pc : cond -> Prop) (Ps : source -> Prop) (Pf : from_clause -> Prop) (Pq : select -> Prop).
Context (H1 : forall o l r, Pc (KInfix o l r)) (H2 : forall cs, Forall Pc cs -> Pc (KOr cs)) (H3 : forall cs, Forall Pc cs -> Pc (KAnd cs)).
Context (H4 : forall l xs, Pc (KIn l xs)) (H5 : forall x, Pc (KIsNull x)) (H6 : forall x, Pc (KIsNotNull x)).
Context (H7 : forall t, Ps t -> Pc (KNotExists t)) (H8 : forall x a, Pc (KTypeCheck x a)).
Context (S1 : forall n a, Ps (STable n a)) (S2 : forall qs a, Forall Pq qs -> Ps (SUnion qs a)) (S3 : forall q, Pq q -> Ps (SSubquery q)) (S4 : forall v a, Ps (SValues v a)).
Context (F1 : forall ts, Forall Ps ts -> Pf (Tables ts)) (F2 : forall l r, Ps l -> Ps r -> Pf (Join l r)) (F3 : Pf NoFrom).
Context (Q1 : forall d p f cs g o l, Pf f -> Forall Pc cs -> Pq (Select d p f cs g o l)).
Fixpoint cond_ind' (c : cond) : Pc c :=
  match c with
  | KInfix o l r => H1 o l r
  | KOr cs => H2 cs ((fix go l : Forall Pc l := match l with [] => List.Forall_nil _ | x :: l => List.Forall_cons _ _ _ (cond_ind' x) (go l) end) cs)
  | KAnd cs => H3 cs ((fix go l : Forall Pc l := match l with [] => List.Forall_nil _ | x :: l => List.Forall_cons _ _ _ (cond_ind' x) (go l) end) cs)
  | KIn l xs => H4 l xs
  | KIsNull x => H5 x
  | KIsNotNull x => H6 x
  | KNotExists t => H7 t (source_ind' t)
  | KTypeCheck x a => H8 x a
  end
with source_ind' (t : source) : Ps t :=
  match t with
  | STable n a => S1 n a
  | SUnion qs a => S2 qs a ((fix go l : Forall Pq l := match l with [] => List.Forall_nil _ | x :: l => List.Forall_cons _ _ _ (select_ind' x) (go l) end) qs)
  | SSubquery q => S3 q (select_ind' q)
  | SValues v a => S4 v a
  end
with from_ind' (f : from_clause) : Pf f :=
  match f with
  | Tables ts => F1 ts ((fix go l : Forall Ps l := match l with [] => List.Forall_nil _ | x :: l => List.Forall_cons _ _ _ (source_ind' x) (go l) end) ts)
  | Join l r => F2 l r (source_ind' l) (source_ind' r)
  | NoFrom => F3
  end
with select_ind' (q : select) : Pq q :=
  match q with
  | Select d p f cs g o l =>
      Q1 d p f cs g o l (from_ind' f)
        ((fix go l : Forall Pc l := match l with [] => List.Forall_nil _ | x :: l => List.Forall_cons _ _ _ (cond_ind' x) (go l) end) cs)
  end.
End select_ind.

Lemma select_whole q : writable_select q -> whole (select_calls q) (select_says q).
Proof.
  revert q.
  apply (select_ind' (fun c => writable_cond c -> whole (cond_calls c) (cond_says c))
                     (fun t => writable_source t -> whole (source_calls t) (source_says t))
                     (fun f => writable_from f -> forall a ia, whole a ia -> whole (a ++ from_calls f) (ia ++ from_says f))
                     (fun q => writable_select q -> whole (select_calls q) (select_says q))).
  - intros o l r [Hl Hr]. cbn [cond_calls cond_says].
    destruct (operand_whole l Hl) as (e & C & R), (operand_whole r Hr) as (e' & C' & R'). exists e'. split; [done|].
    eapply run_app; [exact R|]. eapply run_app; [|exact R'].
    change [infix_says o] with ([] ++ [infix_says o] ++ [] ++ [])%list.
    econstructor 2 with (e1 := ERdy); [constructor; [by apply closed_breaks|fixed]|].
    destruct o; (econstructor 2; [constructor; [done|fixed]|]; econstructor 2; [constructor; [done|fixed]|constructor]).
  - intros cs IH H. cbn [writable_cond] in H. assert (W : whole (Sql "(" :: interpose [Sql " OR "] (map cond_calls cs) ++ [Sql ")"])
      ([Sym "("] ++ separated (Word "OR") (map cond_says cs) ++ [Sym ")"])%list).
    { apply whole_opens; [opening|]. apply whole_closes; [|closing]. apply whole_interpose; [joined|].
      by apply (wholes_ind writable_cond). }
    destruct cs; [apply (whole_dec 0)|exact W].
  - intros cs IH H. cbn [writable_cond] in H. assert (W : whole (Sql "(" :: interpose [Sql " AND "] (map cond_calls cs) ++ [Sql ")"])
      ([Sym "("] ++ separated (Word "AND") (map cond_says cs) ++ [Sym ")"])%list).
    { apply whole_opens; [opening|]. apply whole_closes; [|closing]. apply whole_interpose; [joined|].
      by apply (wholes_ind writable_cond). }
    destruct cs; [apply (whole_dec 1)|exact W].
  - intros l xs [H1 H2]. cbn [cond_calls cond_says app].
    apply (whole_joins _ _ " IN (" [Word "IN"; Sym "("]); [by apply operand_whole|joined|].
    apply whole_closes; [|closing]. apply whole_interpose; [joined|]. by apply (wholes writable_operand); [apply operand_whole|].
  - intros x H. apply whole_closes; [by apply operand_whole|closing].
  - intros x H. apply whole_closes; [by apply operand_whole|closing].
  - intros t IH H. cbn [cond_calls cond_says]. apply whole_opens; [opening|by apply IH].
  - intros x a H. cbn [cond_calls cond_says app].
    apply (whole_opens "typeof(" [Word "typeof"; Sym "("]); [opening|].
    change [Sym ")"; Sym "="; affinity_says a] with ([Sym ")"; Sym "="] ++ [affinity_says a])%list.
    apply whole_joins; [by apply operand_whole|joined|]. apply whole_fixed; [by destruct a|]. exists EOther. split; [done|]. destruct a; fixed.
  - intros n a [H1 H2]. cbn [source_calls source_says].
    apply (whole_joins [Name n] [Ident n] " AS " [Word "AS"] [Name a] [Ident a]); [by apply whole_name|joined|by apply whole_name].
  - intros qs a IH [H1 H2]. cbn [source_calls source_says].
    apply (whole_opens "(" [Sym "("]); [opening|].
    apply (whole_joins _ _ ") AS " [Sym ")"; Word "AS"] [Name a] [Ident a]); [|joined|by apply whole_name].
    apply whole_interpose; [joined|]. by apply (wholes_ind writable_select).
  - intros q IH H. cbn [source_calls source_says]. apply (whole_opens "(" [Sym "("]); [opening|]. apply whole_closes; [by apply IH|closing].
  - intros v a [H1 H2]. cbn [source_calls source_says].
    apply (whole_opens "(" [Sym "("]); [opening|].
    apply (whole_joins _ _ ") AS " [Sym ")"; Word "AS"] [Name a] [Ident a]); [by apply values_whole|joined|by apply whole_name].
  - intros ts IH H a ia A. cbn [from_calls from_says]. apply whole_section; [done|joined|joined|]. by apply (wholes_ind writable_source).
  - intros l r IHl IHr [Hl Hr] a ia A. cbn [from_calls from_says app].
    apply (whole_joins a ia " FROM " [Word "FROM"]); [done|joined|].
    apply (whole_joins _ _ " JOIN " [Word "JOIN"]); [by apply IHl|joined|by apply IHr].
  - intros _ a ia A. cbn. by rewrite !app_nil_r.
  - intros d p f cs g o l IHf IHc (Hp & Hf & Hc & Hg & Ho & Hl). cbn [select_calls select_says].
    assert (W : whole (projection_calls p ++ from_calls f ++ section " WHERE " " AND " (map cond_calls cs)
        ++ section " GROUP BY " ", " (map group_calls g) ++ section " ORDER BY " ", " (map order_calls o) ++ limit_calls l)
        (projection_says p ++ from_says f ++ clause [Word "WHERE"] (Word "AND") (map cond_says cs)
        ++ clause [Word "GROUP"; Word "BY"] (Sym ",") (map group_says g) ++ clause [Word "ORDER"; Word "BY"] (Sym ",") (map order_says o) ++ limit_says l)%list).
    { rewrite !app_assoc. apply limit_whole; [done|].
      apply whole_section; [|joined|joined|by apply (wholes (fun o => writable_var o.2)); [apply order_whole|]].
      apply whole_section; [|joined|joined|by apply (wholes writable_group); [apply group_whole|]].
      apply whole_section; [|joined|joined|by apply (wholes_ind writable_cond)].
      apply IHf; [done|]. by apply projection_whole. }
    destruct d.
    + apply (whole_opens "SELECT DISTINCT " [Word "SELECT"; Word "DISTINCT"]); [opening|exact W].
    + apply (whole_opens "SELECT " [Word "SELECT"]); [opening|exact W].
Qed.

(* ------------------------------------------------------------- whole queries *)

Lemma step_succeeds exp e c e' its b : step e c e' its -> b_prefix b = "$v" -> exists b', do_call exp c b = Ok b' /\ b_prefix b' = "$v".
Proof.
  intros S P. destruct S as [e c s e' its F T|e s He W|v W|s W].
  - by eexists.
  - by eexists.
  - exists (push_typed_value exp v b). split; [done|].
    destruct v as [z|x|z|d|ns|s|k|u]; cbn; try done.
    + by destruct (assoc s (b_strings b)).
    + by destruct (assoc u (b_bytes b)).
  - cbn [do_call]. unfold push_bind_param. rewrite W, P. cbn. by eexists.
Qed.
Lemma run_succeeds exp e cs e' its b : run e cs e' its -> b_prefix b = "$v" -> exists b', do_calls exp cs b = Ok b'.
Proof.
  intros R. revert b. induction R as [e|e c e1 i1 cs e2 i2 S R IH]; intros b P; cbn; [by eexists|].
  destruct (step_succeeds exp _ _ _ _ b S P) as (b' & E & P'). rewrite E. cbn. by apply IH.
Qed.
Lemma new_names_ok : names_ok new_builder.
Proof. split; [done|done| |constructor]. intros n v H. cbn in H. by apply elem_of_nil in H. Qed.
Lemma finish_perm b : Permutation (finish b).2 (bound b).
Proof. apply merge_sort_Permutation. Qed.

Lemma edge_last l : closed (edge_of l) -> last_token l = Some (pending l).
Proof. intros [C1 C2]. destruct l; cbn in *; done. Qed.

(** The SQL of a query says what it should, with every value in its place. *)
Lemma calls_read exp real cs its :
  prints_doubles exp real -> whole cs its ->
  exists b, do_calls exp cs new_builder = Ok b /\ read_sql real (finish b).1 (finish b).2 = Some its /\ NoDup (map fst (finish b).2).
Proof.
  intros Hexp (e & C & R). destruct (run_succeeds exp _ _ _ _ new_builder R eq_refl) as (b & E).
  destruct (do_calls_text exp cs new_builder b new_names_ok E) as (N & _ & ts & T & F).
  assert (Pm := finish_perm b). exists b. split; [done|].
  assert (ND : NoDup (map fst (finish b).2)).
  { rewrite (Permutation_map fst Pm). apply N. }
  split; [|done].
  assert (F' : Forall2 (call_text exp (finish b).2) cs ts).
  { eapply Forall2_impl; [exact F|]. intros c t. apply call_text_grow. intros x Hx. by rewrite Pm. }
  assert (G : forall n v, (n, v) ∈ (finish b).2 -> exists i, n = "$v" ++ dec i).
  { intros n v H. rewrite Pm in H. destruct (no_generated b N _ _ H) as (i & _ & ->). by exists i. }
  destruct (run_text exp real Hexp (finish b).2 ND G _ _ _ _ _ LReady R F' eq_refl) as (tks & l & L & El & tks' & P & M).
  unfold read_sql, lex. cbn [finish fst]. rewrite T. cbn [b_sql new_builder with_prefix]. change ("" ++ ?x) with x.
  rewrite L, edge_last by by rewrite El. cbn [pending] in P. by rewrite P.
Qed.
Lemma to_sql_read exp real q :
  prints_doubles exp real -> writable_select q ->
  exists sql args, to_sql exp q = Ok (sql, args) /\ read_sql real sql args = Some (select_says q) /\ NoDup (map fst args).
Proof.
  intros H W. destruct (calls_read exp real _ _ H (select_whole q W)) as (b & E & R & N).
  exists (finish b).1, (finish b).2. unfold to_sql. rewrite E. split; [reflexivity|done].
Qed.

Lemma shared_step exp c b b' :
  (forall k, c <> Val (TVKeyword k)) -> do_call exp c b = Ok b' ->
  b_args b = [] -> NoDup (map fst (b_strings b)) -> NoDup (map fst (b_bytes b)) ->
  b_args b' = [] /\ NoDup (map fst (b_strings b')) /\ NoDup (map fst (b_bytes b')).
Proof.
  intros K H A S B. destruct c as [s|s|v|s|]; cbn in H; try discriminate.
  - by injection H as <-.
  - by injection H as <-.
  - injection H as <-. destruct v as [z|x|z|d|ns|s|k|u]; cbn; try done.
    + destruct (assoc s (b_strings b)) eqn:E; [done|]. cbn. split; [done|]. split; [|done]. constructor; [by apply assoc_none|done].
    + by destruct (K k).
    + destruct (assoc u (b_bytes b)) eqn:E; [done|]. cbn. split; [done|]. split; [done|]. constructor; [by apply assoc_none|done].
  - unfold push_bind_param in H. destruct (all_chars _ s); [|discriminate]. cbn [negb] in H.
    destruct (String.prefix _ _ && _); [discriminate|]. by injection H as <-.
Qed.
Lemma shared_calls exp cs b b' :
  (forall k, Val (TVKeyword k) ∉ cs) -> do_calls exp cs b = Ok b' ->
  b_args b = [] -> NoDup (map fst (b_strings b)) -> NoDup (map fst (b_bytes b)) -> NoDup (map snd (bound b')).
Proof.
  revert b. induction cs as [|c cs IH]; intros b K H A S B; cbn in H.
  - injection H as <-. unfold bound. rewrite A. cbn [app]. rewrite map_app, !map_map. cbn.
    apply NoDup_app. split_and!.
    + change (fun x => SText x.1) with (fun x : string * string => SText (fst x)). rewrite <- (map_map fst SText). by apply NoDup_fmap_2; [intros ? ? [=]|].
    + intros x Hx Hy. apply elem_of_list_fmap in Hx as (? & -> & _). apply elem_of_list_fmap in Hy as (? & [=] & _).
    + rewrite <- (map_map fst SBlob). by apply NoDup_fmap_2; [intros ? ? [=]|].
  - destruct (do_call exp c b) as [b1| |] eqn:E; cbn in H; try discriminate.
    destruct (shared_step exp c b b1) as (A1 & S1 & B1); [intros k ->; apply (K k); left|done|done|done|done|].
    apply (IH b1); [|done|done|done|done]. intros k Hk. apply (K k). by right.
Qed.
Lemma to_sql_shared exp q sql args :
  (forall k, Val (TVKeyword k) ∉ select_calls q) -> to_sql exp q = Ok (sql, args) -> NoDup (map snd args).
Proof.
  intros K H. unfold to_sql in H. destruct (do_calls exp (select_calls q) new_builder) as [b| |] eqn:E; cbn in H; try discriminate.
  injection H as _ <-. change (NoDup (map snd (finish b).2)). rewrite (Permutation_map snd (finish_perm b)).
  eapply (shared_calls exp _ new_builder); [done|done|done|constructor|constructor].
Qed.
Lemma to_sql_injective exp real q1 q2 :
  prints_doubles exp real -> writable_select q1 -> writable_select q2 -> to_sql exp q1 = to_sql exp q2 -> select_says q1 = select_says q2.
Proof.
  intros H W1 W2 E. destruct (to_sql_read exp real q1 H W1) as (s1 & a1 & E1 & R1 & _).
  destruct (to_sql_read exp real q2 H W2) as (s2 & a2 & E2 & R2 & _).
  rewrite E1, E2 in E. injection E as -> ->. rewrite R1 in R2. by injection R2.
Qed.

(** There is a way of printing doubles: here, their key and an exponent. *)
Definition exp0 (d : dbl) : string := match d with DNaN => "NaN" | DKey k => if (Z.abs k <? 2047 * 2 ^ 52)%Z then dec k ++ "e0" else "inf" end.
Definition real0 (s : string) : option dbl :=
  match NilZero.int_of_string (String.substring 0 (String.length s - 2) s) with Some i => Some (DKey (Z.of_int i)) | None => None end.
Lemma substring_app a b : String.substring 0 (String.length a) (a ++ b) = a.
Proof. induction a as [|c a IH]; cbn; [by destruct b|]. by rewrite IH. Qed.
Lemma length_app_str a b : String.length (a ++ b) = (String.length a + String.length b)%nat.
Proof. induction a as [|c a IH]; cbn; [done|]. by rewrite IH. Qed.
Lemma not_uint s : NilEmpty.uint_of_string (s ++ "e0") = None.
Proof.
  induction s as [|c s IH]; [done|]. change (NilEmpty.uint_of_string (String c s ++ "e0")) with (uint_of_char c (NilEmpty.uint_of_string (s ++ "e0"))).
  rewrite IH. by destruct c as [[] [] [] [] [] [] [] []].
Qed.
Lemma not_int s : NilZero.int_of_string (s ++ "e0") = None.
Proof.
  destruct s as [|c s]; [reflexivity|]. assert (U : NilZero.uint_of_string (String c s ++ "e0") = None) by apply (not_uint (String c s)).
  change (NilZero.int_of_string (String c s ++ "e0")) with
    (if Ascii.eqb c "-" then option_map Decimal.Neg (NilZero.uint_of_string (s ++ "e0")) else option_map Decimal.Pos (NilZero.uint_of_string (String c s ++ "e0"))).
  rewrite U. destruct (Ascii.eqb c "-"); [|done].
  assert (U' : NilZero.uint_of_string (s ++ "e0") = None) by (destruct s; [reflexivity|apply (not_uint (String a s))]).
  by rewrite U'.
Qed.
Lemma exp0_ok : prints_doubles exp0 real0.
Proof.
  intros [|k] H; [done|]. cbn [finite_double] in H. unfold exp0. rewrite (proj2 (Z.ltb_lt _ _) H). split_and!.
  - rewrite lex_app, lex_dec. cbv beta iota.
    assert (E : forall a, lex_from (LNumber a) "e0" = Some ([], LNumber ((a ++ "e") ++ "0"))) by reflexivity.
    rewrite E, app_assoc_str. done.
  - apply not_int.
  - unfold real0. rewrite length_app_str. cbn [String.length]. rewrite Nat.add_sub, substring_app, dec_read. by rewrite DecimalZ.of_to.
Qed.

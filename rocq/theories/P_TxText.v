(** A transaction is read as what it spells. *)
From Coq Require Import Decimal DecimalString DecimalZ Sorted.
From stdpp Require Import sorting.
From Verif Require P_Sql.
From Verif Require Import M_Base M_Value M_Upsert M_Entity Spec_Edn P_EdnNum P_Edn P_EdnOrd P_EdnRound P_EdnExact Spec_TxText.
Open Scope string_scope.
Open Scope Z_scope.
Local Arguments String.append !s1 s2 : simpl nomatch.

(* ------------------------------------------------------------- white space *)

Lemma white_space c : occurs c white = is_space c.
Proof. by destruct c as [[] [] [] [] [] [] [] []]. Qed.
Lemma line_end c : occurs c line_ends = is_eol c.
Proof. by destruct c as [[] [] [] [] [] [] [] []]. Qed.
Lemma skip_blank g r : blank g -> skip false (g ++ r) = skip false r.
Proof.
  induction 1 as [|c s W B IH|t c s L1 L2 E B IH]; [done| |].
  - cbn [append skip]. rewrite white_space in W. by rewrite W.
  - cbn [append]. change (skip false (String ";" ((t ++ String c s) ++ r))) with (skip true ((t ++ String c s) ++ r)).
    rewrite app_assoc_str. induction t as [|d t IHt]; cbn [append skip occurs] in *.
    + rewrite line_end in E. by rewrite E.
    + apply orb_false_iff in L1 as [A1 L1], L2 as [A2 L2]. unfold is_eol. rewrite Ascii.eqb_sym in A1. rewrite Ascii.eqb_sym in A2.
      rewrite A1, A2. cbn [orb negb]. auto.
Qed.
Lemma white_edge c : occurs c white = true -> occurs c edges = true.
Proof. by destruct c as [[] [] [] [] [] [] [] []]. Qed.
Lemma gap_edge g r : gap g -> edge (g ++ r).
Proof. intros [B N]. inversion B; subst; [done| |done]. cbn [append edge]. by apply white_edge. Qed.
Lemma blank_edge g r : blank g -> edge r -> edge (g ++ r).
Proof. intros B E. inversion B; subst; [done| |done]. cbn [append edge]. by apply white_edge. Qed.
Lemma skip_skip c s : skip false (skip c s) = skip c s.
Proof.
  revert c. induction s as [|a s IH]; intros c; [done|]. cbn [skip]. destruct c; [apply IH|].
  destruct (is_space a) eqn:E; [apply IH|]. destruct (Ascii.eqb a ";") eqn:F; [apply IH|]. cbn [skip]. by rewrite E, F.
Qed.
Lemma spaces_ok g r : blank g -> starts good_start r -> spaces (g ++ r) = Got tt r.
Proof. intros B S. unfold spaces. rewrite skip_blank by done. by rewrite skip_start. Qed.
Lemma spaces_none r : starts good_start r -> spaces r = Got tt r.
Proof. intros S. unfold spaces. by rewrite skip_start. Qed.
Lemma spaces_skipped c r : spaces (skip c r) = Got tt (skip c r).
Proof. unfold spaces. by rewrite skip_skip. Qed.
Lemma skip_gap_tok g r : blank g -> starts good_start r -> skip false (g ++ r) = r.
Proof. intros B S. rewrite skip_blank by done. by apply skip_start. Qed.

Lemma alt_no_inv {A} (p q : parser A) s : alt p q s = No -> p s = No /\ q s = No.
Proof. unfold alt. by destruct (p s). Qed.
Lemma follow_got_inv {A B} (p : parser A) (k : A -> parser B) s b r : follow p k s = Got b r -> exists a t, p s = Got a t /\ k a t = Got b r.
Proof. unfold follow. destruct (p s); try done. eauto. Qed.

(* ------------------------------------------------------------- maps *)

Lemma pre_eoi : P_EdnOrd.preorder (fun _ => True) eoi_cmp.
Proof.
  destruct pre_kw as [O T]. split.
  - intros [x|x] [y|y] _ _; cbn; try done; [apply Z.compare_antisym|by apply O].
  - intros [x|x] [y|y] [z|z] _ _ _; cbn; try done; [|by apply T]. rewrite !Z.compare_le_iff. lia.
Qed.
Definition named (k : entid_or_ident) : Prop := match k with EEntid _ => True | EIdent k => kw_ns k <> Some "" end.
Lemma eoi_eq x y : named x -> named y -> eoi_cmp x y = Eq -> x = y.
Proof.
  destruct x as [x|x], y as [y|y]; cbn; intros X Y E; try done.
  - apply Z.compare_eq in E. congruence.
  - apply kw_cmp_eq in E; congruence.
Qed.
Section pairs.
Context {V : Type}.
Implicit Types l : list (entid_or_ident * V).
Lemma insert_ok k (v : V) l : in_order l -> named k -> Forall named (map fst l) -> k ∉ map fst l ->
  in_order (pair_insert k v l) /\ pair_insert k v l ≡ₚ (k, v) :: l.
Proof using Type.
  intros S N F Nk. induction l as [|[k' v'] l IH]; cbn [pair_insert].
  - split; [|done]. repeat constructor.
  - unfold in_order in *. cbn [map fst] in *. inversion S as [|? ? S' H]; subst. apply Forall_cons in F as [Fk F].
    apply not_elem_of_cons in Nk as [Nk Nl]. destruct (eoi_cmp k k') eqn:E.
    + exfalso. apply Nk. by apply eoi_eq.
    + split; [|done]. cbn [map fst]. constructor; [done|]. constructor; [done|]. apply (Forall_impl _ _ _ H). intros z Hz.
      apply (pre_lt_l (fun _ => True) _ pre_eoi k k' z); try done. by rewrite Hz.
    + destruct (IH S' F Nl) as [A B]. split; [|rewrite B; apply Permutation_swap]. cbn [map fst]. constructor; [done|].
      rewrite B. cbn [map fst]. constructor; [|done]. destruct pre_eoi as [O _]. rewrite (O k k') by done. by rewrite E.
Qed.
Lemma pairs_from_ok l m : Forall named (map fst l) -> in_order m -> l ≡ₚ m -> pairs_from l = m.
Proof using Type.
  intros F S P.
  assert (K : forall l acc, in_order acc -> Forall named (map fst (acc ++ l)) -> NoDup (map fst (acc ++ l)) ->
            in_order (foldl (fun m x => pair_insert x.1 x.2 m) acc l) /\ foldl (fun m x => pair_insert x.1 x.2 m) acc l ≡ₚ (acc ++ l)%list).
  { clear. induction l as [|[k v] l IH]; intros acc S F D; cbn [foldl]; [by rewrite app_nil_r|].
    assert (P : acc ++ (k, v) :: l ≡ₚ (k, v) :: (acc ++ l)) by (by rewrite Permutation_middle).
    assert (F' := F). assert (D' := D). rewrite P in F', D'. cbn [map fst] in F', D'. apply Forall_cons in F' as [Fk F']. apply NoDup_cons in D' as [Dk D'].
    destruct (insert_ok k v acc S Fk) as [A B].
    - by rewrite map_app, Forall_app in F'; destruct F'.
    - intros H. apply Dk. rewrite map_app. apply elem_of_app. by left.
    - cbn [fst snd]. destruct (IH (pair_insert k v acc) A) as [A' B'].
      + by rewrite B, <- app_comm_cons, <- P.
      + by rewrite B, <- app_comm_cons, <- P.
      + split; [done|]. by rewrite B', B, P. }
  assert (D : NoDup (map fst m)).
  { clear -S. unfold in_order in S. induction (map fst m) as [|k ks IH]; [constructor|]. inversion S as [|? ? S' H]; subst.
    constructor; [|auto]. intros Hk. rewrite Forall_forall in H. specialize (H k Hk).
    destruct k; cbn in H; [by rewrite Z.compare_refl in H|]. destruct pre_kw as [O _]. specialize (O k k Logic.I Logic.I). rewrite H in O. discriminate. }
  destruct (K l []) as [A B]; [constructor|done| |].
  { cbn [List.app]. by rewrite P. }
  cbn [List.app] in B. unfold pairs_from.
  assert (Q : forall l, in_order l -> StronglySorted (fun x y : entid_or_ident * V => eoi_cmp x.1 y.1 = Lt) l).
  { clear. unfold in_order. induction l as [|x l IH]; intros S; [constructor|]. cbn [map] in S. inversion S as [|? ? S' H]; subst.
    constructor; [auto|]. by apply Forall_map in H. }
  assert (AS : AntiSymm (=) (fun x y : entid_or_ident * V => eoi_cmp x.1 y.1 = Lt)).
  { intros x y H1 H2. destruct pre_eoi as [O _]. rewrite (O x.1 y.1), H1 in H2 by done. discriminate. }
  apply (StronglySorted_unique (fun x y : entid_or_ident * V => eoi_cmp x.1 y.1 = Lt)); [by apply Q..|]. by rewrite B.
Qed.
End pairs.

Section text.
Context (show : dbl -> string) (float_of : string -> dbl) (Hshow : shows_floats show float_of).
Notation print := (print show).
Notation place := (value_place_rule float_of).

(* ------------------------------------------------------------- references *)

Definition opens (c : ascii) : bool := occurs c "([{".
(** begins neither with white space nor with a bracket *)
Definition plain_start (c : ascii) : bool := good_start c && negb (opens c).
Lemma initial_plain c : is_initial c = true -> plain_start c = true.
Proof using Type. by destruct c as [[] [] [] [] [] [] [] []]. Qed.
Lemma number_plain c : sign_or_digit c = true -> plain_start c = true.
Proof using Type. by destruct c as [[] [] [] [] [] [] [] []]. Qed.
Lemma plain_good s : starts plain_start s -> starts good_start s.
Proof using Type. apply starts_impl. intros c. unfold plain_start. by rewrite andb_true_iff; intros []. Qed.

Lemma not_integer s c t : s = String c t -> is_digit c = false -> is_sign c = false -> raw_integer_rule s = No.
Proof using float_of.
  intros -> D S. pose proof (not_number float_of _ c t eq_refl D S) as H. unfold number_rule in H.
  apply alt_no_inv in H as [_ H]. apply alt_no_inv in H as [A H]. apply alt_no_inv in H as [B H]. apply alt_no_inv in H as [C H]. apply alt_no_inv in H as [E _].
  unfold raw_integer_rule. apply follow_no. rewrite alt_no by done. rewrite alt_no by done. by rewrite alt_no.
Qed.
Lemma integer_ok z r : - 2 ^ 63 <= z < 2 ^ 63 -> edge r -> raw_integer_rule (dec z ++ r) = Got z r.
Proof using Type.
  intros Z E. destruct (dec_signed z) as (sg & w & Sg & W & -> & Ez). rewrite app_assoc_str.
  destruct (middle_no sg w r) as (A & B & C); [done|done|by apply edge_stops|by apply edge_stops|by apply edge_stops|].
  unfold raw_integer_rule. rewrite (follow_got _ _ _ (EInt z) r); [done|].
  rewrite alt_no by done. rewrite alt_no by done. rewrite alt_no by done. unfold integer_rule.
  erewrite follow_got by (by apply sign_read). erewrite follow_got by (apply run1_ok; [apply dec_nonempty|by apply dec_digits|by apply edge_stops]).
  erewrite (follow_got (not_next _)) with (a := tt) (r := r).
  2: { apply (edge_stops (fun c => Ascii.eqb c "." || is_exp c)) in E; [|done]. destruct r as [|c r]; [done|]. cbn [stops] in E. cbn [not_next]. by rewrite E. }
  rewrite signed_dec by done. unfold in_i64. fold (with_sign sg w). rewrite Ez.
  assert (F : fits_i64 z = true) by (unfold fits_i64; rewrite andb_true_iff, Z.leb_le, Z.ltb_lt; lia). by rewrite F.
Qed.
Lemma namespaced_ok ns n r : good_namespace ns = true -> good_name n = true -> edge r ->
  namespaced_rule ((":" ++ ns ++ "/" ++ n) ++ r) = Got (Kw (Some ns) n) r.
Proof using Type.
  intros N G E. rewrite !app_assoc_str. unfold namespaced_rule. erewrite follow_got by apply (tok_ok ":").
  erewrite follow_got by (by apply namespace_ok). erewrite follow_got by apply (tok_ok "/").
  erewrite follow_got by (apply name_ok; [done|by apply edge_stops]). done.
Qed.
Lemma not_namespaced c t : c <> ":"%char -> namespaced_rule (String c t) = No.
Proof using Type. intros N. apply follow_no. cbn [tok]. destruct (Ascii.eqb_spec ":" c); [congruence|done]. Qed.
Lemma ref_named a s : spells_ref a s -> named a.
Proof using Type. destruct a as [z|[[ns|] n]]; try done. intros [G _]. cbn. intros [= ->]. discriminate. Qed.
Lemma ref_start a s : spells_ref a s -> starts plain_start s.
Proof using Type.
  destruct a as [z|[[ns|] n]]; [|by intros (_ & _ & ->)|done]. intros [_ ->]. destruct (dec_signed z) as (sg & w & Sg & W & -> & _).
  eapply starts_impl; [apply number_plain|]. rewrite <- (app_nil_str (dec w)). by apply number_starts.
Qed.
Lemma entid_ok a s r : spells_ref a s -> edge r -> entid_rule (s ++ r) = Got a r.
Proof using float_of.
  destruct a as [z|[[ns|] n]]; [| |done].
  - intros [Z ->] E. apply alt_got. by erewrite follow_got by (by apply integer_ok).
  - intros (N & G & ->) E. unfold entid_rule. rewrite alt_no by (apply follow_no; by eapply not_integer).
    by erewrite follow_got by (by apply namespaced_ok).
Qed.
Lemma forward_ok a s r : spells_ref a s -> forward a -> edge r -> forward_entid_rule (s ++ r) = Got a r.
Proof using float_of.
  destruct a as [z|[[ns|] n]]; [| |done].
  - intros [Z ->] _ E. apply alt_got. by erewrite follow_got by (by apply integer_ok).
  - intros (N & G & ->) F E. unfold forward_entid_rule. rewrite alt_no by (apply follow_no; by eapply not_integer).
    erewrite follow_got; [done|]. unfold forward_rule. erewrite follow_got by (by apply namespaced_ok).
    unfold check, kw_is_backward. cbn [forward kw_name] in *. destruct n as [|c n]; [done|]. cbn [String.prefix starts_underscore] in *.
    destruct (Ascii.eqb_spec c "_") as [-> |]; [|done]. by destruct n.
Qed.
Lemma backward_name n : only name_chars n = true -> good_name ("_" ++ n) = true.
Proof using Type. intros H. cbn [append good_name]. by rewrite H. Qed.
Lemma back_forward ns n r : good_namespace ns = true -> only name_chars n = true -> edge r ->
  forward_entid_rule ((":" ++ ns ++ "/_" ++ n) ++ r) = No.
Proof using float_of.
  intros N G E. unfold forward_entid_rule. rewrite alt_no by (apply follow_no; by eapply not_integer).
  apply follow_no. unfold forward_rule. change ("/_" ++ n) with ("/" ++ ("_" ++ n)).
  erewrite follow_got by (apply namespaced_ok; [done|by apply backward_name|done]). done.
Qed.
Lemma back_ok ns n r : good_namespace ns = true -> only name_chars n = true -> n <> "" -> edge r ->
  backward_entid_rule ((":" ++ ns ++ "/_" ++ n) ++ r) = Got (EIdent (Kw (Some ns) n)) r.
Proof using Type.
  intros N G Nn E. unfold backward_entid_rule. change ("/_" ++ n) with ("/" ++ ("_" ++ n)).
  erewrite (follow_got backward_rule) with (a := Kw (Some ns) ("_" ++ n)) (r := r).
  2: { unfold backward_rule. erewrite follow_got by (apply namespaced_ok; [done|by apply backward_name|done]). done. }
  unfold kw_to_reversed. cbn [kw_name kw_ns append Ascii.eqb Bool.eqb]. unfold kw_new. destruct n as [|c n]; [done|]. by destruct ns.
Qed.

(* ------------------------------------------------------------- values *)

Lemma any_value_ok v r : Forall (readable show) (parts v) -> edge r -> any_value_rule float_of (print v ++ r) = Got v (skip false r).
Proof using Hshow. intros F E. unfold any_value_rule. apply (value_ok show float_of Hshow); [done|done|lia]. Qed.
Lemma single_atom v : single v -> atom v /\ is_atom v = true /\ parts v = [v].
Proof using Type. by destruct v. Qed.
Lemma atom_plain v : single v -> readable show v -> starts plain_start (print v).
Proof using Hshow.
  assert (I : forall n, good_name n = true -> starts plain_start n).
  { intros [|c n] H; [done|]. cbn [good_name] in H. apply andb_true_iff in H as [H _]. rewrite first_chars_initial in H. by apply initial_plain. }
  assert (Dz : forall z, starts plain_start (dec z)).
  { intros z. destruct (dec_signed z) as (sg & w & Sg & W & -> & _). eapply starts_impl; [exact number_plain|].
    rewrite <- (app_nil_str (dec w)). by apply number_starts. }
  destruct v as [|b|z|z|d|i|u|s|s|ns s|k|l|l|l|l]; intros A R; try done; cbn [M_Edn.print].
  - by destruct b.
  - apply Dz.
  - apply starts_app, Dz.
  - destruct (decide (d = the_infinity)); [done|]. destruct (decide (d = minus_infinity)); [done|]. destruct (decide (d = DNaN)); [done|].
    destruct (Hshow d) as (_ & sg & w & f & Sg & W & _ & ->); [done..|]. eapply starts_impl; [exact number_plain|]. by apply number_starts.
  - destruct R as [R _]. unfold good_symbol_name in R. rewrite !orb_true_iff, !String.eqb_eq in R. destruct R as [[R | ->] | ->]; [by apply I|done|done].
  - destruct R as [R _]. cbn [name_text]. apply starts_app. unfold good_namespace in R. pose proof (split_dots_join ns) as J.
    destruct (split_dots ns) as [h t]. subst ns. apply andb_true_iff in R as [R _]. apply starts_app. by apply I.
Qed.
Lemma fine_good v : Forall (readable show) (parts v) -> starts good_start (print v).
Proof using Hshow float_of. apply (fine_start show float_of Hshow). Qed.

(* ------------------------------------------------------------- lookup refs and functions *)

Lemma lookup_ok a v s r : spells_lookup show a v s -> lookup_rule float_of (s ++ r) = Got (a, v) r.
Proof using Hshow.
  intros (g1 & g2 & g3 & g4 & ref & G1 & G2 & G3 & G4 & Rf & F & ->). rewrite !app_assoc_str. unfold lookup_rule.
  erewrite follow_got by apply (tok_ok "("). erewrite follow_got by (by apply spaces_ok).
  erewrite follow_got by apply (tok_ok "lookup-ref").
  erewrite follow_got by (apply spaces_ok; [by destruct G2|apply starts_app, plain_good; by eapply ref_start]).
  erewrite follow_got by (apply entid_ok; [done|by apply gap_edge]).
  erewrite follow_got by (apply spaces_ok; [by destruct G3|apply starts_app; by apply fine_good]).
  erewrite follow_got by (apply any_value_ok; [done|by apply blank_edge]).
  rewrite (skip_gap_tok g4) by done. erewrite follow_got by (by apply spaces_none).
  erewrite follow_got by apply (tok_ok ")"). done.
Qed.
Lemma no_paren {A} (k : unit -> parser A) s : starts plain_start s -> follow (tok "(") k s = No.
Proof using Type.
  intros H. apply follow_no. destruct s as [|c s]; [done|]. cbn [tok starts] in *. destruct (Ascii.eqb_spec "(" c) as [<- |]; done.
Qed.
Lemma function_ok f s r : spells_function f s -> tx_function_rule (s ++ r) = Got f r /\ lookup_rule float_of (s ++ r) = No.
Proof using Type.
  intros (g1 & g2 & G1 & G2 & N & P & ->). rewrite !app_assoc_str.
  assert (St : starts good_start (f ++ g2 ++ ")" ++ r)).
  { apply starts_app. destruct f as [|c f]; [done|]. cbn [good_name] in N. apply andb_true_iff in N as [N _]. rewrite first_chars_initial in N.
    cbn [starts]. apply initial_plain in N. unfold plain_start in N. by apply andb_true_iff in N as [N _]. }
  assert (E : edge (g2 ++ ")" ++ r)) by (by apply blank_edge). split.
  - unfold tx_function_rule. erewrite follow_got by apply (tok_ok "("). erewrite follow_got by (by apply spaces_ok).
    erewrite follow_got by (apply name_ok; [done|by apply edge_stops]). erewrite follow_got by (by apply spaces_ok).
    erewrite follow_got by apply (tok_ok ")"). done.
  - unfold lookup_rule. erewrite follow_got by apply (tok_ok "("). erewrite follow_got by (by apply spaces_ok).
    apply follow_no, tok_no. by apply prefix_edge.
Qed.
Lemma function_start f s : spells_function f s -> exists t, s = String "(" t.
Proof using Type. intros (g1 & g2 & _ & _ & _ & _ & ->). cbn [append]. eauto. Qed.
Lemma lookup_start a v s : spells_lookup show a v s -> exists t, s = String "(" t.
Proof using Type. intros (g1 & g2 & g3 & g4 & ref & _ & _ & _ & _ & _ & _ & ->). cbn [append]. eauto. Qed.
Lemma place_ok e s r : spells_place show e s -> edge r -> entity_place_rule float_of (s ++ r) = Got e r.
Proof using Hshow.
  destruct e as [a|[t|i]|a [v|v]|f]; cbn [spells_place]; try done; unfold entity_place_rule.
  - intros S E. rewrite alt_no. { apply alt_got. by erewrite follow_got by (by apply entid_ok). }
    apply follow_no. destruct a as [z|[[ns|] n]]; [|by destruct S as (_ & _ & ->)|done].
    destruct S as [_ ->]. destruct (dec_signed z) as (sg & w & Sg & W & -> & _).
    pose proof (number_starts sg w "" Sg W) as H. rewrite app_nil_str in H. apply (starts_app _ _ r) in H.
    destruct ((sg ++ dec w) ++ r) as [|c u]; [done|]. cbn [starts tok] in *. destruct (Ascii.eqb_spec """" c) as [<- |]; done.
  - intros (Q & B & ->) E. apply alt_got. rewrite !app_assoc_str. erewrite follow_got by apply (tok_ok """").
    erewrite follow_got by (by apply text_ok). done.
  - intros S E. destruct (lookup_start _ _ _ S) as [t Et]. pose proof (lookup_ok a v s r S) as K. rewrite Et in *. cbn [append] in *.
    rewrite alt_no by done. rewrite alt_no.
    2: { apply follow_no. unfold entid_rule. rewrite alt_no by (apply follow_no; by eapply not_integer). apply follow_no. by apply not_namespaced. }
    apply alt_got. by erewrite follow_got by exact K.
  - intros S E. destruct (function_start _ _ S) as [t Et]. destruct (function_ok f s r S) as [K1 K2]. rewrite Et in *. cbn [append] in *.
    rewrite alt_no by done. rewrite alt_no.
    2: { apply follow_no. unfold entid_rule. rewrite alt_no by (apply follow_no; by eapply not_integer). apply follow_no. by apply not_namespaced. }
    rewrite alt_no by (by apply follow_no). by erewrite follow_got by exact K1.
Qed.
Lemma place_start e s : spells_place show e s -> starts good_start s.
Proof using Type.
  destruct e as [a|[t|i]|a [v|v]|f]; cbn [spells_place]; try done.
  - intros S. eapply plain_good, ref_start, S.
  - by intros (_ & _ & ->).
  - intros S. by destruct (lookup_start _ _ _ S) as [t ->].
  - intros S. by destruct (function_start _ _ S) as [t ->].
Qed.

(* ------------------------------------------------------------- what is in the place of a value *)

Definition pair_rule (n : nat) : parser (entid_or_ident * value_place) :=
  peg k <- entid_rule; eat spaces; peg v <- place n; yield (k, v).
Lemma place_close n c r : closer c -> place (S n) (c ++ r) = No.
Proof using Type.
  intros C.
  assert (K : any_value_rule float_of (c ++ r) = No) by (unfold any_value_rule; by apply value_close).
  assert (S : spaces (c ++ r) = Got tt (c ++ r)) by (unfold spaces; by rewrite skip_close).
  cbn [value_place_rule]. rewrite !alt_no.
  - erewrite follow_got by exact S. apply follow_no. by apply follow_no.
  - destruct C as [-> | [-> | ->]]; reflexivity.
  - destruct C as [-> | [-> | ->]]; reflexivity.
  - destruct C as [-> | [-> | ->]]; reflexivity.
  - destruct C as [-> | [-> | ->]]; reflexivity.
Qed.
Lemma entid_close c r : closer c -> entid_rule (c ++ r) = No.
Proof using float_of.
  intros C. unfold entid_rule. rewrite alt_no.
  - destruct C as [-> | [-> | ->]]; reflexivity.
  - apply follow_no. destruct C as [-> | [-> | ->]]; by eapply not_integer.
Qed.

Scheme spells_min := Minimality for spells Sort Prop
  with spells_all_min := Minimality for spells_all Sort Prop
  with spells_pairs_min := Minimality for spells_pairs Sort Prop.
Combined Scheme spells_mutual from spells_min, spells_all_min, spells_pairs_min.

Definition one_place (v : value_place) (s : string) : Prop := starts good_start s /\
  forall n r, edge r -> (String.length (s ++ r) < n)%nat -> place n (s ++ r) = Got v (skip false r).
Definition rows {A} (item : nat -> parser A) (l : list A) (t : string) : Prop :=
  (List.length l <= String.length t)%nat /\ (t = "" \/ starts good_start t) /\
  forall n m cl r, closer cl -> (String.length (t ++ cl ++ r) < n)%nat -> (List.length l < m)%nat ->
    many (item n) m (skip false (t ++ cl ++ r)) = Got l (cl ++ r).
Lemma rows_none {A} (item : nat -> parser A) : (forall n c r, closer c -> item (S n) (c ++ r) = No) -> rows item [] "".
Proof using Type.
  intros Cl. split; [done|]. split; [by left|]. intros n m cl r C Ln Lm. cbn [append] in *. rewrite skip_close by done.
  destruct m as [|m]; [lia|]. destruct n as [|n]; [lia|]. cbn [many]. by rewrite Cl.
Qed.
Lemma rows_one {A} (item : nat -> parser A) x s g : (forall n c r, closer c -> item (S n) (c ++ r) = No) ->
  starts good_start s -> (forall n r, edge r -> (String.length (s ++ r) < n)%nat -> item n (s ++ r) = Got x (skip false r)) ->
  blank g -> rows item [x] (s ++ g).
Proof using Type.
  intros Cl St Rd B. split; [|split; [right; by apply starts_app|]].
  { destruct s; [done|]. cbn. lia. }
  intros n m cl r C Ln Lm. rewrite !app_assoc_str in *. rewrite skip_start by (by apply starts_app).
  destruct m as [|m]; [lia|]. cbn [many]. rewrite Rd; [|apply blank_edge; [done|by destruct C as [-> | [-> | ->]]]|done].
  rewrite skip_blank, skip_close by done. destruct m as [|m]; [cbn in Lm; lia|]. destruct n as [|n]; [lia|]. cbn [many]. by rewrite Cl.
Qed.
Lemma rows_more {A} (item : nat -> parser A) x s g l t :
  starts good_start s -> (forall n r, edge r -> (String.length (s ++ r) < n)%nat -> item n (s ++ r) = Got x (skip false r)) ->
  gap g -> rows item l t -> rows item (x :: l) (s ++ g ++ t).
Proof using Type.
  intros St Rd G (L & _ & K). split; [|split; [right; by apply starts_app|]].
  { destruct s; [done|]. cbn. rewrite !length_app_str. lia. }
  intros n m cl r C Ln Lm. rewrite !app_assoc_str in *. rewrite skip_start by (by apply starts_app).
  destruct m as [|m]; [lia|]. cbn [many]. rewrite Rd; [|by apply gap_edge|done]. rewrite skip_blank by (by destruct G).
  rewrite K; [done|done| |cbn in Lm; lia]. rewrite !length_app_str in *. lia.
Qed.
Lemma map_ok n m l g s r : blank g -> rows pair_rule l s -> Forall named (map fst l) -> in_order m -> l ≡ₚ m ->
  (String.length (("{" ++ g ++ s ++ "}") ++ r) <= n)%nat -> map_notation_rule (place n) (("{" ++ g ++ s ++ "}") ++ r) = Got m r.
Proof using Type.
  intros B (L & _ & K) F O P Ln. unfold map_notation_rule. rewrite !app_assoc_str in *. erewrite follow_got by apply (tok_ok "{").
  unfold spaces at 1, follow at 1. rewrite skip_blank by done.
  erewrite follow_got by (apply K; [unfold closer; auto|rewrite !length_app_str in *; cbn [String.length] in *; lia|rewrite !length_app_str in *; lia]).
  erewrite follow_got by (by apply spaces_none). erewrite follow_got by apply (tok_ok "}"). unfold yield. by rewrite (pairs_from_ok l m).
Qed.
Lemma pair_reads k v ref g1 s : spells_ref k ref -> gap g1 -> one_place v s ->
  starts good_start (ref ++ g1 ++ s) /\ forall n r, edge r -> (String.length ((ref ++ g1 ++ s) ++ r) < n)%nat ->
    pair_rule n ((ref ++ g1 ++ s) ++ r) = Got (k, v) (skip false r).
Proof using float_of.
  intros Rf G [St Rd]. split; [apply starts_app, plain_good; by eapply ref_start|]. intros n r E Ln. rewrite !app_assoc_str in *. unfold pair_rule.
  erewrite follow_got by (apply entid_ok; [done|by apply gap_edge]).
  erewrite follow_got by (apply spaces_ok; [by destruct G|by apply starts_app]).
  erewrite follow_got by (apply Rd; [done|rewrite !length_app_str in *; lia]). done.
Qed.

Lemma spells_ok : (forall v s, spells show v s -> one_place v s)
  /\ (forall l s, spells_all show l s -> rows place l s)
  /\ (forall l s, spells_pairs show l s -> rows pair_rule l s /\ Forall named (map fst l)).
Proof using Hshow.
  apply (spells_mutual show one_place (rows place) (fun l s => rows pair_rule l s /\ Forall named (map fst l))).
  - intros v Sv R. pose proof (atom_plain v Sv R) as Pl. destruct (single_atom v Sv) as (_ & At & Pt). split; [by apply plain_good|].
    intros [|n] r E Ln; [lia|]. cbn [value_place_rule].
    assert (St : starts plain_start (print v ++ r)) by (by apply starts_app).
    assert (Sp : spaces (print v ++ r) = Got tt (print v ++ r)) by (by apply spaces_none, plain_good).
    assert (T : forall c, opens c = true -> tok (String c "") (print v ++ r) = No).
    { intros c O. destruct (print v ++ r) as [|d t]; [done|]. cbn [tok starts] in *. destruct (Ascii.eqb_spec c d) as [<- |]; [|done].
      unfold plain_start in St. by rewrite O, andb_false_r in St. }
    rewrite alt_no by (erewrite follow_got by exact Sp; apply follow_no; by apply follow_no, T).
    rewrite alt_no by (erewrite follow_got by exact Sp; apply follow_no; by apply follow_no, T).
    rewrite alt_no by (erewrite follow_got by exact Sp; by apply follow_no, T).
    rewrite alt_no by (erewrite follow_got by exact Sp; apply follow_no; unfold map_notation_rule; by apply follow_no, T).
    erewrite follow_got by exact Sp.
    assert (Av : atom_rule float_of (print v ++ r) = Got v (skip false r)).
    { unfold atom_rule. erewrite follow_got by (apply any_value_ok; [rewrite Pt; by constructor|done]). unfold check. by rewrite At. }
    erewrite follow_got by exact Av. by erewrite follow_got by apply spaces_skipped.
  - intros a v s S. destruct (lookup_start a v s S) as [t Et]. split; [by rewrite Et|]. intros [|n] r E Ln; [lia|]. cbn [value_place_rule].
    apply alt_got. erewrite follow_got by (apply spaces_none; by rewrite Et). by erewrite follow_got by (by apply lookup_ok).
  - intros f s S. destruct (function_start f s S) as [t Et]. split; [by rewrite Et|]. intros [|n] r E Ln; [lia|]. cbn [value_place_rule].
    destruct (function_ok f s r S) as [K1 K2].
    rewrite alt_no by (erewrite follow_got by (apply spaces_none; by rewrite Et); by apply follow_no).
    apply alt_got. erewrite follow_got by (apply spaces_none; by rewrite Et). by erewrite follow_got by exact K1.
  - intros l g s B _ (L & Sm & K). split; [done|]. intros [|n] r E Ln; [lia|]. cbn [value_place_rule]. rewrite !app_assoc_str in *.
    rewrite alt_no by done. rewrite alt_no by done. apply alt_got.
    erewrite follow_got by (by apply spaces_none). erewrite follow_got by apply (tok_ok "[").
    assert (Sk : skip false (s ++ "]" ++ r) = s ++ "]" ++ r) by (destruct Sm as [-> | Sm]; [done|by apply skip_start, starts_app]).
    unfold spaces at 1, follow at 1. rewrite skip_blank, Sk by done.
    specialize (K n (S (String.length (s ++ "]" ++ r))) "]" r). rewrite Sk in K.
    erewrite follow_got by (apply K; [unfold closer; auto|rewrite !length_app_str in *; cbn [String.length] in *; lia|rewrite length_app_str; lia]).
    erewrite follow_got by (by apply spaces_none). by erewrite follow_got by apply (tok_ok "]").
  - intros m l g s B _ [Rw Nm] O P. split; [done|]. intros [|n] r E Ln; [lia|]. cbn [value_place_rule].
    assert (Ln' : (String.length (("{" ++ g ++ s ++ "}") ++ r) <= n)%nat) by lia.
    pose proof (map_ok n m l g s r B Rw Nm O P Ln') as K. rewrite !app_assoc_str in *.
    rewrite alt_no by done. rewrite alt_no by done. rewrite alt_no by done. apply alt_got.
    erewrite follow_got by (by apply spaces_none). by erewrite follow_got by exact K.
  - apply rows_none, place_close.
  - intros v s g _ [St Rd] B. apply rows_one; [apply place_close|done..].
  - intros v l s g t _ [St Rd] G _ IH. by apply rows_more.
  - split; [|constructor]. apply rows_none. intros. by apply follow_no, entid_close.
  - intros k v ref g1 s g Rf G1 _ Ov B. destruct (pair_reads k v ref g1 s Rf G1 Ov) as [St Rd]. split.
    + rewrite <- !(app_assoc_str _ _ g). rewrite <- (app_assoc_str ref). apply rows_one; [intros; by apply follow_no, entid_close|by rewrite app_assoc_str|by rewrite app_assoc_str|done].
    + cbn. constructor; [by eapply ref_named|constructor].
  - intros k v l ref g1 s g t Rf G1 _ Ov G _ [IH Nm]. destruct (pair_reads k v ref g1 s Rf G1 Ov) as [St Rd]. split.
    + replace (ref ++ g1 ++ s ++ g ++ t) with ((ref ++ g1 ++ s) ++ g ++ t) by (by rewrite !app_assoc_str). by apply rows_more.
    + cbn [map fst]. constructor; [by eapply ref_named|done].
Qed.

(* ------------------------------------------------------------- entities *)

Lemma first_try v s r : spells show v s -> for_entity v -> edge r ->
  entity_place_rule float_of (s ++ r) = No \/ exists e, entity_place_rule float_of (s ++ r) = Got e r.
Proof using Hshow.
  intros S F E. inversion S as [x Sx Rx|a x t Sl|f t Sf|l g t B Sa|m l g t B Sp O P]; subst.
  - right. destruct x as [|b|z|z|d|i|u|x|x|ns x|[[ns|] n]|l|l|l|l]; try done.
    + exists (EPEntid (EEntid z)). apply place_ok; done.
    + exists (EPTempId (TExternal x)). apply place_ok; [|done]. by destruct Rx.
    + exists (EPEntid (EIdent (Kw (Some ns) n))). apply place_ok; [|done]. by destruct Rx.
  - right. exists (EPLookup a (VEdn x)). by apply place_ok.
  - right. exists (EPTxFn f). by apply place_ok.
  - left. reflexivity.
  - left. reflexivity.
Qed.
Lemma op_ok o r : op_rule (op_text o ++ r) = Got o r.
Proof using Type. by destruct o. Qed.
Lemma op_start o r : starts good_start (op_text o ++ r).
Proof using Type. by destruct o. Qed.
Lemma entity_ok x s r : spells_entity show x s -> entity_rule float_of (s ++ r) = Got x (skip false r) /\ starts good_start s.
Proof using Hshow.
  destruct spells_ok as (Ov & _ & Op). intros Se.
  inversion Se as [o e a v g0 g1 g2 g3 g4 es ref vs G0 G1 G2 G3 G4 Pe Rf Fw Sv|o e ns n v g0 g1 g2 g3 g4 es vs G0 G1 G2 G3 G4 Pe Sv Fe Gn On Nn|m l g t B Sp O P]; subst;
    (split; [|done]); unfold entity_rule; cbv zeta.
  - set (len := S (String.length _)). assert (Ll : (String.length (vs ++ g4 ++ "]" ++ r) < len)%nat) by (unfold len; rewrite !length_app_str; cbn [String.length]; lia).
    clearbody len. rewrite !app_assoc_str. destruct (Ov v vs Sv) as [Stv Rd].
    apply alt_got. erewrite follow_got by (by apply spaces_none). erewrite follow_got by apply (tok_ok "[").
    erewrite follow_got by (apply spaces_ok; [done|apply op_start]). erewrite follow_got by apply op_ok.
    erewrite follow_got by (apply spaces_ok; [by destruct G1|apply starts_app; by eapply place_start]).
    erewrite follow_got by (apply place_ok; [done|by apply gap_edge]).
    erewrite follow_got by (apply spaces_ok; [by destruct G2|apply starts_app, plain_good; by eapply ref_start]).
    erewrite follow_got by (apply forward_ok; [done|done|by apply gap_edge]).
    erewrite follow_got by (apply spaces_ok; [by destruct G3|by apply starts_app]).
    erewrite follow_got by (apply Rd; [by apply blank_edge|done]). rewrite skip_gap_tok by done.
    erewrite follow_got by (by apply spaces_none). by erewrite follow_got by apply (tok_ok "]").
  - set (len := S (String.length _)). assert (Ll : (String.length (vs ++ g2 ++ (":" ++ ns ++ "/_" ++ n) ++ g3 ++ es ++ g4 ++ "]" ++ r) < len)%nat)
      by (unfold len; rewrite !length_app_str; cbn [String.length]; lia).
    clearbody len. destruct (Ov v vs Sv) as [Stv Rd].
    set (back := ":" ++ ns ++ "/_" ++ n) in *. rewrite !app_assoc_str.
    assert (Sb : starts good_start (back ++ g3 ++ es ++ g4 ++ "]" ++ r)) by done.
    rewrite alt_no.
    2: { erewrite follow_got by (by apply spaces_none). erewrite follow_got by apply (tok_ok "[").
         erewrite follow_got by (apply spaces_ok; [done|apply op_start]). erewrite follow_got by apply op_ok.
         erewrite follow_got by (apply spaces_ok; [by destruct G1|by apply starts_app]).
         destruct (first_try v vs (g2 ++ back ++ g3 ++ es ++ g4 ++ "]" ++ r) Sv Fe) as [N|[e' N]]; [by apply gap_edge|by apply follow_no|].
         erewrite follow_got by exact N. erewrite follow_got by (apply spaces_ok; [by destruct G2|done]).
         apply follow_no. apply back_forward; [done|done|by apply gap_edge]. }
    apply alt_got. erewrite follow_got by (by apply spaces_none). erewrite follow_got by apply (tok_ok "[").
    erewrite follow_got by (apply spaces_ok; [done|apply op_start]). erewrite follow_got by apply op_ok.
    erewrite follow_got by (apply spaces_ok; [by destruct G1|by apply starts_app]).
    erewrite follow_got by (apply Rd; [by apply gap_edge|done]). rewrite skip_gap_tok by (done || by destruct G2).
    erewrite follow_got by (by apply spaces_none).
    erewrite follow_got by (apply back_ok; [done|done|done|by apply gap_edge]).
    erewrite follow_got by (apply spaces_ok; [by destruct G3|apply starts_app; by eapply place_start]).
    erewrite follow_got by (apply place_ok; [done|by apply blank_edge]).
    erewrite follow_got by (by apply spaces_ok). by erewrite follow_got by apply (tok_ok "]").
  - destruct (Op l t Sp) as [Rw Nm]. set (len := S (String.length _)).
    assert (Ln : (String.length (("{" ++ g ++ t ++ "}") ++ r) <= len)%nat) by (unfold len; lia). clearbody len.
    pose proof (map_ok len m l g t r B Rw Nm O P Ln) as K. rewrite !app_assoc_str in *.
    rewrite alt_no by done. rewrite alt_no by done. erewrite follow_got by (by apply spaces_none). by erewrite follow_got by exact K.
Qed.
Lemma entities_ok l t : spells_entities show l t -> (List.length l <= String.length t)%nat /\
  forall m r, (List.length l < m)%nat -> many (entity_rule float_of) m (skip false (t ++ "]" ++ r)) = Got l ("]" ++ r).
Proof using Hshow.
  induction 1 as [|x l s g t Sx B _ [L IH]].
  - split; [done|]. intros [|m] r Lm; [lia|]. reflexivity.
  - destruct (entity_ok x s (g ++ t ++ "]" ++ "") Sx) as [_ St]. split; [destruct s; [done|]; cbn; rewrite !length_app_str; lia|].
    intros [|m] r Lm; [lia|]. rewrite !app_assoc_str. rewrite skip_start by (by apply starts_app). cbn [many].
    destruct (entity_ok x s (g ++ t ++ "]" ++ r) Sx) as [-> _]. rewrite skip_blank by done. rewrite IH; [done|cbn in Lm; lia].
Qed.
Theorem transaction_ok l s : spells_transaction show l s -> read_entities float_of s = Entities l.
Proof using Hshow.
  intros (g0 & g1 & g2 & t & G0 & G1 & G2 & Se & ->). destruct (entities_ok l t Se) as [L K]. unfold read_entities, entities_rule.
  erewrite follow_got by (by apply spaces_ok). erewrite follow_got by apply (tok_ok "[").
  unfold spaces at 1, follow at 1. rewrite skip_blank by done.
  erewrite follow_got by (apply K; rewrite !length_app_str; lia).
  erewrite follow_got by (by apply spaces_none). erewrite follow_got by apply (tok_ok "]").
  unfold spaces, follow, yield. rewrite <- (app_nil_str g2), skip_blank by done. done.
Qed.
End text.

(** Printed EDN values, whatever is nested in them, are read back. *)
From Coq Require Import Decimal DecimalString DecimalZ Sorted.
From Verif Require P_Sql.
From Verif Require Import Spec_Edn P_EdnNum P_Edn P_EdnOrd.
Open Scope string_scope.
Open Scope Z_scope.
Local Arguments String.append !s1 s2 : simpl nomatch.

Notation app_assoc_str := P_Sql.app_assoc_str.
Notation app_nil_str := P_Sql.app_nil_str.
Section round.
Context (show : dbl -> string) (float_of : string -> dbl) (Hshow : shows_floats show float_of).
Notation print := (print show).
Notation value_rule := (value_rule float_of).

(* ------------------------------------------------------------- printing, unfolded *)

Fixpoint each (l : list edn) : string := match l with [] => "" | x :: l => " " ++ print x ++ each l end.
Fixpoint each_pair (l : list (edn * edn)) : string :=
  match l with [] => "" | (k, x) :: l => " " ++ print k ++ " " ++ print x ++ each_pair l end.
Lemma print_vec l : print (EVec l) = "[" ++ each l ++ " ]".
Proof using Type. reflexivity. Qed.
Lemma print_list l : print (EList l) = "(" ++ each l ++ " )".
Proof using Type. reflexivity. Qed.
Lemma print_set l : print (ESet l) = "#{" ++ each l ++ " }".
Proof using Type. reflexivity. Qed.
Lemma print_map l : print (EMapV l) = "{" ++ each_pair l ++ " }".
Proof using Type. reflexivity. Qed.

(* ------------------------------------------------------------- one step of the value rule *)

Definition kinds (n : nat) : parser edn :=
  alt nil_rule (alt nan_rule (alt infinity_rule (alt boolean_rule (alt (number_rule float_of) (alt inst_rule
    (alt uuid_rule (alt text_rule (alt keyword_rule (alt symbol_rule
    (alt (collection "(" ")" (value_rule n) EList)
    (alt (collection "[" "]" (value_rule n) EVec)
    (alt (collection "{" "}" (peg k <- value_rule n; peg x <- value_rule n; yield (k, x)) (fun l => EMapV (map_from l)))
         (collection "#{" "}" (value_rule n) (fun l => ESet (set_from l))))))))))))))).
Lemma value_step n s v r : skip false s = s -> kinds n s = Got v r -> value_rule (S n) s = Got v (skip false r).
Proof using Type.
  intros K H. change (value_rule (S n) s) with ((eat spaces; peg v <- kinds n; eat spaces; yield v) s).
  unfold spaces at 1. unfold follow at 1. rewrite K. unfold follow at 1. by rewrite H.
Qed.
Lemma value_close n c r : c = ")" \/ c = "]" \/ c = "}" -> value_rule (S n) (c ++ r) = No.
Proof using Type. intros [-> | [-> | ->]]; reflexivity. Qed.

(** what a printed value begins with *)
Definition starts (p : ascii -> bool) (s : string) : Prop := match s with String c _ => p c = true | "" => False end.
Definition good_start (c : ascii) : bool := negb (is_space c || Ascii.eqb c ";").
Lemma skip_start s : starts good_start s -> skip false s = s.
Proof using Type.
  destruct s as [|c s]; [done|]. cbn [starts]. unfold good_start. rewrite negb_true_iff, orb_false_iff. intros [A B].
  cbn [skip]. by rewrite A, B.
Qed.
Lemma starts_app p s r : starts p s -> starts p (s ++ r).
Proof using Type. by destruct s. Qed.
Lemma starts_impl (p q : ascii -> bool) s : (forall c, p c = true -> q c = true) -> starts p s -> starts q s.
Proof using Type. destruct s; [done|]. cbn. auto. Qed.

Definition sign_or_digit (c : ascii) : bool := is_digit c || Ascii.eqb c "-".
Lemma number_starts sg z t : is_sign_text sg -> 0 <= z -> starts sign_or_digit (sg ++ dec z ++ t).
Proof using Type.
  intros [-> | ->] Z; [|done]. cbn [append]. apply starts_app. pose proof (dec_digits z Z) as D.
  destruct (dec z) as [|c d] eqn:E; [by apply dec_nonempty in E|]. cbn in *. apply andb_true_iff in D as [D _]. unfold sign_or_digit. by rewrite D.
Qed.
Lemma dec_signed z : exists sg w, is_sign_text sg /\ 0 <= w /\ dec z = sg ++ dec w /\ with_sign sg w = z.
Proof using Type.
  destruct (Z_lt_le_dec z 0) as [N|N].
  - exists "-", (- z). split_and!; [by right|lia|by apply dec_neg|]. cbn. lia.
  - exists "", z. split_and!; [by left|lia|done|done].
Qed.

(** rules before the one that is meant *)
Lemma not_word s c t : s = String c t -> c <> "n"%char -> c <> "t"%char -> c <> "f"%char -> c <> "#"%char ->
  nil_rule s = No /\ nan_rule s = No /\ infinity_rule s = No /\ boolean_rule s = No /\ inst_rule s = No /\ uuid_rule s = No.
Proof using Type.
  intros -> N T F H.
  assert (K : forall (a : ascii) u, c <> a -> tok (String a u) (String c t) = No).
  { intros a u Na. cbn [tok]. destruct (Ascii.eqb_spec a c); [congruence|done]. }
  unfold nil_rule, nan_rule, infinity_rule, boolean_rule, inst_rule, inst_millis_rule, inst_micros_rule, inst_string_rule, uuid_rule, alt, follow.
  by rewrite !K.
Qed.
Lemma number_first n s v r : starts sign_or_digit s -> number_rule float_of s = Got v r -> kinds n s = Got v r.
Proof using Type.
  intros St E. destruct s as [|c s]; [done|]. cbn [starts] in St.
  destruct (not_word (String c s) c s) as (A & B & C & D & _ & _); [done|..]; try (intros ->; by vm_compute in St).
  unfold kinds. rewrite alt_no by done. rewrite alt_no by done. rewrite alt_no by done. rewrite alt_no by done. by apply alt_got.
Qed.
Lemma not_number s c t : s = String c t -> is_digit c = false -> is_sign c = false -> number_rule float_of s = No.
Proof using Type.
  intros -> D S.
  assert (M : maybe (one is_sign) (String c t) = Got "" (String c t)) by (unfold maybe, alt; cbn [one]; by rewrite S).
  assert (R : run1 is_digit (String c t) = No) by (by apply run1_no).
  unfold number_rule. rewrite alt_no.
  2: { unfold bigint_rule. erewrite follow_got by exact M. by apply follow_no. }
  assert (T : forall u, tok (String "0" u) (String c t) = No).
  { intros u. cbn [tok]. destruct (Ascii.eqb_spec "0" c) as [<- |]; [by vm_compute in D|done]. }
  rewrite alt_no.
  2: { apply follow_no. destruct (validbase_quiet (String c t)) as [Q1 Q2].
       destruct (validbase (String c t)) as [b r| | |] eqn:E; try done.
       destruct (validbase_digits _ _ _ E) as [E1 E2]. destruct b as [|x b].
       - exfalso. clear -E D. unfold validbase, alt, follow in E. cbn [tok one] in E.
         assert (K : forall lo hi, (48 <= N_of_ascii lo)%N -> (N_of_ascii hi <= 57)%N -> in_range c lo hi = false).
         { intros lo hi L H. apply not_true_is_false. intros K. apply not_true_iff_false in D. apply D. revert K.
           unfold is_digit, in_range. rewrite !andb_true_iff, !N.leb_le. change (N_of_ascii "0") with 48%N. change (N_of_ascii "9") with 57%N. lia. }
         destruct (Ascii.eqb_spec "3" c) as [<- |]; [by vm_compute in D|].
         rewrite !K in E by (vm_compute; discriminate). discriminate.
       - injection E1 as <- E1. cbn [all_chars] in E2. by rewrite D in E2. }
  rewrite alt_no by (by apply follow_no, T). rewrite alt_no by (by apply follow_no, T).
  rewrite alt_no; unfold integer_rule, float_rule; erewrite follow_got by exact M; by apply follow_no.
Qed.

(* ------------------------------------------------------------- values that hold no others *)

Definition atom (v : edn) : Prop := match v with EVec _ | EList _ | ESet _ | EMapV _ => False | _ => True end.
Lemma atom_start v : atom v -> readable show v -> starts good_start (print v).
Proof using Hshow.
  assert (G : forall c, sign_or_digit c = true -> good_start c = true).
  { intros c H. apply negb_true_iff. unfold sign_or_digit in H. apply orb_true_iff in H as [H|H].
    - apply not_true_is_false. intros K. revert H. unfold is_space in K. rewrite !orb_true_iff, !Ascii.eqb_eq in K.
      by destruct K as [[[[[-> | ->] | ->] | ->] | ->] | ->].
    - apply Ascii.eqb_eq in H. by subst c. }
  assert (I : forall n, good_name n = true -> starts good_start n).
  { intros [|c n] H; [done|]. cbn [good_name] in H. apply andb_true_iff in H as [H _]. rewrite first_chars_initial in H. cbn [starts].
    apply negb_true_iff, not_true_is_false. intros K. revert H. unfold is_space in K. rewrite !orb_true_iff, !Ascii.eqb_eq in K.
    by destruct K as [[[[[-> | ->] | ->] | ->] | ->] | ->]. }
  assert (Dz : forall z, starts good_start (dec z)).
  { intros z. destruct (dec_signed z) as (sg & w & Sg & W & -> & _). eapply starts_impl; [exact G|].
    rewrite <- (app_nil_str (dec w)). by apply number_starts. }
  destruct v as [|b|z|z|d|i|u|s|s|ns s|k|l|l|l|l]; intros A R; try done; cbn [M_Edn.print].
  - by destruct b.
  - apply Dz.
  - apply starts_app, Dz.
  - destruct (decide (d = the_infinity)); [done|]. destruct (decide (d = minus_infinity)); [done|]. destruct (decide (d = DNaN)); [done|].
    destruct (Hshow d) as (_ & sg & w & f & Sg & W & _ & ->); [done..|]. eapply starts_impl; [exact G|]. by apply number_starts.
  - destruct R as [R _]. unfold good_symbol_name in R. rewrite !orb_true_iff, !String.eqb_eq in R. destruct R as [[R | ->] | ->]; [by apply I|done|done].
  - destruct R as [R _]. cbn [name_text]. apply starts_app. unfold good_namespace in R. pose proof (split_dots_join ns) as J.
    destruct (split_dots ns) as [h t]. subst ns. apply andb_true_iff in R as [R _]. apply starts_app. by apply I.
Qed.

Lemma atom_ok n v r : atom v -> readable show v -> edge r -> kinds n (print v ++ r) = Got v r.
Proof using Hshow.
  intros A R E.
  assert (Sy : forall t x, starts is_initial t \/ starts (Ascii.eqb ".") t -> begins_otherwise t = false -> symbol_rule (t ++ r) = Got x r -> kinds n (t ++ r) = Got x r).
  { intros t x Si B H. unfold begins_otherwise in B. rewrite !orb_false_iff in B. destruct B as [[[B1 B2] B3] B4].
    destruct t as [|c t]; [by destruct Si|]. cbn [starts] in Si. rewrite digits_chars in B4.
    assert (NC : forall a, is_initial a = false -> a <> "."%char -> c <> a).
    { intros a Ha Hd ->. destruct Si as [Si|Si]; [congruence|]. apply Ascii.eqb_eq in Si. congruence. }
    assert (T : forall a u, is_initial a = false -> a <> "."%char -> tok (String a u) (String c t ++ r) = No).
    { intros a u Ha Hd. cbn [append tok]. destruct (Ascii.eqb_spec a c); [exfalso; by apply (NC a)|done]. }
    assert (T' : forall w, all_chars (fun c => negb (occurs c edges)) w = true -> String.prefix w (String c t) = false -> tok w (String c t ++ r) = No).
    { intros w Hw Hp. by apply tok_no, prefix_edge. }
    unfold kinds.
    rewrite alt_no by (by apply follow_no, T').
    rewrite alt_no by (by apply follow_no, T). rewrite alt_no by (by apply follow_no, T).
    rewrite alt_no by (unfold boolean_rule; rewrite alt_no by (by apply follow_no, T'); by apply follow_no, T').
    rewrite alt_no.
    2: { cbn [append]. apply (not_number _ c (t ++ r)); [done|done|]. destruct (is_sign c) eqn:S'; [|done].
         unfold is_sign in S'. rewrite orb_true_iff, !Ascii.eqb_eq in S'. exfalso. destruct S' as [S'|S']; eapply NC in S'; done. }
    rewrite alt_no by (unfold inst_rule; rewrite alt_no by (by apply follow_no, T); rewrite alt_no by (by apply follow_no, T); by apply follow_no, T).
    rewrite alt_no by (by apply follow_no, T). rewrite alt_no by (by apply follow_no, T). rewrite alt_no by (by apply follow_no, T).
    by apply alt_got. }
  destruct v as [|b|z|z|d|i|u|s|s|ns s|k|l|l|l|l]; try done; cbn [M_Edn.print readable] in *.
  - by destruct b.
  - destruct (dec_signed z) as (sg & w & Sg & W & -> & Ez). rewrite app_assoc_str.
    apply number_first; [by apply number_starts|]. rewrite integer_read by done. rewrite Ez.
    assert (F : fits_i64 z = true) by (unfold fits_i64; rewrite andb_true_iff, Z.leb_le, Z.ltb_lt; lia). by rewrite F.
  - destruct (dec_signed z) as (sg & w & Sg & W & -> & Ez). rewrite !app_assoc_str.
    apply number_first; [by apply number_starts|]. rewrite bigint_ok by done. by rewrite Ez.
  - destruct (decide (d = the_infinity)) as [-> |N1]; [done|]. destruct (decide (d = minus_infinity)) as [-> |N2]; [done|].
    destruct (decide (d = DNaN)) as [-> |N3]; [done|]. destruct R as [R|[R|[R|R]]]; [done..|].
    destruct (Hshow d) as (Rd & sg & w & f & Sg & W & F & Es); [done..|]. rewrite Es in *.
    destruct (String.eqb_spec f "") as [Ef|Ef].
    { exfalso. rewrite app_nil_str in R.
      assert (Oa : forall s t, occurs "." (s ++ t) = occurs "." s || occurs "." t) by (intros s t; induction s as [|x s IH]; cbn; [done|]; by rewrite IH, orb_assoc).
      assert (Od : forall s, all_chars is_digit s = true -> occurs "." s = false).
      { intros s H. induction s as [|x s IH]; [done|]. cbn [all_chars] in H. apply andb_true_iff in H as [Hx H]. cbn [occurs]. rewrite IH by done.
        destruct (Ascii.eqb_spec "." x) as [<- |]; [by vm_compute in Hx|done]. }
      rewrite Oa, (Od (dec w)) in R by (by apply dec_digits). destruct Sg as [-> | ->]; discriminate. }
    rewrite !app_assoc_str. apply number_first; [by apply number_starts|]. rewrite only_digits in F.
    rewrite float_ok by done. by rewrite Rd.
  - unfold kinds. rewrite app_assoc_str.
    change ("#inst """ ++ (rfc3339 i ++ """") ++ r) with ("#inst """ ++ ((rfc3339 i ++ """") ++ r)). rewrite app_assoc_str.
    pose proof (rfc3339_read i r R) as K.
    rewrite alt_no by done. rewrite alt_no by done. rewrite alt_no by done. rewrite alt_no by done.
    rewrite alt_no by (by eapply not_number).
    apply alt_got. unfold inst_rule. rewrite alt_no by done. rewrite alt_no by done. exact K.
  - unfold kinds. rewrite app_assoc_str. rewrite app_assoc_str.
    pose proof (uuid_read u r R) as K.
    rewrite alt_no by done. rewrite alt_no by done. rewrite alt_no by done. rewrite alt_no by done.
    rewrite alt_no by (by eapply not_number). rewrite alt_no by done. by apply alt_got.
  - destruct R as [R1 R2]. unfold kinds. rewrite !app_assoc_str.
    rewrite alt_no by done. rewrite alt_no by done. rewrite alt_no by done. rewrite alt_no by done.
    rewrite alt_no by (by eapply not_number). rewrite alt_no by done. rewrite alt_no by done. apply alt_got.
    unfold text_rule. erewrite follow_got by apply (tok_ok """"). erewrite follow_got by (by apply text_ok). done.
  - destruct R as [R1 R2]. apply Sy; [|done|by apply symbol_ok].
    unfold good_symbol_name in R1. rewrite !orb_true_iff, !String.eqb_eq in R1. destruct R1 as [[R1 | ->] | ->]; [left|by right|by right].
    destruct s; [done|]. cbn [good_name] in R1. apply andb_true_iff in R1 as [R1 _]. cbn. by rewrite <- first_chars_initial.
  - destruct R as (R1 & R2 & R3). cbn [name_text].
    assert (Si : starts is_initial ns).
    { unfold good_namespace in R1. pose proof (split_dots_join ns) as J. destruct (split_dots ns) as [h t]. subst ns.
      apply andb_true_iff in R1 as [R1 _]. apply starts_app. destruct h; [done|]. cbn [good_name] in R1. apply andb_true_iff in R1 as [R1 _].
      cbn. by rewrite <- first_chars_initial. }
    apply Sy; [left; by apply starts_app| |rewrite !app_assoc_str; by apply ns_symbol_ok].
    unfold begins_otherwise in *. rewrite !orb_false_iff in *. destruct R3 as [[[B1 B2] B3] B4].
    assert (Pf : forall w, occurs "/" w = false -> String.prefix w ns = false -> String.prefix w (ns ++ "/" ++ s) = false).
    { clear. intros w. revert ns. induction w as [|a w IH]; intros [|c ns] O P; cbn [append String.prefix occurs] in *; try done.
      - apply orb_false_iff in O as [O _]. apply Ascii.eqb_neq in O. destruct (ascii_dec a "/"); [congruence|done].
      - apply orb_false_iff in O as [_ O]. destruct (ascii_dec a c); [|done]. by apply IH. }
    split_and!; [by apply Pf..|]. destruct ns; done.
  - destruct R as [R1 R2]. unfold kinds. rewrite app_assoc_str.
    pose proof (keyword_ok k r R1 R2 E) as K.
    rewrite alt_no by done. rewrite alt_no by done. rewrite alt_no by done. rewrite alt_no by done.
    rewrite alt_no by (by eapply not_number). rewrite alt_no by done. rewrite alt_no by done. rewrite alt_no by done. by apply alt_got.
Qed.

(* ------------------------------------------------------------- collections *)

Definition fine (v : edn) : Prop := Forall (readable show) (parts v).
Lemma fine_self v : fine v -> readable show v.
Proof using Type. unfold fine. destruct v; cbn [parts]; intros H; by apply Forall_cons in H as [H _]. Qed.
Lemma fine_list l : Forall (readable show) (concat (map parts l)) -> Forall fine l.
Proof using Type. induction l as [|x l IH]; cbn; intros H; constructor; apply Forall_app in H as [H1 H2]; auto. Qed.
Lemma fine_map l : Forall (readable show) (concat (map (fun kx => parts kx.1 ++ parts kx.2)%list l)) -> Forall (fun kx => fine kx.1 /\ fine kx.2) l.
Proof using Type.
  induction l as [|x l IH]; cbn; intros H; constructor; apply Forall_app in H as [H1 H2]; [|auto].
  by apply Forall_app in H1 as [H0 H1].
Qed.
Lemma fine_start v : fine v -> starts good_start (print v).
Proof using Hshow.
  intros F. destruct v as [|b|z|z|d|i|u|s|s|ns s|k|l|l|l|l]; try done; by apply atom_start, fine_self.
Qed.

Definition reads (v : edn) : Prop := forall n r, edge r -> (String.length (print v ++ r) < n)%nat ->
  value_rule n (print v ++ r) = Got v (skip false r).
Definition closer (cl : string) : Prop := cl = ")" \/ cl = "]" \/ cl = "}".
Lemma edge_each l cl r : closer cl -> edge (each l ++ " " ++ cl ++ r).
Proof using Type. by destruct l. Qed.
Lemma edge_each_pair l cl r : closer cl -> edge (each_pair l ++ " " ++ cl ++ r).
Proof using Type. by destruct l as [|[]]. Qed.
Lemma skip_close cl r : closer cl -> skip false (cl ++ r) = cl ++ r.
Proof using Type. by intros [-> | [-> | ->]]. Qed.

Lemma items_ok l : Forall fine l -> Forall reads l -> forall n m cl r, closer cl ->
  (String.length (each l ++ " " ++ cl ++ r) <= n)%nat -> (List.length l < m)%nat ->
  many (value_rule n) m (skip false (each l ++ " " ++ cl ++ r)) = Got l (cl ++ r).
Proof using Hshow.
  induction l as [|x l IH]; intros F Rd n m cl r C Ln Lm; (destruct m as [|m]; [cbn in Lm; lia|]).
  - cbn [each append] in *. change (skip false (String " " (cl ++ r))) with (skip false (cl ++ r)). rewrite skip_close by done.
    cbn [many]. destruct n as [|n]; [cbn in Ln; lia|]. by rewrite value_close.
  - apply Forall_cons in F as [Fx F], Rd as [Rx Rd]. cbn [each] in *. rewrite !app_assoc_str in *.
    assert (K : skip false (" " ++ print x ++ each l ++ " " ++ cl ++ r) = print x ++ each l ++ " " ++ cl ++ r).
    { change (skip false (" " ++ ?s)) with (skip false s). apply skip_start, starts_app. by apply fine_start. }
    cbn [append] in K, Ln |- *. rewrite K. cbn [many]. cbn [String.length] in Ln.
    rewrite (Rx n); [|by apply (edge_each l)|cbn [append]; lia].
    change (String " " (cl ++ r)) with (" " ++ cl ++ r). rewrite IH; [done|done|done|done| |cbn [List.length] in Lm; lia].
    rewrite length_app_str in Ln. cbn [append]. lia.
Qed.
Lemma pairs_ok l : Forall (fun kx => fine kx.1 /\ fine kx.2) l -> Forall (fun kx => reads kx.1 /\ reads kx.2) l -> forall n m cl r, closer cl ->
  (String.length (each_pair l ++ " " ++ cl ++ r) <= n)%nat -> (List.length l < m)%nat ->
  many (peg k <- value_rule n; peg x <- value_rule n; yield (k, x)) m (skip false (each_pair l ++ " " ++ cl ++ r)) = Got l (cl ++ r).
Proof using Hshow.
  induction l as [|[k x] l IH]; intros F Rd n m cl r C Ln Lm; (destruct m as [|m]; [cbn in Lm; lia|]).
  - cbn [each_pair append] in *. change (skip false (String " " (cl ++ r))) with (skip false (cl ++ r)). rewrite skip_close by done.
    cbn [many]. destruct n as [|n]; [cbn in Ln; lia|]. rewrite follow_no; [done|]. by rewrite value_close.
  - apply Forall_cons in F as [[Fk Fx] F], Rd as [[Rk Rx] Rd]. cbn [each_pair fst snd] in *. rewrite !app_assoc_str in *.
    set (rest := each_pair l ++ " " ++ cl ++ r) in *.
    assert (K : skip false (" " ++ print k ++ " " ++ print x ++ rest) = print k ++ " " ++ print x ++ rest).
    { change (skip false (" " ++ ?s)) with (skip false s). apply skip_start, starts_app. by apply fine_start. }
    assert (K' : skip false (" " ++ print x ++ rest) = print x ++ rest).
    { change (skip false (" " ++ ?s)) with (skip false s). apply skip_start, starts_app. by apply fine_start. }
    rewrite K. cbn [many]. cbn [append String.length] in Ln. rewrite length_app_str in Ln. cbn [String.length] in Ln.
    erewrite follow_got by (apply Rk; [done|rewrite length_app_str; cbn [append String.length]; lia]).
    rewrite K'. erewrite follow_got by (apply Rx; [by apply edge_each_pair|lia]).
    rewrite length_app_str in Ln. unfold yield. unfold rest in *. rewrite IH; [done|done|done|done|lia|cbn [List.length] in Lm; lia].
Qed.
Lemma each_length l : (List.length l <= String.length (each l))%nat.
Proof using Type. induction l as [|x l IH]; cbn; [lia|]. rewrite length_app_str. lia. Qed.
Lemma each_pair_length l : (List.length l <= String.length (each_pair l))%nat.
Proof using Type. induction l as [|[k x] l IH]; cbn; [lia|]. rewrite !length_app_str. cbn. rewrite length_app_str. lia. Qed.

Lemma collection_ok {A} (item : parser A) l (f : list A -> edn) op cl body r :
  closer cl -> (forall m, (List.length l < m)%nat -> many item m (skip false (body ++ " " ++ cl ++ r)) = Got l (cl ++ r)) ->
  (List.length l <= String.length body)%nat ->
  collection op cl item f (op ++ body ++ " " ++ cl ++ r) = Got (f l) r.
Proof using Type.
  intros C H L. unfold collection. erewrite follow_got by apply tok_ok. unfold spaces at 1, follow at 1.
  erewrite follow_got by (apply H; rewrite !length_app_str; lia).
  unfold spaces, follow at 1. rewrite skip_close by done. erewrite follow_got by apply tok_ok. done.
Qed.

Lemma value_ok v : fine v -> reads v.
Proof using Hshow.
  induction v as [v A|l IH|l IH|l IH|l IH] using edn_nested; intros F n r E L.
  - destruct n as [|n]; [lia|]. apply fine_self in F as R. rewrite (value_step n _ v r); [done| |by apply atom_ok].
    apply skip_start, starts_app. by apply fine_start.
  - destruct n as [|n]; [lia|]. unfold fine in F. cbn [parts] in F. apply Forall_cons in F as [R F]. apply fine_list in F.
    rewrite print_vec in *. rewrite !app_assoc_str in *. apply value_step; [done|].
    unfold kinds. do 4 (rewrite alt_no by done). rewrite alt_no by (by eapply not_number). do 6 (rewrite alt_no by done). apply alt_got.
    change ("[" ++ each l ++ " ]" ++ r) with ("[" ++ each l ++ " " ++ "]" ++ r).
    apply (collection_ok _ l EVec); [unfold closer; auto| |apply each_length].
    intros m Hm. apply items_ok; [done| |unfold closer; auto|cbn in L; cbn [append]; lia|done].
    clear -F IH. induction l; constructor; inversion F; inversion IH; subst; auto.
  - destruct n as [|n]; [lia|]. unfold fine in F. cbn [parts] in F. apply Forall_cons in F as [R F]. apply fine_list in F.
    rewrite print_list in *. rewrite !app_assoc_str in *. apply value_step; [done|].
    unfold kinds. do 4 (rewrite alt_no by done). rewrite alt_no by (by eapply not_number). do 5 (rewrite alt_no by done). apply alt_got.
    change ("(" ++ each l ++ " )" ++ r) with ("(" ++ each l ++ " " ++ ")" ++ r).
    apply (collection_ok _ l EList); [unfold closer; auto| |apply each_length].
    intros m Hm. apply items_ok; [done| |unfold closer; auto|cbn in L; cbn [append]; lia|done].
    clear -F IH. induction l; constructor; inversion F; inversion IH; subst; auto.
  - destruct n as [|n]; [lia|]. unfold fine in F. cbn [parts] in F. apply Forall_cons in F as [R F]. apply fine_list in F.
    rewrite print_set in *. rewrite !app_assoc_str in *. apply value_step; [done|].
    unfold kinds. do 4 (rewrite alt_no by done). rewrite alt_no by (by eapply not_number). do 8 (rewrite alt_no by done).
    change ("#{" ++ each l ++ " }" ++ r) with ("#{" ++ each l ++ " " ++ "}" ++ r).
    rewrite (collection_ok _ l (fun l => ESet (set_from l))); [|unfold closer; auto| |apply each_length].
    { by rewrite set_from_sorted. }
    intros m Hm. apply items_ok; [done| |unfold closer; auto|cbn in L; cbn [append]; lia|done].
    clear -F IH. induction l; constructor; inversion F; inversion IH; subst; auto.
  - destruct n as [|n]; [lia|]. unfold fine in F. cbn [parts] in F. apply Forall_cons in F as [R F]. apply fine_map in F.
    rewrite print_map in *. rewrite !app_assoc_str in *. apply value_step; [done|].
    unfold kinds. do 4 (rewrite alt_no by done). rewrite alt_no by (by eapply not_number). do 7 (rewrite alt_no by done). 
    change ("{" ++ each_pair l ++ " }" ++ r) with ("{" ++ each_pair l ++ " " ++ "}" ++ r).
    erewrite alt_got.
    2: { apply (collection_ok _ l (fun l => EMapV (map_from l))); [unfold closer; auto| |apply each_pair_length].
         intros m Hm. apply pairs_ok; [done| |unfold closer; auto|cbn in L; cbn [append]; lia|done].
         clear -F IH. induction l; constructor; inversion F; inversion IH; subst; naive_solver. }
    by rewrite map_from_sorted.
Qed.

Theorem print_parse v : Forall (readable show) (parts v) -> parse float_of (print v) = Parsed v.
Proof using Hshow.
  intros F. unfold parse. rewrite <- (app_nil_str (print v)) at 2. rewrite value_ok; [done|done|done|]. rewrite app_nil_str. lia.
Qed.
End round.

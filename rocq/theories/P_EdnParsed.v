(** What the parser can return. *)
From Coq Require Import Decimal DecimalString DecimalZ Sorted.
From Verif Require P_Sql.
From Verif Require Import Spec_Edn P_EdnNum P_Edn P_EdnOrd P_EdnRound.
Open Scope string_scope.
Open Scope Z_scope.
Local Arguments String.append !s1 s2 : simpl nomatch.

(* ------------------------------------------------------------- inversion *)

Lemma follow_inv {A B} (p : parser A) (k : A -> parser B) s b r : follow p k s = Got b r ->
  exists a s', p s = Got a s' /\ k a s' = Got b r.
Proof. unfold follow. destruct (p s) as [a s'| | |]; try done. eauto. Qed.
Lemma alt_inv {A} (p q : parser A) s a r : alt p q s = Got a r -> p s = Got a r \/ (p s = No /\ q s = Got a r).
Proof. unfold alt. destruct (p s) as [b s'| | |]; try done; auto. Qed.
Lemma tok_inv t s u r : tok t s = Got u r -> s = t ++ r.
Proof.
  revert s. induction t as [|a t IH]; intros s; cbn; [by intros [= _ ->]|].
  destruct s as [|c s]; [done|]. destruct (Ascii.eqb_spec a c) as [<- |]; [|done]. intros H. cbn. by rewrite (IH _ H).
Qed.
Lemma one_inv p s a r : one p s = Got a r -> exists c, a = String c "" /\ s = String c r /\ p c = true.
Proof. destruct s as [|c s]; cbn; [done|]. destruct (p c) eqn:E; [|done]. intros [= <- <-]. eauto. Qed.
Lemma run_inv p s t r : run p s = Got t r -> s = t ++ r /\ all_chars p t = true /\ stops p r.
Proof.
  revert t. induction s as [|c s IH]; intros t; cbn; [by intros [= <- <-]|].
  destruct (p c) eqn:E.
  - destruct (run p s) as [t' r'| | |] eqn:R; try done. intros [= <- <-]. destruct (IH _ eq_refl) as (-> & A & B). cbn. by rewrite E.
  - by intros [= <- <-].
Qed.
Lemma run1_inv p s t r : run1 p s = Got t r -> s = t ++ r /\ all_chars p t = true /\ stops p r /\ t <> "".
Proof.
  intros (a & s1 & H1 & (b & s2 & H2 & [= <- <-])%follow_inv)%follow_inv.
  apply one_inv in H1 as (c & -> & -> & Hc). apply run_inv in H2 as (-> & A & B). cbn. by rewrite Hc.
Qed.
Lemma times_inv n p s t r : times n p s = Got t r -> s = t ++ r /\ all_chars p t = true /\ String.length t = n.
Proof.
  revert s t. induction n as [|n IH]; intros s t; cbn [times].
  - by intros [= <- <-].
  - intros (a & s1 & H1 & (b & s2 & H2 & [= <- <-])%follow_inv)%follow_inv.
    apply one_inv in H1 as (c & -> & -> & Hc). apply IH in H2 as (-> & A & <-). cbn. by rewrite Hc.
Qed.
Lemma many_inv {A} (p : parser A) m s l r : many p m s = Got l r -> Forall (fun a => exists s r, p s = Got a r) l.
Proof.
  revert s l. induction m as [|m IH]; intros s l; cbn; [done|].
  destruct (p s) as [a s'| | |] eqn:E; try done; [|by intros [= <- <-]].
  destruct (many p m s') as [l' r'| | |] eqn:E'; try done. intros [= <- <-]. constructor; eauto.
Qed.

(* ------------------------------------------------------------- names *)

Lemma only_name s : all_chars is_subsequent s = true -> only name_chars s = true.
Proof. intros H. unfold only. by rewrite (all_chars_ext _ _ s name_chars_subsequent). Qed.
Lemma name_inv s n r : name_rule s = Got n r -> s = n ++ r /\ good_name n = true.
Proof.
  intros (a & s1 & H1 & (b & s2 & H2 & [= <- <-])%follow_inv)%follow_inv.
  apply run1_inv in H1 as (-> & A & _ & N). apply run_inv in H2 as (-> & B & _). split; [by rewrite P_Sql.app_assoc_str|].
  destruct a as [|c a]; [done|]. cbn [all_chars] in A. apply andb_true_iff in A as [Ac A]. cbn [append good_name].
  rewrite first_chars_initial, Ac. apply only_name. rewrite all_chars_app, B, andb_true_r.
  eapply all_chars_impl; [|exact A]. intros d Hd. unfold is_subsequent. by rewrite Hd.
Qed.
Lemma sections_inv m s u r : sections m s = Got u r ->
  exists t, u = dotted t /\ s = u ++ r /\ Forall (fun x => x <> "" /\ all_chars is_subsequent x = true) t.
Proof.
  revert s u. induction m as [|m IH]; intros s u; cbn [sections]; [done|]. intros [H|[_ H]]%alt_inv.
  - apply follow_inv in H as (? & s1 & H1%tok_inv & (t & s2 & H2 & (w & s3 & H3 & [= <- <-])%follow_inv)%follow_inv).
    apply run1_inv in H2 as (-> & A & _ & N). apply IH in H3 as (l & -> & -> & F). exists (t :: l). split_and!; [done| |by constructor].
    subst s. cbn [dotted append]. by rewrite P_Sql.app_assoc_str.
  - injection H as <- <-. by exists [].
Qed.
Lemma split_dots_none h : all_chars is_subsequent h = true -> forall t, split_dots (h ++ dotted t) = (h, (split_dots (dotted t)).2).
Proof.
  intros H t. induction h as [|c h IH]; cbn [append].
  - destruct t; [done|]. cbn [dotted append split_dots]. by destruct (split_dots _).
  - cbn [all_chars] in H. apply andb_true_iff in H as [Hc H]. cbn [split_dots]. rewrite (IH H).
    destruct (Ascii.eqb_spec c ".") as [-> |]; [by vm_compute in Hc|done].
Qed.
Lemma split_dotted t : Forall (fun x => x <> "" /\ all_chars is_subsequent x = true) t -> (split_dots (dotted t)).2 = t.
Proof.
  induction t as [|x t IH]; intros F; [done|]. apply Forall_cons in F as [[_ X] F]. cbn [dotted append split_dots].
  rewrite split_dots_none by done. cbn. by rewrite IH.
Qed.
Lemma namespace_inv s ns r : namespace_rule s = Got ns r -> s = ns ++ r /\ good_namespace ns = true.
Proof.
  unfold namespace_rule. intros (a & s1 & H1 & (b & s2 & H2 & (u & s3 & H3 & [= <- <-])%follow_inv)%follow_inv)%follow_inv.
  apply one_inv in H1 as (c & -> & -> & Hc). apply run_inv in H2 as (-> & B & _). apply sections_inv in H3 as (t & -> & -> & F).
  split; [cbn; by rewrite P_Sql.app_assoc_str|]. unfold good_namespace. cbn [append].
  change (String c (b ++ dotted t)) with (String c b ++ dotted t). rewrite split_dots_none.
  2: { cbn [all_chars]. rewrite B. unfold is_subsequent. by rewrite Hc. }
  rewrite split_dotted by done. cbn [good_name]. rewrite first_chars_initial, Hc, only_name by done. cbn [andb].
  apply forallb_forall. intros x Hx. apply elem_of_list_In in Hx. eapply Forall_forall in F as [F1 F2]; [|exact Hx].
  rewrite only_name by done. by apply String.eqb_neq in F1 as ->.
Qed.
Lemma prefix_inv s o r : prefix_rule s = Got o r ->
  match o with Some ns => s = ns ++ "/" ++ r /\ good_namespace ns = true | None => s = r end.
Proof.
  intros [H|[_ H]]%alt_inv.
  - apply follow_inv in H as (ns & s1 & H1 & (u & s2 & H2%tok_inv & [= <- <-])%follow_inv).
    apply namespace_inv in H1 as [-> H1]. by subst s1.
  - by injection H as <- <-.
Qed.
Lemma plain_name_inv s n r : plain_name_rule s = Got n r -> s = n ++ r /\ good_symbol_name n = true.
Proof.
  intros [H|[_ [H|[_ H]]%alt_inv]]%alt_inv.
  - apply name_inv in H as [-> H]. unfold good_symbol_name. by rewrite H.
  - apply follow_inv in H as (? & s1 & H%tok_inv & [= <- <-]). by subst.
  - apply follow_inv in H as (? & s1 & H%tok_inv & [= <- <-]). by subst.
Qed.

(* ------------------------------------------------------------- what was tried before *)

Lemma prefix_app_str t n r : String.prefix t n = true -> String.prefix t (n ++ r) = true.
Proof.
  revert n. induction t as [|a t IH]; intros [|c n]; cbn; try done; [by destruct r|].
  destruct (ascii_dec a c); [|done]. apply IH.
Qed.
Lemma tok_prefix t s : String.prefix t s = true -> exists r, tok t s = Got tt r.
Proof.
  revert s. induction t as [|a t IH]; intros [|c s]; cbn; try done; eauto.
  destruct (ascii_dec a c) as [-> |]; [|done]. rewrite Ascii.eqb_refl. apply IH.
Qed.
Section parsed.
Context (float_of : string -> dbl).
Lemma number_digit c s : is_digit c = true -> number_rule float_of (String c s) <> No.
Proof using Type.
  intros Hc H. assert (M : maybe (one is_sign) (String c s) = Got "" (String c s)).
  { unfold maybe, alt. cbn [one]. destruct (is_sign c) eqn:E; [|done]. exfalso. revert Hc. unfold is_sign in E.
    rewrite orb_true_iff, !Ascii.eqb_eq in E. by destruct E as [-> | ->]. }
  assert (R : exists t r, run1 is_digit (String c s) = Got t r).
  { unfold run1, follow. cbn [one]. rewrite Hc. destruct (run is_digit s) eqn:E; eauto; exfalso; destruct (calm_run is_digit s); try congruence.
    clear -E. induction s as [|c s IH]; cbn in E; [done|]. destruct (is_digit c); [|done]. destruct (run is_digit s); done. }
  destruct R as (t & r & R).
  assert (F : float_rule float_of (String c s) <> No).
  { unfold float_rule. erewrite follow_got by exact M. erewrite follow_got by exact R.
    assert (Y : forall p r, calm p -> exists a r', maybe p r = Got a r').
    { intros p r0 C. unfold maybe, alt. destruct (C r0). destruct (p r0) as [a b| | |]; try done; eauto. }
    unfold follow at 1.
    destruct (Y (eat tok "."; peg t <- run1 is_digit; yield ("." ++ t)) r) as (f & r1 & ->).
    { repeat (apply calm_follow; intros); first [apply calm_tok | apply calm_one | apply calm_run | apply calm_run1 | apply calm_yield]. }
    unfold follow at 1.
    destruct (Y (peg x <- one is_exp; peg es <- maybe (one is_sign); peg t <- run1 is_digit; yield (x ++ es ++ t)) r1) as (f' & r2 & ->); [|done].
    repeat (apply calm_follow; intros); first [apply calm_one | apply calm_run | apply calm_run1 | apply calm_yield | apply calm_alt; [apply calm_one|apply calm_yield]]. }
  revert H. unfold number_rule. do 5 (unfold alt at 1; match goal with |- context [match ?p (String c s) with _ => _ end] => destruct (p (String c s)) end; try done).
Qed.

(** what comes before the rule for symbols does not match: the symbol does not begin like anything else *)
Lemma not_otherwise t r : nil_rule (t ++ r) = No -> boolean_rule (t ++ r) = No -> number_rule float_of (t ++ r) = No -> begins_otherwise t = false.
Proof using Type.
  intros N B D. unfold begins_otherwise. rewrite !orb_false_iff. split_and!.
  - apply not_true_is_false. intros P. apply (prefix_app_str _ _ r), tok_prefix in P as (r' & P). unfold nil_rule, follow in N. by rewrite P in N.
  - apply not_true_is_false. intros P. apply (prefix_app_str _ _ r), tok_prefix in P as (r' & P). unfold boolean_rule, alt, follow in B. by rewrite P in B.
  - apply not_true_is_false. intros P. apply (prefix_app_str _ _ r), tok_prefix in P as (r' & P). unfold boolean_rule, alt, follow in B.
    rewrite P in B. by destruct (tok "true" (t ++ r)).
  - destruct t as [|c t]; [done|]. rewrite digits_chars. apply not_true_is_false. intros P. by apply (number_digit c (t ++ r)) in P.
Qed.

(* ------------------------------------------------------------- what is returned *)

(** the conditions of [readable] that the parser itself establishes *)
Definition established (v : edn) : Prop :=
  match v with
  | EFloat _ | EInst _ | EText _ => True
  | _ => readable (fun _ => "") v
  end.
Lemma in_i64_range o z : in_i64 o = Some z -> - 2 ^ 63 <= z < 2 ^ 63.
Proof using Type.
  destruct o as [w|]; cbn; [|done]. destruct (fits_i64 w) eqn:E; [|done]. intros [= <-].
  unfold fits_i64 in E. rewrite andb_true_iff, Z.leb_le, Z.ltb_lt in E. done.
Qed.
Lemma unwrap_inv {A} (o : option A) s a r : unwrap o s = Got a r -> o = Some a /\ r = s.
Proof using Type. unfold unwrap. destruct o; [|done]. by intros [= -> ->]. Qed.
Lemma number_established s v r : number_rule float_of s = Got v r -> established v.
Proof using Type.
  intros [H|[_ [H|[_ [H|[_ [H|[_ [H|[_ H]]%alt_inv]]%alt_inv]]%alt_inv]]%alt_inv]]%alt_inv.
  - by apply follow_inv in H as (? & ? & _ & (? & ? & _ & (? & ? & _ & (? & ? & _ & [= <- <-])%follow_inv)%follow_inv)%follow_inv).
  - apply follow_inv in H as (? & ? & _ & (? & ? & _ & (? & ? & _ & (z & ? & [U _]%unwrap_inv & [= <- <-])%follow_inv)%follow_inv)%follow_inv).
    unfold radix in U. destruct (signed _ _); [|done]. by apply in_i64_range in U.
  - apply follow_inv in H as (? & ? & _ & (? & ? & _ & (z & ? & [U _]%unwrap_inv & [= <- <-])%follow_inv)%follow_inv).
    by apply in_i64_range in U.
  - apply follow_inv in H as (? & ? & _ & (? & ? & _ & (z & ? & [U _]%unwrap_inv & [= <- <-])%follow_inv)%follow_inv).
    by apply in_i64_range in U.
  - apply follow_inv in H as (? & ? & _ & (? & ? & _ & (? & ? & _ & (z & ? & [U _]%unwrap_inv & [= <- <-])%follow_inv)%follow_inv)%follow_inv).
    by apply in_i64_range in U.
  - by apply follow_inv in H as (? & ? & _ & (? & ? & _ & (? & ? & _ & (? & ? & _ & [= <- <-])%follow_inv)%follow_inv)%follow_inv).
Qed.
Lemma digit_value_pos c : match digit_value c with Some d => 0 <=? d | None => true end = true.
Proof using Type. by destruct c as [[] [] [] [] [] [] [] []]. Qed.
Lemma read_hex_bound s acc u : read_digits 16 acc s = Some u -> 0 <= acc -> 0 <= u < (acc + 1) * 16 ^ Z.of_nat (String.length s).
Proof using Type.
  revert acc. induction s as [|c s IH]; intros acc; cbn [read_digits String.length].
  - intros [= <-] H. cbn. lia.
  - destruct (digit_value c) as [d|] eqn:E; [|done]. destruct (Z.ltb_spec d 16); [|done]. intros H1 H2.
    assert (Hd : 0 <= d).
    { pose proof (digit_value_pos c) as P. rewrite E in P. by apply Z.leb_le in P. }
    apply IH in H1; [|lia]. rewrite Nat2Z.inj_succ, Z.pow_succ_r by lia.
    assert (P : 0 < 16 ^ Z.of_nat (String.length s)) by (apply Z.pow_pos_nonneg; lia). nia.
Qed.
Lemma uuid_established s v r : uuid_rule s = Got v r -> established v.
Proof using Type.
  intros (? & ? & _ & (? & ? & _ & (? & ? & _ & (a & ? & A & (? & ? & _ & (b & ? & B & (? & ? & _ & (c & ? & C & (? & ? & _ & (d & ? & D & (? & ? & _ &
    (e & ? & E & (? & ? & _ & (u & ? & [U _]%unwrap_inv & [= <- <-])%follow_inv)%follow_inv)%follow_inv)%follow_inv)%follow_inv)%follow_inv)%follow_inv)%follow_inv)%follow_inv)%follow_inv)%follow_inv)%follow_inv)%follow_inv)%follow_inv.
  apply times_inv in A as (_ & _ & A), B as (_ & _ & B), C as (_ & _ & C), D as (_ & _ & D), E as (_ & _ & E).
  apply read_hex_bound in U; [|lia]. rewrite !length_app_str, A, B, C, D, E in U. cbn [established readable].
  change ((0 + 1) * 16 ^ Z.of_nat (8 + (4 + (4 + (4 + 12))))) with (2 ^ 128) in U.
  apply N2Z.inj_lt. rewrite Z2N.id by lia. rewrite N2Z.inj_pow. lia.
Qed.

Definition sound (v : edn) : Prop := Forall established (parts v).
Lemma sound_list l : Forall sound l -> Forall established (concat (map parts l)).
Proof using Type. induction 1; cbn; [constructor|]. by apply Forall_app. Qed.
Lemma sound_pairs l : Forall (fun kx => sound kx.1 /\ sound kx.2) l -> Forall established (concat (map (fun kx => parts kx.1 ++ parts kx.2)%list l)).
Proof using Type. induction 1 as [|x l [H1 H2]]; cbn; [constructor|]. by repeat apply Forall_app_2. Qed.
Lemma collection_inv {A} op cl (item : parser A) f s v r : collection op cl item f s = Got v r -> exists l, v = f l /\ Forall (fun a => exists s r, item s = Got a r) l.
Proof using Type.
  unfold collection. intros (? & ? & _ & (? & ? & _ & (l & ? & L & (? & ? & _ & (? & ? & _ & [= <- <-])%follow_inv)%follow_inv)%follow_inv)%follow_inv)%follow_inv.
  exists l. split; [done|]. by eapply many_inv.
Qed.

Lemma value_sound n s v r : value_rule float_of n s = Got v r -> sound v.
Proof using Type.
  revert s v r. induction n as [|n IH]; intros s v r; [done|].
  change (value_rule float_of (S n) s) with ((eat spaces; peg v <- kinds float_of n; eat spaces; yield v) s).
  intros (? & s1 & _ & (v' & s2 & K & (? & ? & _ & [= <- <-])%follow_inv)%follow_inv)%follow_inv.
  assert (At : established v' -> atom v' -> sound v') by (destruct v'; intros E A; try (by destruct A); (apply Forall_cons_2; [exact E|apply Forall_nil_2])).
  unfold kinds in K.
  destruct (alt_inv _ _ _ _ _ K) as [H|[N1 K1]]; clear K.
  { apply follow_inv in H as (? & ? & _ & [= <- <-]). by apply At. }
  destruct (alt_inv _ _ _ _ _ K1) as [H|[_ K]]; clear K1.
  { apply follow_inv in H as (? & ? & _ & (? & ? & _ & (? & ? & _ & [= <- <-])%follow_inv)%follow_inv). by apply At. }
  destruct (alt_inv _ _ _ _ _ K) as [H|[_ K1]]; clear K.
  { apply follow_inv in H as (? & ? & _ & (? & ? & _ & (? & ? & _ & (? & ? & _ & [= <- <-])%follow_inv)%follow_inv)%follow_inv). by apply At. }
  destruct (alt_inv _ _ _ _ _ K1) as [H|[N2 K]]; clear K1.
  { apply alt_inv in H as [H|[_ H]]; apply follow_inv in H as (? & ? & _ & [= <- <-]); by apply At. }
  destruct (alt_inv _ _ _ _ _ K) as [H|[N3 K1]]; clear K.
  { apply At; [by eapply number_established|].
    apply alt_inv in H as [H|[_ [H|[_ [H|[_ [H|[_ [H|[_ H]]%alt_inv]]%alt_inv]]%alt_inv]]%alt_inv]].
    - by apply follow_inv in H as (? & ? & _ & (? & ? & _ & (? & ? & _ & (? & ? & _ & [= <- <-])%follow_inv)%follow_inv)%follow_inv).
    - by apply follow_inv in H as (? & ? & _ & (? & ? & _ & (? & ? & _ & (? & ? & _ & [= <- <-])%follow_inv)%follow_inv)%follow_inv).
    - by apply follow_inv in H as (? & ? & _ & (? & ? & _ & (? & ? & _ & [= <- <-])%follow_inv)%follow_inv).
    - by apply follow_inv in H as (? & ? & _ & (? & ? & _ & (? & ? & _ & [= <- <-])%follow_inv)%follow_inv).
    - by apply follow_inv in H as (? & ? & _ & (? & ? & _ & (? & ? & _ & (? & ? & _ & [= <- <-])%follow_inv)%follow_inv)%follow_inv).
    - by apply follow_inv in H as (? & ? & _ & (? & ? & _ & (? & ? & _ & (? & ? & _ & [= <- <-])%follow_inv)%follow_inv)%follow_inv). }
  destruct (alt_inv _ _ _ _ _ K1) as [H|[_ K]]; clear K1.
  { assert (X : exists ns, v' = EInst ns).
    { apply alt_inv in H as [H|[_ [H|[_ H]]%alt_inv]]; unfold inst_millis_rule, inst_micros_rule, inst_string_rule in H;
        repeat match type of H with follow _ _ _ = Got _ _ => apply follow_inv in H as (? & ? & _ & H) end; unfold yield in H; injection H as <- <-; eauto. }
    destruct X as (ns & ->). by apply At. }
  destruct (alt_inv _ _ _ _ _ K) as [H|[_ K1]]; clear K.
  { apply At; [by eapply uuid_established|]. unfold uuid_rule in H.
    repeat match type of H with follow _ _ _ = Got _ _ => apply follow_inv in H as (? & ? & _ & H) end. unfold yield in H. by injection H as <- <-. }
  destruct (alt_inv _ _ _ _ _ K1) as [H|[_ K]]; clear K1.
  { apply follow_inv in H as (? & ? & _ & (? & ? & _ & [= <- <-])%follow_inv). by apply At. }
  destruct (alt_inv _ _ _ _ _ K) as [H|[_ K1]]; clear K.
  { apply follow_inv in H as (? & ? & _ & (o & ? & P & (nm & ? & Nm & [= <- <-])%follow_inv)%follow_inv).
    apply prefix_inv in P. apply name_inv in Nm as [_ Nm]. apply At; [|done]. split; [|done]. destruct o; [|done]. cbn. tauto. }
  destruct (alt_inv _ _ _ _ _ K1) as [H|[_ K]]; clear K1.
  { apply follow_inv in H as (o & s3 & P & (nm & s4 & Nm & [= <- <-])%follow_inv).
    apply prefix_inv in P. apply plain_name_inv in Nm as [E Nm]. destruct o as [ns|].
    - destruct P as [P1 P2]. apply At; [|done]. rewrite P1 in N1, N2, N3. split; [done|]. split; [done|]. by eapply not_otherwise.
    - apply At; [|done]. subst s1 s3. split; [done|]. by eapply not_otherwise. }
  assert (L : forall l : list edn, Forall (fun a => exists s r, value_rule float_of n s = Got a r) l -> Forall sound l).
  { intros l F. eapply Forall_impl; [exact F|]. intros a (s' & r' & H). by eapply IH. }
  destruct (alt_inv _ _ _ _ _ K) as [H|[_ K1]]; clear K.
  { apply collection_inv in H as (l & -> & F). unfold sound. cbn [parts]. constructor; [done|]. by apply sound_list, L. }
  destruct (alt_inv _ _ _ _ _ K1) as [H|[_ K]]; clear K1.
  { apply collection_inv in H as (l & -> & F). unfold sound. cbn [parts]. constructor; [done|]. by apply sound_list, L. }
  destruct (alt_inv _ _ _ _ _ K) as [H|[_ H]]; clear K.
  { apply collection_inv in H as (l & -> & F). unfold sound. cbn [parts]. constructor; [exact (map_from_is_sorted l)|]. apply sound_pairs.
    apply Forall_forall. intros p Hp. apply map_from_elem in Hp as [H1 H2].
    assert (F' : Forall (fun kx => sound kx.1 /\ sound kx.2) l).
    { eapply Forall_impl; [exact F|]. intros a (s' & r' & (k & s3 & H3 & (xx & s4 & H4 & [= <- <-])%follow_inv)%follow_inv). split; by eapply IH. }
    rewrite Forall_forall in F'. split.
    - apply elem_of_list_In, in_map_iff in H1 as (q & <- & Hq%elem_of_list_In). by apply F'.
    - apply elem_of_list_In, in_map_iff in H2 as (q & <- & Hq%elem_of_list_In). by apply F'. }
  apply collection_inv in H as (l & -> & F). unfold sound. cbn [parts]. constructor; [exact (set_from_is_sorted l)|]. apply sound_list.
  apply L in F. rewrite Forall_forall in F |- *. intros y Hy. apply F. by apply set_from_elem.
Qed.
Lemma parse_sound s v : parse float_of s = Parsed v -> sound v.
Proof using Type.
  unfold parse. destruct (value_rule float_of (S (String.length s)) s) as [v' [|c r]| | |] eqn:E; try done. intros [= <-]. by eapply value_sound.
Qed.
End parsed.

(** Proofs about values: codec, instants, keywords. *)
From Verif Require Import M_Value Spec_Value.

(* instants *)
Lemma to_micros_eq ns : to_micros ns = ns / 1000.
Proof.
  unfold to_micros.
  pose proof (Z.div_mod ns 1000000000 ltac:(lia)) as E.
  set (q := ns / 1000000000) in *. set (r := ns mod 1000000000) in *.
  rewrite E. replace (1000000000 * q + r) with (r + (q * 1000000) * 1000) by lia.
  rewrite Z.div_add by lia. lia.
Qed.
Lemma to_millis_eq ns : to_millis ns = ns / 1000000.
Proof.
  unfold to_millis.
  pose proof (Z.div_mod ns 1000000000 ltac:(lia)) as E.
  set (q := ns / 1000000000) in *. set (r := ns mod 1000000000) in *.
  rewrite E. replace (1000000000 * q + r) with (r + (q * 1000) * 1000000) by lia.
  rewrite Z.div_add by lia. lia.
Qed.

Lemma from_micros_exact us : (0 <= us \/ us mod 1000000 = 0) <-> from_micros us = us * 1000.
Proof.
  unfold from_micros.
  pose proof (Z.quot_rem' us 1000000) as E.
  split.
  - intros [H|H].
    + rewrite Z.abs_eq by (apply Z.rem_nonneg; lia). lia.
    + assert (Z.rem us 1000000 = 0) as ->.
      { apply Z.rem_divide; [lia|]. by apply Z.mod_divide. }
      rewrite (Z.mod_divide us 1000000) in H by lia. destruct H as [k ->].
      rewrite Z.quot_mul by lia. simpl. lia.
  - intros H. destruct (decide (0 <= us)) as [|Hneg]; [by left|right].
    assert (Z.rem us 1000000 <= 0) by (apply Z.rem_nonpos; lia).
    rewrite Z.abs_neq in H by lia.
    assert (Z.rem us 1000000 = 0) as Hz by lia.
    apply Z.mod_divide; [lia|]. by apply Z.rem_divide.
Qed.

Lemma micros_roundtrip_iff ns :
  from_micros (to_micros ns) = ns <-> (ns mod 1000 = 0 /\ (0 <= ns \/ ns mod 1000000000 = 0)).
Proof.
  rewrite to_micros_eq.
  pose proof (Z.div_mod ns 1000 ltac:(lia)) as E.
  assert (Hm : ns mod 1000 = 0 -> (ns / 1000) mod 1000000 = 0 <-> ns mod 1000000000 = 0).
  { intros H0. rewrite H0 in E. rewrite !Z.mod_divide by lia. split; intros [k Hk].
    - exists k. lia.
    - exists k. lia. }
  split.
  - intros H.
    assert (ns mod 1000 = 0) as H0.
    { rewrite <- H. unfold from_micros. apply Z.mod_divide; [lia|].
      exists (Z.quot (ns / 1000) 1000000 * 1000000 + Z.abs (Z.rem (ns / 1000) 1000000)). lia. }
    split; [done|].
    assert (from_micros (ns / 1000) = (ns / 1000) * 1000) as H1 by lia.
    apply from_micros_exact in H1 as [H1|H1]; [left; lia|right; by apply Hm].
  - intros [H0 H]. assert (from_micros (ns / 1000) = (ns / 1000) * 1000) as ->; [|lia].
    apply from_micros_exact. destruct H as [H|H].
    + left. lia.
    + right. by apply Hm.
Qed.

Lemma micros_trunc ns : 0 <= ns -> from_micros (to_micros ns) = truncate_micros ns.
Proof.
  intros H. rewrite to_micros_eq. unfold truncate_micros. apply from_micros_exact.
  left. apply Z.div_pos; lia.
Qed.

Lemma to_micros_mono a b : a <= b -> to_micros a <= to_micros b.
Proof. intros. rewrite !to_micros_eq. apply Z.div_le_mono; lia. Qed.

(* strings and keywords *)
Lemma split_nosep s : no_sep s -> split_seps s = [s].
Proof.
  induction s as [|c s IH]; simpl; [done|]. intros [Hc Hs].
  rewrite Hc, (IH Hs). done.
Qed.
Lemma split_app_sep s c t : no_sep s -> is_sep c = true ->
  split_seps (s +:+ String c t)%string = s :: split_seps t.
Proof.
  induction s as [|d s IH]; intros Hs Hc.
  - simpl. by rewrite Hc.
  - destruct Hs as [Hd Hs].
    change (String d s +:+ String c t)%string with (String d (s +:+ String c t))%string.
    simpl. rewrite Hd, (IH Hs Hc). done.
Qed.
Lemma split_ne s : split_seps s <> [].
Proof. destruct s as [|c s]; simpl; [done|]. destruct (is_sep c); [done|]. by destruct (split_seps s). Qed.

(** splitting determines the string up to which separators were used; here: each piece has no separator *)
Lemma split_pieces_nosep s : Forall no_sep (split_seps s).
Proof.
  induction s as [|c s IH]; simpl.
  - constructor; [exact I|constructor].
  - destruct (is_sep c) eqn:Hc.
    + constructor; [exact I|done].
    + destruct (split_seps s); [repeat constructor; done|].
      inversion IH; subst. constructor; [split; done|done].
Qed.

Lemma keyword_roundtrip k : storable_keyword k -> to_namespaced_keyword (kw_to_string k) = Ok k.
Proof.
  destruct k as [[ns|] n]; simpl; [|done]. intros (Hns & Hn & Hsn & Hsm).
  unfold to_namespaced_keyword.
  change (kw_to_string (Kw (Some ns) n)) with (String ":" (ns +:+ String "/" n))%string.
  assert (split_seps (String ":" (ns +:+ String "/" n))%string = EmptyString :: split_seps (ns +:+ String "/" n)%string) as -> by done.
  rewrite split_app_sep by done. rewrite split_nosep by done.
  unfold kw_new. destruct n; [done|]. destruct ns; done.
Qed.

Lemma kw_new_Ok ns n k : kw_new ns n = Ok k -> k = Kw ns n /\ n <> EmptyString /\ ns <> Some EmptyString.
Proof. unfold kw_new. destruct n; [done|]. destruct ns as [[|]|]; [done| |]; intros [= <-]; done. Qed.

Lemma keyword_roundtrip_inv k : to_namespaced_keyword (kw_to_string k) = Ok k -> storable_keyword k.
Proof.
  unfold to_namespaced_keyword. intros H.
  pose proof (split_pieces_nosep (kw_to_string k)) as F.
  destruct (split_seps (kw_to_string k)) as [|x [|y [|z [|]]]] eqn:E; try done;
    destruct x; try done.
  apply kw_new_Ok in H as (-> & Hz & Hy). simpl.
  inversion F as [|? ? _ F1]; subst. inversion F1 as [|? ? Hy' F2]; subst. inversion F2; subst.
  split; [|done]. by intros ->.
Qed.

Lemma codec_roundtrip_iff v :
  from_sql_value_pair (to_sql_value_pair v).1 (to_sql_value_pair v).2 = Ok v <-> storable v.
Proof.
  destruct v as [e|[]|z|[|k]|ns|s|k|u]; simpl; try (split; intros; done).
  - rewrite <- micros_roundtrip_iff. split; [by intros [= ?]|by intros ->].
  - split.
    + intros H. apply keyword_roundtrip_inv. unfold rmap, rbind in H.
      destruct (to_namespaced_keyword _); [|done|done]. by injection H as ->.
    + intros H. by rewrite (keyword_roundtrip _ H).
  - destruct (decide (u = 0%N)); split; intros; done.
Qed.

Lemma codec_tag v : (to_sql_value_pair v).2 = vt_tag (tv_type v).
Proof. by destruct v as [| | |[]| | | |]. Qed.

Lemma codec_inj v w : storable v -> storable w -> to_sql_value_pair v = to_sql_value_pair w -> v = w.
Proof.
  intros Hv Hw E. apply codec_roundtrip_iff in Hv, Hw. rewrite E in Hv. congruence.
Qed.

Lemma codec_type v sv tag : from_sql_value_pair sv tag = Ok v -> vt_tag (tv_type v) = tag.
Proof.
  unfold from_sql_value_pair. intros H.
  destruct sv; repeat case_decide; subst; try done; try (by injection H as <-).
  unfold rmap, rbind in H. destruct (to_namespaced_keyword s); try done. by injection H as <-.
Qed.

(* reversal *)
Lemma reversed_forward k : plain_forward k ->
  exists k', kw_to_reversed k = Ok k' /\ kw_is_backward k' = true /\ kw_ns k' = kw_ns k
             /\ kw_to_reversed k' = Ok k /\ kw_unreversed k' = Ok (Some k).
Proof.
  destruct k as [ns n]. intros (Hn & Hb & Hns). simpl in *.
  destruct n as [|c n]; [done|]. simpl in Hb.
  exists (Kw ns (String "_" (String c n))).
  unfold kw_to_reversed, kw_unreversed, kw_is_backward; simpl. rewrite Hb.
  unfold kw_to_reversed; simpl.
  destruct ns as [[|]|]; done.
Qed.
Lemma reversed_backward ns c n : Ascii.eqb c "_"%char = false -> ns <> Some EmptyString ->
  kw_to_reversed (Kw ns (String "_" (String c n))) = Ok (Kw ns (String c n))
  /\ kw_to_reversed (Kw ns (String c n)) = Ok (Kw ns (String "_" (String c n))).
Proof.
  intros Hc Hns. unfold kw_to_reversed; simpl. rewrite Hc.
  unfold kw_new. destruct ns as [[|]|]; done.
Qed.

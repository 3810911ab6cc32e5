(** What every text that is read as a transaction gives. *)
From Coq Require Import Sorted.
From Verif Require Import Spec_TxText M_Base M_Value M_Upsert M_Entity P_EdnNum P_Edn P_EdnOrd P_EdnParsed P_TxText.
Open Scope string_scope.
Open Scope Z_scope.

Definition gives {A} (P : A -> Prop) (p : parser A) : Prop := forall s a r, p s = Got a r -> P a.
Lemma g_follow {A B} (P : A -> Prop) (Q : B -> Prop) p (k : A -> parser B) : gives P p -> (forall a, P a -> gives Q (k a)) -> gives Q (follow p k).
Proof. intros H K s b r (a & t & E & F)%follow_inv. eapply K; [by eapply H|done]. Qed.
Lemma g_any {A} (p : parser A) : gives (fun _ => True) p.
Proof. done. Qed.
Lemma g_alt {A} (P : A -> Prop) p q : gives P p -> gives P q -> gives P (alt p q).
Proof. intros H K s a r [E|[_ E]]%alt_inv; [by eapply H|by eapply K]. Qed.
Lemma g_yield {A} (P : A -> Prop) a : P a -> gives P (yield a).
Proof. by intros H s b r [= <- _]. Qed.
Lemma g_many {A} (P : A -> Prop) p m : gives P p -> gives (Forall P) (many p m).
Proof. intros H s l r F%many_inv. eapply Forall_impl; [done|]. intros a (t & u & E). by eapply H. Qed.
Lemma g_check {A} (P : A -> Prop) o : (forall a, o = Some a -> P a) -> gives P (check o).
Proof. intros H s a r E. destruct o; [|done]. injection E as <- <-. by apply H. Qed.
Lemma g_unwrap {A} (P : A -> Prop) o : (forall a, o = Some a -> P a) -> gives P (unwrap o).
Proof. intros H s a r E. destruct o; [|done]. injection E as <- <-. by apply H. Qed.
Ltac skip1 := apply (g_follow _ _ _ _ (g_any _)); intros ? _.
Ltac keep H := eapply g_follow; [apply H|]; intros ? ?.

Lemma named_whole a : whole_ref a -> named a.
Proof. destruct a as [z|[[ns|] n]]; try done. intros (G & _). cbn. intros [= ->]. discriminate. Qed.
Section pairs.
Context {V : Type} (Q : V -> Prop).
Notation good := (fun p : entid_or_ident * V => whole_ref p.1 /\ Q p.2).
Lemma insert_kept k v l : in_order l -> Forall good l -> whole_ref k -> Q v ->
  in_order (pair_insert k v l) /\ Forall good (pair_insert k v l).
Proof using Type.
  intros S F Wk Qv. assert (H : in_order (pair_insert k v l) /\ Forall good (pair_insert k v l)
    /\ forall x, x ∈ map fst (pair_insert k v l) -> x = k \/ x ∈ map fst l); [|by destruct H as (? & ? & _)].
  induction l as [|[k' v'] l IH]; cbn [pair_insert].
  { split; [repeat constructor|]. split; [by repeat constructor|]. intros x Hx. cbn in Hx. apply elem_of_list_singleton in Hx. by left. }
  apply Forall_cons in F as [[Wk' Qv'] F]. cbn in Wk', Qv'. apply StronglySorted_inv in S as [S H]. cbn [map fst] in *. destruct (eoi_cmp k k') eqn:E.
  - assert (Ek : k = k') by (apply eoi_eq; [by apply named_whole..|done]). subst k'. split; [by constructor|]. split; [by constructor|]. intros x Hx. by right.
  - split; [|split; [by repeat constructor|]].
    + constructor; [by constructor|]. constructor; [done|]. apply (Forall_impl _ _ _ H). intros z Hz.
      apply (pre_lt_l (fun _ => True) _ pre_eoi k k' z); try done. by rewrite Hz.
    + intros x Hx. cbn [map fst] in Hx. apply elem_of_cons in Hx as [-> | Hx]; auto.
  - destruct (IH S F) as (A & B & C). split; [|split; [by constructor|]].
    + constructor; [done|]. rewrite Forall_forall in *. intros x Hx. destruct (C x Hx) as [-> | Hl]; [|cbn [fst]; by apply H].
      cbn [fst]. destruct pre_eoi as [O _]. rewrite (O k k') by done. by rewrite E.
    + intros x Hx. cbn [map fst] in Hx. apply elem_of_cons in Hx as [-> | Hx]; [right; left|]. destruct (C x Hx) as [-> | ?]; auto. right. by right.
Qed.
Lemma pairs_kept l : Forall good l -> in_order (pairs_from l) /\ Forall good (pairs_from l).
Proof using Type.
  unfold pairs_from. intros F. assert (H : forall m, in_order m -> Forall good m -> in_order (foldl (fun m x => pair_insert x.1 x.2 m) m l)
    /\ Forall good (foldl (fun m x => pair_insert x.1 x.2 m) m l)); [|by apply H; constructor].
  induction F as [|[k v] l [Wk Qv] F IH]; intros m S G; [done|]. cbn [foldl fst snd]. destruct (insert_kept k v m S G Wk Qv). by apply IH.
Qed.
End pairs.

Section kept.
Context (float_of : string -> dbl).
Lemma good_name_only n : good_name n = true -> only name_chars n = true /\ n <> "".
Proof using Type.
  destruct n as [|c n]; [done|]. cbn [good_name]. rewrite first_chars_initial. intros [Hc H]%andb_true_iff. split; [|done].
  change (only name_chars (String c n)) with (occurs c name_chars && only name_chars n). rewrite H, name_chars_subsequent. unfold is_subsequent. by rewrite Hc.
Qed.
Lemma g_namespaced : gives (fun k => whole_ref (EIdent k)) namespaced_rule.
Proof using Type.
  unfold namespaced_rule. skip1. eapply (g_follow (fun ns => good_namespace ns = true)); [by intros s ns r (_ & H)%namespace_inv|]. intros ns Gn.
  skip1. eapply (g_follow (fun n => good_name n = true)); [by intros s n r (_ & H)%name_inv|]. intros n Nn. apply g_yield.
  destruct (good_name_only n Nn). done.
Qed.
Lemma g_integer : gives (fun z => - 2 ^ 63 <= z < 2 ^ 63) raw_integer_rule.
Proof using Type.
  unfold raw_integer_rule. eapply (g_follow (fun v => exists z, v = EInt z /\ - 2 ^ 63 <= z < 2 ^ 63)).
  2: { intros v (z & -> & R). by apply g_yield. }
  assert (U : forall (o : option Z), (forall z, o = Some z -> - 2 ^ 63 <= z < 2 ^ 63) ->
    gives (fun v => exists z, v = EInt z /\ - 2 ^ 63 <= z < 2 ^ 63) (peg z <- unwrap o; yield (EInt z))).
  { intros o Ho. eapply (g_follow (fun z => - 2 ^ 63 <= z < 2 ^ 63)); [|intros z R; apply g_yield; eauto]. by apply g_unwrap. }
  assert (Rx : forall b d z, radix b d = Some z -> - 2 ^ 63 <= z < 2 ^ 63) by (intros [b|] d z; [apply in_i64_range|done]).
  apply g_alt; [|apply g_alt; [|apply g_alt]].
  - unfold based_rule. skip1. skip1. skip1. apply U, Rx.
  - unfold hex_rule. skip1. skip1. apply U, Rx.
  - unfold octal_rule. skip1. skip1. apply U, Rx.
  - unfold integer_rule. skip1. skip1. skip1. apply U. apply in_i64_range.
Qed.
Lemma g_entid : gives whole_ref entid_rule.
Proof using Type.
  apply g_alt; [eapply g_follow; [apply g_integer|]; intros z H; by apply g_yield|eapply g_follow; [apply g_namespaced|]; intros k H; by apply g_yield].
Qed.
Lemma g_forward : gives whole_ref forward_entid_rule.
Proof using Type.
  apply g_alt; [eapply g_follow; [apply g_integer|]; intros z H; by apply g_yield|].
  eapply (g_follow (fun k => whole_ref (EIdent k))); [|intros k H; by apply g_yield].
  unfold forward_rule. eapply g_follow; [apply g_namespaced|]. intros k H. apply g_check. intros k' E. destruct (kw_is_backward k); [done|]. by injection E as <-.
Qed.
Lemma g_backward : gives whole_ref backward_entid_rule.
Proof using Type.
  unfold backward_entid_rule. eapply (g_follow (fun k => whole_ref (EIdent k) /\ kw_is_backward k = true)).
  { unfold backward_rule. eapply g_follow; [apply g_namespaced|]. intros k H. apply g_check. intros k' E. destruct (kw_is_backward k) eqn:B; [|done]. by injection E as <-. }
  intros k [W B]. eapply (g_follow (fun k => whole_ref (EIdent k))); [|intros r H; by apply g_yield].
  apply g_unwrap. intros r E. destruct k as [[ns|] n]; [|done]. destruct W as (Gn & On & Nn). unfold kw_is_backward in B. cbn [kw_name] in B.
  unfold kw_to_reversed in E. cbn [kw_name kw_ns] in E. destruct n as [|c n]; [done|].
  cbn in B. destruct (Ascii.eqb c "_") eqn:Ec; [|done]. unfold kw_new in E. cbn in On. apply andb_true_iff in On as [_ On].
  destruct n as [|d n]; [cbn in E; by repeat case_match|]. destruct ns as [|a0 s]; [done|]. injection E as <-. done.
Qed.
Lemma g_lookup : gives (fun l => whole_ref l.1) (lookup_rule float_of).
Proof using Type. unfold lookup_rule. skip1. skip1. skip1. skip1. eapply g_follow; [apply g_entid|]. intros k H. skip1. skip1. skip1. skip1. by apply g_yield. Qed.
Lemma g_function : gives (fun f => good_name f = true) tx_function_rule.
Proof using Type.
  unfold tx_function_rule. skip1. skip1. eapply (g_follow (fun n => good_name n = true)); [by intros s n r (_ & H)%name_inv|]. intros n Nn. skip1. skip1. by apply g_yield.
Qed.
Lemma g_atom : gives single (atom_rule float_of).
Proof using Type. unfold atom_rule. skip1. apply g_check. intros v E. destruct (is_atom _) eqn:At in E; [|done]. injection E as <-. by destruct a. Qed.
Lemma g_entity_place : gives whole_place (entity_place_rule float_of).
Proof using Type.
  apply g_alt; [skip1; skip1; by apply g_yield|]. apply g_alt; [eapply g_follow; [apply g_entid|]; intros a H; by apply g_yield|].
  apply g_alt; [eapply g_follow; [apply g_lookup|]; intros a H; by apply g_yield|eapply g_follow; [apply g_function|]; intros a H; by apply g_yield].
Qed.
Lemma g_map p : gives whole p -> gives (fun m => whole (VPMap m)) (map_notation_rule p).
Proof using Type.
  intros Hp s m r. unfold map_notation_rule. revert s m r. intros s. set (n := S (String.length s)). clearbody n. revert s.
  match goal with |- forall s m r, ?q s = Got m r -> _ => change (gives (fun m => whole (VPMap m)) q) end.
  skip1. skip1. eapply (g_follow (Forall (fun x => whole_ref x.1 /\ whole x.2))).
  - apply g_many. eapply g_follow; [apply g_entid|]. intros k Hk. skip1. eapply g_follow; [apply Hp|]. intros v Hv. by apply g_yield.
  - intros l Hl. skip1. skip1. apply g_yield. destruct (pairs_kept whole l Hl). by constructor.
Qed.
Lemma g_place n : gives whole (value_place_rule float_of n).
Proof using Type.
  induction n as [|n IH]; [by intros ? ? ?|]. cbn [value_place_rule].
  apply g_alt; [skip1; eapply g_follow; [apply g_lookup|]; intros k H; skip1; apply g_yield; by constructor|].
  apply g_alt; [skip1; eapply g_follow; [apply g_function|]; intros k H; skip1; apply g_yield; by constructor|].
  apply g_alt.
  - skip1. skip1. skip1. intros s v r. set (m := S (String.length s)). clearbody m. revert s v r.
    match goal with |- forall s v r, ?q s = Got v r -> _ => change (gives whole q) end.
    eapply g_follow; [apply g_many, IH|]. intros l H. skip1. skip1. skip1. apply g_yield. by constructor.
  - apply g_alt; [skip1; eapply g_follow; [apply g_map, IH|]; intros m H; skip1; by apply g_yield|].
    skip1. eapply g_follow; [apply g_atom|]. intros v H. skip1. apply g_yield. by constructor.
Qed.
Lemma g_entity : gives whole_entity (entity_rule float_of).
Proof using Type.
  intros s x r. unfold entity_rule. cbv zeta. set (m := S (String.length s)). clearbody m. revert s x r.
  match goal with |- forall s v r, ?q s = Got v r -> _ => change (gives whole_entity q) end.
  apply g_alt; [|apply g_alt].
  - do 5 skip1. eapply g_follow; [apply g_entity_place|]. intros e He. skip1. eapply g_follow; [apply g_forward|]. intros k Hk. skip1.
    eapply g_follow; [apply g_place|]. intros v Hv. do 3 skip1. by apply g_yield.
  - do 5 skip1. eapply g_follow; [apply g_place|]. intros v Hv. skip1. eapply g_follow; [apply g_backward|]. intros k Hk. skip1.
    eapply g_follow; [apply g_entity_place|]. intros e He. do 3 skip1. by apply g_yield.
  - skip1. eapply g_follow; [apply g_map, g_place|]. intros k Hk. skip1. by apply g_yield.
Qed.
Theorem all_whole s l : read_entities float_of s = Entities l -> Forall whole_entity l.
Proof using Type.
  unfold read_entities, entities_rule. set (m := S (String.length s)). clearbody m.
  match goal with |- context [match ?q s with _ => _ end] => assert (K : gives (Forall whole_entity) q) end.
  { do 3 skip1. eapply g_follow; [apply g_many, g_entity|]. intros k Hk. do 3 skip1. by apply g_yield. }
  specialize (K s). revert K. match goal with |- context [match ?x with _ => _ end] => destruct x as [k [|]| | |] end; try done.
  intros K [= <-]. by eapply K.
Qed.
End kept.

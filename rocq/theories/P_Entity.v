(** The transactor's stages 1 and 2. *)
From Verif Require Import M_Entity Spec_Tx Spec_Upsert Spec_Entity P_Base P_Partition P_Fill P_Upsert P_Resolve.

(* ---------------------------------------------------------------- sizes *)

Lemma list_sum_filter {A} (f : A -> nat) (P : A -> Prop) `{forall x, Decision (P x)} l :
  (list_sum (map f (filter P l)) <= list_sum (map f l))%nat.
Proof. induction l as [|x l IH]; simpl; [done|]. rewrite filter_cons. destruct (decide (P x)); simpl; lia. Qed.
Lemma list_sum_cons x l : list_sum (x :: l) = (x + list_sum l)%nat.
Proof. done. Qed.
Lemma list_sum_rev l : list_sum (rev l) = list_sum l.
Proof. induction l as [|x l IH]; simpl; [done|]. rewrite list_sum_app. simpl. lia. Qed.
Lemma ent_size_pos x : (1 <= ent_size x)%nat.
Proof. destruct x as [o e a v|m]; simpl; [|lia]. destruct v; simpl; lia. Qed.

Lemma remove_db_id_Ok m id rest : remove_db_id m = Ok (id, rest) -> rest = filter (fun p => p.1 <> db_id_key) m.
Proof.
  unfold remove_db_id. destruct (list_find _ m) as [[i [k v]]|]; [|by intros [= _ <-]].
  intros (e & _ & [= _ <-])%rbind_Ok. done.
Qed.

Section stage1.
  Context (pm : partition_map) (s : schema) (tx : Z).

  Lemma nested_pushed db_id rest : forall acc acc', rfold (nested_entry pm s tx db_id) acc rest = Ok acc' ->
    (list_sum (map ent_size acc'.1.2) <= list_sum (map ent_size acc.1.2) + list_sum (map (fun p => vp_size p.2) rest))%nat.
  Proof.
    induction rest as [|p rest IH]; intros acc acc' H; cbn [rfold] in H; [injection H as <-; simpl; lia|].
    apply rbind_Ok in H as (acc1 & H1 & H). apply IH in H. simpl.
    assert (list_sum (map ent_size acc1.1.2) <= list_sum (map ent_size acc.1.2) + vp_size p.2)%nat; [|lia].
    unfold nested_entry in H1. destruct acc as [[[d ts] pu] ip]. simpl. apply rbind_Ok in H1 as ([fa|] & _ & H1).
    - apply rbind_Ok in H1 as ([t ip1] & _ & [= <-]). simpl. lia.
    - apply rbind_Ok in H1 as (a & _ & H1). apply rbind_Ok in H1 as (at_ & _ & [= <-]). simpl. lia.
  Qed.

  (** What an iteration pushes back is smaller than what it took. *)
  Lemma process_entity_size ip x ts pushed ip' : process_entity pm s tx ip x = Ok (ts, pushed, ip') ->
    (list_sum (map ent_size pushed) < ent_size x)%nat.
  Proof.
    destruct x as [o e a v|m]; simpl; intros H.
    - apply rbind_Ok in H as ([fa|] & _ & H).
      + apply rbind_Ok in H as ([t ip1] & _ & [= _ <- _]). simpl. destruct v; simpl; lia.
      + apply rbind_Ok in H as (a1 & _ & H). apply rbind_Ok in H as (at_ & _ & H).
        apply rbind_Ok in H as ([[[tv terms] pu] ip1] & Hf & H).
        assert (pushed = pu) as ->. { destruct tv; [|by injection H]. by apply rbind_Ok in H as ([te ip2] & _ & [= _ <- _]). }
        clear H. destruct v as [n|t|la lv|f|vs|x|m]; simpl in Hf |- *.
        * apply rbind_Ok in Hf as (? & _ & [= _ _ <- _]). simpl. lia.
        * injection Hf as _ _ <- _. simpl. lia.
        * destruct (decide _); [|done]. apply rbind_Ok in Hf as ([? ?] & _ & [= _ _ <- _]). simpl. lia.
        * apply rbind_Ok in Hf as (? & _ & Hf). destruct (decide _); [|done]. injection Hf as _ _ <- _. simpl. lia.
        * destruct (at_multival at_); [|done]. injection Hf as _ _ <- _. rewrite map_rev, list_sum_rev, map_map. rewrite (map_ext _ vp_size) by done. lia.
        * destruct (if decide _ then _ else _); [injection Hf as _ _ <- _; simpl; lia|]. apply rbind_Ok in Hf as (? & _ & [= _ _ <- _]). simpl. lia.
        * destruct o; [|done]. destruct (decide _); [|done]. apply rbind_Ok in Hf as ([id rest] & Hr & Hf).
          apply remove_db_id_Ok in Hr. destruct (match id with Some x => (x, ip) | None => allocate_mentat_id ip end) as [db_id ip2].
          apply rbind_Ok in Hf as ([[[d ts2] pu2] ip3] & Hn & Hf). apply nested_pushed in Hn. simpl in Hn.
          destruct d; [done|]. apply rbind_Ok in Hf as ([? ?] & _ & [= _ _ <- _]). subst rest.
          pose proof (list_sum_filter (fun p : entid_or_ident * value_place => vp_size p.2) (fun p => p.1 <> db_id_key) m). lia.
    - apply rbind_Ok in H as ([id rest] & Hr & H). apply remove_db_id_Ok in Hr.
      destruct (match id with Some x => (x, ip) | None => allocate_mentat_id ip end) as [db_id ip2]. injection H as _ <- _.
      rewrite map_rev, list_sum_rev, map_map. rewrite (map_ext _ (fun p => vp_size p.2)) by done. subst rest.
      pose proof (list_sum_filter (fun p : entid_or_ident * value_place => vp_size p.2) (fun p => p.1 <> db_id_key) m). lia.
  Qed.

  (* -------------------------------------------------------------- panics *)

  Definition kw_only {A} (r : res A) : Prop := forall p, r = Panic p -> p = PKeyword.
  Lemma kw_only_bind {A B} (m : res A) (f : A -> res B) : kw_only m -> (forall a, kw_only (f a)) -> kw_only (rbind m f).
  Proof using Type. intros Hm Hf p. destruct m as [a| |q]; simpl; [apply Hf|done|]. intros [= ->]. by apply Hm. Qed.
  Lemma kw_only_Ok {A} (x : A) : kw_only (Ok x).
  Proof using Type. done. Qed.
  Lemma kw_only_Err {A} e : kw_only (Err e : res A).
  Proof using Type. done. Qed.
  Lemma kw_only_or {A} (o : option A) e : kw_only (ok_or o e).
  Proof using Type. by destruct o. Qed.
  Lemma kw_only_rfold {A S} (f : S -> A -> res S) l : (forall s x, kw_only (f s x)) -> forall s, kw_only (rfold f s l).
  Proof using Type. intros Hf. induction l as [|x l IH]; intros s0; simpl; [done|]. apply kw_only_bind; auto. Qed.

  Ltac kwo := repeat first
    [ match goal with |- kw_only (Ok _) => apply kw_only_Ok | |- kw_only (Err _) => apply kw_only_Err | |- kw_only (ok_or _ _) => apply kw_only_or end | assumption
    | match goal with |- kw_only (rbind _ _) => apply kw_only_bind; [|intros] end
    | match goal with |- kw_only (match ?x with _ => _ end) => destruct x end
    | progress cbn [rbind fst snd] ].

  Lemma kwo_unreversed a : kw_only (eoi_unreversed a).
  Proof using Type.
    intros p. destruct a as [e|k]; simpl; [done|]. unfold kw_unreversed, kw_to_reversed, kw_new.
    destruct (kw_is_backward k); [|done]. destruct (kw_name k) as [|c n]; simpl.
    - destruct (kw_ns k) as [[|]|]; simpl; congruence.
    - destruct (Ascii.eqb c "_"), n, (kw_ns k) as [[|]|]; simpl; congruence.
  Qed.
  Lemma kwo_a a : kw_only (entity_a_into_term_a s a).
  Proof using Type. unfold entity_a_into_term_a, require_entid. kwo. Qed.
  Lemma kwo_typed v vt : kw_only (into_typed_value s v vt).
  Proof using Type. unfold into_typed_value, to_typed_value, require_entid. kwo. Qed.
  Lemma kwo_place v : kw_only (into_entity_place v).
  Proof using Type. unfold into_entity_place, lookup_attr. kwo. Qed.
  Lemma kwo_lookup ip a v : kw_only (intern_lookup_ref s ip a v).
  Proof using Type.
    unfold intern_lookup_ref, require_attribute. apply kw_only_bind; [apply kwo_a|]. intros. apply kw_only_bind; [kwo|]. intros.
    apply kw_only_bind; [apply kwo_typed|]. intros. kwo.
  Qed.
  Lemma kwo_e ip x : kw_only (entity_e_into_term_e pm s tx ip x).
  Proof using Type.
    unfold entity_e_into_term_e, transaction_fn, require_entid. destruct x as [[]| |a v|]; try kwo.
    apply kwo_lookup.
  Qed.
  Lemma kwo_e_v ip x : kw_only (entity_e_into_term_v pm s tx ip x).
  Proof using Type. unfold entity_e_into_term_v. apply kw_only_bind; [apply kwo_e|]. intros [r ip']. kwo. Qed.
  Lemma kwo_v_e ip x fa : kw_only (entity_v_into_term_e s tx ip x fa).
  Proof using Type.
    unfold entity_v_into_term_e, require_attribute, transaction_fn. apply kw_only_bind; [apply kwo_a|]. intros. apply kw_only_bind; [kwo|]. intros.
    destruct (decide _); [|kwo]. destruct x; try kwo; try apply kwo_a; try apply kwo_lookup; try apply kwo_typed.
  Qed.
  Lemma kwo_reversed ip v fa e : kw_only (reversed_term pm s tx ip v fa e).
  Proof using Type.
    unfold reversed_term. apply kw_only_bind; [apply kwo_v_e|]. intros []. apply kw_only_bind; [apply kwo_a|]. intros.
    apply kw_only_bind; [apply kwo_e_v|]. intros []. kwo.
  Qed.
  Lemma kwo_remove m : kw_only (remove_db_id m).
  Proof using Type.
    unfold remove_db_id. destruct (list_find _ m) as [[i [k v]]|]; [|kwo]. apply kw_only_bind; [|intros; kwo]. destruct v; try kwo. apply kwo_place.
  Qed.
  Lemma kwo_nested db_id acc p : kw_only (nested_entry pm s tx db_id acc p).
  Proof using Type.
    unfold nested_entry, require_attribute. destruct acc as [[[d ts] pu] ip]. apply kw_only_bind; [apply kwo_unreversed|]. intros [fa|].
    - apply kw_only_bind; [apply kwo_reversed|]. intros []. kwo.
    - apply kw_only_bind; [apply kwo_a|]. intros. kwo.
  Qed.
  Lemma kwo_process ip x : kw_only (process_entity pm s tx ip x).
  Proof using Type.
    unfold process_entity. destruct x as [o e a v|m].
    - apply kw_only_bind; [apply kwo_unreversed|]. intros [fa|].
      + apply kw_only_bind; [apply kwo_reversed|]. intros []. kwo.
      + apply kw_only_bind; [apply kwo_a|]. intros a1. unfold require_attribute. apply kw_only_bind; [kwo|]. intros at_.
        apply kw_only_bind.
        * unfold forward_value, transaction_fn. destruct v; try kwo; try apply kwo_a; try apply kwo_lookup; try apply kwo_typed.
          -- apply kwo_remove.
          -- apply kw_only_rfold. intros. apply kwo_nested.
          -- apply kwo_e_v.
        * intros [[[tv ts] pu] ip1]. destruct tv; [|kwo]. apply kw_only_bind; [apply kwo_e|]. intros []. kwo.
    - apply kw_only_bind; [apply kwo_remove|]. intros []. kwo.
  Qed.

  (** The loop stops, whatever the fuel, once the fuel is the size of the input. *)
  Lemma stage1_loop_panic fuel : forall deque terms ip, (list_sum (map ent_size deque) <= fuel)%nat ->
    kw_only (stage1_loop pm s tx fuel deque terms ip).
  Proof using Type.
    induction fuel as [|fuel IH]; intros [|x deque] terms ip Hf; cbn [stage1_loop]; try done; cbn [map list_sum fold_right] in Hf.
    - pose proof (ent_size_pos x). unfold list_sum in Hf. simpl in Hf. lia.
    - intros p H. destruct (process_entity pm s tx ip x) as [[[ts pushed] ip']| |q] eqn:E; simpl in H; [|done|].
      + eapply IH; [|exact H]. apply process_entity_size in E. rewrite map_app, list_sum_app. simpl in Hf. fold (list_sum (map ent_size deque)) in Hf. lia.
      + injection H as <-. by eapply kwo_process.
  Qed.
  Lemma stage1_loop_fuel fuel : forall fuel' deque terms ip,
    (list_sum (map ent_size deque) <= fuel)%nat -> (list_sum (map ent_size deque) <= fuel')%nat ->
    stage1_loop pm s tx fuel deque terms ip = stage1_loop pm s tx fuel' deque terms ip.
  Proof using Type.
    induction fuel as [|fuel IH]; intros fuel' [|x deque] terms ip H1 H2; destruct fuel' as [|fuel']; cbn [stage1_loop]; try done.
    1, 2: exfalso; pose proof (ent_size_pos x); cbn [map] in H1, H2; rewrite list_sum_cons in H1, H2; lia.
    - destruct (process_entity pm s tx ip x) as [[[ts pushed] ip']| |q] eqn:E; simpl; try done.
      apply process_entity_size in E. cbn [map] in H1, H2. rewrite list_sum_cons in H1, H2. apply IH; rewrite map_app, list_sum_app; lia.
  Qed.

  (* -------------------------------------------------------------- tempids *)

  Definition lt_ids (r : ltref) : gset tempid := match r with LTemp t => {[t]} | LLookup _ => ∅ end.
  Definition place_ids {T} (r : T + ltref) : gset tempid := match r with inl _ => ∅ | inr l => lt_ids l end.
  Definition term_ids (t : term_lt) : gset tempid := place_ids (tm_e t) ∪ place_ids (tm_v t).
  Definition terms_ids (ts : list term_lt) : gset tempid := ⋃ (map term_ids ts).
  Lemma terms_ids_app l1 l2 : terms_ids (l1 ++ l2) = terms_ids l1 ∪ terms_ids l2.
  Proof using Type. unfold terms_ids. rewrite map_app. apply union_list_app_L. Qed.

  Lemma lookup_ids ip a v av ip' : intern_lookup_ref s ip a v = Ok (av, ip') -> ip_tempids ip' = ip_tempids ip.
  Proof using Type.
    unfold intern_lookup_ref. intros H. apply rbind_Ok in H as (? & _ & H). apply rbind_Ok in H as (? & _ & H). apply rbind_Ok in H as (? & _ & H).
    destruct (at_unique _); [|done]. by injection H as _ <-.
  Qed.
  Lemma e_ids ip x r ip' : entity_e_into_term_e pm s tx ip x = Ok (r, ip') -> ip_tempids ip' = place_ids r ∪ ip_tempids ip.
  Proof using Type.
    destruct x as [[e|k]|t|a v|f]; simpl; intros H.
    - destruct (pm_contains pm e); [|done]. injection H as <- <-. simpl. set_solver.
    - apply rbind_Ok in H as (? & _ & [= <- <-]). simpl. set_solver.
    - injection H as <- <-. done.
    - apply rbind_Ok in H as ([av ip1] & H & [= <- <-]). apply lookup_ids in H. simpl. set_solver.
    - apply rbind_Ok in H as (? & _ & [= <- <-]). simpl. set_solver.
  Qed.
  Lemma e_v_ids ip x r ip' : entity_e_into_term_v pm s tx ip x = Ok (r, ip') -> ip_tempids ip' = place_ids r ∪ ip_tempids ip.
  Proof using Type. unfold entity_e_into_term_v. intros ([r0 ip1] & H & [= <- <-])%rbind_Ok. apply e_ids in H. by destruct r0. Qed.
  Lemma v_e_ids ip x fa r ip' : entity_v_into_term_e s tx ip x fa = Ok (r, ip') -> ip_tempids ip' = place_ids r ∪ ip_tempids ip.
  Proof using Type.
    unfold entity_v_into_term_e. intros H. apply rbind_Ok in H as (? & _ & H). apply rbind_Ok in H as (? & _ & H).
    destruct (decide _); [|done]. destruct x as [n|t|la lv|f|vs|x|m]; try done.
    - apply rbind_Ok in H as (? & _ & [= <- <-]). simpl. set_solver.
    - by injection H as <- <-.
    - apply rbind_Ok in H as ([av ip1] & H & [= <- <-]). apply lookup_ids in H. simpl. set_solver.
    - apply rbind_Ok in H as (? & _ & [= <- <-]). simpl. set_solver.
    - destruct (as_tempid x); [by injection H as <- <-|]. apply rbind_Ok in H as (tv & _ & H). destruct tv; try done.
      injection H as <- <-. simpl. set_solver.
  Qed.
  Lemma reversed_ids ip v fa e t ip' : reversed_term pm s tx ip v fa e = Ok (t, ip') -> ip_tempids ip' = term_ids t ∪ ip_tempids ip.
  Proof using Type.
    unfold reversed_term. intros H. apply rbind_Ok in H as ([re ip1] & H1 & H). apply rbind_Ok in H as (ra & _ & H).
    apply rbind_Ok in H as ([rv ip2] & H2 & [= <- <-]). apply v_e_ids in H1. apply e_v_ids in H2. rewrite H2, H1. unfold term_ids. simpl. clear. set_solver.
  Qed.
  Lemma nested_ids db_id rest : forall acc acc', rfold (nested_entry pm s tx db_id) acc rest = Ok acc' ->
    exists new, acc'.1.1.2 = acc.1.1.2 ++ new /\ ip_tempids acc'.2 = terms_ids new ∪ ip_tempids acc.2.
  Proof using Type.
    induction rest as [|p rest IH]; intros acc acc' H; cbn [rfold] in H.
    { injection H as <-. exists []. rewrite app_nil_r. unfold terms_ids. simpl. split; [done|set_solver]. }
    apply rbind_Ok in H as (acc1 & H1 & H).
    assert (exists new, acc1.1.1.2 = acc.1.1.2 ++ new /\ ip_tempids acc1.2 = terms_ids new ∪ ip_tempids acc.2) as (n1 & E1 & I1).
    { unfold nested_entry in H1. destruct acc as [[[d ts] pu] ip]. simpl. apply rbind_Ok in H1 as ([fa|] & _ & H1).
      - apply rbind_Ok in H1 as ([t ip1] & Hr & [= <-]). exists [t]. simpl. split; [done|]. apply reversed_ids in Hr. unfold terms_ids. simpl. set_solver.
      - apply rbind_Ok in H1 as (a & _ & H1). apply rbind_Ok in H1 as (at_ & _ & [= <-]). simpl. exists []. rewrite app_nil_r. unfold terms_ids. simpl. split; [done|set_solver]. }
    destruct (IH _ _ H) as (n2 & E2 & I2). exists (n1 ++ n2). rewrite E2, E1, <- app_assoc. split; [done|]. rewrite I2, I1, terms_ids_app. clear. set_solver.
  Qed.

  Lemma process_ids ip x ts pushed ip' : process_entity pm s tx ip x = Ok (ts, pushed, ip') ->
    ip_tempids ip' = terms_ids ts ∪ ip_tempids ip.
  Proof using Type.
    assert (terms_ids [] = ∅) as Hnil by done. assert (forall t, terms_ids [t] = term_ids t) as Hone by (intros; unfold terms_ids; simpl; set_solver).
    destruct x as [o e a v|m]; simpl; intros H.
    - apply rbind_Ok in H as ([fa|] & _ & H).
      + apply rbind_Ok in H as ([t ip1] & Hr & [= <- _ <-]). apply reversed_ids in Hr. by rewrite Hone.
      + apply rbind_Ok in H as (a1 & _ & H). apply rbind_Ok in H as (at_ & _ & H).
        apply rbind_Ok in H as ([[[tv terms] pu] ip1] & Hf & H).
        assert (ip_tempids ip1 = match tv with Some r => place_ids r | None => ∅ end ∪ terms_ids terms ∪ ip_tempids ip) as Hip.
        { clear H. destruct v as [n|t|la lv|f|vs|x|m]; simpl in Hf.
          * apply rbind_Ok in Hf as (? & _ & [= <- <- _ <-]). rewrite Hnil. simpl. set_solver.
          * injection Hf as <- <- _ <-. rewrite Hnil. simpl. set_solver.
          * destruct (decide _); [|done]. apply rbind_Ok in Hf as ([? ?] & Hl & [= <- <- _ <-]). apply lookup_ids in Hl. rewrite Hnil. simpl. set_solver.
          * apply rbind_Ok in Hf as (? & _ & Hf). destruct (decide _); [|done]. injection Hf as <- <- _ <-. rewrite Hnil. simpl. set_solver.
          * destruct (at_multival at_); [|done]. injection Hf as <- <- _ <-. rewrite Hnil. set_solver.
          * destruct (if decide _ then _ else _); [injection Hf as <- <- _ <-; rewrite Hnil; simpl; set_solver|].
            apply rbind_Ok in Hf as (? & _ & [= <- <- _ <-]). rewrite Hnil. simpl. set_solver.
          * destruct o; [|done]. destruct (decide _); [|done]. apply rbind_Ok in Hf as ([id rest] & Hr & Hf).
            assert (ip_tempids (match id with Some x => (x, ip) | None => allocate_mentat_id ip end).2 = ip_tempids ip) as Hi2 by (by destruct id).
            destruct (match id with Some x => (x, ip) | None => allocate_mentat_id ip end) as [db_id ip2]. simpl in Hi2.
            apply rbind_Ok in Hf as ([[[d ts2] pu2] ip3] & Hn & Hf). apply nested_ids in Hn as (new & En & In). simpl in En, In. subst ts2.
            destruct d; [done|]. apply rbind_Ok in Hf as ([? ?] & He & [= <- <- _ <-]). apply e_v_ids in He. rewrite He, In, Hi2. clear. set_solver. }
        destruct tv as [tv|].
        * apply rbind_Ok in H as ([te ip2] & He & [= <- _ <-]). apply e_ids in He. rewrite He, Hip, terms_ids_app, Hone. unfold term_ids. simpl. clear. set_solver.
        * injection H as <- _ <-. set_solver.
    - apply rbind_Ok in H as ([id rest] & Hr & H).
      assert (ip_tempids (match id with Some x => (x, ip) | None => allocate_mentat_id ip end).2 = ip_tempids ip) as Hi2 by (by destruct id).
      destruct (match id with Some x => (x, ip) | None => allocate_mentat_id ip end) as [db_id ip2]. injection H as <- _ <-. simpl in Hi2. set_solver.
  Qed.
  Lemma stage1_loop_ids fuel : forall deque terms ip ts ip', stage1_loop pm s tx fuel deque terms ip = Ok (ts, ip') ->
    ip_tempids ip = terms_ids terms -> ip_tempids ip' = terms_ids ts.
  Proof using Type.
    induction fuel as [|fuel IH]; intros [|x deque] terms ip ts ip' H Hi; cbn [stage1_loop] in H; try done; try by injection H as <- <-.
    apply rbind_Ok in H as ([[ts1 pushed] ip1] & Hp & H). apply (IH _ _ _ _ _ H). apply process_ids in Hp. rewrite Hp, Hi, terms_ids_app. clear. set_solver.
  Qed.
End stage1.

Lemma resolve_refs_Ok look ts ts' : resolve_lookup_refs look ts = Ok ts' ->
  Forall2 (fun t t' => tm_op t' = tm_op t /\ tm_a t' = tm_a t
     /\ replace_lookup_ref look (tm_e t) id = Ok (tm_e t') /\ replace_lookup_ref look (tm_v t) TVRef = Ok (tm_v t')) ts ts'.
Proof.
  unfold resolve_lookup_refs. intros H%rmapM_Ok. eapply Forall2_impl; [exact H|]. intros t t' Ht. simpl in Ht.
  apply rbind_Ok in Ht as (e & He & Ht). apply rbind_Ok in Ht as (v & Hv & [= <-]). done.
Qed.
Lemma replace_ids {T} look (x : T + ltref) lift y : replace_lookup_ref look x lift = Ok y ->
  forall t, t ∈ place_ids x <-> y = inr t.
Proof.
  destruct x as [x|[av|t0]]; simpl; intros H t.
  - injection H as <-. set_solver.
  - destruct (look av); [|done]. injection H as <-. set_solver.
  - injection H as <-. set_solver.
Qed.

Lemma entities_tempids mv st pm s tx es ts ids : entities_to_terms mv st pm s tx es = Ok (ts, ids) -> tempids_are ts ids.
Proof.
  unfold entities_to_terms. intros H. apply rbind_Ok in H as ([tl ip] & H1 & H). apply rbind_Ok in H as (look & _ & H).
  apply rbind_Ok in H as (ts1 & H2 & [= <- <-]). apply (stage1_loop_ids) in H1; [|done]. rewrite H1. clear H1.
  apply resolve_refs_Ok in H2. intros x. unfold terms_ids. rewrite elem_of_union_list.
  assert (forall t t', (replace_lookup_ref look (tm_e t) id = Ok (tm_e t') /\ replace_lookup_ref look (tm_v t) TVRef = Ok (tm_v t')) ->
    (x ∈ term_ids t <-> x ∈ tempids_of t')) as Hiff.
  { intros t t' [He Hv]. unfold term_ids, tempids_of. rewrite elem_of_union, elem_of_app, (replace_ids _ _ _ _ He), (replace_ids _ _ _ _ Hv).
    destruct (tm_e t'), (tm_v t'); rewrite ?elem_of_nil, ?elem_of_list_singleton; naive_solver. }
  split.
  - intros (X & HX & Hx). apply elem_of_list_fmap in HX as (t & -> & Ht). apply elem_of_list_lookup in Ht as (i & Hi).
    destruct (Forall2_lookup_l _ _ _ _ _ H2 Hi) as (t' & Hi' & _ & _ & H). exists t'. split; [by eapply elem_of_list_lookup_2|]. by apply (Hiff t t').
  - intros (t' & Ht & Hx). apply elem_of_list_lookup in Ht as (i & Hi).
    destruct (Forall2_lookup_r _ _ _ _ _ H2 Hi) as (t & Hi' & _ & _ & H). exists (term_ids t). split; [|by apply (Hiff t t')].
    apply elem_of_list_fmap. exists t. split; [done|]. by eapply elem_of_list_lookup_2.
Qed.

(* ---------------------------------------------------------------- what flat entities read as *)

Lemma resolve_av_holds st a tv e : resolve_av st (a, tv) = Some e -> holds st e a tv.
Proof.
  unfold resolve_av, holds, facts. simpl. destruct (to_sql_value_pair tv) as [v tag] eqn:E. intros H.
  apply last_Some in H as (l & H). assert (e ∈ map d_e (filter (fun d => d_avet d = true /\ d_a d = a /\ d_tag d = tag /\ d_v d = v /\ v <> SNull) (all_datoms st))) as Hin.
  { rewrite H. set_solver. }
  apply elem_of_list_fmap in Hin as (d & -> & Hd). apply elem_of_list_filter in Hd as ((_ & Ha & Ht & Hv & _) & Hd).
  apply elem_of_list_fmap. exists d. split; [|done]. congruence.
Qed.

Section reads.
  Context (st : store) (pm : partition_map) (s : schema) (tx : Z).

  Lemma name_Ok x e : entity_a_into_term_a s x = Ok e <-> reads_name s x e.
  Proof. destruct x as [n|k]; simpl; [naive_solver|]. apply ok_or_Ok. Qed.
  Lemma literal_Ok v vt tv : into_typed_value s v vt = Ok tv <-> reads_literal s v vt tv.
  Proof.
    destruct v as [x|w]; simpl.
    - unfold to_typed_value, require_entid. destruct (decide (vt = VTRef)) as [->|Hn].
      + destruct x; simpl; try naive_solver.
        rewrite rbind_Ok. setoid_rewrite ok_or_Ok. naive_solver.
      + destruct x, vt; simpl; naive_solver.
    - destruct (decide _); naive_solver.
  Qed.
  Lemma lookup_Ok ip a v av ip' : intern_lookup_ref s ip a v = Ok (av, ip') -> forall e, resolve_av st av = Some e -> reads_lookup st s a v e.
  Proof.
    unfold intern_lookup_ref. intros H. apply rbind_Ok in H as (n & Hn%name_Ok & H). apply rbind_Ok in H as (at_ & Hat%ok_or_Ok & H).
    apply rbind_Ok in H as (tv & Htv%literal_Ok & H). destruct (at_unique at_) eqn:Eu; [|done]. injection H as <- <-. intros e He%resolve_av_holds.
    exists n, at_, tv. rewrite Eu. eauto 10.
  Qed.
  Lemma entity_Ok ip x r ip' y : entity_e_into_term_e pm s tx ip x = Ok (r, ip') -> replace_lookup_ref (resolve_av st) r id = Ok y ->
    reads_entity st pm s tx x y.
  Proof.
    destruct x as [[e|k]|t|a v|f]; simpl; intros H Hr.
    - destruct (pm_contains pm e) eqn:E; [|done]. injection H as <- <-. simpl in Hr. injection Hr as <-. split; [done|]. left. by apply pm_contains_spec.
    - apply rbind_Ok in H as (e & He%ok_or_Ok & [= <- <-]). simpl in Hr. injection Hr as <-. eauto.
    - injection H as <- <-. simpl in Hr. by injection Hr as <-.
    - apply rbind_Ok in H as ([av ip1] & H & [= <- <-]). simpl in Hr. destruct (resolve_av st av) as [e|] eqn:E; [|done]. injection Hr as <-.
      exists e. split; [done|]. by eapply lookup_Ok.
    - unfold transaction_fn in H. destruct (String.eqb f "transaction-tx") eqn:E; [|done]. simpl in H. injection H as <- <-. simpl in Hr. injection Hr as <-.
      apply String.eqb_eq in E. done.
  Qed.
  Lemma entity_v_Ok ip x r ip' y : entity_e_into_term_v pm s tx ip x = Ok (r, ip') -> replace_lookup_ref (resolve_av st) r TVRef = Ok y ->
    exists z, y = as_value z /\ reads_entity st pm s tx x z.
  Proof.
    unfold entity_e_into_term_v. intros ([r0 ip1] & H & [= <- <-])%rbind_Ok Hr.
    assert (exists z, replace_lookup_ref (resolve_av st) r0 id = Ok z /\ y = as_value z) as (z & Hz & ->).
    { destruct r0 as [e|[av|t]]; simpl in *; [|destruct (resolve_av st av); [|done]|]; injection Hr as <-; eexists; split; done. }
    exists z. split; [done|]. by eapply entity_Ok.
  Qed.

  Definition not_nested (v : value_place) : Prop := match v with VPVector _ | VPMap _ => False | _ => True end.

  Lemma value_Ok ip o e a at_ v tv terms pushed ip' : not_nested v ->
    forward_value pm s tx ip o e a at_ v = Ok (tv, terms, pushed, ip') ->
    terms = [] /\ pushed = [] /\ exists r, tv = Some r /\ forall y, replace_lookup_ref (resolve_av st) r TVRef = Ok y -> reads_value st s tx v (at_type at_) y.
  Proof.
    intros Hn H. destruct v as [n|t|la lv|f|vs|x|m]; simpl in H; try done.
    - apply rbind_Ok in H as (e1 & He%name_Ok & [= <- <- <- <-]). split_and!; try done. eexists. split; [done|]. intros y [= <-]. simpl. eauto.
    - injection H as <- <- <- <-. split_and!; try done. eexists. split; [done|]. by intros y [= <-].
    - destruct (decide _); [|done]. apply rbind_Ok in H as ([av ip1] & H & [= <- <- <- <-]). split_and!; try done. eexists. split; [done|].
      simpl. intros y Hy. destruct (resolve_av st av) as [e1|] eqn:E; [|done]. injection Hy as <-. split; [done|]. exists e1. split; [done|]. by eapply lookup_Ok.
    - apply rbind_Ok in H as (n & Hf & H). destruct (decide _); [|done]. injection H as <- <- <- <-. split_and!; try done. eexists. split; [done|].
      intros y [= <-]. unfold transaction_fn in Hf. destruct (String.eqb f "transaction-tx") eqn:E; [|done]. injection Hf as <-. apply String.eqb_eq in E. done.
    - simpl. destruct (decide (at_type at_ = VTRef)) as [Et|Et].
      + rewrite Et in *. destruct (as_tempid x) as [t|].
        * injection H as <- <- <- <-. split_and!; try done. eexists. split; [done|]. by intros y [= <-].
        * apply rbind_Ok in H as (tv1 & Htv%literal_Ok & [= <- <- <- <-]). split_and!; try done. eexists. split; [done|]. intros y [= <-]. eauto.
      + apply rbind_Ok in H as (tv1 & Htv%literal_Ok & [= <- <- <- <-]). split_and!; try done. eexists. split; [done|]. intros y [= <-].
        destruct (at_type at_); try done; eauto.
  Qed.
  Lemma v_as_e_Ok ip x fa r ip' y : entity_v_into_term_e s tx ip x fa = Ok (r, ip') -> replace_lookup_ref (resolve_av st) r id = Ok y ->
    exists n at_, reads_name s fa n /\ sc_attribute_map s !! n = Some at_ /\ at_type at_ = VTRef /\ reads_value st s tx x VTRef (as_value y).
  Proof.
    unfold entity_v_into_term_e. intros H Hr. apply rbind_Ok in H as (n & Hn%name_Ok & H). apply rbind_Ok in H as (at_ & Hat%ok_or_Ok & H).
    destruct (decide _); [|done]. exists n, at_. split_and!; try done. destruct x as [m|t|la lv|f|vs|x|m]; try done.
    - apply rbind_Ok in H as (e1 & He%name_Ok & [= <- <-]). simpl in Hr. injection Hr as <-. simpl. eauto.
    - injection H as <- <-. simpl in Hr. by injection Hr as <-.
    - apply rbind_Ok in H as ([av ip1] & H & [= <- <-]). simpl in Hr. destruct (resolve_av st av) as [e1|] eqn:E; [|done]. injection Hr as <-.
      split; [done|]. exists e1. split; [done|]. by eapply lookup_Ok.
    - unfold transaction_fn in H. destruct (String.eqb f "transaction-tx") eqn:E; [|done]. simpl in H. injection H as <- <-. simpl in Hr. injection Hr as <-.
      apply String.eqb_eq in E. done.
    - simpl. destruct (as_tempid x) as [t|].
      + injection H as <- <-. simpl in Hr. by injection Hr as <-.
      + apply rbind_Ok in H as (tv & Htv%literal_Ok & H). destruct tv; try done. injection H as <- <-. simpl in Hr. injection Hr as <-. eauto.
  Qed.

  Definition resolves_to (t : term_lt) (t' : term_t) : Prop :=
    tm_op t' = tm_op t /\ tm_a t' = tm_a t
     /\ replace_lookup_ref (resolve_av st) (tm_e t) id = Ok (tm_e t') /\ replace_lookup_ref (resolve_av st) (tm_v t) TVRef = Ok (tm_v t').

  Lemma flat_process ip x ts pushed ip' : flat x -> process_entity pm s tx ip x = Ok (ts, pushed, ip') ->
    pushed = [] /\ exists t, ts = [t] /\ forall t', resolves_to t t' -> reads st pm s tx x t'.
  Proof.
    destruct x as [o e a v|m]; [|done]. simpl. intros Hfl H. apply rbind_Ok in H as (fa & Hfa & H).
    destruct fa as [fa|].
    - apply rbind_Ok in H as ([t ip1] & Hr & [= <- <- <-]). split; [done|]. exists t. split; [done|]. intros t' (Ho & Ha & He & Hv).
      destruct a as [n|k]; [done|]. simpl in Hfa. unfold rmap in Hfa. apply rbind_Ok in Hfa as ([k'|] & Hk & Hfa); [|done]. injection Hfa as <-.
      assert (kw_is_backward k = true) as Hb. { unfold kw_unreversed in Hk. by destruct (kw_is_backward k). }
      simpl. rewrite Hb. unfold reversed_term in Hr. apply rbind_Ok in Hr as ([re ip2] & H1 & Hr). apply rbind_Ok in Hr as (ra & Hra%name_Ok & Hr).
      apply rbind_Ok in Hr as ([rv ip3] & H2 & [= <- <-]). simpl in *.
      destruct (v_as_e_Ok _ _ _ _ _ _ H1 He) as (n & at_ & Hn & Hat & Hty & Hre). destruct (entity_v_Ok _ _ _ _ _ H2 Hv) as (z & Hz & Hrz).
      simpl in Hn. assert (n = ra) as -> by congruence. exists k', at_, z. rewrite Ha. eauto 10.
    - assert (written_backward a = false) as Hb.
      { destruct a as [n|k]; [done|]. simpl in *. unfold rmap in Hfa. apply rbind_Ok in Hfa as ([k'|] & Hk & Hfa); [done|].
        unfold kw_unreversed in Hk. destruct (kw_is_backward k); [|done]. unfold rmap in Hk. by apply rbind_Ok in Hk as (? & _ & ?). }
      apply rbind_Ok in H as (a1 & Ha1%name_Ok & H). apply rbind_Ok in H as (at_ & Hat%ok_or_Ok & H).
      apply rbind_Ok in H as ([[[tv terms] pu] ip1] & Hf & H). destruct (value_Ok _ _ _ _ _ _ _ _ _ _ Hfl Hf) as (-> & -> & r & -> & Hval).
      apply rbind_Ok in H as ([te ip2] & He & [= <- <- <-]). split; [done|]. eexists. split; [done|]. intros t' (Ho & Ha & Het & Hvt). simpl in *.
      rewrite Hb. exists at_. rewrite Ha. split_and!; try done; [|by apply Hval]. by eapply entity_Ok.
  Qed.

  Lemma flat_stage1 fuel : forall es terms ip ts ip', Forall flat es -> stage1_loop pm s tx fuel es terms ip = Ok (ts, ip') ->
    exists new, ts = terms ++ new /\ Forall2 (fun x t => forall t', resolves_to t t' -> reads st pm s tx x t') es new.
  Proof.
    induction fuel as [|fuel IH]; intros [|x es] terms ip ts ip' Hfl H; cbn [stage1_loop] in H; try done; try (injection H as <- _; exists []; rewrite app_nil_r; by split).
    apply rbind_Ok in H as ([[ts1 pushed] ip1] & Hp & H). apply Forall_cons in Hfl as [Hx Hfl]. destruct (flat_process _ _ _ _ _ Hx Hp) as (-> & t & -> & Ht).
    simpl in H. destruct (IH _ _ _ _ _ Hfl H) as (new & -> & Hnew). exists (t :: new). rewrite <- app_assoc. split; [done|]. by constructor.
  Qed.
End reads.

Lemma flat_reads mv st pm s tx es ts ids : Forall flat es -> entities_to_terms mv st pm s tx es = Ok (ts, ids) ->
  Forall2 (reads st pm s tx) es ts.
Proof.
  unfold entities_to_terms. intros Hfl H. apply rbind_Ok in H as ([tl ip] & H1 & H). apply rbind_Ok in H as (look & Hl & H).
  apply rbind_Ok in H as (ts1 & H2 & [= <- <-]). assert (look = resolve_av st) as ->.
  { unfold resolve_avs in Hl. destruct (_ || _)%bool; [by injection Hl|done]. }
  unfold stage1 in H1. apply (flat_stage1 st) in H1 as (new & -> & Hn); [|done]. simpl in H2. apply resolve_refs_Ok in H2.
  clear -Hn H2. revert ts1 H2. induction Hn as [|x t es new Hx Hn IH]; intros ts1 H2; inversion H2; subst; constructor; auto.
Qed.

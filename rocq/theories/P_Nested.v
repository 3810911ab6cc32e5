(** Maps and vectors are notation (stage 1 of the transactor). *)
From Verif Require Import M_Entity Spec_Tx Spec_Upsert Spec_Entity P_Base P_Partition P_Fill P_Upsert P_Resolve P_Entity.

(* ---------------------------------------------------------------- unfolding *)

Lemma unfolds_app s es1 es2 l1 l2 own1 own2 : unfolds s es1 l1 own1 -> unfolds s es2 l2 own2 ->
  unfolds s (es1 ++ es2) (l1 ++ l2) (own1 ++ own2).
Proof.
  intros H H2. induction H; simpl; rewrite <- ?app_assoc; [done|..].
  - by constructor.
  - eapply un_vector; eauto.
  - eapply un_map; eauto.
  - eapply un_nested; eauto.
Qed.
Lemma unfolds_split s es1 es2 l own : unfolds s (es1 ++ es2) l own ->
  exists l1 l2 own1 own2, l = l1 ++ l2 /\ own = own1 ++ own2 /\ unfolds s es1 l1 own1 /\ unfolds s es2 l2 own2.
Proof.
  revert l own. induction es1 as [|x es1 IH]; intros l own H; simpl in H.
  - exists [], l, [], own. split_and!; try done. constructor.
  - inversion H; subst.
    + match goal with U : unfolds s (es1 ++ es2) _ _ |- _ => destruct (IH _ _ U) as (la & lb & oa & ob & -> & -> & Ha & Hb) end.
      exists (x :: la), lb, oa, ob. split_and!; try done. by constructor.
    + match goal with U : unfolds s (es1 ++ es2) _ _ |- _ => destruct (IH _ _ U) as (la & lb & oa & ob & -> & -> & Ha & Hb) end.
      eexists _, lb, _, ob. split_and!; [| |eapply un_vector; eauto|done]; by rewrite !app_assoc.
    + match goal with U : unfolds s (es1 ++ es2) _ _ |- _ => destruct (IH _ _ U) as (la & lb & oa & ob & -> & -> & Ha & Hb) end.
      eexists _, lb, _, ob. split_and!; [| |eapply un_map; eauto|done]; by rewrite !app_assoc.
    + match goal with U : unfolds s (es1 ++ es2) _ _ |- _ => destruct (IH _ _ U) as (la & lb & oa & ob & -> & -> & Ha & Hb) end.
      eexists _, lb, _, ob. split_and!; [| |eapply un_nested; eauto|done]; simpl; by rewrite !app_assoc.
Qed.
Lemma unfolds_perm s es es' l own : es ≡ₚ es' -> unfolds s es l own ->
  exists l' own', unfolds s es' l' own' /\ l ≡ₚ l' /\ own ≡ₚ own'.
Proof.
  intros Hp. revert l own. induction Hp as [|x es es' Hp IH|x y es|es1 es2 es3 _ IH1 _ IH2]; intros l own H.
  - eauto.
  - apply (unfolds_split s [x]) in H as (l1 & l2 & o1 & o2 & -> & -> & H1 & H2). destruct (IH _ _ H2) as (l' & o' & H' & Pl & Po).
    exists (l1 ++ l'), (o1 ++ o'). split; [by apply (unfolds_app s [x])|]. by rewrite Pl, Po.
  - apply (unfolds_split s [y]) in H as (l1 & l2 & o1 & o2 & -> & -> & H1 & H2).
    apply (unfolds_split s [x]) in H2 as (l3 & l4 & o3 & o4 & -> & -> & H3 & H4).
    exists (l3 ++ l1 ++ l4), (o3 ++ o1 ++ o4). split; [by repeat apply (unfolds_app s [_])|].
    split; rewrite !app_assoc; apply Permutation_app_tail, Permutation_app_comm.
  - destruct (IH1 _ _ H) as (l' & o' & H' & Pl & Po). destruct (IH2 _ _ H') as (l2 & o2 & H2 & Pl2 & Po2).
    exists l2, o2. split; [done|]. split; etrans; eauto.
Qed.

(** Flat entities stand for themselves. *)
Lemma unfolds_flat s es l own : Forall flat es -> unfolds s es l own -> l = es /\ own = [].
Proof.
  intros Hf H. induction H; [done|..]; apply Forall_cons in Hf as [Hx Hf]; try done.
  destruct (IHunfolds Hf) as [-> ->]. done.
Qed.
Lemma stands_for_flat s es : Forall flat es -> stands_for s es es.
Proof. intros H. exists []. split; [|constructor]. induction H; by constructor. Qed.
Lemma stands_for_flat_inv s es l : Forall flat es -> stands_for s es l -> l = es.
Proof. intros Hf (own & H & _). by eapply unfolds_flat. Qed.
Lemma unfolds_all_flat s es l own : unfolds s es l own -> Forall flat l.
Proof.
  induction 1; try (by constructor); rewrite ?Forall_cons, ?Forall_app; try done.
  split; [|done]. simpl. by destruct d.
Qed.
Lemma stands_for_all_flat s es l : stands_for s es l -> Forall flat l.
Proof. intros (own & H & _). by eapply unfolds_all_flat. Qed.

(* ---------------------------------------------------------------- matching entities with terms *)

Section covers.
  Context {A B : Type} (R : A -> B -> Prop).
  Definition covers (l : list A) (ts : list B) : Prop := exists l', l ≡ₚ l' /\ Forall2 R l' ts.
  Lemma covers_perm_l l l' ts : l ≡ₚ l' -> covers l ts -> covers l' ts.
  Proof using Type. intros P (l1 & P1 & H). exists l1. split; [by rewrite <- P|done]. Qed.
  Lemma covers_perm_r l ts ts' : ts ≡ₚ ts' -> covers l ts -> covers l ts'.
  Proof using Type.
    intros P. revert l. induction P as [|x ts ts' P IH|x y ts|t1 t2 t3 _ IH1 _ IH2]; intros l (l1 & P1 & H).
    - by exists l1.
    - inversion H as [|a ? l2 ? Ha Hl]; subst. destruct (IH l2) as (l3 & P3 & H3); [by exists l2|].
      exists (a :: l3). split; [by rewrite P1, P3|by constructor].
    - inversion H as [|a ? l2 ? Ha Hl]; subst. inversion Hl as [|b ? l3 ? Hb Hl3]; subst.
      exists (b :: a :: l3). split; [rewrite P1; constructor|by repeat constructor].
    - apply IH2, IH1. by exists l1.
  Qed.
  Lemma covers_app l1 l2 t1 t2 : covers l1 t1 -> covers l2 t2 -> covers (l1 ++ l2) (t1 ++ t2).
  Proof using Type. intros (a & P & H) (b & Q & K). exists (a ++ b). split; [by rewrite P, Q|by apply Forall2_app]. Qed.
  Lemma covers_one x t : R x t -> covers [x] [t].
  Proof using Type. intros H. exists [x]. split; [done|by repeat constructor]. Qed.
  Lemma covers_nil : covers [] [].
  Proof using Type. by exists []. Qed.
  Lemma covers_cons_inv x l ts : covers (x :: l) ts -> exists t ts', R x t /\ ts ≡ₚ t :: ts' /\ covers l ts'.
  Proof using Type.
    intros (l' & P & H). symmetry in P. apply Permutation_cons_inv_r in P as (a & b & -> & P).
    apply Forall2_app_inv_l in H as (ta & tb & Ha & Hb & ->). inversion Hb as [|? t ? tb' Ht Hb']; subst.
    exists t, (ta ++ tb'). split_and!; [done|by rewrite Permutation_middle|]. exists (a ++ b). split; [done|by apply Forall2_app].
  Qed.
  Lemma covers_elem_r l ts t : covers l ts -> t ∈ ts -> exists x, x ∈ l /\ R x t.
  Proof using Type.
    intros (l' & P & H) Ht. apply elem_of_list_lookup in Ht as (i & Hi). destruct (Forall2_lookup_r _ _ _ _ _ H Hi) as (x & Hx & HR).
    exists x. split; [rewrite P; by eapply elem_of_list_lookup_2|done].
  Qed.
  Lemma covers_elem_l l ts x : covers l ts -> x ∈ l -> exists t, t ∈ ts /\ R x t.
  Proof using Type.
    intros (l' & P & H) Hx. rewrite P in Hx. apply elem_of_list_lookup in Hx as (i & Hi). destruct (Forall2_lookup_l _ _ _ _ _ H Hi) as (t & Ht & HR).
    exists t. split; [by eapply elem_of_list_lookup_2|done].
  Qed.
End covers.
Lemma covers_impl {A B C} (R : A -> B -> Prop) (S : A -> C -> Prop) (T : B -> C -> Prop) l ts us :
  (forall x t u, R x t -> T t u -> S x u) -> covers R l ts -> Forall2 T ts us -> covers S l us.
Proof.
  intros Himp (l' & P & H) HT. exists l'. split; [done|]. clear P. revert us HT.
  induction H; intros us HT; inversion HT; subst; constructor; eauto.
Qed.

(* ---------------------------------------------------------------- stage 1 *)

Section stage1.
  Context (st : store) (pm : partition_map) (s : schema) (tx : Z).
  Let R (x : entity) (t : term_lt) : Prop := forall t', resolves_to st t t' -> reads st pm s tx x t'.

  (** The counter of tempids *)
  Lemma lookup_count ip a v av ip' : intern_lookup_ref s ip a v = Ok (av, ip') -> ip_count ip' = ip_count ip.
  Proof using Type.
    unfold intern_lookup_ref. intros H. apply rbind_Ok in H as (? & _ & H). apply rbind_Ok in H as (? & _ & H). apply rbind_Ok in H as (? & _ & H).
    destruct (at_unique _); [|done]. by injection H as _ <-.
  Qed.
  Lemma e_count ip x r ip' : entity_e_into_term_e pm s tx ip x = Ok (r, ip') -> ip_count ip' = ip_count ip.
  Proof using Type.
    destruct x as [[e|k]|t|a v|f]; simpl; intros H.
    - destruct (pm_contains pm e); [|done]. by injection H as <- <-.
    - by apply rbind_Ok in H as (? & _ & [= <- <-]).
    - by injection H as <- <-.
    - apply rbind_Ok in H as ([av ip1] & H & [= <- <-]). by apply lookup_count in H.
    - by apply rbind_Ok in H as (? & _ & [= <- <-]).
  Qed.
  Lemma e_v_count ip x r ip' : entity_e_into_term_v pm s tx ip x = Ok (r, ip') -> ip_count ip' = ip_count ip.
  Proof using Type. unfold entity_e_into_term_v. intros ([r0 ip1] & H & [= <- <-])%rbind_Ok. by apply e_count in H. Qed.
  Lemma v_e_count ip x fa r ip' : entity_v_into_term_e s tx ip x fa = Ok (r, ip') -> ip_count ip' = ip_count ip.
  Proof using Type.
    unfold entity_v_into_term_e. intros H. apply rbind_Ok in H as (? & _ & H). apply rbind_Ok in H as (? & _ & H).
    destruct (decide _); [|done]. destruct x as [n|t|la lv|f|vs|x|m]; try done.
    - by apply rbind_Ok in H as (? & _ & [= <- <-]).
    - by injection H as <- <-.
    - apply rbind_Ok in H as ([av ip1] & H & [= <- <-]). by apply lookup_count in H.
    - by apply rbind_Ok in H as (? & _ & [= <- <-]).
    - destruct (as_tempid x); [by injection H as <- <-|]. apply rbind_Ok in H as (tv & _ & H). destruct tv; try done. by injection H as <- <-.
  Qed.
  Lemma reversed_count ip v fa e t ip' : reversed_term pm s tx ip v fa e = Ok (t, ip') -> ip_count ip' = ip_count ip.
  Proof using Type.
    unfold reversed_term. intros H. apply rbind_Ok in H as ([re ip1] & H1 & H). apply rbind_Ok in H as (ra & _ & H).
    apply rbind_Ok in H as ([rv ip2] & H2 & [= <- <-]). apply v_e_count in H1. apply e_v_count in H2. congruence.
  Qed.

  (** Backward entities are flat if they are accepted. *)
  Lemma unreversed_cases a r : eoi_unreversed a = Ok r ->
    match r with
    | Some fa => exists k k', a = EIdent k /\ fa = EIdent k' /\ kw_unreversed k = Ok (Some k') /\ written_backward a = true
    | None => written_backward a = false
    end.
  Proof using Type.
    intros H. destruct a as [n|k]; simpl in *; [by injection H as <-|].
    unfold rmap in H. apply rbind_Ok in H as (o & Hk & [= <-]). unfold kw_unreversed in Hk.
    destruct (kw_is_backward k) eqn:E; [|injection Hk as <-; done].
    unfold rmap in Hk. pose proof Hk as Hk2. apply rbind_Ok in Hk as (k' & Hr & [= <-]). simpl. exists k, k'. split_and!; try done.
    unfold kw_unreversed. rewrite E. done.
  Qed.
  Lemma reversed_flat ip v fa e t ip' : reversed_term pm s tx ip v fa e = Ok (t, ip') -> not_nested v.
  Proof using Type.
    unfold reversed_term. intros H. apply rbind_Ok in H as ([re ip1] & H1 & _). unfold entity_v_into_term_e in H1.
    apply rbind_Ok in H1 as (n & _ & H1). apply rbind_Ok in H1 as (at_ & _ & H1). destruct (decide _); [|done]. by destruct v.
  Qed.
  Lemma reversed_reads o ip v e a fa t ip' : eoi_unreversed a = Ok (Some fa) -> reversed_term pm s tx ip v fa e = Ok (t, ip') ->
    flat (EntAdd o e a v) /\ R (EntAdd o e a v) t.
  Proof using Type.
    intros Hfa H. assert (flat (EntAdd o e a v)) as Hfl by (by eapply reversed_flat in H; destruct v). split; [done|].
    destruct (flat_process st pm s tx ip (EntAdd o e a v) [t] [] ip') as (_ & t' & [= <-] & Ht); [done| |exact Ht].
    simpl. rewrite Hfa. simpl. rewrite H. done.
  Qed.

  Lemma remove_db_id_id m id rest : remove_db_id m = Ok (id, rest) ->
    match id with Some d => map_id m d [] | None => forall i, map_id m (EPTempId (TInternal i)) [i] end.
  Proof using Type.
    unfold remove_db_id. destruct (list_find _ m) as [[i [k v]]|] eqn:E.
    - apply list_find_Some in E as (Hi & Hk & _). cbn [fst] in Hk. subst k. intros (d & Hd & [= <- _])%rbind_Ok. apply (id_given m v).
      + by eapply elem_of_list_lookup_2.
      + destruct v; simpl in *; try done; by injection Hd as <-.
    - intros [= <- _] i. apply id_own. intros v Hv. apply list_find_None in E. rewrite Forall_forall in E. by apply (E _ Hv).
  Qed.

  Lemma renamed d n k v es l own new : written_backward k = false -> reads_name s k n ->
    unfolds s (EntAdd OAdd d (EEntid n) v :: es) l own -> covers R l new ->
    exists l', unfolds s (EntAdd OAdd d k v :: es) l' own /\ covers R l' new.
  Proof using Type.
    intros Hb Hn H Hc.
    assert (forall v, flat (EntAdd OAdd d k v) -> forall t, R (EntAdd OAdd d (EEntid n) v) t -> R (EntAdd OAdd d k v) t) as Hsame.
    { intros w Hw t Ht t' Hres. specialize (Ht t' Hres). simpl in *. rewrite Hb. unfold reads_forward in *. destruct Ht as (at_ & Hn' & Ht).
      simpl in Hn'. exists at_. rewrite Hn' in *. done. }
    inversion H; subst.
    - match goal with U : unfolds s es _ _ |- _ => rename U into U end.
      eexists. split; [by apply un_flat|]. destruct (covers_cons_inv _ _ _ _ Hc) as (t & ts' & Ht & P & Hc').
      eapply covers_perm_r; [symmetry; exact P|]. apply (covers_app _ [_] _ [t]); [|done]. apply covers_one. by apply Hsame.
    - match goal with N : reads_name s (EEntid n) _ |- _ => simpl in N; subst end. eexists. split; [by eapply un_vector|done].
    - eexists. split; [by eapply un_nested|]. destruct (covers_cons_inv _ _ _ _ Hc) as (t & ts' & Ht & P & Hc').
      eapply covers_perm_r; [symmetry; exact P|]. apply (covers_app _ [_] _ [t]); [|done]. apply covers_one. apply Hsame; [|done].
      simpl. by destruct d0.
  Qed.

  Lemma nested_unfold db_id rest : forall dg ts pu ip dg' ts' pu' ip', rfold (nested_entry pm s tx db_id) (dg, ts, pu, ip) rest = Ok (dg', ts', pu', ip') ->
    ip_count ip' = ip_count ip /\ exists newts, ts' = ts ++ newts
    /\ forall es l own new, unfolds s (pu' ++ es) l own -> covers R l new ->
         exists l' own', unfolds s (map (fun p => EntAdd OAdd db_id p.1 p.2) rest ++ pu ++ es) l' own' /\ own ≡ₚ own' /\ covers R l' (newts ++ new).
  Proof using Type.
    induction rest as [|[k v] rest IH]; intros dg ts pu ip dg' ts' pu' ip' H; cbn [rfold] in H.
    { injection H as <- <- <- <-. split; [done|]. exists []. rewrite app_nil_r. split; [done|]. eauto. }
    apply rbind_Ok in H as (acc1 & H1 & H). unfold nested_entry in H1. cbn [fst snd] in H1. apply rbind_Ok in H1 as (o & Ho & H1).
    pose proof (unreversed_cases _ _ Ho) as Hcase. destruct o as [fa|].
    - apply rbind_Ok in H1 as ([t ip1] & Hr & [= <-]). destruct (IH _ _ _ _ _ _ _ _ H) as (Hc & newts & -> & Hun).
      split; [apply reversed_count in Hr; congruence|]. exists (t :: newts). rewrite <- app_assoc. split; [done|].
      destruct (reversed_reads OAdd _ _ _ _ _ _ _ Ho Hr) as [Hfl Hrd].
      intros es l own new U C. destruct (Hun es l own new U C) as (l' & own' & U' & P & C'). exists (EntAdd OAdd db_id k v :: l'), own'.
      split_and!; [by constructor|done|]. apply (covers_app _ [_] _ [t]); [by apply covers_one|done].
    - apply rbind_Ok in H1 as (a & Ha%name_Ok & H1). apply rbind_Ok in H1 as (at_ & _ & [= <-]). destruct (IH _ _ _ _ _ _ _ _ H) as (Hc & newts & -> & Hun).
      split; [done|]. exists newts. split; [done|].
      intros es l own new U C. destruct (Hun es l own new U C) as (l' & own' & U' & P & C').
      eapply unfolds_perm in U' as (l2 & own2 & U2 & Pl2 & Po2); [|symmetry; apply Permutation_middle].
      eapply covers_perm_l in C'; [|exact Pl2]. destruct (renamed _ _ _ _ _ _ _ _ Hcase Ha U2 C') as (l3 & U3 & C3).
      exists l3, own2. simpl. split_and!; [done|by rewrite P|done].
  Qed.

  Lemma place_value_reads d z : reads_entity st pm s tx d z -> reads_value st s tx (place_value d) VTRef (as_value z).
  Proof using Type.
    destruct d as [[e|k]|t|a v|f]; simpl.
    - intros [-> _]. simpl. eauto.
    - intros (e & -> & H). simpl. eauto.
    - by intros ->.
    - intros (e & -> & H). simpl. eauto.
    - intros [-> ->]. done.
  Qed.

  Lemma flat_count ip x ts pushed ip' : flat x -> process_entity pm s tx ip x = Ok (ts, pushed, ip') -> ip_count ip' = ip_count ip.
  Proof using Type.
    destruct x as [o e a v|m]; [|done]. simpl. intros Hfl H. apply rbind_Ok in H as ([fa|] & _ & H).
    - apply rbind_Ok in H as ([t ip1] & Hr & [= _ _ <-]). by apply reversed_count in Hr.
    - apply rbind_Ok in H as (n & _ & H). apply rbind_Ok in H as (at_ & _ & H). apply rbind_Ok in H as ([[[tv ts1] pu] ip1] & Hf & H).
      assert (ip_count ip1 = ip_count ip) as Hc.
      { destruct v as [m|t|la lv|f|vs|x|m]; simpl in Hf; try done.
        - by apply rbind_Ok in Hf as (? & _ & [= _ _ _ <-]).
        - by injection Hf as _ _ _ <-.
        - destruct (decide _); [|done]. apply rbind_Ok in Hf as ([? ?] & Hl & [= _ _ _ <-]). by apply lookup_count in Hl.
        - apply rbind_Ok in Hf as (? & _ & Hf). destruct (decide _); [|done]. by injection Hf as _ _ _ <-.
        - destruct (if decide _ then _ else _); [by injection Hf as _ _ _ <-|]. by apply rbind_Ok in Hf as (? & _ & [= _ _ _ <-]). }
      destruct tv as [tv|]; [|injection H as _ _ <-; done]. apply rbind_Ok in H as ([te ip2] & He & [= _ _ <-]). apply e_count in He. congruence.
  Qed.

  Lemma unfold_stage1 fuel : forall deque terms ip ts ip', stage1_loop pm s tx fuel deque terms ip = Ok (ts, ip') ->
    exists new l own, ts = terms ++ new /\ unfolds s deque l own /\ NoDup own
      /\ (forall i, i ∈ own -> ip_count ip < i <= ip_count ip') /\ ip_count ip <= ip_count ip' /\ covers R l new.
  Proof using Type.
    assert (forall (terms : list term_lt) ip, exists new l own, terms = terms ++ new /\ unfolds s [] l own /\ NoDup own
      /\ (forall i, i ∈ own -> ip_count ip < i <= ip_count ip) /\ ip_count ip <= ip_count ip /\ covers R l new) as Hnil.
    { intros terms ip. exists [], [], []. rewrite app_nil_r. split_and!; [done|constructor|constructor| |lia|apply covers_nil]. by intros ? ?%elem_of_nil. }
    induction fuel as [|fuel IH]; intros [|x deque] terms ip ts ip' H; cbn [stage1_loop] in H; [by injection H as <- <-|done|by injection H as <- <-|].
    apply rbind_Ok in H as ([[ts1 pushed] ip1] & Hp & H). destruct (IH _ _ _ _ _ H) as (new & l & own & -> & U & Nd & Hr & Hle & C). clear IH H.
    assert (forall x, flat x -> process_entity pm s tx ip x = Ok (ts1, pushed, ip1) ->
      exists new0 l0 own0, terms ++ ts1 ++ new = terms ++ new0 /\ unfolds s (x :: deque) l0 own0 /\ NoDup own0
        /\ (forall i, i ∈ own0 -> ip_count ip < i <= ip_count ip') /\ ip_count ip <= ip_count ip' /\ covers R l0 new0) as Hflat.
    { clear Hp x. intros x Hx Hp. assert (ip_count ip1 = ip_count ip) as Hcnt by (by eapply flat_count).
      destruct (flat_process st _ _ _ _ _ _ _ _ Hx Hp) as (-> & t & -> & Ht). simpl in U. exists (t :: new), (x :: l), own.
      split_and!; [done|by constructor|done| |lia|apply (covers_app _ [_] _ [t]); [by apply covers_one|done]].
      intros i Hi%Hr. lia. }
    rewrite <- app_assoc. destruct x as [o e a v|m].
    - destruct v as [n|t|la lv|f|vs|x|m]; try (by apply Hflat).
      + simpl in Hp. apply rbind_Ok in Hp as (fa & Hfa & Hp). pose proof (unreversed_cases _ _ Hfa) as Hcase. destruct fa as [fa|].
        { apply rbind_Ok in Hp as ([t ip2] & Hrv & _). by apply reversed_flat in Hrv. }
        apply rbind_Ok in Hp as (n & Hn%name_Ok & Hp). apply rbind_Ok in Hp as (at_ & _ & Hp).
        destruct (at_multival at_); [|done]. simpl in Hp. injection Hp as <- <- <-.
        apply unfolds_split in U as (l1 & l2 & o1 & o2 & -> & -> & U1 & U2).
        eapply unfolds_perm in U1 as (l1' & o1' & U1' & Pl & Po); [|symmetry; apply Permutation_rev].
        exists new, (l1' ++ l2), (o1' ++ o2). split_and!; [done|by eapply un_vector|by rewrite <- Po|..].
        * intros i. rewrite <- Po. apply Hr.
        * done.
        * eapply covers_perm_l; [|exact C]. by rewrite Pl.
      + destruct o; [|simpl in Hp].
        2:{ apply rbind_Ok in Hp as (fa & Hfa & Hp). destruct fa as [fa|].
            { apply rbind_Ok in Hp as ([t ip2] & Hrv & _). by apply reversed_flat in Hrv. }
            apply rbind_Ok in Hp as (n & _ & Hp). by apply rbind_Ok in Hp as (at_ & _ & Hp). }
        cbn [process_entity] in Hp. apply rbind_Ok in Hp as (fa & Hfa & Hp). pose proof (unreversed_cases _ _ Hfa) as Hcase. destruct fa as [fa|].
        { apply rbind_Ok in Hp as ([t ip2] & Hrv & _). by apply reversed_flat in Hrv. }
        apply rbind_Ok in Hp as (n & Hn%name_Ok & Hp). apply rbind_Ok in Hp as (at_ & Hat%ok_or_Ok & Hp).
        apply rbind_Ok in Hp as ([[[tv terms1] pu] ip2] & Hf & Hp). cbn [forward_value] in Hf.
        destruct (decide _) as [Href|]; [|done]. apply rbind_Ok in Hf as ([id rest] & Hrm & Hf).
        pose proof (remove_db_id_id _ _ _ Hrm) as Hid. apply remove_db_id_Ok in Hrm.
        assert (exists d own0 ip3, (match id with Some x => (x, ip) | None => allocate_mentat_id ip end) = (d, ip3) /\ map_id m d own0
          /\ NoDup own0 /\ ip_count ip <= ip_count ip3 /\ forall i, i ∈ own0 -> ip_count ip < i <= ip_count ip3) as (d & own0 & ip3 & Ed & Hd & Nd0 & Hle0 & Hown0).
        { destruct id as [d|].
          - exists d, [], ip. split_and!; try done; try lia; [constructor|]. by intros ? ?%elem_of_nil.
          - eexists _, [ip_count ip + 1], _. split_and!; [done|apply Hid|apply NoDup_singleton|simpl; lia|].
            intros i ->%elem_of_list_singleton. simpl. lia. }
        rewrite Ed in Hf. clear Ed Hid. apply rbind_Ok in Hf as ([[[dg ts2] pu2] ip4] & Hn2 & Hf). destruct dg; [done|].
        apply rbind_Ok in Hf as ([rv ip5] & Hrv & [= <- <- <- <-]).
        apply rbind_Ok in Hp as ([te ip6] & He & [= <- <- <-]).
        apply nested_unfold in Hn2 as (Hcnt & newts & -> & Hun). destruct (Hun _ _ _ _ U C) as (l' & own' & U' & Po & C'). simpl in U', C'.
        apply unfolds_split in U' as (l1 & l2 & o1 & o2 & -> & -> & U1 & U2). subst rest.
        pose proof (e_v_count _ _ _ _ Hrv) as C5. pose proof (e_count _ _ _ _ He) as C6.
        exists ((newts ++ [Term OAdd te n rv]) ++ new), (EntAdd OAdd e a (place_value d) :: l1 ++ l2), (own0 ++ o1 ++ o2).
        split_and!; [done|by eapply un_nested|..].
        * rewrite <- Po. apply NoDup_app. split_and!; [done| |done]. intros i H1%Hown0 H2%Hr. lia.
        * intros i. rewrite <- Po, elem_of_app. intros [H1%Hown0|H2%Hr]; lia.
        * lia.
        * eapply covers_perm_r; [|apply (covers_app _ [EntAdd OAdd e a (place_value d)] _ [Term OAdd te n rv]); [|exact C']].
          { rewrite <- app_assoc. simpl. by rewrite Permutation_middle. }
          apply covers_one. intros t' (Ho & Ha & Het & Hvt). simpl in *. rewrite Hcase.
          destruct (entity_v_Ok st _ _ _ _ _ _ _ _ Hrv Hvt) as (z & Ez & Hz).
          exists at_. rewrite Ha, Href. split_and!; try done; [by eapply entity_Ok|rewrite Ez; by apply place_value_reads].
    - cbn [process_entity] in Hp. apply rbind_Ok in Hp as ([id rest] & Hrm & Hp).
      pose proof (remove_db_id_id _ _ _ Hrm) as Hid. apply remove_db_id_Ok in Hrm.
      assert (exists d own0 ip3, (match id with Some x => (x, ip) | None => allocate_mentat_id ip end) = (d, ip3) /\ map_id m d own0
        /\ NoDup own0 /\ ip_count ip <= ip_count ip3 /\ forall i, i ∈ own0 -> ip_count ip < i <= ip_count ip3) as (d & own0 & ip3 & Ed & Hd & Nd0 & Hle0 & Hown0).
      { destruct id as [d|].
        - exists d, [], ip. split_and!; try done; try lia; [constructor|]. by intros ? ?%elem_of_nil.
        - eexists _, [ip_count ip + 1], _. split_and!; [done|apply Hid|apply NoDup_singleton|simpl; lia|].
          intros i ->%elem_of_list_singleton. simpl. lia. }
      rewrite Ed in Hp. injection Hp as <- <- <-. simpl.
      apply unfolds_split in U as (l1 & l2 & o1 & o2 & -> & -> & U1 & U2).
      eapply unfolds_perm in U1 as (l1' & o1' & U1' & Pl & Po); [|symmetry; apply Permutation_rev]. subst rest.
      exists new, (l1' ++ l2), (own0 ++ o1' ++ o2). split_and!; [done|by eapply un_map|..].
      * rewrite <- Po. apply NoDup_app. split_and!; [done| |done]. intros i H1%Hown0 H2%Hr. lia.
      * intros i. rewrite <- Po, elem_of_app. intros [H1%Hown0|H2%Hr]; lia.
      * lia.
      * eapply covers_perm_l; [|exact C]. by rewrite Pl.
  Qed.
End stage1.

(** What a transaction's entities read as *)
Lemma entities_reads mv st pm s tx es ts ids : entities_to_terms mv st pm s tx es = Ok (ts, ids) ->
  exists l, stands_for s es l /\ covers (reads st pm s tx) l ts.
Proof.
  unfold entities_to_terms. intros H. apply rbind_Ok in H as ([tl ip] & H1 & H). apply rbind_Ok in H as (look & Hl & H).
  apply rbind_Ok in H as (ts1 & H2 & [= <- <-]). assert (look = resolve_av st) as ->.
  { unfold resolve_avs in Hl. destruct (_ || _)%bool; [by injection Hl|done]. }
  unfold stage1 in H1. apply (unfold_stage1 st) in H1 as (new & l & own & -> & U & Nd & _ & _ & C). simpl in H2. apply resolve_refs_Ok in H2.
  exists l. split; [by exists own|]. eapply covers_impl; [|exact C|exact H2]. intros x t u Hx Ht. by apply Hx.
Qed.

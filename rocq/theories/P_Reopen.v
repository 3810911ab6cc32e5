(** What opening an existing store reads, and the schema along histories of a file. *)
From Verif Require Import M_Conn Spec_Value Spec_Partition Spec_Tx Spec_Conn Spec_Schema
  P_Base P_Value P_Partition P_Store P_Fill P_Step P_Meta P_Inv P_Conn P_Schema P_SchemaStep.

(* ---------------------------------------------------------------- attributes *)

Lemma built_stated (V : fact -> Prop) e b :
  (forall a, a ∈ SCHEMA_LIST -> (exists v, bview b a = Some (Some v) /\ forall p, V (e, a, p) <-> p = to_sql_value_pair v)
                             \/ (bview b a = None /\ forall p, ~ V (e, a, p))) ->
  bview b DB_NO_HISTORY = None -> is_Some (b_type b) -> stated V e (build b).
Proof.
  intros C Hnh [t Et]. rewrite bview_history in Hnh. apply fmap_None in Hnh.
  pose proof (C DB_VALUE_TYPE in_type) as Ct. rewrite bview_type in Ct.
  pose proof (C DB_CARDINALITY in_card) as Cc. rewrite bview_card in Cc.
  pose proof (C DB_UNIQUE in_unique) as Cu. rewrite bview_unique in Cu.
  pose proof (C DB_INDEX in_index) as Ci. rewrite bview_index in Ci.
  pose proof (C DB_FULLTEXT in_fulltext) as Cf. rewrite bview_fulltext in Cf.
  pose proof (C DB_IS_COMPONENT in_component) as Cm. rewrite bview_component in Cm.
  clear C. unfold build. rewrite Et.
  split; cbn [at_type at_multival at_unique at_index at_fulltext at_component at_no_history default from_option id].
  - rewrite Et in Ct. destruct Ct as [(v & Hv & Hq)|[? _]]; [|done]. by eapply (type_set (Some t) (fun p => V (e, DB_VALUE_TYPE, p))).
  - destruct Cc as [(v & Hv & Hq)|[Hb Hq]]; [by eapply (card_set (fun p => V (e, DB_CARDINALITY, p)))|].
    apply fmap_None in Hb as ->. split; [done|]. by intros Hx%Hq.
  - intros u. destruct Cu as [(v & Hv & Hq)|[Hb Hq]]; [by apply (unique_set (fun p => V (e, DB_UNIQUE, p)) _ v)|].
    apply fmap_None in Hb as ->. split; [done|]. by intros Hx%Hq.
  - destruct Ci as [(v & Hv & Hq)|[Hb Hq]]; [by eapply (bool_set (fun p => V (e, DB_INDEX, p)))|].
    apply fmap_None in Hb as ->. split; [done|]. by intros Hx%Hq.
  - destruct Cf as [(v & Hv & Hq)|[Hb Hq]]; [by eapply (bool_set (fun p => V (e, DB_FULLTEXT, p)))|].
    apply fmap_None in Hb as ->. split; [done|]. by intros Hx%Hq.
  - destruct Cm as [(v & Hv & Hq)|[Hb Hq]]; [by eapply (bool_set (fun p => V (e, DB_IS_COMPONENT, p)))|].
    apply fmap_None in Hb as ->. split; [done|]. by intros Hx%Hq.
  - by rewrite Hnh.
Qed.

Lemma attribute_validate_valid at_ : attribute_validate at_ = Ok tt <-> valid_attribute at_.
Proof.
  unfold attribute_validate, valid_attribute. destruct at_ as [t mu un ix ft co nh]. simpl.
  destruct un as [u|], ix, ft, co; simpl; repeat case_bool_decide; simpl; split; try done; intros; try done;
    try (split_and!; try done; try (intros [? ?]; done)); try naive_solver; try (destruct H as (H1 & H2 & H3); try (by apply H1; eauto); naive_solver).
Qed.
Lemma attribute_validate_Err at_ : attribute_validate at_ = Ok tt \/ attribute_validate at_ = Err EBadSchemaAssertion.
Proof. unfold attribute_validate. repeat case_match; auto. Qed.

Definition attribute_ok (at_ : attribute) : bool := match attribute_validate at_ with Ok _ => true | _ => false end.
Lemma attribute_ok_validate at_ : attribute_ok at_ = true <-> attribute_validate at_ = Ok tt.
Proof. unfold attribute_ok. destruct (attribute_validate at_) as [[]| |]; split; done. Qed.

Lemma apply_builders_all l : forall m rep, NoDup l.*1 ->
  (forall e b, (e, b) ∈ l -> m !! e = None /\ validate_install b = Ok tt /\ attribute_validate (build b) = Ok tt) ->
  exists m' rep', rfold apply_builder (m, rep) l = Ok (m', rep').
Proof.
  induction l as [|[e b] l IH]; intros m rep Hn H; cbn [rfold]; [eauto|]. apply NoDup_cons in Hn as [Hx Hn].
  destruct (H e b) as (Hm & Hi & Hv); [by left|]. unfold apply_builder at 1. rewrite Hm, Hi. cbn [rbind]. rewrite Hv. cbn [rbind].
  apply IH; [done|]. intros e' b' Hin. destruct (H e' b') as (Hm' & Hi' & Hv'); [by right|]. split_and!; try done.
  rewrite lookup_insert_ne; [done|]. intros ->. apply Hx. apply elem_of_list_fmap. by exists (e', b').
Qed.
Lemma apply_builders_bad l : forall m rep, NoDup l.*1 ->
  (forall e b, (e, b) ∈ l -> m !! e = None /\ validate_install b = Ok tt) ->
  (exists e b, (e, b) ∈ l /\ attribute_validate (build b) <> Ok tt) ->
  rfold apply_builder (m, rep) l = Err EBadSchemaAssertion.
Proof.
  induction l as [|[e b] l IH]; intros m rep Hn H Hex; cbn [rfold]; [destruct Hex as (? & ? & Hin & _); by apply elem_of_nil in Hin|].
  apply NoDup_cons in Hn as [Hx Hn]. destruct (H e b) as (Hm & Hi); [by left|]. unfold apply_builder at 1. rewrite Hm, Hi. cbn [rbind].
  destruct (attribute_validate_Err (build b)) as [Hv|Hv]; rewrite Hv; cbn [rbind]; [|done].
  apply IH; [done| |].
  - intros e' b' Hin. destruct (H e' b') as (Hm' & Hi'); [by right|]. split_and!; try done.
    rewrite lookup_insert_ne; [done|]. intros ->. apply Hx. apply elem_of_list_fmap. by exists (e', b').
  - destruct Hex as (e' & b' & [[= -> ->]|Hin]%elem_of_cons & Hb); [done|]. eauto.
Qed.
Lemma assert_fold_total A : forall bs, (forall e a v, (e, a, v) ∈ A -> recognised a v) -> exists bs', rfold assert_one bs A = Ok bs'.
Proof.
  induction A as [|[[e a] v] A IH]; intros bs H; cbn [rfold]; [eauto|]. unfold assert_one at 1.
  destruct (recognised_Ok (default builder_default (bs !! e)) a v) as [b Hb]; [apply (H e); by left|]. rewrite Hb. cbn [rbind].
  apply IH. intros e' a' v' Hin. apply (H e'). by right.
Qed.

Lemma recognised_read a v p : recognised a v -> p = to_sql_value_pair v -> from_sql_value_pair p.1 p.2 = Ok v.
Proof.
  intros [b H] ->. unfold assert_builder in H.
  repeat (case_decide; [destruct v as [|bo| | | | | |]; try done; by destruct bo|]). done.
Qed.

Lemma read_view_total rows : (forall r, r ∈ rows -> exists w, from_sql_value_pair r.1.2 r.2 = Ok w) ->
  exists A, read_materialized_view rows = Ok A /\ A.*1 = map (fun r : mrow => (r.1.1.1, r.1.1.2)) rows
    /\ (forall e a v, (e, a, v) ∈ A <-> exists r, r ∈ rows /\ r.1.1 = (e, a) /\ from_sql_value_pair r.1.2 r.2 = Ok v).
Proof.
  unfold read_materialized_view. induction rows as [|[[[e a] v] t] rows IH]; intros H.
  - exists []. split_and!; try done. intros. split; [by intros ?%elem_of_nil|]. intros (r & Hr & _). by apply elem_of_nil in Hr.
  - destruct IH as (A & HA & HA1 & HA2); [intros; apply H; by right|]. destruct (H (e, a, v, t)) as [w Hw]; [by left|]. simpl in Hw.
    exists ((e, a, w) :: A). cbn [rmapM]. rewrite Hw. cbn [rbind]. rewrite HA. cbn [rbind]. split_and!; [done|simpl; by f_equal|].
    intros e' a' v'. rewrite elem_of_cons, HA2. split.
    + intros [[= -> -> ->]|(r & Hr & E & F)]; [exists (e, a, v, t); split; [by left|done]|exists r; split; [by right|done]].
    + intros (r & [->|Hr]%elem_of_cons & E & F); [left; simpl in *; congruence|right; eauto].
Qed.

Lemma known_read st a e p : known (view_facts st) -> a ∈ SCHEMA_LIST -> view_facts st (e, a, p) ->
  exists v, p = to_sql_value_pair v /\ recognised a v /\ from_sql_value_pair p.1 p.2 = Ok v.
Proof. intros K Ha Hv. destruct (K e a p Ha Hv) as (v & Hp & Hr). exists v. split_and!; try done. by eapply recognised_read. Qed.

(** The attributes that are read are those in memory, provided they are valid. *)
Lemma read_attributes st s : meta_ok st s ->
  read_attribute_map st = if decide (map_Forall (fun _ at_ => attribute_ok at_ = true) (sc_attribute_map s))
                          then Ok (sc_attribute_map s) else Err EBadSchemaAssertion.
Proof.
  intros [_ _ [V1 V1'] V2 V3 V4 V5 _]. unfold read_attribute_map.
  assert (forall r : mrow, r ∈ st_schema st -> exists v, r.1.1.2 ∈ SCHEMA_LIST /\ (r.1.2, r.2) = to_sql_value_pair v
     /\ recognised r.1.1.2 v /\ from_sql_value_pair r.1.2 r.2 = Ok v) as Hrow.
  { intros [[[e a] v] t] Hr. assert (view_facts st (e, a, (v, t))) as Hv by exact Hr. pose proof (V4 _ _ _ Hv) as Ha.
    destruct (known_read st a e (v, t) V3 Ha Hv) as (w & E & R & F). exists w. done. }
  destruct (read_view_total (st_schema st)) as (A & HA & HA1 & HA2).
  { intros r Hr. destruct (Hrow r Hr) as (v & _ & _ & _ & F). eauto. }
  assert (forall e a v, (e, a, v) ∈ A -> a ∈ SCHEMA_LIST /\ recognised a v /\ view_facts st (e, a, to_sql_value_pair v)) as HAV.
  { intros e a v (r & Hr & E & F)%HA2. destruct (Hrow r Hr) as (w & Ha & Hw & Hrec & F2). rewrite F in F2. injection F2 as <-.
    rewrite E in *. split_and!; try done. unfold view_facts. rewrite <- Hw. cbn [fst snd]. destruct r as [[[? ?] ?] ?]. simpl in *. congruence. }
  assert (forall e a p, view_facts st (e, a, p) -> exists v, p = to_sql_value_pair v /\ (e, a, v) ∈ A) as HVA.
  { intros e a p Hv. pose proof (V4 _ _ _ Hv) as Ha. destruct (known_read st a e p V3 Ha Hv) as (v & E & _ & F). exists v. split; [done|].
    apply HA2. exists (e, a, p.1, p.2). done. }
  rewrite HA. cbn [rbind]. unfold update_attribute_map_from_entid_triples. cbn [rfold rbind].
  destruct (assert_fold_total A ∅) as [bs Hbs]; [intros e a v Hin; by apply HAV in Hin as (_ & ? & _)|]. rewrite Hbs. cbn [rbind].
  assert (NoDup A.*1) as nA by (by rewrite HA1).
  pose proof (assert_fold A ∅ bs nA Hbs) as HF.
  assert (forall e b, bs !! e = Some b -> is_Some (b_type b) /\ sc_attribute_map s !! e = Some (build b)) as Hb.
  { intros e b Hb. destruct (HF e) as (F1 & F2 & F3 & _). destruct (mentions_dec A e) as [(a0 & v0 & Hin0)|Hno].
    2:{ rewrite F3, lookup_empty in Hb by naive_solver. done. }
    rewrite Hb in F1, F2. rewrite lookup_empty in F2. cbn [default from_option id] in F1, F2.
    destruct (HAV _ _ _ Hin0) as (Ha0 & _ & Hv0). destruct (V1' _ _ _ Hv0 Ha0) as [at_ Hat].
    pose proof (V1 _ _ Hat) as Hst. destruct (HVA _ _ _ (sd_type _ _ _ Hst)) as (vt & Evt & Hint).
    assert (is_Some (b_type b)) as Hbt.
    { apply F1 in Hint as [_ Hbv]. rewrite bview_type in Hbv. apply fmap_Some in Hbv as (t & -> & _). eauto. }
    split; [done|]. rewrite Hat. f_equal. apply (stated_unique (view_facts st) e); [done|done|]. apply built_stated; [| |done].
    - intros a Ha. destruct (about_dec A e a) as [[v Hv]|Hn].
      + left. exists v. split; [by apply F1|]. destruct (HAV _ _ _ Hv) as (_ & _ & Hvf). intros p. split; [intros Hp; by eapply V2|by intros ->].
      + right. split; [rewrite F2 by done; unfold SCHEMA_LIST in Ha; rewrite !elem_of_cons, elem_of_nil in Ha; naive_solver|].
        intros p Hp. destruct (HVA _ _ _ Hp) as (v & _ & Hv). by destruct (Hn v).
    - rewrite F2; [done|]. intros v Hin. apply HAV in Hin as [Hx _]. by apply (bool_decide_eq_true_2 _) in Hx. }
  assert (forall e at_, sc_attribute_map s !! e = Some at_ -> exists b, bs !! e = Some b) as Hbm.
  { intros e at_ Hat. destruct (HVA _ _ _ (sd_type _ _ _ (V1 _ _ Hat))) as (v & _ & Hin). destruct (HF e) as (F1 & _). destruct (F1 _ _ Hin) as [[b Hbb] _]. eauto. }
  assert (forall e b, (e, b) ∈ sorted_e bs -> (∅ : gmap Z attribute) !! e = None /\ validate_install b = Ok tt) as Hins.
  { intros e b Hin. apply sorted_e_elem, Hb in Hin as [[t Ht] _]. split; [apply lookup_empty|]. unfold validate_install. by rewrite Ht. }
  case_decide as Hval.
  - destruct (apply_builders_all (sorted_e bs) ∅ (MReport [] [] [])) as (m' & rep' & Hm').
    { apply sorted_e_nodup. }
    { intros e b Hin. destruct (Hins e b Hin) as [? ?]. split_and!; try done. apply sorted_e_elem, Hb in Hin as [_ Hin]. apply attribute_ok_validate. by apply (Hval e). }
    rewrite Hm'. cbn [rbind]. f_equal. apply map_eq. intros e. pose proof (apply_builders_exact _ _ _ _ _ (sorted_e_nodup bs) Hm' e) as [B1 B2].
    destruct (sc_attribute_map s !! e) as [at_|] eqn:Hat.
    + destruct (Hbm _ _ Hat) as [b Hbe]. specialize (B2 b). rewrite lookup_empty in B2. destruct B2 as (_ & _ & ->); [by apply sorted_e_elem|].
      destruct (Hb _ _ Hbe) as [_ Hx]. congruence.
    + rewrite B1, lookup_empty; [done|]. intros ([e' b] & -> & Hin)%elem_of_list_fmap. apply sorted_e_elem, Hb in Hin as [_ Hx]. simpl in *. congruence.
  - rewrite (apply_builders_bad (sorted_e bs)); [done|apply sorted_e_nodup|done|].
    destruct (proj1 (map_not_Forall (K := Z) (M := gmap Z) (H7 := fun _ at_ => decide (attribute_ok at_ = true)) (fun (_ : Z) at_ => attribute_ok at_ = true) (sc_attribute_map s)) Hval) as (e & at_ & Hat & Hbad). destruct (Hbm _ _ Hat) as [b Hbe]. exists e, b. split; [by apply sorted_e_elem|].
    destruct (Hb _ _ Hbe) as [_ Hx]. rewrite <- attribute_ok_validate. congruence.
Qed.

(* ---------------------------------------------------------------- idents *)

Lemma ident_rows_fold (f : gmap keyword Z -> eav -> res (gmap keyword Z)) l :
  f = (fun m (r : eav) =>
    let '(e, a, v) := r in
    if decide (a = DB_IDENT) then
      match v with TVKeyword k => Ok (<[k := e]> m) | _ => Err ENotYetImplemented end
    else Err ENotYetImplemented) ->
  (forall r : eav, r ∈ l -> exists e k, r = (e, DB_IDENT, TVKeyword k)) ->
  (forall e1 e2 k, (e1, DB_IDENT, TVKeyword k) ∈ l -> (e2, DB_IDENT, TVKeyword k) ∈ l -> e1 = e2) -> forall m,
  exists m', rfold f m l = Ok m' /\ forall k, (forall e, (e, DB_IDENT, TVKeyword k) ∈ l -> m' !! k = Some e)
    /\ ((forall e, (e, DB_IDENT, TVKeyword k) ∉ l) -> m' !! k = m !! k).
Proof.
  intros ->. induction l as [|r l IH]; intros Hrow Hinj m; cbn [rfold].
  - exists m. split; [done|]. intros k. split; [intros e Hin; by apply elem_of_nil in Hin|done].
  - destruct (Hrow r) as (e & k & ->); [by left|]. rewrite decide_True by done. cbn [rbind].
    destruct (IH ltac:(intros; apply Hrow; by right) ltac:(intros e1 e2 k' H1 H2; apply (Hinj e1 e2 k'); by right) (<[k := e]> m)) as (m' & Hm' & Hk).
    exists m'. split; [done|]. intros k'. destruct (Hk k') as [K1 K2]. split.
    + intros e' [[= -> ->]|Hin]%elem_of_cons; [|by apply K1].
      destruct (decide ((e, DB_IDENT, TVKeyword k) ∈ l)) as [Hin|Hin]; [by apply K1|].
      rewrite K2, lookup_insert; [done|]. intros e2 Hin2. rewrite (Hinj e2 e k) in Hin2; [done|by right|by left].
    + intros Hno. rewrite K2 by set_solver. rewrite lookup_insert_ne; [done|]. intros ->. apply (Hno e). by left.
Qed.

Lemma entid_map_exact (im : gmap keyword Z) : (forall k1 k2 e, im !! k1 = Some e -> im !! k2 = Some e -> k1 = k2) ->
  forall e k, entid_map_of im !! e = Some k <-> im !! k = Some e.
Proof.
  intros Hinj. unfold entid_map_of. set (l := merge_sort _ _).
  assert (forall p, p ∈ l <-> im !! p.1 = Some p.2) as Hl.
  { intros [k e]. unfold l. rewrite merge_sort_elem. by rewrite elem_of_map_to_list. }
  assert (forall l (m : gmap Z keyword), (forall k1 k2 e, (k1, e) ∈ l -> (k2, e) ∈ l -> k1 = k2) -> forall e k,
    fold_left (fun m (p : keyword * Z) => <[p.2 := p.1]> m) l m !! e = Some k <-> (k, e) ∈ l \/ ((forall k, (k, e) ∉ l) /\ m !! e = Some k)) as K.
  { clear. induction l as [|[k0 e0] l IH]; intros m Hinj e k; cbn [fold_left fst snd].
    - split; [intros H; right; split; [intros ? ?%elem_of_nil; done|done]|intros [H|[_ H]]; [by apply elem_of_nil in H|done]].
    - rewrite IH by (intros k1 k2 e' H1 H2; apply (Hinj k1 k2 e'); by right). split.
      + intros [H|[Hn H]]; [left; by right|]. destruct (decide (e0 = e)) as [->|Hne].
        * rewrite lookup_insert in H. injection H as ->. left. by left.
        * rewrite lookup_insert_ne in H by done. right. split; [|done]. intros k'. rewrite elem_of_cons. intros [[= -> ->]|Hx]; [done|by apply (Hn k')].
      + intros [[[= -> ->]|H]%elem_of_cons|[Hn H]]; [|by left|].
        * destruct (decide ((k0, e0) ∈ l)) as [Hin|Hin]; [by left|]. right. rewrite lookup_insert. split; [|done].
          intros k' Hk'. rewrite (Hinj k' k0 e0) in Hk'; [done|by right|by left].
        * right. assert (e0 <> e) as Hne by (intros ->; apply (Hn k0); by left). rewrite lookup_insert_ne by done. split; [|done]. intros k' Hk'. apply (Hn k'). by right. }
  intros e k. rewrite K.
  - rewrite Hl. simpl. split; [intros [?|[_ H]]; [done|by rewrite lookup_empty in H]|by left].
  - intros k1 k2 e' H1%Hl H2%Hl. by eapply Hinj.
Qed.

Lemma read_idents st s n : store_ok (sc_attribute_map s) st n -> schema_ok st s -> idents_tidy (st_log st) ->
  exists im, read_ident_map st = Ok im /\ im = sc_ident_map s /\ entid_map_of im = sc_entid_map s.
Proof.
  intros H0 [Hm Hcore] Ht. destruct Hm as [[_ [I1 I2] _] _ _ _ _ _ _ Hi]. unfold read_ident_map.
  assert (forall r : mrow, r ∈ st_idents st -> exists e k, r.1.1 = (e, DB_IDENT) /\ from_sql_value_pair r.1.2 r.2 = Ok (TVKeyword k) /\ named (fun x => x ∈ facts st) e k) as Hrow.
  { intros [[[e a] v] t] Hr. apply Hi in Hr as [-> Hr]. destruct (ident_fact_named _ st n H0 Hcore e (v, t) Ht Hr) as (k & E & Hn).
    exists e, k. split_and!; try done. change (from_sql_value_pair (v, t).1 (v, t).2 = Ok (TVKeyword k)). rewrite E.
    change (rmap TVKeyword (to_namespaced_keyword (kw_to_string k)) = Ok (TVKeyword k)). destruct Hn as [Hs _]. by rewrite (keyword_roundtrip k Hs). }
  destruct (read_view_total (st_idents st)) as (A & HA & _ & HA2).
  { intros r Hr. destruct (Hrow r Hr) as (e & k & _ & F & _). eauto. }
  rewrite HA. cbn [rbind].
  assert (forall e k, (e, DB_IDENT, TVKeyword k) ∈ A <-> named (fun x => x ∈ facts st) e k) as HN.
  { intros e k. rewrite HA2. split.
    - intros (r & Hr & E & F). destruct (Hrow r Hr) as (e' & k' & E' & F' & Hn). rewrite E in E'. rewrite F in F'. by simplify_eq.
    - intros Hn. exists (e, DB_IDENT, (keyword_value k).1, (keyword_value k).2). split_and!; [|done|].
      + apply Hi. split; [done|]. destruct Hn as [_ Hn]. exact Hn.
      + change (rmap TVKeyword (to_namespaced_keyword (kw_to_string k)) = Ok (TVKeyword k)). destruct Hn as [Hs _]. by rewrite (keyword_roundtrip k Hs). }
  edestruct (ident_rows_fold _ A eq_refl) with (m := ∅ : gmap keyword Z) as (im & Him & Hk).
  { intros [[e a] v] Hin. apply HA2 in Hin as (r & Hr & E & F). destruct (Hrow r Hr) as (e' & k' & E' & F' & Hn). rewrite E in E'. rewrite F in F'. simplify_eq. eauto. }
  { intros e1 e2 k N1%HN N2%HN. by eapply (facts_inj _ st n H0 Hcore). }
  exists im. assert (im = sc_ident_map s) as Eim.
  { apply map_eq. intros k. destruct (Hk k) as [K1 K2]. apply option_eq. intros e. rewrite I2, <- HN. split.
    - intros Hx. destruct (sc_ident_map s !! k) as [e'|] eqn:Es.
      + apply I2, HN in Es. pose proof (K1 _ Es) as Hx'. rewrite Hx in Hx'. by simplify_eq.
      + rewrite K2 in Hx; [by rewrite lookup_empty in Hx|]. intros e' Hin. apply HN, I2 in Hin. congruence.
    - intros Hin. by apply K1. }
  split_and!; [exact Him|done|]. apply map_eq. intros e. apply option_eq. intros k. rewrite entid_map_exact, Eim, I1, I2; [done|].
  intros k1 k2 e' H1 H2. rewrite Eim in H1, H2. apply I2 in H1, H2. by eapply (facts_one _ st n H0 Hcore).
Qed.

Lemma validate_map_ok (m : gmap Z attribute) : map_Forall (fun _ at_ => attribute_ok at_ = true) m -> validate_attribute_map m = Ok tt.
Proof.
  intros H. unfold validate_attribute_map. assert (forall p, p ∈ map_to_list m -> attribute_validate p.2 = Ok tt) as Hl.
  { intros [e at_] Hin%elem_of_map_to_list. apply attribute_ok_validate. by apply (H e). }
  revert Hl. generalize (map_to_list m). induction l as [|p l IH]; intros Hl; cbn [rfold]; [done|]. rewrite Hl by by left. cbn [rbind]. apply IH.
  intros. apply Hl. by right.
Qed.

(** Opening the file reads the schema that is in memory, if its attributes are valid, and fails if one is not. *)
Lemma read_db_schema st s n : store_ok (sc_attribute_map s) st n -> schema_ok st s -> idents_tidy (st_log st) ->
  read_db st = let! pm := read_partition_map st in
    if decide (map_Forall (fun _ at_ => attribute_ok at_ = true) (sc_attribute_map s)) then Ok (pm, s) else Err EBadSchemaAssertion.
Proof.
  intros H0 Hs Ht. unfold read_db. destruct (read_partition_map st) as [pm| |]; cbn [rbind]; try done.
  destruct (read_idents _ _ _ H0 Hs Ht) as (im & Him & Eim & Eem). rewrite Him. cbn [rbind].
  rewrite (read_attributes st s) by apply Hs. case_decide as Hv; cbn [rbind]; [|done].
  unfold from_ident_map_and_attribute_map. rewrite (validate_map_ok _ Hv). cbn [rbind]. do 2 f_equal. rewrite Eem, Eim.
  pose proof (sa_components _ _ (mt_agrees _ _ (sk_meta _ _ Hs))) as Hc. unfold schema_new. destruct s; simpl in *. congruence.
Qed.

(* ---------------------------------------------------------------- histories *)

Definition whole_ok (st : store) (pm : partition_map) (s : schema) : Prop := db_ok st pm s /\ schema_ok st s.

Lemma tidy_never_uninstalled l : tidy l -> never_uninstalled l.
Proof. by intros [? _]. Qed.

Lemma ig_step_whole mv ig o ig' r : whole_ok (ig_store ig) (ig_parts ig) (ig_schema ig) -> ig_step mv ig o = (ig', r) ->
  (match o with OpRollbackTo _ => False | _ => True end) ->
  r = Ok tt \/ ig_store ig' = ig_store ig -> tidy (st_log (ig_store ig')) -> whole_ok (ig_store ig') (ig_parts ig') (ig_schema ig').
Proof.
  intros [H0 Hs0] H Ho Hr Hn. split; [exact (ig_step_ok mv ig o ig' r H0 H Ho Hr (tidy_never_uninstalled _ Hn))|].
  destruct o as [now es|now ts ids|n|n|n]; simpl in H; try done.
  - unfold ig_transact, ig_transacted in H.
    destruct (ig_watch_same ig (watch_transact mv now (ig_store ig) (ig_parts ig) (ig_schema ig) es)) as (W1 & W2 & W3 & _).
    destruct (transact _ _ _ _ _ _ _) as [st' [x| |]] eqn:Et; simplify_eq/=.
    + rewrite W3. by eapply transact_schema.
    + destruct Hr as [?|Hr]; [done|]. by rewrite W3, Hr.
    + destruct Hr as [?|Hr]; [done|]. by rewrite W3, Hr.
  - unfold ig_transact_terms, ig_transacted in H.
    destruct (ig_watch_same ig (watch_transact_terms mv now (ig_store ig) (ig_parts ig) (ig_schema ig) ts ids)) as (W1 & W2 & W3 & _).
    destruct (transact_terms _ _ _ _ _ _ _ _ _) as [st' [x| |]] eqn:Et; simplify_eq/=.
    + rewrite W3. by eapply transact_terms_schema.
    + destruct Hr as [?|Hr]; [done|]. by rewrite W3, Hr.
    + destruct Hr as [?|Hr]; [done|]. by rewrite W3, Hr.
  - unfold ig_savepoint in H. simplify_eq/=. done.
  - unfold ig_release_savepoint in H. destruct (savepoints_from _ _) as [[st l]|]; simplify_eq/=; done.
Qed.

Lemma ig_steps_whole mv l : forall ig ig' rs, whole_ok (ig_store ig) (ig_parts ig) (ig_schema ig) -> ig_steps mv ig l = Ok (ig', rs) ->
  clean_calls mv ig l -> tidy (st_log (ig_store ig')) -> whole_ok (ig_store ig') (ig_parts ig') (ig_schema ig').
Proof.
  induction l as [|o l IH]; intros ig ig' rs H0 H Hc Hn; cbn [ig_steps clean_calls] in H, Hc.
  - by injection H as <- <-.
  - destruct (ig_step mv ig o) as [ig1 r] eqn:Eo. destruct Hc as (Hno & Hr & Hc).
    assert (exists rs', ig_steps mv ig1 l = Ok (ig', rs')) as (rs' & H').
    { destruct r; [| |done]; apply rbind_Ok in H as ([ig2 rs'] & H & [= -> <-]); eauto. }
    apply (IH ig1 ig' rs'); try done. apply (ig_step_whole mv ig o ig1 r); try done.
    destruct (ig_steps_log _ _ _ _ _ H' Hc) as (new & E). rewrite E in Hn. by eapply tidy_app.
Qed.

Definition conn_whole (c : conn) : Prop := whole_ok (cn_disk c) (md_parts (cn_md c)) (md_schema (cn_md c)).
Definition clean_session (mv : Z) (c : conn) (o : conn_op) : Prop :=
  match o with CSession ops true => clean_calls mv (conn_begin c) ops | _ => True end.

(** Reopening gives back the schema. *)
Lemma reopen_schema mv c : conn_whole c -> idents_tidy (st_log (cn_disk c)) ->
  md_schema (cn_md (conn_step mv c CReopen).1) = md_schema (cn_md c) /\ cn_disk (conn_step mv c CReopen).1 = cn_disk c.
Proof.
  intros [H0 Hs] Ht. unfold conn_step, conn_open. destruct (ok_tx _ _ _ H0) as (p & _ & Hst & _).
  rewrite (read_db_schema _ _ _ Hst Hs Ht). destruct (read_partition_map _) as [pm| |]; [cbn [rbind]|done..].
  case_decide; done.
Qed.

Lemma conn_step_log2 mv c o : clean_session mv c o -> exists new, st_log (cn_disk (conn_step mv c o).1) = st_log (cn_disk c) ++ new.
Proof.
  intros Hc. destruct o as [now es|l commit|].
  - apply conn_step_log. done.
  - apply conn_step_log. intros ->. exact Hc.
  - simpl. destruct (rbind _ _) as [c'| |] eqn:E; try (exists []; by rewrite app_nil_r).
    apply rbind_Ok in E as ([pm sc] & _ & [= <-]). exists []. by rewrite app_nil_r.
Qed.

Lemma conn_step_whole mv c o : conn_whole c -> clean_session mv c o -> tidy (st_log (cn_disk (conn_step mv c o).1)) ->
  conn_whole (conn_step mv c o).1.
Proof.
  intros H0 Hc Hn. destruct o as [now es|l commit|].
  - simpl in *. destruct H0 as [H0 Hs]. destruct (conn_transact mv now c es) as [c' r] eqn:E. simpl in *. destruct r as [x| |].
    + apply conn_transact_Ok in E as (y & Et & _ & Em). unfold conn_whole. rewrite Em. simpl. split.
      * eapply transact_ok; [done|done|by apply tidy_never_uninstalled].
      * by eapply transact_schema.
    + by apply conn_transact_fail in E as ->.
    + by apply conn_transact_fail in E as ->.
  - simpl in *. destruct (ig_steps mv (conn_begin c) l) as [[ig rs]| |] eqn:E; try done.
    destruct commit; [|done]. unfold conn_commit in *. case_decide; [|done]. simpl in *. unfold conn_whole. simpl.
    eapply ig_steps_whole in E; [exact E|exact H0|done|done].
  - assert (tidy (st_log (cn_disk c))) as Hti.
    { destruct (conn_step_log2 mv c CReopen I) as (new & E). rewrite E in Hn. by eapply tidy_app. }
    destruct (reopen_schema mv c H0) as [E1 E2]; [apply Hti|]. split.
    + apply (reopen_ok mv c); [apply H0|]. by rewrite E1.
    + rewrite E1, E2. apply H0.
Qed.

Lemma conn_run_log2 mv l : forall c, clean_sessions mv c l -> exists new, st_log (cn_disk (conn_run mv c l)) = st_log (cn_disk c) ++ new.
Proof.
  induction l as [|o l IH]; intros c Hc; cbn [conn_run fold_left clean_sessions] in *; [exists []; by rewrite app_nil_r|].
  destruct Hc as [Ho Hc]. destruct (IH _ Hc) as (n2 & E2). destruct (conn_step_log2 mv c o Ho) as (n1 & E1).
  exists (n1 ++ n2). unfold conn_run in E2. by rewrite E2, E1, <- app_assoc.
Qed.
Lemma conn_run_whole mv l : forall c, conn_whole c -> clean_sessions mv c l -> tidy (st_log (cn_disk (conn_run mv c l))) ->
  conn_whole (conn_run mv c l) /\ clean_history mv c l.
Proof.
  induction l as [|o l IH]; intros c H0 Hc Hn; cbn [conn_run fold_left clean_sessions clean_history] in *; [done|].
  destruct Hc as [Ho Hc].
  assert (tidy (st_log (cn_disk (conn_step mv c o).1))) as Hti.
  { destruct (conn_run_log2 mv l _ Hc) as (new & E). unfold conn_run in E. rewrite E in Hn. by eapply tidy_app. }
  destruct (IH (conn_step mv c o).1) as [IH1 IH2]; [by apply conn_step_whole|done|done|]. split; [done|]. split; [|done].
  destruct o as [now es|ops commit|]; [done|by intros ->|].
  destruct (conn_step_log2 mv c CReopen I) as (new & E). rewrite E in Hti. apply tidy_app in Hti.
  destruct (reopen_schema mv c H0) as [E1 _]; [apply Hti|]. by rewrite E1.
Qed.

Lemma opened_whole mv now c0 : conn_open mv now None = Ok c0 -> tidy (st_log (cn_disk c0)) -> conn_whole c0.
Proof.
  intros Ho Ht. split; [exact (proj1 (conn_open_ok mv now c0 Ho))|]. unfold conn_open in Ho. apply rbind_Ok in Ho as (d & Hd & E).
  injection E as <-. exact (create_schema_ok _ _ _ Hd Ht).
Qed.
Lemma orderly_whole mv c : orderly mv c -> conn_whole c /\ clean mv c.
Proof.
  intros (now & c0 & l & Ho & -> & Hc & Ht).
  assert (tidy (st_log (cn_disk c0))) as Ht0.
  { destruct (conn_run_log2 mv l _ Hc) as (new & E). rewrite E in Ht. exact (tidy_app _ _ Ht). }
  destruct (conn_run_whole mv l c0 (opened_whole _ _ _ Ho Ht0) Hc Ht) as [H1 H2]. split; [exact H1|].
  exists now, c0, l. split; [exact Ho|]. split; [reflexivity|]. split; [exact H2|]. exact (tidy_never_uninstalled _ Ht).
Qed.

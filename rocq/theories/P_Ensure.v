(** Checking and ensuring a vocabulary. *)
From Verif Require Import M_Vocab Spec_Value Spec_Partition Spec_Tx Spec_Conn Spec_Upsert Spec_Entity Spec_Transact Spec_Schema Spec_Vocab.
From Verif Require Import P_Base P_Value P_Inv P_Conn P_TxProps P_Nested P_TxThms P_Schema P_SchemaStep P_Reopen P_SchemaThms P_Vocab.

(* ---------------------------------------------------------------- the description of a definition *)

Definition own_asks (old : keyword -> option uniq) (x : keyword * attribute) : list (op * Z * typed_value) :=
  [ (OAdd, DB_VALUE_TYPE, TVRef (type_entid (at_type x.2)));
    (OAdd, DB_CARDINALITY, TVRef (if at_multival x.2 then DB_CARDINALITY_MANY else DB_CARDINALITY_ONE));
    (OAdd, DB_INDEX, TVBoolean (at_index x.2)); (OAdd, DB_FULLTEXT, TVBoolean (at_fulltext x.2));
    (OAdd, DB_IS_COMPONENT, TVBoolean (at_component x.2)); (OAdd, DB_NO_HISTORY, TVBoolean (at_no_history x.2)) ]
  ++ match at_unique x.2 with
     | Some u => [(OAdd, DB_UNIQUE, TVRef (unique_entid u))]
     | None => match old x.1 with Some u => [(ORetract, DB_UNIQUE, TVRef (unique_entid u))] | None => [] end
     end.
Definition attr_asks (old : keyword -> option uniq) (x : keyword * attribute) : list asking :=
  ident_ask (kw_to_string x.1) x.1 :: (OAdd, "s", DB_SCHEMA_ATTRIBUTE, inr (kw_to_string x.1))
  :: map (fun y : op * Z * typed_value => (y.1.1, kw_to_string x.1, y.1.2, inl y.2)) (own_asks old x).
Definition voc_asks (d : definition) (l : list (keyword * attribute)) (old : keyword -> option uniq) : list asking :=
  (OAdd, "s", DB_SCHEMA_VERSION, inl (TVLong (df_version d))) :: ident_ask "s" (df_name d) :: concat (map (attr_asks old) l).

Definition the_core_ids : core_ids :=
  CoreIds DB_SCHEMA_VERSION DB_IDENT DB_SCHEMA_ATTRIBUTE DB_CARDINALITY DB_FULLTEXT DB_INDEX DB_IS_COMPONENT DB_VALUE_TYPE DB_UNIQUE DB_NO_HISTORY
    DB_CARDINALITY_MANY DB_CARDINALITY_ONE DB_UNIQUE_IDENTITY DB_UNIQUE_VALUE.

Ltac in_list := unfold core_names, core_attributes; repeat first [apply elem_of_list_here | apply elem_of_list_further].
Section Core.
  Context {s : schema} (Hcore : core_intact s).
  Lemma core_entid_intact k e : (k, e) ∈ core_names -> core_entid s k = Ok e.
  Proof using Hcore. intros Hx. unfold core_entid. pose proof (proj1 Hcore _ Hx) as E. cbn in E. by rewrite E. Qed.
  Lemma core_attribute_intact k e : (k, e) ∈ core_names -> e ∈ core_attributes.*1 -> core_attribute s k = Ok e.
  Proof using Hcore.
    intros Hx ([e' at_] & -> & Ha)%elem_of_list_fmap. unfold core_attribute. pose proof (proj1 Hcore _ Hx) as E. pose proof (proj2 Hcore _ Ha) as E'.
    cbn in E, E'. by rewrite E, E'.
  Qed.
  Lemma core_ids_intact : core_ids_of s = Ok the_core_ids.
  Proof using Hcore.
    unfold core_ids_of, kw_schema_version, kw_schema_attribute.
    rewrite (core_attribute_intact (nskw "db.schema" "version") DB_SCHEMA_VERSION) by (cbn; in_list). cbn [rbind].
    rewrite (core_attribute_intact (nskw "db" "ident") DB_IDENT) by (cbn; in_list). cbn [rbind].
    rewrite (core_attribute_intact (nskw "db.schema" "attribute") DB_SCHEMA_ATTRIBUTE) by (cbn; in_list). cbn [rbind].
    rewrite (core_attribute_intact (nskw "db" "cardinality") DB_CARDINALITY) by (cbn; in_list). cbn [rbind].
    rewrite (core_attribute_intact (nskw "db" "fulltext") DB_FULLTEXT) by (cbn; in_list). cbn [rbind].
    rewrite (core_attribute_intact (nskw "db" "index") DB_INDEX) by (cbn; in_list). cbn [rbind].
    rewrite (core_attribute_intact (nskw "db" "isComponent") DB_IS_COMPONENT) by (cbn; in_list). cbn [rbind].
    rewrite (core_attribute_intact (nskw "db" "valueType") DB_VALUE_TYPE) by (cbn; in_list). cbn [rbind].
    rewrite (core_attribute_intact (nskw "db" "unique") DB_UNIQUE) by (cbn; in_list). cbn [rbind].
    rewrite (core_attribute_intact (nskw "db" "noHistory") DB_NO_HISTORY) by (cbn; in_list). cbn [rbind].
    rewrite (core_entid_intact (nskw "db.cardinality" "many") DB_CARDINALITY_MANY) by in_list. cbn [rbind].
    rewrite (core_entid_intact (nskw "db.cardinality" "one") DB_CARDINALITY_ONE) by in_list. cbn [rbind].
    rewrite (core_entid_intact (nskw "db.unique" "identity") DB_UNIQUE_IDENTITY) by in_list. cbn [rbind].
    rewrite (core_entid_intact (nskw "db.unique" "value") DB_UNIQUE_VALUE) by in_list. reflexivity.
  Qed.
  Lemma core_type_intact vt : core_type s vt = Ok (type_entid vt).
  Proof using Hcore. unfold core_type. destruct vt; cbn [vt_keyword type_entid]; apply core_entid_intact; in_list. Qed.
  Lemma describe_asks old x : describe_attribute the_core_ids s old x = Ok (map asking_entity (attr_asks old x)).
  Proof using Hcore.
    destruct x as [k at_]. unfold describe_attribute. rewrite core_type_intact. cbn [rbind]. f_equal. unfold attr_asks, own_asks.
    cbn [fst snd map]. destruct (at_multival at_), (at_unique at_) as [[]|]; try reflexivity; destruct (old k) as [[]|]; reflexivity.
  Qed.
  Lemma description_asks d l old : description_for_attributes d l s old = Ok (map asking_entity (voc_asks d l old)).
  Proof using Hcore.
    unfold description_for_attributes. rewrite core_ids_intact. cbn [rbind].
    assert (rmapM (describe_attribute the_core_ids s old) l = Ok (map (fun x => map asking_entity (attr_asks old x)) l)) as ->.
    { induction l as [|x l IH]; [done|]. cbn [rmapM map]. rewrite describe_asks. cbn [rbind]. rewrite IH. done. }
    cbn [rbind]. f_equal. unfold voc_asks. cbn [map]. do 2 f_equal. rewrite concat_map, map_map. done.
  Qed.
End Core.

Lemma own_inv old x o a v : (o, a, v) ∈ own_asks old x ->
  a ∈ [DB_VALUE_TYPE; DB_CARDINALITY; DB_INDEX; DB_FULLTEXT; DB_IS_COMPONENT; DB_NO_HISTORY; DB_UNIQUE]
  /\ no_string (inl v) /\ (o = ORetract -> a = DB_UNIQUE)
  /\ (a = DB_UNIQUE -> if decide (o = OAdd) then exists u, at_unique x.2 = Some u /\ v = TVRef (unique_entid u)
                       else at_unique x.2 = None /\ exists u, old x.1 = Some u /\ v = TVRef (unique_entid u)).
Proof.
  unfold own_asks. intros Hq. apply elem_of_app in Hq as [Hq|Hq].
  - repeat (apply elem_of_cons in Hq as [[= -> -> ->]|Hq];
      [split; [in_list|split; [exact I|split; [discriminate|intros E; vm_compute in E; discriminate E]]]|]).
    by apply elem_of_nil in Hq.
  - destruct (at_unique x.2) as [u|] eqn:Eu.
    + apply elem_of_list_singleton in Hq as [= -> -> ->]. split; [in_list|]. split; [exact I|]. split; [done|]. intros _. rewrite decide_True by done. eauto.
    + destruct (old x.1) as [u|] eqn:Eo; [|by apply elem_of_nil in Hq]. apply elem_of_list_singleton in Hq as [= -> -> ->].
      split; [in_list|]. split; [exact I|]. split; [done|]. intros _. rewrite decide_False by done. eauto.
Qed.
Lemma elem_voc q d l old : q ∈ voc_asks d l old <->
  q = (OAdd, "s", DB_SCHEMA_VERSION, inl (TVLong (df_version d))) \/ q = ident_ask "s" (df_name d) \/ exists x, x ∈ l /\ q ∈ attr_asks old x.
Proof.
  unfold voc_asks. rewrite !elem_of_cons, elem_of_list_In, in_concat. setoid_rewrite in_map_iff. split; intros [H|[H|H]]; auto; right; right.
  - destruct H as (y & (x & <- & Hx) & Hq). exists x. split; by apply elem_of_list_In.
  - destruct H as (x & Hx & Hq). eexists. split; [exists x; split; [reflexivity|by apply elem_of_list_In]|by apply elem_of_list_In].
Qed.
Definition about_voc (d : definition) (l : list (keyword * attribute)) (a : Z) (w : typed_value + string) : Prop :=
  a = DB_SCHEMA_VERSION /\ w = inl (TVLong (df_version d)) \/ a = DB_IDENT /\ w = inl (TVKeyword (df_name d))
  \/ exists x, x ∈ l /\ a = DB_SCHEMA_ATTRIBUTE /\ w = inr (kw_to_string x.1).
Lemma voc_inv d l old o n a w : (o, n, a, w) ∈ voc_asks d l old ->
  n = "s" /\ o = OAdd /\ about_voc d l a w
  \/ exists x, x ∈ l /\ n = kw_to_string x.1
       /\ (o = OAdd /\ a = DB_IDENT /\ w = inl (TVKeyword x.1) \/ exists v, w = inl v /\ (o, a, v) ∈ own_asks old x).
Proof.
  unfold about_voc. intros [E|[E|(x & Hx & Hq)]]%elem_voc.
  - injection E as -> -> -> ->. left. tauto.
  - injection E as -> -> -> ->. left. tauto.
  - unfold attr_asks in Hq. apply elem_of_cons in Hq as [E|Hq]; [injection E as -> -> -> ->; right; exists x; tauto|].
    apply elem_of_cons in Hq as [E|Hq]; [injection E as -> -> -> ->; left; split; [done|]; split; [done|]; right; right; by exists x|].
    apply elem_of_list_fmap in Hq as ([[o' a'] v] & E & Hq). injection E as -> -> -> ->. right. exists x. split; [done|]. split; [done|]. right. by exists v.
Qed.
Lemma kw_text_not_s k : kw_to_string k <> "s".
Proof. destruct k as [[ns|] n]; discriminate. Qed.
Lemma kw_text_inj k k' : storable_keyword k -> storable_keyword k' -> kw_to_string k = kw_to_string k' -> k = k'.
Proof. intros H1 H2 E. apply storable_text_inj; [done..|]. cbn. by rewrite E. Qed.
Lemma voc_ident d l old n k : ident_ask n k ∈ voc_asks d l old <->
  n = "s" /\ k = df_name d \/ exists x, x ∈ l /\ n = kw_to_string x.1 /\ k = x.1.
Proof.
  split.
  - intros [(-> & _ & [[E _]|[[_ E]|(x & _ & E & _)]])|(x & Hx & -> & [(_ & _ & E)|(v & _ & Hq)])]%voc_inv; try discriminate E.
    + injection E as ->. by left.
    + injection E as ->. right. by exists x.
    + apply own_inv in Hq as [Ha _]. exfalso. revert Ha. vm_compute. intros Ha. repeat (apply elem_of_cons in Ha as [Ha|Ha]; [discriminate Ha|]). by apply elem_of_nil in Ha.
  - intros [[-> ->]|(x & Hx & -> & ->)]; apply elem_voc; [right; by left|]. right. right. exists x. split; [done|]. apply elem_of_list_here.
Qed.

Section Asks.
  Context {d : definition} {l : list (keyword * attribute)} {old : keyword -> option uniq}.
  Context (Hd : acceptable d) (Hl : forall x, x ∈ l -> x ∈ df_attributes d).
  Lemma acc_name_storable : storable_keyword (df_name d).
  Proof using Hd. destruct Hd as (_ & Hf & _). by apply Forall_cons in Hf as [[? _] _]. Qed.
  Lemma acc_attr_storable x : x ∈ df_attributes d -> storable_keyword x.1.
  Proof using Hd. intros Hx. destruct Hd as (_ & Hf & _). apply Forall_cons in Hf as [_ Hf]. rewrite Forall_forall in Hf. apply Hf. by apply elem_of_list_fmap_1. Qed.
  Lemma acc_name x : x ∈ df_attributes d -> df_name d <> x.1.
  Proof using Hd. intros Hx E. destruct Hd as (Hn & _). apply NoDup_cons in Hn as [Hn _]. apply Hn. rewrite E. by apply elem_of_list_fmap_1. Qed.
  Lemma acc_attr x y : x ∈ df_attributes d -> y ∈ df_attributes d -> x.1 = y.1 -> x = y.
  Proof using Hd.
    intros Hx Hy E. destruct Hd as (Hn & _). apply NoDup_cons in Hn as [_ Hn]. apply elem_of_list_lookup in Hx as (i & Hx), Hy as (j & Hy).
    assert (i = j) as <-. { eapply (NoDup_lookup _ i j x.1 Hn); rewrite list_lookup_fmap; [by rewrite Hx|by rewrite Hy, E]. }
    congruence.
  Qed.
  Lemma voc_Q1 o n a v : (o, n, a, v) ∈ voc_asks d l old -> exists k, ident_ask n k ∈ voc_asks d l old.
  Proof using Type.
    intros [(-> & _)|(x & Hx & -> & _)]%voc_inv; eexists; apply voc_ident; [by left|]. right. by exists x.
  Qed.
  Lemma voc_Q2 n n' k k' : ident_ask n k ∈ voc_asks d l old -> ident_ask n' k' ∈ voc_asks d l old -> n = n' <-> k = k'.
  Proof using Hd Hl.
    intros [[-> ->]|(x & Hx & -> & ->)]%voc_ident [[-> ->]|(y & Hy & -> & ->)]%voc_ident.
    - done.
    - split; intros E; [symmetry in E; by apply kw_text_not_s in E|]. by apply acc_name in E; [|apply Hl].
    - split; intros E; [by apply kw_text_not_s in E|]. symmetry in E. by apply acc_name in E; [|apply Hl].
    - split; intros E; [|by rewrite E]. apply kw_text_inj in E; [done|by apply acc_attr_storable, Hl..].
  Qed.
  Lemma voc_Q3 o n v : (o, n, DB_IDENT, v) ∈ voc_asks d l old -> o = OAdd /\ exists k, v = inl (TVKeyword k) /\ storable_keyword k.
  Proof using Hd Hl.
    intros Hq. pose proof Hq as [(-> & -> & [[E _]|[[_ E]|(x & _ & E & _)]])|(x & Hx & -> & [(-> & _ & E)|(v' & _ & Hq')])]%voc_inv; try discriminate E.
    - split; [done|]. exists (df_name d). split; [done|]. apply acc_name_storable.
    - split; [done|]. exists x.1. split; [done|]. by apply acc_attr_storable, Hl.
    - apply own_inv in Hq' as [Ha _]. exfalso. revert Ha. vm_compute. intros Ha. repeat (apply elem_of_cons in Ha as [Ha|Ha]; [discriminate Ha|]). by apply elem_of_nil in Ha.
  Qed.
  Lemma voc_Q4 n a v : (ORetract, n, a, v) ∈ voc_asks d l old -> a = DB_UNIQUE.
  Proof using Type.
    intros [(_ & E & _)|(x & Hx & _ & [(E & _)|(v' & _ & Hq)])]%voc_inv; [discriminate E..|]. by apply own_inv in Hq as (_ & _ & Hq & _); apply Hq.
  Qed.
  Lemma voc_Q5 o n a v : (o, n, a, v) ∈ voc_asks d l old -> a ∈ core_attributes.*1.
  Proof using Type.
    intros [(_ & _ & [[-> _]|[[-> _]|(x & _ & -> & _)]])|(x & Hx & _ & [(_ & -> & _)|(v' & _ & Hq)])]%voc_inv; try solve [cbn; in_list].
    apply own_inv in Hq as [Ha _]. revert a Ha. apply Forall_forall. eapply bool_decide_unpack. vm_compute. exact I.
  Qed.
  Lemma voc_Q6 q : q ∈ voc_asks d l old -> no_string q.2.
  Proof using Type.
    destruct q as [[[o n] a] w]. intros [(_ & _ & [[_ ->]|[[_ ->]|(x & _ & _ & ->)]])|(x & Hx & _ & [(_ & _ & ->)|(v' & -> & Hq)])]%voc_inv; try exact I.
    apply own_inv in Hq. apply Hq.
  Qed.
End Asks.

(* ---------------------------------------------------------------- reading a vocabulary *)

Section Reading.
  Context {mv : Z} {c : conn} (Hc : clean mv c) (Hcore : core_intact (schema_of c)).
  Notation s := (schema_of c).
  Notation st := (disk c).

  Lemma rows_hold e a d : d ∈ fact_rows st e a <-> d ∈ all_datoms st /\ d_e d = e /\ d_a d = a.
  Proof using Type.
    unfold fact_rows. rewrite elem_of_list_In, filter_In, <- elem_of_list_In, andb_true_iff, !Z.eqb_eq. tauto.
  Qed.
  Lemma rows_fact e a p : (e, a, p) ∈ facts st <-> exists d, d ∈ fact_rows st e a /\ p = (d_v d, d_tag d).
  Proof using Type.
    unfold facts. rewrite elem_of_list_fmap. split.
    - intros (d & [= -> -> ->] & Hd). exists d. split; [by apply rows_hold|done].
    - intros (d & (Hd & <- & <-)%rows_hold & ->). by exists d.
  Qed.
  Lemma core_typed e a at_ p : (a, at_) ∈ core_attributes -> (e, a, p) ∈ facts st -> exists v, tv_type v = at_type at_ /\ p = to_sql_value_pair v.
  Proof using Hc Hcore.
    intros Ha Hf. destruct (conn_well_typed _ (clean_ok _ _ Hc) _ _ _ Hf) as (at2 & v & Hm & Ht & ->).
    pose proof (proj2 Hcore _ Ha) as Hm2. cbn in Hm2. rewrite Hm in Hm2. injection Hm2 as <-. by exists v.
  Qed.
  Lemma version_typed e p : (e, DB_SCHEMA_VERSION, p) ∈ facts st -> exists v, p = to_sql_value_pair (TVLong v).
  Proof using Hc Hcore.
    intros Hf. destruct (core_typed e DB_SCHEMA_VERSION (plain_attribute VTLong) p) as (v & Ht & ->); [in_list|done|].
    destruct v; try discriminate Ht. by eexists.
  Qed.
  Lemma link_typed e p : (e, DB_SCHEMA_ATTRIBUTE, p) ∈ facts st -> exists a, p = to_sql_value_pair (TVRef a).
  Proof using Hc Hcore.
    intros Hf. destruct (core_typed e DB_SCHEMA_ATTRIBUTE (Attr VTRef true (Some UValue) true false false false) p) as (v & Ht & ->); [in_list|done|].
    destruct v; try discriminate Ht. by eexists.
  Qed.
  Lemma version_one e v v' : holds st e DB_SCHEMA_VERSION (TVLong v) -> holds st e DB_SCHEMA_VERSION (TVLong v') -> v = v'.
  Proof using Hc Hcore.
    intros H1 H2. assert ((DB_SCHEMA_VERSION, plain_attribute VTLong) ∈ core_attributes) as Ha by in_list.
    pose proof (conn_card_one _ (clean_ok _ _ Hc) _ _ _ _ _ (proj2 Hcore _ Ha) eq_refl H1 H2) as E. by injection E.
  Qed.
  Lemma version_unique n e v e' v' : has_version c n e v -> has_version c n e' v' -> e = e' /\ v = v'.
  Proof using Hc Hcore. intros [H1 H2] [H3 H4]. rewrite H1 in H3. injection H3 as <-. split; [done|]. by eapply version_one. Qed.

  Lemma lookup_version e : exists ov, lookup_value_for_attribute st s e kw_schema_version = Ok ov
    /\ match ov with None => forall v, ~ holds st e DB_SCHEMA_VERSION (TVLong v) | Some w => exists v, w = TVLong v /\ holds st e DB_SCHEMA_VERSION (TVLong v) end.
  Proof using Hc Hcore.
    unfold lookup_value_for_attribute. assert ((kw_schema_version, DB_SCHEMA_VERSION) ∈ core_names) as Hn by in_list.
    pose proof (proj1 Hcore _ Hn) as E. cbn [fst snd] in E. rewrite E. cbn [ok_or rbind].
    destruct (fact_rows st e DB_SCHEMA_VERSION) as [|d l] eqn:El.
    - exists None. split; [done|]. intros v (d & Hd & _)%rows_fact. rewrite El in Hd. by apply elem_of_nil in Hd.
    - assert ((e, DB_SCHEMA_VERSION, (d_v d, d_tag d)) ∈ facts st) as Hf.
      { apply rows_fact. exists d. split; [rewrite El; apply elem_of_list_here|done]. }
      destruct (version_typed _ _ Hf) as (v & Ev). pose proof Ev as Ev2. cbn in Ev2. injection Ev2 as E1 E2. rewrite E1, E2.
      exists (Some (TVLong v)). split; [done|]. exists v. split; [done|]. unfold holds. by rewrite <- Ev.
  Qed.
  Lemma lookup_links e : exists l, lookup_values_for_attribute st s e kw_schema_attribute = Ok l
    /\ forall w, w ∈ l <-> exists a, w = TVRef a /\ holds st e DB_SCHEMA_ATTRIBUTE (TVRef a).
  Proof using Hc Hcore.
    unfold lookup_values_for_attribute. assert ((kw_schema_attribute, DB_SCHEMA_ATTRIBUTE) ∈ core_names) as Hn by in_list.
    pose proof (proj1 Hcore _ Hn) as E. cbn [fst snd] in E. rewrite E. cbn [ok_or rbind].
    assert (forall l, (forall d, d ∈ l -> d ∈ fact_rows st e DB_SCHEMA_ATTRIBUTE) -> exists l', rmapM (fun d => from_sql_value_pair (d_v d) (d_tag d)) l = Ok l'
      /\ forall w, w ∈ l' <-> exists a d, w = TVRef a /\ d ∈ l /\ (d_v d, d_tag d) = to_sql_value_pair (TVRef a)) as H.
    { induction l as [|d l IH]; intros Hl.
      - exists []. split; [done|]. intros w. split; [by intros ?%elem_of_nil|]. by intros (? & ? & _ & ?%elem_of_nil & _).
      - destruct IH as (l' & El' & IH); [intros x Hx; apply Hl; by right|].
        assert ((e, DB_SCHEMA_ATTRIBUTE, (d_v d, d_tag d)) ∈ facts st) as Hf. { apply rows_fact. exists d. split; [apply Hl; by left|done]. }
        destruct (link_typed _ _ Hf) as (a & Ea). pose proof Ea as Ea2. cbn in Ea2. injection Ea2 as E1 E2. cbn [rmapM]. rewrite E1, E2. cbn [from_sql_value_pair].
        rewrite decide_True by done. cbn [rbind]. rewrite El'. exists (TVRef a :: l'). split; [done|]. intros w. rewrite elem_of_cons, IH. split.
        + intros [->|(a' & d' & -> & Hd' & E')]; [exists a, d; split; [done|]; split; [by left|done]|exists a', d'; split; [done|]; split; [by right|done]].
        + intros (a' & d' & -> & [->|Hd']%elem_of_cons & E'); [left|right; by exists a', d']. rewrite Ea in E'. by injection E' as ->. }
    destruct (H _ (fun d Hd => Hd)) as (l' & -> & Hl'). exists l'. split; [done|]. intros w. rewrite Hl'. split.
    - intros (a & d & -> & Hd & Ed). exists a. split; [done|]. apply rows_fact. by exists d.
    - intros (a & -> & (d & Hd & Ed)%rows_fact). by exists a, d.
  Qed.
  Lemma find_attributes e v l a at_ : voc_find (Voc e v (voc_attributes s l)) a = Some at_ <-> TVRef a ∈ l /\ sc_attribute_map s !! a = Some at_.
  Proof using Type.
    unfold voc_find. cbn [vo_attributes]. induction l as [|w l IH]; [split; [done|by intros [?%elem_of_nil _]]|].
    unfold voc_attributes in *. cbn [omap list_omap]. rewrite elem_of_cons.
    assert (match w with TVRef a0 => match sc_attribute_map s !! a0 with Some at_0 => Some (a0, at_0) | None => None end | _ => None end = None ->
      TVRef a = w -> sc_attribute_map s !! a = Some at_ -> False) as Hskip by (intros H1 <- H2; cbn in H1; by rewrite H2 in H1).
    destruct (match w with TVRef a0 => match sc_attribute_map s !! a0 with Some at_0 => Some (a0, at_0) | None => None end | _ => None end) as [[a0 at0]|] eqn:E.
    - destruct w as [a1| | | | | | |]; try done. destruct (sc_attribute_map s !! a1) as [at1|] eqn:E1; [|done]. injection E as -> ->.
      cbn [List.find fst]. case_bool_decide as Hb.
      + subst a0. cbn. rewrite E1. split; [intros ->; split; [by left|done]|]. by intros [_ ?].
      + rewrite IH. split; [intros [? ?]; split; [by right|done]|]. intros [[[= ->]|?] ?]; [by destruct Hb|done].
    - rewrite IH. split; [intros [? ?]; split; [by right|done]|]. intros [[?|?] ?]; [by destruct (Hskip eq_refl)|done].
  Qed.

  (** What was read is what the store says. *)
  Definition reads_as (name : keyword) (v : vocabulary) : Prop :=
    has_version c name (vo_entity v) (vo_version v) /\ version_ok (vo_version v)
    /\ forall a at_, voc_find v a = Some at_ <-> holds st (vo_entity v) DB_SCHEMA_ATTRIBUTE (TVRef a) /\ sc_attribute_map s !! a = Some at_.
  Lemma read_spec name : match read_vocabulary_named st s name with
    | Ok None => forall e v, ~ has_version c name e v
    | Ok (Some v) => reads_as name v
    | Err x => x = EInvalidVocabularyVersion /\ exists e v, has_version c name e v /\ ~ version_ok v
    | Panic _ => False
    end.
  Proof using Hc Hcore.
    unfold read_vocabulary_named. destruct (sc_ident_map s !! name) as [e|] eqn:Ee; [|intros e v [H _]; congruence].
    destruct (lookup_version e) as (ov & -> & Hov). cbn [rbind]. destruct ov as [w|]; [|intros e' v [H1 H2]; rewrite Ee in H1; injection H1 as <-; exact (Hov _ H2)].
    destruct Hov as (v & -> & Hv). destruct ((0 <? v) && (v <? U32_MAX)) eqn:Er.
    - apply andb_true_iff in Er as [E1%Z.ltb_lt E2%Z.ltb_lt]. destruct (lookup_links e) as (l & -> & Hl). cbn [rbind].
      split; [done|]. split; [done|]. intros a at_. rewrite find_attributes, Hl. cbn [vo_entity]. split.
      + intros [(a' & [= <-] & Ha) Hm]. done.
      + intros [Ha Hm]. split; [by exists a|done].
    - split; [done|]. exists e, v. split; [done|]. intros [E1 E2]. apply andb_false_iff in Er as [E%Z.ltb_ge|E%Z.ltb_ge]; lia.
  Qed.

  Lemma missing_spec v l : match missing_attributes s v l with
    | Ok m => (forall x, x ∈ m -> x ∈ l /\ forall a, sc_ident_map s !! x.1 = Some a -> voc_find v a = None)
        /\ forall x, x ∈ l -> x ∈ m \/ exists a, sc_ident_map s !! x.1 = Some a /\ voc_find v a = Some x.2
    | Err z => z = EConflictingAttributeDefinitions /\ exists x a other, x ∈ l /\ sc_ident_map s !! x.1 = Some a /\ voc_find v a = Some other /\ other <> x.2
    | Panic _ => False
    end.
  Proof using Type.
    unfold missing_attributes. match goal with |- context [rfold ?f [] l] => set (F := f) end.
    assert (forall acc, match rfold F acc l with
      | Ok m => exists m', m = acc ++ m' /\ (forall x, x ∈ m' -> x ∈ l /\ forall a, sc_ident_map s !! x.1 = Some a -> voc_find v a = None)
        /\ forall x, x ∈ l -> x ∈ m'
             \/ exists a, sc_ident_map s !! x.1 = Some a /\ voc_find v a = Some x.2
      | Err z => z = EConflictingAttributeDefinitions /\ exists x a other, x ∈ l /\ sc_ident_map s !! x.1 = Some a /\ voc_find v a = Some other /\ other <> x.2
      | Panic _ => False end) as H.
    { induction l as [|x l IH]; intros acc; cbn [rfold].
      - exists []. rewrite app_nil_r. split; [done|]. split; by intros ? ?%elem_of_nil.
      - assert ((F acc x = Ok (acc ++ [x]) /\ forall a, sc_ident_map s !! x.1 = Some a -> voc_find v a = None)
          \/ (F acc x = Ok acc /\ exists a, sc_ident_map s !! x.1 = Some a /\ voc_find v a = Some x.2)
          \/ F acc x = Err EConflictingAttributeDefinitions /\ exists a other, sc_ident_map s !! x.1 = Some a /\ voc_find v a = Some other /\ other <> x.2) as HF.
        { subst F. cbn beta. destruct (sc_ident_map s !! x.1) as [a|] eqn:Ea; [|by left].
          destruct (voc_find v a) as [other|] eqn:Ef; [|left; split; [done|]; by intros a' [= <-]].
          case_decide as Hd; [right; left; split; [done|]; subst other; by exists a|]. right. right. split; [done|]. by exists a, other. }
        destruct HF as [[-> Hx]|[[-> Hx]|[-> (a & other & Hx)]]]; cbn [rbind].
        + specialize (IH (acc ++ [x])). destruct (rfold F (acc ++ [x]) l) as [m|z|]; [|destruct IH as (-> & y & a & o & Hy & ?); split; [done|]; exists y, a, o; split; [by right|done]|done].
          destruct IH as (m' & -> & H1 & H2). exists (x :: m'). split; [by rewrite <- app_assoc|]. split; [intros y [->|Hy]%elem_of_cons; [split; [by left|done]|destruct (H1 _ Hy); split; [by right|done]]|].
          intros y [->|Hy]%elem_of_cons; [left; by left|]. destruct (H2 _ Hy) as [?|?]; [left; by right|by right].
        + specialize (IH acc). destruct (rfold F acc l) as [m|z|]; [|destruct IH as (-> & y & a & o & Hy & ?); split; [done|]; exists y, a, o; split; [by right|done]|done].
          destruct IH as (m' & -> & H1 & H2). exists m'. split; [done|]. split; [intros y Hy; destruct (H1 _ Hy); split; [by right|done]|].
          intros y [->|Hy]%elem_of_cons; [by right|]. by apply H2.
        + split; [done|]. exists x, a, other. split; [by left|done]. }
    specialize (H []). destruct (rfold F [] l) as [m|z|]; [|done..]. destruct H as (m' & -> & ?). done.
  Qed.

  Lemma check_spec d : match check_vocabulary st s d with
    | Ok NotPresent => forall e v, ~ has_version c (df_name d) e v
    | Ok Present => provides c d /\ version_ok (df_version d)
    | Ok (NeedsUpdate v) => reads_as (df_name d) v /\ vo_version v < df_version d
    | Ok (TooNew v) => reads_as (df_name d) v /\ df_version d < vo_version v
    | Ok (MissingAttributes l) => exists e, has_version c (df_name d) e (df_version d) /\ version_ok (df_version d) /\ l <> []
        /\ (forall x, x ∈ l -> x ∈ df_attributes d /\ ~ defines c e x.1)
        /\ forall x, x ∈ df_attributes d -> x ∈ l \/ has_attribute c e x
    | Err EInvalidVocabularyVersion => exists e v, has_version c (df_name d) e v /\ ~ version_ok v
    | Err x => x = EConflictingAttributeDefinitions /\ conflicting c d /\ version_ok (df_version d)
    | Panic _ => False
    end.
  Proof using Hc Hcore.
    unfold check_vocabulary. pose proof (read_spec (df_name d)) as H. destruct (read_vocabulary_named st s (df_name d)) as [[v|]|x|]; cbn [rbind]; try done.
    2: { destruct H as (-> & H). exact H. }
    destruct (vo_version v =? df_version d) eqn:Ev.
    - apply Z.eqb_eq in Ev. destruct H as (Hv & Hok & Hf). rewrite Ev in Hv, Hok. pose proof (missing_spec v (df_attributes d)) as Hm.
      destruct (missing_attributes s v (df_attributes d)) as [m|x|]; cbn [rbind]; [|..|done].
      + destruct Hm as [H1 H2].
        assert (forall x, x ∈ df_attributes d -> x ∈ m \/ has_attribute c (vo_entity v) x) as H3.
        { intros x Hx. destruct (H2 x Hx) as [?|(a & Ha & [Hh Hat]%Hf)]; [by left|right; by exists a]. }
        assert (forall x, x ∈ m -> x ∈ df_attributes d /\ ~ defines c (vo_entity v) x.1) as H4.
        { intros x Hx. destruct (H1 x Hx) as [? Hno]. split; [done|]. intros (a & at_ & Ha & Hh & Hat).
          pose proof (proj2 (Hf a at_) (conj Hh Hat)) as E. rewrite (Hno a Ha) in E. done. }
        destruct m as [|y m]; cbn [is_nil].
        * split; [|done]. exists (vo_entity v). split; [done|]. intros x Hx. by destruct (H3 x Hx) as [?%elem_of_nil|?].
        * exists (vo_entity v). done.
      + destruct Hm as (-> & y & a & other & Hx & Ha & [Hh Hat]%Hf & Hne). split; [done|]. split; [|done]. by exists (vo_entity v), y, a, other.
    - apply Z.eqb_neq in Ev. destruct (vo_version v <? df_version d) eqn:El; [apply Z.ltb_lt in El|apply Z.ltb_ge in El]; (split; [done|lia]).
  Qed.
End Reading.

(* ---------------------------------------------------------------- ensuring *)

Section Ensuring.
  Context {mv now : Z} {c c' : conn} {r : txreport} {d : definition} {l : list (keyword * attribute)} {old : keyword -> option uniq}.
  Context (Ho : orderly mv c) (Hcore : core_intact (schema_of c)) (Hd : acceptable d) (Hl : forall x, x ∈ l -> x ∈ df_attributes d).
  Context (Hall : all_allocated c).
  Context (H : conn_transact mv now c (map asking_entity (voc_asks d l old)) = (c', Ok r)) (Hti : tidy (st_log (disk c'))).
  Notation qs := (voc_asks d l old).
  Notation T n := (rp_tempids r !! n).
  Notation wanted := (asked (r := r) (qs := qs)).
  Notation F := (fun x => x ∈ facts (disk c)).
  Notation F' := (fun x => x ∈ facts (disk c')).

  Lemma voc_facts : installing_facts (c := c) (c' := c') (r := r) (qs := qs).
  Proof using All.
    exact (installing_holds (orderly_accepted _ _ _ _ _ _ Ho H Hti) Hall Hcore voc_Q1 (voc_Q2 Hd Hl) (voc_Q3 Hd Hl) voc_Q4 voc_Q5 voc_Q6).
  Qed.
  Lemma after_orderly : orderly mv c'.
  Proof using Ho H Hti. exact (orderly_step _ _ _ _ _ _ Ho H Hti). Qed.
  Lemma orderly_functional x : orderly mv x -> forall e a p q, a ∈ METADATA_LIST -> (e, a, p) ∈ facts (disk x) -> (e, a, q) ∈ facts (disk x) -> p = q.
  Proof using Type.
    intros Hx e a p q Ha. destruct (orderly_whole _ _ Hx) as [[_ Hs] Hc]. destruct (conn_store_ok _ (clean_ok _ _ Hc)) as (n & Hn).
    exact (facts_functional _ _ _ Hn (sk_core _ _ Hs) a e p q Ha).
  Qed.
  Lemma orderly_is_functional x : orderly mv x -> functional (fun f => f ∈ facts (disk x)).
  Proof using Type. intros Hx e a p q Ha. apply (orderly_functional x Hx). by apply schema_meta. Qed.

  Lemma voc_s : exists es, T "s" = Some es.
  Proof using All.
    destruct (in_some voc_facts OAdd "s" DB_SCHEMA_VERSION (inl (TVLong (df_version d)))) as [(e & He) _]; [apply elem_voc; by left|]. by exists e.
  Qed.
  Lemma voc_holds n e a w v : (OAdd, n, a, w) ∈ qs -> a <> DB_UNIQUE -> T n = Some e -> (w = inl v \/ exists m e', w = inr m /\ T m = Some e' /\ v = TVRef e') ->
    holds (disk c') e a v.
  Proof using All.
    intros Hq Ha Hn Hw. apply (in_added voc_facts n); [by exists w|]. intros v' (w' & Hq' & _). by apply voc_Q4 in Hq'.
  Qed.
  Lemma voc_tempid x : x ∈ l -> exists e, T (kw_to_string x.1) = Some e.
  Proof using All.
    intros Hx. destruct (in_some voc_facts OAdd (kw_to_string x.1) DB_IDENT (inl (TVKeyword x.1))) as [(e & He) _]; [|by exists e].
    apply voc_ident. right. by exists x.
  Qed.
  Lemma voc_same_tempid x y e : x ∈ l -> y ∈ l -> T (kw_to_string x.1) = Some e -> T (kw_to_string y.1) = Some e -> x = y.
  Proof using All.
    intros Hx Hy Ex Ey. apply (acc_attr Hd); [by apply Hl..|]. apply kw_text_inj; [by apply (acc_attr_storable Hd), Hl..|].
    eapply (in_inj voc_facts); [exact Ex|exact Ey|apply voc_ident; right; by exists x|apply voc_ident; right; by exists y].
  Qed.
  Lemma voc_not_s x e : x ∈ l -> T (kw_to_string x.1) = Some e -> T "s" <> Some e.
  Proof using All.
    intros Hx Ex Es. assert (kw_to_string x.1 = "s") as E; [|by apply kw_text_not_s in E].
    eapply (in_inj voc_facts); [exact Ex|exact Es|apply voc_ident; right; by exists x|apply voc_ident; by left].
  Qed.
  (** What is asked of the entity of an attribute is what its definition says. *)
  Lemma voc_asked_unique x e o n v : x ∈ l -> T (kw_to_string x.1) = Some e -> wanted o n e DB_UNIQUE v -> (o, DB_UNIQUE, v) ∈ own_asks old x.
  Proof using All.
    intros Hx Ex (w & Hq & Hn & Hw). apply voc_inv in Hq as [(-> & _)|(y & Hy & -> & Hq)]; [by destruct (voc_not_s x e Hx Ex)|].
    pose proof (voc_same_tempid _ _ _ Hx Hy Ex Hn) as <-. destruct Hq as [(_ & E & _)|(v' & -> & Hq)]; [discriminate E|].
    destruct Hw as [[= <-]|(m & e' & E & _)]; [done|discriminate E].
  Qed.

  Context (Hu : forall x a u, x ∈ l -> at_unique x.2 = None -> holds (disk c) a DB_IDENT (TVKeyword x.1) -> holds (disk c) a DB_UNIQUE (TVRef (unique_entid u)) -> old x.1 = Some u).
  Lemma unique_in_schema : DB_UNIQUE ∈ SCHEMA_LIST.
  Proof using Type. apply (bool_decide_unpack _). vm_compute. exact I. Qed.
  Lemma voc_unique x e u : x ∈ l -> T (kw_to_string x.1) = Some e -> at_unique x.2 = Some u <-> F' (e, DB_UNIQUE, ref_value (unique_entid u)).
  Proof using All.
    intros Hx Ex. destruct (at_unique x.2) as [u0|] eqn:Eu.
    - assert (holds (disk c') e DB_UNIQUE (TVRef (unique_entid u0))) as Hh.
      { apply (in_added voc_facts (kw_to_string x.1)).
        - exists (inl (TVRef (unique_entid u0))). split; [|split; [done|by left]]. apply elem_voc. right. right. exists x. split; [done|].
          unfold attr_asks. do 2 right. apply elem_of_list_fmap. exists (OAdd, DB_UNIQUE, TVRef (unique_entid u0)). split; [done|].
          unfold own_asks. rewrite Eu. apply elem_of_app. right. by left.
        - intros w Hw. apply (voc_asked_unique x e) in Hw; [|done..]. apply own_inv in Hw as (_ & _ & _ & Hw). specialize (Hw eq_refl).
          rewrite decide_False in Hw by done. destruct Hw as [Hw _]. congruence. }
      split; [intros [= ->]; exact Hh|]. intros Hf. pose proof (orderly_is_functional _ after_orderly _ _ _ _ unique_in_schema Hh Hf) as E. cbn in E.
      injection E as E. destruct u0, u; try discriminate E; reflexivity.
    - split; [done|]. intros Hf. exfalso. assert (forall w, ~ wanted OAdd (kw_to_string x.1) e DB_UNIQUE w) as Hno.
      { intros w Hw. apply (voc_asked_unique x e) in Hw; [|done..]. apply own_inv in Hw as (_ & _ & _ & Hw). specialize (Hw eq_refl).
        rewrite decide_True in Hw by done. destruct Hw as (u1 & Hw & _). congruence. }
      destruct (decide ((e, DB_UNIQUE, ref_value (unique_entid u)) ∈ facts (disk c))) as [Hin|Hin].
      + assert (ident_ask (kw_to_string x.1) x.1 ∈ qs) as Hi by (apply voc_ident; right; by exists x).
        pose proof (Hu x e u Hx Eu (in_known voc_facts _ _ _ _ _ Ex Hi Hin) Hin) as Eo.
        apply (in_retracted voc_facts (kw_to_string x.1) e DB_UNIQUE (TVRef (unique_entid u))); [|exact Hno|exact Hf].
        exists (inl (TVRef (unique_entid u))). split; [|split; [done|by left]]. apply elem_voc. right. right. exists x. split; [done|].
        unfold attr_asks. do 2 right. apply elem_of_list_fmap. exists (ORetract, DB_UNIQUE, TVRef (unique_entid u)). split; [done|].
        unfold own_asks. rewrite Eu, Eo. apply elem_of_app. right. by left.
      + destruct (in_new voc_facts e DB_UNIQUE (ref_value (unique_entid u))) as [(n & w & Hw & _)|(_ & E & _)]; [by split| |discriminate E].
        apply (voc_asked_unique x e) in Hw; [|done..]. apply own_inv in Hw as (_ & _ & _ & Hw). specialize (Hw eq_refl).
        rewrite decide_True in Hw by done. destruct Hw as (u1 & Hw & _). congruence.
  Qed.
  Lemma voc_own x e a v : x ∈ l -> T (kw_to_string x.1) = Some e -> (OAdd, a, v) ∈ own_asks old x -> a <> DB_UNIQUE -> holds (disk c') e a v.
  Proof using All.
    intros Hx Ex Hq Ha. apply (voc_holds (kw_to_string x.1) e a (inl v) v); [|done|done|by left].
    apply elem_voc. right. right. exists x. split; [done|]. unfold attr_asks. do 2 right. apply elem_of_list_fmap. by exists (OAdd, a, v).
  Qed.
  Lemma voc_flag x e a (b : bool) : x ∈ l -> T (kw_to_string x.1) = Some e -> (OAdd, a, TVBoolean b) ∈ own_asks old x -> a <> DB_UNIQUE -> a ∈ SCHEMA_LIST ->
    b = true <-> F' (e, a, bool_value true).
  Proof using All.
    intros Hx Ex Hq Ha Hs. pose proof (voc_own _ _ _ _ Hx Ex Hq Ha) as Hh. split; [intros ->; exact Hh|]. intros Hf.
    pose proof (orderly_is_functional _ after_orderly _ _ _ _ Hs Hh Hf) as E. destruct b; [done|discriminate E].
  Qed.
  Lemma voc_stated x e : x ∈ l -> T (kw_to_string x.1) = Some e -> stated F' e x.2.
  Proof using All.
    intros Hx Ex. split.
    - apply (voc_own x e); [done..|unfold own_asks; by left|done].
    - assert (holds (disk c') e DB_CARDINALITY (TVRef (if at_multival x.2 then DB_CARDINALITY_MANY else DB_CARDINALITY_ONE))) as Hh.
      { apply (voc_own x e); [done..|unfold own_asks; do 1 right; by left|done]. }
      split; [intros E; rewrite E in Hh; exact Hh|]. intros Hf. destruct (at_multival x.2); [done|].
      assert (DB_CARDINALITY ∈ SCHEMA_LIST) as Hs by (apply (bool_decide_unpack _); vm_compute; exact I).
      pose proof (orderly_is_functional _ after_orderly _ _ _ _ Hs Hh Hf) as E. discriminate E.
    - intros u. by apply voc_unique.
    - apply (voc_flag x); [done..|unfold own_asks; do 2 right; by left|done|]. apply (bool_decide_unpack _); vm_compute; exact I.
    - apply (voc_flag x); [done..|unfold own_asks; do 3 right; by left|done|]. apply (bool_decide_unpack _); vm_compute; exact I.
    - apply (voc_flag x); [done..|unfold own_asks; do 4 right; by left|done|]. apply (bool_decide_unpack _); vm_compute; exact I.
    - destruct Hd as (_ & _ & _ & Hf). rewrite Forall_forall in Hf. by apply Hf, Hl.
  Qed.
  Lemma named_entid x : orderly mv x -> forall k e, storable_keyword k -> holds (disk x) e DB_IDENT (TVKeyword k) -> sc_ident_map (schema_of x) !! k = Some e.
  Proof using Type. intros Hx k e Hk Hh. destruct (thm_agrees _ _ Hx) as [_ [_ Hi]]. by apply Hi. Qed.
  Lemma stated_attribute x : orderly mv x -> forall e at_, stated (fun f => f ∈ facts (disk x)) e at_ -> sc_attribute_map (schema_of x) !! e = Some at_.
  Proof using Type.
    intros Hx e at_ Hs. destruct (thm_agrees _ _ Hx) as [[H1 H2] _]. destruct (H2 _ _ _ (sd_type _ _ _ Hs)) as (at' & E).
    { apply (bool_decide_unpack _). vm_compute. exact I. }
    rewrite E. f_equal. eapply stated_unique; [exact (orderly_is_functional _ Hx)|exact (H1 _ _ E)|exact Hs].
  Qed.
  Lemma voc_has_attribute es x : T "s" = Some es -> x ∈ l -> has_attribute c' es x.
  Proof using All.
    intros Es Hx. destruct (voc_tempid x Hx) as (e & Ex). exists e. split_and!.
    - apply (named_entid _ after_orderly); [by apply (acc_attr_storable Hd), Hl|].
      eapply (voc_holds (kw_to_string x.1)); [|done|exact Ex|by left]. apply voc_ident. right. by exists x.
    - eapply (voc_holds "s"); [|done|exact Es|right; by exists (kw_to_string x.1), e].
      apply elem_voc. right. right. exists x. split; [done|]. right. by left.
    - apply (stated_attribute _ after_orderly). by apply voc_stated.
  Qed.
  Lemma voc_has_version es : T "s" = Some es -> has_version c' (df_name d) es (df_version d).
  Proof using All.
    intros Es. split.
    - apply (named_entid _ after_orderly); [apply (acc_name_storable Hd)|].
      eapply (voc_holds "s"); [|done|exact Es|by left]. apply voc_ident. by left.
    - eapply (voc_holds "s"); [|done|exact Es|by left]. apply elem_voc. by left.
  Qed.

  (* the rest of the store *)
  Lemma voc_changed b e a p : changed (disk c) (disk c') b (e, a, p) ->
    (e = rp_tx r /\ a = DB_TX_INSTANT) \/ exists n k, ident_ask n k ∈ qs /\ T n = Some e.
  Proof using All.
    assert (forall o n v, wanted o n e a v -> exists n k, ident_ask n k ∈ qs /\ T n = Some e) as Hw.
    { intros o n v (w & Hq & Hn & _). destruct (voc_Q1 _ _ _ _ Hq) as (k & Hk). by exists n, k. }
    destruct b.
    - intros [(n & w & Hq & _)|(-> & -> & _)]%(in_new voc_facts); [right; by eapply Hw|by left].
    - intros [(n & w & _ & Hq)|[_ [(n & w & Hq)|[-> ->]]]]%(in_gone voc_facts); [right; by eapply Hw|right; by eapply Hw|by left].
  Qed.
  Lemma voc_link_kept e p : F (e, DB_SCHEMA_ATTRIBUTE, p) -> F' (e, DB_SCHEMA_ATTRIBUTE, p).
  Proof using All.
    intros Hf. destruct (decide ((e, DB_SCHEMA_ATTRIBUTE, p) ∈ facts (disk c'))) as [?|Hno]; [done|]. exfalso.
    destruct (in_gone voc_facts e DB_SCHEMA_ATTRIBUTE p) as [(n & w & E & _)|[(at_ & Ha & Hm) _]]; [by split|discriminate E|].
    assert ((DB_SCHEMA_ATTRIBUTE, Attr VTRef true (Some UValue) true false false false) ∈ core_attributes) as Hi by in_list.
    pose proof (proj2 Hcore _ Hi) as E. cbn [fst snd] in E. rewrite Ha in E. injection E as ->. discriminate Hm.
  Qed.
  (** An entity whose name the definition does not use is left alone. *)
  Lemma voc_other k e : storable_keyword k -> sc_ident_map (schema_of c) !! k = Some e -> k <> df_name d -> k ∉ l.*1 ->
    forall a p, a <> DB_TX_INSTANT -> F' (e, a, p) <-> F (e, a, p).
  Proof using All.
    intros Hk He Hn Hkl a p Ha. destruct (thm_agrees _ _ Ho) as [_ [_ Hi]]. apply Hi in He as [_ He].
    assert (forall b, ~ changed (disk c) (disk c') b (e, a, p)) as Hno.
    { intros b [[_ E]|(n & k' & Hq & Ht)]%voc_changed; [done|]. pose proof (in_known voc_facts _ _ _ _ _ Ht Hq He) as Hh.
      assert (storable_keyword k') as Hk'. { apply (voc_Q3 Hd Hl) in Hq as (_ & k2 & [= <-] & ?). done. }
      assert (k = k') as <-. { apply storable_text_inj; [done..|]. exact (orderly_functional _ Ho _ _ _ _ ident_meta He Hh). }
      apply voc_ident in Hq as [[_ ?]|(x & Hx & _ & ->)]; [done|]. apply Hkl. by apply elem_of_list_fmap_1. }
    pose proof (Hno true) as H1. pose proof (Hno false) as H2. unfold changed in H1, H2.
    destruct (decide ((e, a, p) ∈ facts (disk c))), (decide ((e, a, p) ∈ facts (disk c'))); try done; tauto.
  Qed.
  Lemma voc_other_kept k e : storable_keyword k -> sc_ident_map (schema_of c) !! k = Some e -> k <> df_name d -> k ∉ l.*1 ->
    sc_ident_map (schema_of c') !! k = Some e /\ forall at_, sc_attribute_map (schema_of c) !! e = Some at_ -> sc_attribute_map (schema_of c') !! e = Some at_.
  Proof using All.
    intros Hk He Hn Hkl. pose proof (voc_other k e Hk He Hn Hkl) as Hsame. destruct (thm_agrees _ _ Ho) as [[H1 _] [_ Hi]]. split.
    - apply (named_entid _ after_orderly); [done|]. apply Hsame; [done|]. by apply Hi.
    - intros at_ Ha. apply (stated_attribute _ after_orderly). destruct (H1 _ _ Ha) as [S1 S2 S3 S4 S5 S6 S7].
      split; [by apply Hsame|by rewrite Hsame|intros u; by rewrite Hsame|by rewrite Hsame|by rewrite Hsame|by rewrite Hsame|done].
  Qed.
  Lemma core_kept : core_intact (schema_of c').
  Proof using All.
    assert (forall k e, (k, e) ∈ core_names -> sc_ident_map (schema_of c') !! k = Some e /\ forall at_, sc_attribute_map (schema_of c) !! e = Some at_ -> sc_attribute_map (schema_of c') !! e = Some at_) as Hk.
    { intros k e Hx. assert (k ∈ core_names.*1) as Hin by exact (elem_of_list_fmap_1 fst _ _ Hx). apply voc_other_kept.
      - assert (Forall (fun x : keyword * Z => storable_keyword x.1) core_names) as Hf by (apply Forall_forall; intros [k' e'] Hx'; pose proof (proj1 Hcore _ Hx') as E; destruct (thm_agrees _ _ Ho) as [_ [_ Hi]]; by apply Hi in E as [? _]).
        rewrite Forall_forall in Hf. exact (Hf _ Hx).
      - exact (proj1 Hcore _ Hx).
      - intros ->. destruct Hd as (_ & Hf & _). by apply Forall_cons in Hf as [[_ Hf] _].
      - intros Hkl. apply elem_of_list_fmap in Hkl as (x & -> & Hxl). destruct Hd as (_ & Hf & _). apply Forall_cons in Hf as [_ Hf]. rewrite Forall_forall in Hf.
        destruct (Hf x.1) as [_ Hno]; [by apply elem_of_list_fmap_1, Hl|done]. }
    split.
    - intros [k e] Hx. exact (proj1 (Hk _ _ Hx)).
    - intros [a at_] Hx. assert (exists k, (k, a) ∈ core_names) as (k & Hka).
      { assert (a ∈ core_names.*2) as Ha.
        { assert (forall y, y ∈ core_attributes -> y.1 ∈ core_names.*2) as Hy. { apply Forall_forall. eapply bool_decide_unpack. vm_compute. exact I. } exact (Hy _ Hx). }
        apply elem_of_list_fmap in Ha as ([k e] & -> & Hke). by exists k. }
      apply (Hk _ _ Hka). exact (proj2 Hcore _ Hx).
  Qed.
  Lemma voc_attribute_kept es x : T "s" = Some es -> x ∈ df_attributes d -> x ∉ l -> has_attribute c es x -> has_attribute c' es x.
  Proof using All.
    intros Es Hx Hxl (a & Ha & Hh & Hat). destruct (voc_other_kept x.1 a) as [H1 H2]; [|done|..].
    - by apply (acc_attr_storable Hd).
    - intros E. symmetry in E. by apply (acc_name Hd) in E.
    - intros (y & E & Hy)%elem_of_list_fmap. destruct Hxl. by rewrite (acc_attr Hd x y Hx (Hl _ Hy) E).
    - exists a. split; [done|]. split; [by apply voc_link_kept|by apply H2].
  Qed.
  Lemma voc_entity e v : has_version c (df_name d) e v -> T "s" = Some e.
  Proof using All.
    intros [He _]. destruct (thm_agrees _ _ Ho) as [_ [_ Hi]]. apply Hi in He as [_ He]. eapply (in_upsert voc_facts); [|exact He]. apply voc_ident. by left.
  Qed.
End Ensuring.

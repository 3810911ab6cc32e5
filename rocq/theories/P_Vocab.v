(** Transactions that describe entities by tempids, each with an ident. *)
From Verif Require Import M_Vocab Spec_Value Spec_Partition Spec_Tx Spec_Conn Spec_Upsert Spec_Entity Spec_Transact Spec_Schema Spec_Vocab.
From Verif Require Import P_Base P_Value P_Inv P_Conn P_TxProps P_Nested P_TxThms P_Schema P_SchemaStep P_Reopen P_SchemaThms.

Notation asking := (op * string * Z * (typed_value + string))%type.
Definition asking_place (v : typed_value + string) : value_place :=
  match v with inl (TVRef e) => VPEntid (EEntid e) | inl v => VPAtom (VTyped v) | inr m => VPTempId (TExternal m) end.
Definition asking_entity (q : asking) : entity :=
  let '(o, n, a, v) := q in EntAdd o (EPTempId (TExternal n)) (EEntid a) (asking_place v).
Definition asking_value (v : typed_value + string) : typed_value + tempid := match v with inl v => inl v | inr m => inr (TExternal m) end.
Definition asking_term (q : asking) : term_t := let '(o, n, a, v) := q in Term o (inr (TExternal n)) a (asking_value v).
Definition no_string (v : typed_value + string) : Prop := match v with inl (TVString _) => False | _ => True end.
Definition ident_ask (n : string) (k : keyword) : asking := (OAdd, n, DB_IDENT, inl (TVKeyword k)).

Lemma asking_flat q : flat (asking_entity q).
Proof. destruct q as [[[o n] a] [[]|m]]; exact I. Qed.
Lemma asking_reads st pm s tx q t : no_string q.2 -> reads st pm s tx (asking_entity q) t -> t = asking_term q.
Proof.
  destruct q as [[[o n] a] v], t as [o' e' a' v']. cbn [asking_entity asking_term reads written_backward]. intros Hn (at_ & Ha & _ & Ho & He & Hv).
  cbn in Ha, Ho, He, Hn. subst a' o' e'. f_equal. cbn [tm_v] in Hv.
  destruct v as [v|m]; [|exact Hv]. cbn [asking_value]. destruct v as [x|x|x|x|x|x|x|x]; try (by destruct Hn);
    cbn [asking_place reads_value] in Hv.
  1: { destruct Hv as (e & -> & ->). reflexivity. }
  all: destruct (at_type at_); cbn [as_tempid] in Hv; destruct Hv as (tv & -> & E & _); by rewrite E.
Qed.

Section installing.
  Context {mv now : Z} {c c' : conn} {r : txreport} {qs : list asking}.
  Context (H : accepted mv now c (map asking_entity qs) c' r).
  Context (Hall : all_allocated c) (Hcore : core_intact (schema_of c)).
  Context (Q1 : forall o n a v, (o, n, a, v) ∈ qs -> exists k, ident_ask n k ∈ qs).
  Context (Q2 : forall n n' k k', ident_ask n k ∈ qs -> ident_ask n' k' ∈ qs -> n = n' <-> k = k').
  Context (Q3 : forall o n v, (o, n, DB_IDENT, v) ∈ qs -> o = OAdd /\ exists k, v = inl (TVKeyword k) /\ storable_keyword k).
  Context (Q4 : forall n a v, (ORetract, n, a, v) ∈ qs -> a = DB_UNIQUE).
  Context (Q5 : forall o n a v, (o, n, a, v) ∈ qs -> a ∈ core_attributes.*1).
  Context (Q6 : forall q, q ∈ qs -> no_string q.2).
  Notation T n := (rp_tempids r !! n).

  (** The transaction asks for [o e a v]. *)
  Definition asked (o : op) (n : string) (e a : Z) (v : typed_value) : Prop :=
    exists w, (o, n, a, w) ∈ qs /\ T n = Some e /\ (w = inl v \/ exists m e', w = inr m /\ T m = Some e' /\ v = TVRef e').

  Lemma installing_reading : exists ts σ, (forall t, t ∈ ts <-> exists q, q ∈ qs /\ t = asking_term q) /\ (forall n, T n = σ !! TExternal n)
    /\ (forall t, t ∈ ts -> is_Some (subst σ t))
    /\ (forall t e a v, t ∈ ts -> subst σ t = Some (Term OAdd e a v) ->
          holds (disk c') e a v \/ upserting c ts σ t
          \/ holds (disk c) e a v /\ exists w, w <> v /\ asks ts σ ORetract e a w /\ (card_many_attr (schema_of c) a -> to_sql_value_pair w = to_sql_value_pair v))
    /\ (forall e a v, asks ts σ ORetract e a v -> holds (disk c') e a v ->
          ~ holds (disk c) e a v
          /\ ((exists w, w <> v /\ asks ts σ OAdd e a w /\ to_sql_value_pair w = to_sql_value_pair v) \/ is_instant r e a (to_sql_value_pair v)))
    /\ (forall e a p, changed (disk c) (disk c') false (e, a, p) ->
          (exists w, asks ts σ ORetract e a w /\ (card_many_attr (schema_of c) a -> to_sql_value_pair w = p))
          \/ (card_one_attr (schema_of c) a /\ exists w, to_sql_value_pair w <> p /\ holds (disk c') e a w
              /\ (asks ts σ OAdd e a w \/ is_instant r e a (to_sql_value_pair w))))
    /\ (forall e a p, changed (disk c) (disk c') true (e, a, p) ->
          (exists w, asks ts σ OAdd e a w /\ to_sql_value_pair w = p) \/ is_instant r e a p)
    /\ (forall t x v e at_, t ∈ ts -> identity_add (schema_of c) t x -> tm_v t = inl v -> sc_attribute_map (schema_of c) !! tm_a t = Some at_ ->
          at_index at_ = true -> holds (disk c) e (tm_a t) v -> σ !! x = Some e)
    /\ (forall x e, σ !! x = Some e -> names c ts σ x e \/ ~ allocated (parts_of c) e /\ allocated (parts_of c') e)
    /\ (forall x y e, σ !! x = Some e -> σ !! y = Some e -> names c ts σ x e \/ names c ts σ y e \/ rtsc (shares (schema_of c) ts σ) x y).
  Proof using H Q6.
    destruct (thm_notation H) as (l & own & ts & σ & U & Hu & _ & _ & H1). exists ts, σ. split; [|split; [exact (un_report _ _ _ _ _ _ U)|exact H1]].
    apply unfolds_flat in Hu as [-> _]; [|apply Forall_forall; intros x (q & -> & _)%elem_of_list_fmap; apply asking_flat].
    destruct (un_terms _ _ _ _ _ _ U) as (l' & Hp & HF). intros t. split.
    - intros Ht. apply elem_of_list_lookup in Ht as (i & Ht). destruct (Forall2_lookup_r _ _ _ _ _ HF Ht) as (x & Hx & Hr).
      apply elem_of_list_lookup_2 in Hx. rewrite <- Hp in Hx. apply elem_of_list_fmap in Hx as (q & -> & Hq).
      exists q. split; [done|]. eapply asking_reads; [by apply Q6|done].
    - intros (q & Hq & ->). assert (asking_entity q ∈ l') as Hx by (rewrite <- Hp; apply elem_of_list_fmap; by exists q).
      apply elem_of_list_lookup in Hx as (i & Hx). destruct (Forall2_lookup_l _ _ _ _ _ HF Hx) as (t & Ht & Hr).
      apply asking_reads in Hr as ->; [by eapply elem_of_list_lookup_2|by apply Q6].
  Qed.

  Section read.
    Context {ts : list term_t} {σ : gmap tempid Z}.
    Context (Hts : forall t, t ∈ ts <-> exists q, q ∈ qs /\ t = asking_term q) (HT : forall n, T n = σ !! TExternal n).

    Lemma asks_asked o e a v : asks ts σ o e a v <-> exists n, asked o n e a v.
    Proof using Hts HT.
      split.
      - intros (t & (q & Hq & ->)%Hts & Hs). destruct q as [[[o' n] a'] w]. unfold subst in Hs. cbn in Hs.
        destruct (σ !! TExternal n) as [e'|] eqn:En; [|done].
        destruct (subst_v σ (asking_value w)) as [v'|] eqn:Ev; [|done]. injection Hs as -> -> -> ->. exists n, w. split; [done|].
        split; [by rewrite HT|]. destruct w as [w|m]; cbn in Ev; [left; congruence|]. right.
        destruct (σ !! TExternal m) as [e2|] eqn:Em; [|done]. injection Ev as <-. exists m, e2. by rewrite HT.
      - intros (n & w & Hq & Hn & Hw). exists (asking_term (o, n, a, w)). split; [apply Hts; by eexists|].
        unfold subst. cbn. rewrite <- HT, Hn. destruct Hw as [->|(m & e' & -> & Hm & ->)]; [done|]. cbn. by rewrite <- HT, Hm.
    Qed.
    Lemma core_lookup a : a ∈ core_attributes.*1 -> exists at_, (a, at_) ∈ core_attributes /\ sc_attribute_map (schema_of c) !! a = Some at_.
    Proof using Hcore. intros ([a' at_] & -> & Hx)%elem_of_list_fmap. exists at_. split; [done|]. exact (proj2 Hcore _ Hx). Qed.
    Lemma core_identity a at_ : (a, at_) ∈ core_attributes -> at_unique at_ = Some UIdentity -> a = DB_IDENT.
    Proof using Type.
      intros Hx Hu. unfold core_attributes in Hx. repeat (apply elem_of_cons in Hx as [[= -> ->]|Hx]; [try discriminate Hu; reflexivity|]).
      by apply elem_of_nil in Hx.
    Qed.
    Lemma identity_asked q x : q ∈ qs -> identity_add (schema_of c) (asking_term q) x -> exists n k, q = ident_ask n k /\ x = TExternal n /\ storable_keyword k.
    Proof using Hcore Q5 Q3.
      destruct q as [[[o n] a] v]. intros Hq (Ho & He & at_ & Ha & Hu). cbn in Ho, He, Ha. injection He as <-.
      destruct (core_lookup _ (Q5 _ _ _ _ Hq)) as (at2 & Hx & Ha2). rewrite Ha in Ha2. injection Ha2 as <-.
      pose proof (core_identity _ _ Hx Hu) as ->. destruct (Q3 _ _ _ Hq) as (-> & k & -> & Hk). by exists n, k.
    Qed.
    Lemma names_asked x e : names c ts σ x e -> exists n k, ident_ask n k ∈ qs /\ x = TExternal n /\ holds (disk c) e DB_IDENT (TVKeyword k).
    Proof using Hcore Q5 Q3 Hts.
      intros (t & v & (q & Hq & ->)%Hts & Hi & Hv & Hh). destruct (identity_asked _ _ Hq Hi) as (n & k & -> & -> & _).
      exists n, k. split; [done|]. split; [done|]. cbn in Hv, Hh. injection Hv as <-. exact Hh.
    Qed.
    Lemma shares_same x y : shares (schema_of c) ts σ x y -> x = y.
    Proof using Hcore Q5 Q3 Q2 Hts.
      intros (t & u & (q & Hq & ->)%Hts & (q' & Hq' & ->)%Hts & H1 & H2 & _ & v & Hv & Hv').
      destruct (identity_asked _ _ Hq H1) as (n & k & -> & -> & _), (identity_asked _ _ Hq' H2) as (n' & k' & -> & -> & _).
      cbn in Hv, Hv'. injection Hv as <-. injection Hv' as E. f_equal. apply (Q2 _ _ _ _ Hq Hq'). congruence.
    Qed.
    Lemma rtsc_same x y : rtsc (shares (schema_of c) ts σ) x y -> x = y.
    Proof using Hcore Q5 Q3 Q2 Hts.
      induction 1 as [|x y z [Hs|Hs] _ IH]; [done|..]; apply shares_same in Hs; congruence.
    Qed.
    Lemma ident_card_one e k k' : holds (disk c) e DB_IDENT (TVKeyword k) -> holds (disk c) e DB_IDENT (TVKeyword k') ->
      storable_keyword k -> storable_keyword k' -> k = k'.
    Proof using H Hcore.
      intros H1 H2 S1 S2. destruct H as (Hc & _). destruct (conn_store_ok _ (clean_ok _ _ Hc)) as (n & Hs).
      apply storable_text_inj; [done..|].
      exact (so_card _ _ _ Hs _ eq_refl _ _ _ _ _ (proj2 Hcore (DB_IDENT, _) (elem_of_list_here _ _)) eq_refl H1 H2).
    Qed.

    Context (Hsome : forall t, t ∈ ts -> is_Some (subst σ t)).
    Context (Hadd : forall t e a v, t ∈ ts -> subst σ t = Some (Term OAdd e a v) ->
          holds (disk c') e a v \/ upserting c ts σ t
          \/ holds (disk c) e a v /\ exists w, w <> v /\ asks ts σ ORetract e a w /\ (card_many_attr (schema_of c) a -> to_sql_value_pair w = to_sql_value_pair v)).
    Context (Hret : forall e a v, asks ts σ ORetract e a v -> holds (disk c') e a v ->
          ~ holds (disk c) e a v
          /\ ((exists w, w <> v /\ asks ts σ OAdd e a w /\ to_sql_value_pair w = to_sql_value_pair v) \/ is_instant r e a (to_sql_value_pair v))).
    Context (Hgone : forall e a p, changed (disk c) (disk c') false (e, a, p) ->
          (exists w, asks ts σ ORetract e a w /\ (card_many_attr (schema_of c) a -> to_sql_value_pair w = p))
          \/ (card_one_attr (schema_of c) a /\ exists w, to_sql_value_pair w <> p /\ holds (disk c') e a w
              /\ (asks ts σ OAdd e a w \/ is_instant r e a (to_sql_value_pair w)))).
    Context (Hnew : forall e a p, changed (disk c) (disk c') true (e, a, p) ->
          (exists w, asks ts σ OAdd e a w /\ to_sql_value_pair w = p) \/ is_instant r e a p).
    Context (Hups : forall t x v e at_, t ∈ ts -> identity_add (schema_of c) t x -> tm_v t = inl v -> sc_attribute_map (schema_of c) !! tm_a t = Some at_ ->
          at_index at_ = true -> holds (disk c) e (tm_a t) v -> σ !! x = Some e).
    Context (Hfresh : forall x e, σ !! x = Some e -> names c ts σ x e \/ ~ allocated (parts_of c) e /\ allocated (parts_of c') e).
    Context (Hsame : forall x y e, σ !! x = Some e -> σ !! y = Some e -> names c ts σ x e \/ names c ts σ y e \/ rtsc (shares (schema_of c) ts σ) x y).

    Lemma rd_known n k e a p : T n = Some e -> ident_ask n k ∈ qs -> (e, a, p) ∈ facts (disk c) -> holds (disk c) e DB_IDENT (TVKeyword k).
    Proof using All.
      intros Hn Hk Hf. rewrite HT in Hn. destruct (Hfresh _ _ Hn) as [Hm|[Hu _]]; [|by destruct Hu; eapply Hall].
      destruct (names_asked _ _ Hm) as (n' & k' & Hk' & [= <-] & Hh). by rewrite (proj1 (Q2 _ _ _ _ Hk Hk') eq_refl).
    Qed.
    Lemma rd_named_inj n n' k e : names c ts σ (TExternal n) e -> T n' = Some e -> ident_ask n' k ∈ qs -> n = n'.
    Proof using All.
      intros Hm Hn' Hk'. destruct (names_asked _ _ Hm) as (n1 & k1 & Hk1 & [= <-] & Hh).
      pose proof (rd_known _ _ _ _ _ Hn' Hk' Hh) as Hh'. destruct (Q3 _ _ _ Hk1) as (_ & x & [= <-] & S1), (Q3 _ _ _ Hk') as (_ & x & [= <-] & S2).
      apply (Q2 _ _ _ _ Hk1 Hk'). by eapply ident_card_one.
    Qed.
    Lemma rd_inj n n' k k' e : T n = Some e -> T n' = Some e -> ident_ask n k ∈ qs -> ident_ask n' k' ∈ qs -> n = n'.
    Proof using All.
      intros Hn Hn' Hk Hk'. pose proof Hn as Sn. pose proof Hn' as Sn'. rewrite HT in Sn, Sn'.
      destruct (Hsame _ _ _ Sn Sn') as [Hm|[Hm|Hr]].
      - by eapply rd_named_inj.
      - symmetry. by eapply rd_named_inj.
      - apply rtsc_same in Hr. congruence.
    Qed.
    Lemma asked_inj o n o' n' e a a' v v' : asked o n e a v -> asked o' n' e a' v' -> n = n'.
    Proof using All.
      intros (w & Hw & Hn & _) (w' & Hw' & Hn' & _). destruct (Q1 _ _ _ _ Hw) as (k & Hk), (Q1 _ _ _ _ Hw') as (k' & Hk').
      by eapply rd_inj.
    Qed.
    Lemma rd_fresh n e : T n = Some e -> (exists k, holds (disk c) e DB_IDENT (TVKeyword k)) \/ allocated (parts_of c') e.
    Proof using All.
      intros Hn. rewrite HT in Hn. destruct (Hfresh _ _ Hn) as [Hm|[_ ?]]; [left|by right]. destruct (names_asked _ _ Hm) as (n' & k & _ & _ & ?). by exists k.
    Qed.
    Lemma rd_upsert n k e : ident_ask n k ∈ qs -> holds (disk c) e DB_IDENT (TVKeyword k) -> T n = Some e.
    Proof using All.
      intros Hk Hh. rewrite HT. eapply (Hups (asking_term (ident_ask n k))); [apply Hts; by eexists| |reflexivity|..].
      - split; [done|]. split; [done|]. eexists. split; [exact (proj2 Hcore (DB_IDENT, _) (elem_of_list_here _ _))|done].
      - exact (proj2 Hcore (DB_IDENT, _) (elem_of_list_here _ _)).
      - done.
      - exact Hh.
    Qed.
    Lemma rd_added n e a v : asked OAdd n e a v -> (forall w, ~ asked ORetract n e a w) -> holds (disk c') e a v.
    Proof using All.
      intros Ha Hno. pose proof (proj2 (asks_asked _ _ _ _) (ex_intro _ n Ha)) as (t & Ht & Hs).
      destruct (Hadd _ _ _ _ Ht Hs) as [?|[(y & e' & Hi & Hy & Hm)|(_ & w & _ & Hq & _)]]; [done|..].
      - apply Hts in Ht as (q & Hq & ->). destruct (identity_asked _ _ Hq Hi) as (n1 & k & -> & -> & S).
        unfold subst in Hs. cbn in Hs. rewrite Hy in Hs. cbn in Hs. injection Hs as -> <- <-. rewrite <- HT in Hy.
        destruct (names_asked _ _ Hm) as (n2 & k2 & Hk2 & [= <-] & Hh). pose proof (proj1 (Q2 _ _ _ _ Hq Hk2) eq_refl) as <-.
        destruct (decide ((e, DB_IDENT, to_sql_value_pair (TVKeyword k)) ∈ facts (disk c'))) as [?|Hno']; [done|]. exfalso.
        destruct (Hgone e DB_IDENT (to_sql_value_pair (TVKeyword k))) as [(w & (n3 & w3 & Hq3 & _)%asks_asked & _)|(_ & w & Hne & _ & [Hw|Hw])].
        + by split.
        + pose proof (Q4 _ _ _ Hq3) as E. discriminate E.
        + apply asks_asked in Hw as (n3 & w3 & Hq3 & Hn3 & Hw3). destruct (Q3 _ _ _ Hq3) as (_ & k3 & -> & _).
          pose proof (rd_inj _ _ _ _ _ Hn3 Hy Hq3 Hq) as ->. pose proof (proj1 (Q2 _ _ _ _ Hq3 Hq) eq_refl) as ->.
          destruct Hw3 as [[= <-]|(? & ? & [=] & _)]. by destruct Hne.
        + destruct Hw as (_ & E & _). discriminate E.
      - apply asks_asked in Hq as (n2 & Hq). pose proof (asked_inj _ _ _ _ _ _ _ _ _ Hq Ha) as ->. by destruct (Hno w).
    Qed.
    Lemma rd_retracted n e a v : asked ORetract n e a v -> (forall w, ~ asked OAdd n e a w) -> ~ holds (disk c') e a v.
    Proof using All.
      intros Ha Hno Hh. pose proof (proj2 (asks_asked _ _ _ _) (ex_intro _ n Ha)) as Hq.
      destruct (Hret _ _ _ Hq Hh) as [_ [(w & _ & (n2 & Hw)%asks_asked & _)|(_ & E & _)]].
      - pose proof (asked_inj _ _ _ _ _ _ _ _ _ Ha Hw) as ->. by destruct (Hno w).
      - destruct Ha as (x & Hx & _). rewrite (Q4 _ _ _ Hx) in E. discriminate E.
    Qed.
    Lemma rd_new e a p : changed (disk c) (disk c') true (e, a, p) -> (exists n w, asked OAdd n e a w /\ to_sql_value_pair w = p) \/ is_instant r e a p.
    Proof using All. intros [(w & (n & Hw)%asks_asked & E)|?]%Hnew; [left; by exists n, w|by right]. Qed.
    Lemma rd_gone e a p : changed (disk c) (disk c') false (e, a, p) ->
      (exists n w, a = DB_UNIQUE /\ asked ORetract n e a w) \/ card_one_attr (schema_of c) a /\ ((exists n w, asked OAdd n e a w) \/ e = rp_tx r /\ a = DB_TX_INSTANT).
    Proof using All.
      intros [(w & (n & Hw)%asks_asked & _)|(Hc1 & w & _ & _ & Hw)]%Hgone.
      - left. exists n, w. split; [|done]. destruct Hw as (x & Hx & _). by eapply Q4.
      - right. split; [done|]. destruct Hw as [(n & Hw)%asks_asked|(-> & -> & _)]; [left; by exists n, w|by right].
    Qed.
    Lemma rd_some o n a v : (o, n, a, v) ∈ qs -> is_Some (T n) /\ forall m, v = inr m -> is_Some (T m).
    Proof using All.
      intros Hq. destruct (Hsome (asking_term (o, n, a, v))) as (y & Hs); [apply Hts; by eexists|]. unfold subst in Hs. cbn in Hs.
      rewrite HT. destruct (σ !! TExternal n) as [e|]; [|done]. split; [by eexists|]. intros m ->. rewrite HT. cbn in Hs.
      destruct (σ !! TExternal m); [by eexists|done].
    Qed.
  End read.

  Record installing_facts : Prop := {
    in_some : forall o n a v, (o, n, a, v) ∈ qs -> is_Some (T n) /\ forall m, v = inr m -> is_Some (T m);
    in_inj : forall n n' k k' e, T n = Some e -> T n' = Some e -> ident_ask n k ∈ qs -> ident_ask n' k' ∈ qs -> n = n';
    in_known : forall n k e a p, T n = Some e -> ident_ask n k ∈ qs -> (e, a, p) ∈ facts (disk c) -> holds (disk c) e DB_IDENT (TVKeyword k);
    in_fresh : forall n e, T n = Some e -> (exists k, holds (disk c) e DB_IDENT (TVKeyword k)) \/ allocated (parts_of c') e;
    in_upsert : forall n k e, ident_ask n k ∈ qs -> holds (disk c) e DB_IDENT (TVKeyword k) -> T n = Some e;
    in_added : forall n e a v, asked OAdd n e a v -> (forall w, ~ asked ORetract n e a w) -> holds (disk c') e a v;
    in_retracted : forall n e a v, asked ORetract n e a v -> (forall w, ~ asked OAdd n e a w) -> ~ holds (disk c') e a v;
    in_new : forall e a p, changed (disk c) (disk c') true (e, a, p) -> (exists n w, asked OAdd n e a w /\ to_sql_value_pair w = p) \/ is_instant r e a p;
    in_gone : forall e a p, changed (disk c) (disk c') false (e, a, p) ->
      (exists n w, a = DB_UNIQUE /\ asked ORetract n e a w) \/ card_one_attr (schema_of c) a /\ ((exists n w, asked OAdd n e a w) \/ e = rp_tx r /\ a = DB_TX_INSTANT) }.
  Lemma installing_holds : installing_facts.
  Proof using All.
    destruct installing_reading as (ts & σ & Hts & HT & Hsome & Hadd & Hret & Hgone & Hnew & Hups & Hfresh & Hsame).
    split.
    - exact (rd_some Hts HT Hsome Hadd Hret Hgone Hnew Hups Hfresh Hsame).
    - exact (rd_inj Hts HT Hsome Hadd Hret Hgone Hnew Hups Hfresh Hsame).
    - exact (rd_known Hts HT Hsome Hadd Hret Hgone Hnew Hups Hfresh Hsame).
    - exact (rd_fresh Hts HT Hsome Hadd Hret Hgone Hnew Hups Hfresh Hsame).
    - exact (rd_upsert Hts HT Hsome Hadd Hret Hgone Hnew Hups Hfresh Hsame).
    - exact (rd_added Hts HT Hsome Hadd Hret Hgone Hnew Hups Hfresh Hsame).
    - exact (rd_retracted Hts HT Hsome Hadd Hret Hgone Hnew Hups Hfresh Hsame).
    - exact (rd_new Hts HT Hsome Hadd Hret Hgone Hnew Hups Hfresh Hsame).
    - exact (rd_gone Hts HT Hsome Hadd Hret Hgone Hnew Hups Hfresh Hsame).
  Qed.
End installing.

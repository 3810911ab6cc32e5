(** What applying a pattern adds to a set of clauses. *)
From Verif Require Import M_Query Spec_Query Spec_Value Spec_Sets Spec_Tx Spec_Cache P_Value P_Sets P_QuerySql P_QuerySat.

(* ---------------------------------------------------------------- rows *)

Definition row_value (d : datom) (v : typed_value) : Prop := d_v d = sql_of v /\ d_tag d = vt_tag (tv_type v) /\ storable v.
Lemma row_value_inj d v w : row_value d v -> row_value d w -> v = w.
Proof. intros (H1 & H2 & H3) (H4 & H5 & H6). apply sql_of_inj; congruence. Qed.
Record at_row (E : env) (al : alias) (d : datom) : Prop := {
  ar_e : env_column E (al, CE) = Some (SInt (d_e d));
  ar_a : env_column E (al, CA) = Some (SInt (d_a d));
  ar_v : env_column E (al, CV) = Some (d_v d);
  ar_tx : env_column E (al, CTx) = Some (SInt (d_tx d));
  ar_tag : env_column E (al, CTag) = Some (SInt (d_tag d)) }.
Lemma at_row_head al d E : at_row ((al, RDatom d) :: E) al d.
Proof. split; cbn; by rewrite decide_True. Qed.
Lemma at_row_encodes E al d v : at_row E al d -> encodes E (al, CV) v <-> row_value d v.
Proof.
  intros [_ _ Hv _ Ht]. unfold encodes, row_value. cbn [fst snd]. rewrite Hv, Ht. split.
  - intros ([= ->] & [= ->] & H). done.
  - intros (-> & -> & H). done.
Qed.

Definition eplace_is (σ : string -> typed_value) (p : eplace) (i : Z) : Prop :=
  match p with EpPlaceholder => True | EpVar x => σ x = TVRef i | EpEntid e => i = e end.
Definition evalue_row (σ : string -> typed_value) (p : evplace) (d : datom) : Prop :=
  match p with
  | EvPlaceholder => True
  | EvVar x => row_value d (σ x)
  | EvEntid e => row_value d (TVRef e)
  | EvValue x => row_value d x
  | EvInteger _ | EvIdent _ => False
  end.
Definition ematches (st : store) (σ : string -> typed_value) (p : epattern) : Prop := exists d, d ∈ all_datoms st
  /\ eplace_is σ (ep_e p) (d_e d) /\ eplace_is σ (ep_a p) (d_a d) /\ evalue_row σ (ep_v p) d /\ eplace_is σ (ep_tx p) (d_tx d).

Section rows.
  Context (m : gmap Z attribute) (st : store) (G : store_good m st).
  Lemma row_attr d : some_row st d -> exists at_, m !! d_a d = Some at_.
  Proof using G.
    intros [Hd|Hd].
    - destruct (sg_view _ _ G d Hd) as (at_ & _ & ? & _). by exists at_.
    - destruct (sg_raw _ _ G d Hd) as [[_ Hd']|(_ & _ & _ & d' & Hd' & _ & Ha & _)];
        destruct (sg_view _ _ G _ Hd') as (at_ & _ & H & _); exists at_; [done|by rewrite <- Ha].
  Qed.
  Lemma row_value_type d v at_ : some_row st d -> row_value d v -> m !! d_a d = Some at_ -> tv_type v = at_type at_.
  Proof using G.
    intros Hd Hv Ha. assert (d ∈ all_datoms st -> tv_type v = at_type at_) as Hall.
    { intros Hin. destruct (sg_view _ _ G d Hin) as (at2 & w & Ha2 & Hw & Ht & E1 & E2 & _). assert (at2 = at_) as -> by congruence.
      by rewrite (row_value_inj d v w Hv ltac:(done)). }
    destruct Hd as [Hd|Hd]; [by apply Hall|]. destruct (sg_raw _ _ G d Hd) as [[_ Hd']|(_ & (i & Hi) & Htag & _)]; [by apply Hall|].
    destruct Hv as (H1 & H2 & _). rewrite Hi in H1. rewrite Htag in H2. by destruct v as [| | |[]| | | |].
  Qed.
  (** The rows of a fulltext attribute in the view *)
  Lemma fulltext_row d at_ : d ∈ all_datoms st -> m !! d_a d = Some at_ -> at_fulltext at_ = true -> at_type at_ = VTString.
  Proof using G.
    intros Hd Ha Hf. destruct (sg_view _ _ G d Hd) as (at2 & w & Ha2 & Hw & Ht & E1 & E2 & E3). assert (at2 = at_) as -> by congruence.
    destruct (sg_rows _ _ G d Hd) as [[H _]|(_ & _ & Htag & _)]; [congruence|]. rewrite Htag in E2. rewrite <- Ht. by destruct (tv_type w).
  Qed.
  Lemma raw_row d at_ : d ∈ st_datoms st -> m !! d_a d = Some at_ -> d ∈ all_datoms st \/ (at_fulltext at_ = true /\ at_type at_ = VTString /\ d_tag d = 10).
  Proof using G.
    intros Hd Ha. destruct (sg_raw _ _ G d Hd) as [[_ Hd']|(_ & _ & Htag & d' & Hd' & _ & Ha' & _ & Hf)]; [by left|]. right.
    destruct (sg_view _ _ G d' Hd') as (at2 & w & Ha2 & _ & _ & _ & _ & Hf2). rewrite Ha' in Ha2. assert (at2 = at_) as -> by congruence.
    assert (at_fulltext at_ = true) as Hft by congruence. split_and!; [done| |done]. apply (fulltext_row d'); [done|congruence|done].
  Qed.
  Lemma row_typed d at_ : some_row st d -> m !! d_a d = Some at_ -> at_type at_ <> VTString \/ d ∈ all_datoms st ->
    exists v, row_value d v /\ tv_type v = at_type at_.
  Proof using G.
    intros Hd Ha Hs. assert (d ∈ all_datoms st -> exists v, row_value d v /\ tv_type v = at_type at_) as Hall.
    { intros Hin. destruct (sg_view _ _ G d Hin) as (at2 & w & Ha2 & Hw & Ht & E1 & E2 & _). assert (at2 = at_) as -> by congruence. by exists w. }
    destruct Hd as [Hd|Hd]; [by apply Hall|]. destruct (raw_row d at_ Hd Ha) as [H|(_ & H & _)]; [by apply Hall|]. destruct Hs; [done|by apply Hall].
  Qed.
  Lemma view_value d : d ∈ all_datoms st -> exists v, row_value d v.
  Proof using G. intros Hd. destruct (sg_view _ _ G d Hd) as (at_ & w & _ & Hw & _ & E1 & E2 & _). by exists w. Qed.
  Lemma stored_row e a v : stored st e a v <-> exists d, d ∈ all_datoms st /\ d_e d = e /\ d_a d = a /\ row_value d v.
  Proof using G.
    unfold stored, facts. split.
    - intros (p & Hin & Hd). apply elem_of_list_fmap in Hin as (d & [= -> -> ->] & Hin). exists d. split_and!; try done.
      destruct (view_value d Hin) as [w Hw]. pose proof Hw as (E1 & E2 & Hs). cbn [fst snd] in Hd. rewrite E1, E2, decode_sql in Hd by done.
      by injection Hd as <-.
    - intros (d & Hin & <- & <- & (E1 & E2 & Hs)). exists (d_v d, d_tag d). split; [apply elem_of_list_fmap; by exists d|].
      cbn [fst snd]. rewrite E1, E2. by apply decode_sql.
  Qed.
  Lemma datom_at_row e a v tx : datom_at st e a v tx <-> exists d, d ∈ all_datoms st /\ d_e d = e /\ d_a d = a /\ d_tx d = tx /\ row_value d v.
  Proof using G.
    unfold datom_at. split; intros (d & Hin & He & Ha & Htx & Hv); exists d; split_and!; try done.
    - destruct (view_value d Hin) as [w Hw]. pose proof Hw as (E1 & E2 & Hs). rewrite E1, E2, decode_sql in Hv by done. by injection Hv as <-.
    - destruct Hv as (E1 & E2 & Hs). rewrite E1, E2. by apply decode_sql.
  Qed.
End rows.

(* ---------------------------------------------------------------- places *)

Section places.
  Context (sq : sqlite) (k : known) (st : store) (G : store_good (sc_attribute_map (kn_schema k)) st).
  Notation sat := (sat sq st).

  Lemma sat_apply_eplace q p c E σ i : q.2 = CE \/ q.2 = CA \/ q.2 = CTx -> env_column E q = Some (SInt i) ->
    (forall v, p = EpVar v -> sat c E σ -> tv_type (σ v) = VTRef) ->
    sat (apply_eplace k q p c) E σ <-> sat c E σ /\ eplace_is σ p i.
  Proof using Type.
    intros Hq Hc Hr. destruct p as [|v|e]; cbn [apply_eplace eplace_is]; [tauto| |].
    - unfold bind_column. destruct (c_vals c !! v) as [x|] eqn:Ev.
      + assert (sat (match x with
                   | TVKeyword i0 => match kn_ident k i0 with Some e => add_where (KEquals q (QEntid e)) c | None => mark_empty c end
                   | TVRef e => add_where (KEquals q (QEntid e)) c
                   | _ => mark_empty c end) E σ <-> sat c E σ /\ σ v = TVRef i) as H; [|destruct q as [al []]; cbn in Hq; naive_solver].
        split.
        * intros H. assert (sat c E σ) as Hs.
          { repeat case_match; rewrite ?sat_mark_empty, ?sat_add_where in H; tauto. }
          pose proof (sat_vals _ _ _ _ _ Hs _ _ Ev) as Hv. pose proof (Hr v eq_refl Hs) as Ht. rewrite Hv in Ht. destruct x; try done.
          apply sat_add_where in H as [_ H]. apply (eq_entid sq st E q i) in H; [|done]. by subst.
        * intros [Hs Hv]. rewrite (sat_vals _ _ _ _ _ Hs _ _ Ev) in Hv. subst x. apply sat_add_where. split; [done|]. by apply (eq_entid sq st E q i).
      + assert (associated_tag q = None) as Hat by (destruct q as [al []]; cbn in *; naive_solver).
        rewrite Hat. match goal with |- context [if ?b then c else c] => replace (if b then c else c) with c by (by destruct b) end.
        rewrite sat_push_col. unfold encodes. destruct q as [al []]; cbn [fst snd] in *; naive_solver.
    - rewrite sat_add_where, (eq_entid sq st E q i) by done. done.
  Qed.

  Lemma sat_bind_value_column al d v c E σ : at_row E al d -> c_vals c !! v = None ->
    sat (bind_column k (al, CV) v c) E σ <-> sat c E σ /\ row_value d (σ v).
  Proof using Type.
    intros Hr Hn. unfold bind_column. rewrite Hn. rewrite sat_push_col, (at_row_encodes E al d) by done.
    case_match eqn:Hb; [|done]. cbn [associated_tag fst snd]. apply andb_true_iff in Hb as [_ Hb].
    destruct (c_extracted c !! v) as [q|] eqn:Ex; [done|]. rewrite sat_put_extracted by done. cbn [fst snd]. rewrite (ar_tag _ _ _ Hr).
    split; [tauto|]. intros [Hs Hv]. split; [|done]. split; [done|]. split; [done|]. destruct Hv as (_ & -> & _). done.
  Qed.

  (** Which value places of a pattern the code treats rightly, given the type of the attribute *)
  Definition evalue_safe (c : cc) (t : option value_type) (p : evplace) : Prop :=
    match p with
    | EvPlaceholder => True
    | EvVar v => c_vals c !! v = None
    | EvEntid _ => is_Some t
    | EvValue x => storable x /\ (t = None -> tv_type x <> VTLong /\ tv_type x <> VTDouble)
    | EvInteger _ | EvIdent _ => False
    end.
  Lemma sat_apply_value al t p c E σ d : at_row E al d -> some_row st d -> evalue_safe c t p ->
    (sat c E σ -> match t with Some ty => exists at_, kn_attr k (d_a d) = Some at_ /\ at_type at_ = ty | None => True end) ->
    (sat c E σ -> forall s, p = EvValue (TVString s) -> d ∈ all_datoms st) ->
    (sat (apply_value k al t p c).1 E σ <-> sat c E σ /\ evalue_row σ p d)
    /\ ((apply_value k al t p c).2 = true -> ~ sat (apply_value k al t p c).1 E σ).
  Proof using G.
    intros Hr Hd Hsafe Hty Hstr. unfold apply_value.
    destruct p as [|v|e|z|i|x]; cbn [evalue_safe evalue_row] in *.
    - cbn [fst snd]. split; [tauto|done].
    - destruct t as [ty|].
      + assert (c_vals (constrain_var v ty c) !! v = None) as Hn. { unfold constrain_var. destruct c as [[] l w]. cbn in *. repeat case_match; done. }
        assert (sat c E σ -> row_value d (σ v) -> tv_type (σ v) = ty) as Hrow.
        { intros Hs Hv. destruct (Hty Hs) as (at_ & Ha & <-). by eapply row_value_type. }
        destruct (c_empty (constrain_var v ty c)) eqn:Ee; cbn [fst snd].
        * assert (~ sat (constrain_var v ty c) E σ) as Hno. { intros []. congruence. }
          split; [|done]. split; [done|]. intros [Hs Hv]. exfalso. apply Hno, sat_constrain_var. split; [done|]. by apply Hrow.
        * split; [|done]. rewrite (sat_bind_value_column al d) by done. rewrite sat_constrain_var. split; [tauto|]. intros [Hs Hv].
          split; [|done]. split; [done|]. by apply Hrow.
      + cbn [fst snd]. split; [|done]. by apply sat_bind_value_column.
    - destruct Hsafe as [ty ->].
      assert (sat c E σ -> ty <> VTRef -> ~ row_value d (TVRef e)) as Hne.
      { intros Hs Hne Hv. destruct (Hty Hs) as (at_ & Ha & <-). apply Hne. by rewrite <- (row_value_type _ _ G _ _ _ Hd Hv Ha). }
      destruct ty; cbn [fst snd]; split; try done; rewrite ?sat_mark_empty; try (split; [done|]; intros [Hs Hv]; by apply Hne in Hv).
      rewrite sat_add_where. split; intros [Hs Hv]; (split; [done|]); destruct (Hty Hs) as (at_ & Ha & Hat).
      + destruct (row_typed _ _ G d at_ Hd Ha) as (w & Hw & Hwt); [left; by rewrite Hat|]. rewrite Hat in Hwt. destruct w as [i| | | | | | |]; try done.
        pose proof Hw as (Ev & _). cbn in Ev. apply (eq_entid sq st E (al, CV) i) in Hv; [by subst|]. by rewrite (ar_v _ _ _ Hr), Ev.
      + apply (eq_entid sq st E (al, CV) e); [|done]. rewrite (ar_v _ _ _ Hr). destruct Hv as (-> & _). done.
    - done.
    - done.
    - destruct Hsafe as [Hx Hown]. destruct t as [ty|].
      + assert (sat c E σ -> row_value d x -> tv_type x = ty) as Hrow.
        { intros Hs Hv. destruct (Hty Hs) as (at_ & Ha & <-). by eapply row_value_type. }
        case_bool_decide as Hxt; cbn [fst snd].
        * split; [|done]. assert (sat c E σ -> exists w, row_value d w /\ tv_type w = tv_type x) as Hw.
          { intros Hs. destruct (Hty Hs) as (at_ & Ha & Hat). rewrite Hxt, <- Hat. apply (row_typed _ _ G); [done|done|].
            destruct (decide (at_type at_ = VTString)) as [Es|Es]; [|by left]. right. rewrite <- Hat, Es in Hxt. destruct x; try done. by eapply Hstr. }
          split.
          -- intros H. assert (sat c E σ) as Hs. { unfold constrain_constant in H. rewrite sat_add_where in H. tauto. }
             split; [done|]. destruct (Hw Hs) as (w & Hwv & Hwt). pose proof Hwv as (E1 & E2 & E3).
             rewrite (eq_constant sq st E (al, CV) w) in H; try done; [by destruct H as [_ <-]|]. by rewrite (ar_v _ _ _ Hr), E1.
          -- intros [Hs Hv]. pose proof Hv as (E1 & E2 & E3). apply (eq_constant sq st E (al, CV) x); try done. by rewrite (ar_v _ _ _ Hr), E1.
        * split; [|by rewrite sat_mark_empty; tauto]. rewrite sat_mark_empty. split; [done|]. intros [Hs Hv]. by apply Hxt, Hrow.
      + specialize (Hown eq_refl). cbn [fst snd]. split; [|done]. rewrite sat_add_where, (has_one_type sq st E al _ (d_tag d)) by apply Hr. split.
        * intros [H Htag]. assert (sat c E σ) as Hs. { unfold constrain_constant in H. rewrite sat_add_where in H. tauto. }
          split; [done|]. assert (d ∈ all_datoms st) as Hin.
          { destruct Hd as [Hd|Hd]; [done|]. destruct (sg_raw _ _ G d Hd) as [[_ Hd']|(_ & _ & Ht & _)]; [done|].
            rewrite Ht in Htag. destruct x; try done. by eapply Hstr. }
          destruct (view_value _ _ G d Hin) as [w Hw]. pose proof Hw as (E1 & E2 & E3).
          assert (tv_type w = tv_type x) as Ewx. { symmetry. apply vt_tag_own; [congruence|tauto|tauto]. }
          rewrite (eq_constant sq st E (al, CV) w) in H; try done; [by destruct H as [_ <-]|]. by rewrite (ar_v _ _ _ Hr), E1.
        * intros [Hs Hv]. pose proof Hv as (E1 & E2 & E3). split; [|done]. apply (eq_constant sq st E (al, CV) x); try done. by rewrite (ar_v _ _ _ Hr), E1.
  Qed.

  (* -------------------------------------------------------------- the fields that do not change *)
  Lemma vals_constrain_var v t c : c_vals (constrain_var v t c) = c_vals c.
  Proof using Type. unfold constrain_var. destruct c as [[] l w]. cbn. by repeat case_match. Qed.
  Lemma vals_constrain_to_ref p c : c_vals (constrain_to_ref p c) = c_vals c.
  Proof using Type. destruct p; try done. apply vals_constrain_var. Qed.
  Lemma vals_bind_column q v c : c_vals (bind_column k q v c) = c_vals c.
  Proof using Type. unfold bind_column. destruct c as [[] l w]. cbn. repeat case_match; done. Qed.
  Lemma vals_apply_eplace q p c : c_vals (apply_eplace k q p c) = c_vals c.
  Proof using Type. destruct p; try done; [apply vals_bind_column|by destruct c]. Qed.

  Lemma sat_constrain_to_ref p c E σ : sat (constrain_to_ref p c) E σ <-> sat c E σ /\ (forall v, p = EpVar v -> tv_type (σ v) = VTRef).
  Proof using Type. destruct p as [|v|e]; cbn [constrain_to_ref]; [|rewrite sat_constrain_var|]; naive_solver. Qed.

  (** The attribute that a place stands for *)
  Definition attr_of (c : cc) (a : eplace) : option Z :=
    match a with
    | EpEntid e => Some e
    | EpVar x => match c_vals c !! x with Some (TVRef e) => Some e | _ => None end
    | EpPlaceholder => None
    end.
  Lemma value_type_for_spec c a E σ i : sat c E σ -> eplace_is σ a i ->
    match value_type_for k c a with Some ty => exists at_, kn_attr k i = Some at_ /\ at_type at_ = ty | None => True end.
  Proof using Type.
    intros Hs Hi. unfold value_type_for. destruct a as [|x|e]; cbn [eplace_is] in Hi; [done| |].
    - destruct (c_vals c !! x) as [v|] eqn:Ev; [|done]. rewrite (sat_vals _ _ _ _ _ Hs _ _ Ev) in Hi. subst v.
      destruct (kn_attr k i) as [at_|]; [by exists at_|done].
    - subst e. destruct (kn_attr k i) as [at_|]; [by exists at_|done].
  Qed.
  Lemma sat_apply_for_alias al p c E σ d : at_row E al d -> some_row st d -> evalue_safe c (value_type_for k c (ep_a p)) (ep_v p) ->
    (sat c E σ -> eplace_is σ (ep_a p) (d_a d) -> forall s, ep_v p = EvValue (TVString s) -> d ∈ all_datoms st) ->
    sat (apply_for_alias k p al c) E σ <->
    sat c E σ /\ eplace_is σ (ep_e p) (d_e d) /\ eplace_is σ (ep_a p) (d_a d) /\ evalue_row σ (ep_v p) d /\ eplace_is σ (ep_tx p) (d_tx d).
  Proof using G.
    intros Hr Hd Hsafe Hstr. unfold apply_for_alias. destruct (c_empty c) eqn:Ee.
    { assert (~ sat c E σ) by (intros []; congruence). tauto. }
    set (c1 := constrain_to_ref (ep_a p) (constrain_to_ref (ep_e p) (constrain_to_ref (ep_tx p) c))).
    assert (c_vals c1 = c_vals c) as V1 by (unfold c1; by rewrite !vals_constrain_to_ref).
    assert (sat c1 E σ <-> sat c E σ /\ (forall v, ep_a p = EpVar v -> tv_type (σ v) = VTRef) /\ (forall v, ep_e p = EpVar v -> tv_type (σ v) = VTRef)
      /\ (forall v, ep_tx p = EpVar v -> tv_type (σ v) = VTRef)) as S1. { unfold c1. rewrite !sat_constrain_to_ref. tauto. }
    assert (forall a i v, eplace_is σ a i -> a = EpVar v -> tv_type (σ v) = VTRef) as Href. { intros a i v H ->. cbn in H. by rewrite H. }
    set (c2 := apply_eplace k (al, CE) (ep_e p) c1).
    assert (c_vals c2 = c_vals c) as V2 by (unfold c2; by rewrite vals_apply_eplace).
    assert (sat c2 E σ <-> sat c1 E σ /\ eplace_is σ (ep_e p) (d_e d)) as S2.
    { apply sat_apply_eplace; [by left|apply Hr|]. intros v Hv Hs. apply S1 in Hs. naive_solver. }
    (* the attribute *)
    set (c3 := match ep_a p with
               | EpEntid e => add_where (KEquals (al, CA) (QEntid e)) c2
               | a => apply_eplace k (al, CA) a c2 end).
    assert (c_vals c3 = c_vals c) as V3. { unfold c3. destruct (ep_a p); [done|by rewrite vals_apply_eplace|clearbody c2; by destruct c2]. }
    assert (sat c3 E σ <-> sat c2 E σ /\ eplace_is σ (ep_a p) (d_a d)) as S3.
    { assert (c3 = apply_eplace k (al, CA) (ep_a p) c2) as -> by (unfold c3; by destruct (ep_a p)).
      apply sat_apply_eplace; [by right; left|apply Hr|]. intros v Hv Hs. apply S2 in Hs as [Hs _]. apply S1 in Hs. naive_solver. }
    assert (value_type_for k c3 (ep_a p) = value_type_for k c (ep_a p)) as Et. { unfold value_type_for. by rewrite V3. }
    destruct (sat_apply_value al (value_type_for k c3 (ep_a p)) (ep_v p) c3 E σ d) as [S4 Stop].
    { done. } { done. }
    { rewrite Et. destruct (ep_v p); try done. cbn in *. by rewrite V3. }
    { intros Hs. pose proof Hs as Hs'. apply S3 in Hs' as [_ Ha]. by eapply value_type_for_spec. }
    { intros Hs. apply S3 in Hs as [Hs Ha]. apply S2 in Hs as [Hs _]. apply S1 in Hs as [Hs _]. by apply Hstr. }
    assert (sat (let '(c, stop) := apply_value k al (value_type_for k c3 (ep_a p)) (ep_v p) c3 in if stop then c else apply_eplace k (al, CTx) (ep_tx p) c) E σ
      <-> sat c E σ /\ eplace_is σ (ep_e p) (d_e d) /\ eplace_is σ (ep_a p) (d_a d) /\ evalue_row σ (ep_v p) d /\ eplace_is σ (ep_tx p) (d_tx d)) as Hend.
    { destruct (apply_value k al (value_type_for k c3 (ep_a p)) (ep_v p) c3) as [c4 stop]. cbn [fst snd] in *.
      assert (sat c4 E σ /\ eplace_is σ (ep_tx p) (d_tx d) <-> sat c E σ /\ eplace_is σ (ep_e p) (d_e d) /\ eplace_is σ (ep_a p) (d_a d) /\ evalue_row σ (ep_v p) d /\ eplace_is σ (ep_tx p) (d_tx d)) as Hall.
      { rewrite S4, S3, S2, S1. split; [tauto|]. intros (Hs & He & Ha & Hv & Htx). split_and!; try done; intros v Hp.
        - by apply (Href (ep_a p) (d_a d)).
        - by apply (Href (ep_e p) (d_e d)).
        - by apply (Href (ep_tx p) (d_tx d)). }
      rewrite <- Hall. destruct stop; [specialize (Stop eq_refl); tauto|]. apply sat_apply_eplace; [by right; right|apply Hr|].
      intros v Hv Hs. apply S4 in Hs as [Hs _]. apply S3 in Hs as [Hs _]. apply S2 in Hs as [Hs _]. apply S1 in Hs. naive_solver. }
    unfold c3 in Hend. clear c3 V3 S3 Et S4 Stop. destruct (ep_a p) as [|x|e] eqn:Ea; [exact Hend|exact Hend|].
    destruct (kn_attr k e) as [at_|] eqn:Eat; [exact Hend|]. rewrite sat_mark_empty. split; [done|]. cbn [eplace_is]. intros (_ & _ & Ha & _).
    destruct (row_attr _ _ G d Hd) as [at_ Hat]. unfold kn_attr in Eat. congruence.
  Qed.

  (* -------------------------------------------------------------- tables *)
  Lemma table_row c p t d E σ : sat c E σ -> table_for_places k c (ep_a p) (ep_v p) = Some t -> RDatom d ∈ table_rows st [] t ->
    some_row st d /\ (eplace_is σ (ep_a p) (d_a d) -> forall s, ep_v p = EvValue (TVString s) -> d ∈ all_datoms st).
  Proof using G.
    intros Hs Ht Hd.
    assert (forall l : list datom, RDatom d ∈ map RDatom l -> d ∈ l) as Hmap. { intros l H. by apply elem_of_list_fmap in H as (? & [= ->] & ?). }
    assert (some_row st d) as Hsome.
    { destruct t as [| | |i]; cbn [table_rows] in Hd; try apply Hmap in Hd.
      - by right. - left. by apply elem_of_list_filter in Hd as [_ Hd]. - by left. - by apply elem_of_nil in Hd. }
    split; [done|]. intros Ha s Hv. rewrite Hv in Ht.
    assert (forall at_, kn_attr k (d_a d) = Some at_ -> table_for_attribute at_ (EvValue (TVString s)) = Some t -> d ∈ all_datoms st) as Hattr.
    { intros at_ Hat Htt. unfold table_for_attribute in Htt. destruct (at_fulltext at_) eqn:Hf; injection Htt as <-; cbn [table_rows] in Hd; apply Hmap in Hd.
      - by apply elem_of_list_filter in Hd as [_ Hd].
      - destruct (raw_row _ _ G d at_ Hd Hat) as [H|(H & _)]; [done|congruence]. }
    assert (Some (table_for_unknown c (EvValue (TVString s))) = Some t -> d ∈ all_datoms st) as Hunk.
    { intros [= <-]. cbn [table_for_unknown table_rows] in Hd. by apply Hmap in Hd. }
    unfold table_for_places in Ht. destruct (ep_a p) as [|x|e]; cbn [eplace_is] in Ha; [by apply Hunk| |].
    - destruct (c_vals c !! x) as [v|] eqn:Ev; [|by apply Hunk]. rewrite (sat_vals _ _ _ _ _ Hs _ _ Ev) in Ha. subst v.
      destruct (kn_attr k (d_a d)) as [at_|] eqn:Hat; [|done]. by eapply Hattr.
    - subst e. destruct (kn_attr k (d_a d)) as [at_|] eqn:Hat; [|done]. by eapply Hattr.
  Qed.
  Lemma table_complete c p d E σ : sat c E σ -> d ∈ all_datoms st -> eplace_is σ (ep_a p) (d_a d) -> evalue_row σ (ep_v p) d ->
    exists t d0, table_for_places k c (ep_a p) (ep_v p) = Some t /\ RDatom d0 ∈ table_rows st [] t
      /\ d_e d0 = d_e d /\ d_a d0 = d_a d /\ d_tx d0 = d_tx d /\ evalue_row σ (ep_v p) d0.
  Proof using G.
    intros Hs Hd Ha Hv.
    assert (forall t, (t = TAll \/ (t = TFulltext /\ d_ft d = true)) -> RDatom d ∈ table_rows st [] t) as Hview.
    { intros t [->|[-> Hf]]; cbn [table_rows]; apply elem_of_list_fmap; exists d; split; try done. by apply elem_of_list_filter. }
    destruct (sg_view _ _ G d Hd) as (at_ & w & Hat & Hw & Hwt & Ew & Etag & Eft).
    (* the same row in the table of datoms *)
    assert ((forall v, row_value d v -> tv_type v = VTString -> d_ft d = true -> ep_v p = EvPlaceholder) ->
      exists d0, RDatom d0 ∈ table_rows st [] TDatoms /\ d_e d0 = d_e d /\ d_a d0 = d_a d /\ d_tx d0 = d_tx d /\ evalue_row σ (ep_v p) d0) as Hraw.
    { intros Hpl. destruct (sg_rows _ _ G d Hd) as [[_ Hd0]|(Hf & _ & Htag & d0 & Hd0 & H1 & H2 & H3 & _)].
      - exists d. split_and!; try done. cbn. by apply elem_of_list_fmap_1.
      - exists d0. split_and!; try done; [cbn; by apply elem_of_list_fmap_1|]. rewrite (Hpl w); [done|done| |done].
        rewrite Htag in Etag. by destruct (tv_type w). }
    assert (exists t d0, table_for_attribute at_ (ep_v p) = Some t /\ RDatom d0 ∈ table_rows st [] t
      /\ d_e d0 = d_e d /\ d_a d0 = d_a d /\ d_tx d0 = d_tx d /\ evalue_row σ (ep_v p) d0) as Hattr.
    { unfold table_for_attribute. destruct (at_fulltext at_) eqn:Hf.
      - pose proof (fulltext_row _ _ G d at_ Hd Hat Hf) as Hstr.
        assert (forall v, row_value d v -> tv_type v = VTString) as Hs'. { intros v Hv'. rewrite <- Hstr. eapply row_value_type; [exact G|by left|done|done]. }
        destruct (ep_v p) as [|v|e|z|i|x] eqn:Ep; cbn [evalue_row] in Hv; try done.
        + destruct Hraw as (d0 & H); [done|]. exists TDatoms, d0. done.
        + exists TFulltext, d. split_and!; try done. apply Hview. right. split; [done|congruence].
        + by apply Hs' in Hv.
        + pose proof (Hs' _ Hv) as Hx. destruct x; try done. exists TFulltext, d. split_and!; try done. apply Hview. right. split; [done|congruence].
      - destruct Hraw as (d0 & H); [congruence|]. exists TDatoms, d0. done. }
    assert (exists d0, RDatom d0 ∈ table_rows st [] (table_for_unknown c (ep_v p))
      /\ d_e d0 = d_e d /\ d_a d0 = d_a d /\ d_tx d0 = d_tx d /\ evalue_row σ (ep_v p) d0) as Hunk.
    { destruct (ep_v p) as [|v|e|z|i|x] eqn:Ep; cbn [evalue_row table_for_unknown] in Hv |- *; try done.
      - by apply Hraw.
      - destruct (may_be_string (c_required c) v && may_be_string (c_known c) v) eqn:Em.
        + exists d. split_and!; try done. apply Hview. by left.
        + apply Hraw. intros v' Hv' Hstr. rewrite (row_value_inj _ _ _ Hv' Hv) in Hstr. exfalso. apply andb_false_iff in Em as [Em|Em]; unfold may_be_string in Em.
          * destruct (c_required c !! v) as [ts|] eqn:Er; [|done]. pose proof (sat_required _ _ _ _ _ Hs _ _ Er) as H. rewrite Hstr in H. congruence.
          * destruct (c_known c !! v) as [ts|] eqn:Er; [|done]. pose proof (sat_known _ _ _ _ _ Hs _ _ Er) as H. rewrite Hstr in H. congruence.
      - apply Hraw. intros v' Hv' Hstr. rewrite (row_value_inj _ _ _ Hv' Hv) in Hstr. done.
      - assert (tv_type x <> VTString -> exists d0, RDatom d0 ∈ table_rows st [] TDatoms /\ d_e d0 = d_e d /\ d_a d0 = d_a d /\ d_tx d0 = d_tx d /\ row_value d0 x) as Hx.
        { intros Hx. apply Hraw. intros v' Hv' Hstr. rewrite (row_value_inj _ _ _ Hv' Hv) in Hstr. done. }
        destruct x; try (by apply Hx). exists d. split_and!; try done. apply Hview. by left. }
    unfold table_for_places. destruct (ep_a p) as [|x|e]; cbn [eplace_is] in Ha.
    - destruct Hunk as (d0 & H). by exists (table_for_unknown c (ep_v p)), d0.
    - destruct (c_vals c !! x) as [v|] eqn:Ev.
      + rewrite (sat_vals _ _ _ _ _ Hs _ _ Ev) in Ha. subst v. unfold kn_attr. by rewrite Hat.
      + destruct Hunk as (d0 & H). by exists (table_for_unknown c (ep_v p)), d0.
    - subst e. unfold kn_attr. by rewrite Hat.
  Qed.
End places.

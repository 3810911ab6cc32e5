(** Applying a pattern: the invariant, and what the clauses then say. *)
From Verif Require Import M_Query Spec_Query Spec_Value Spec_Sets Spec_Cache P_Value P_Sets P_QuerySql P_QuerySat P_QueryPat P_QueryInv.

(** The cache agrees with the store. *)
Record cache_ok (k : known) (st : store) : Prop := {
  co_value : forall a at_, kn_attr k a = Some at_ -> cq_forward (kn_cache k) a = true ->
    forall e v, cq_value (kn_cache k) a e = Some v <-> stored st e a v;
  co_entid : forall a at_, kn_attr k a = Some at_ -> cq_reverse (kn_cache k) a = true -> is_Some (at_unique at_) ->
    forall e v, cq_entid (kn_cache k) a v = Some e <-> stored st e a v;
  co_entids : forall a at_, kn_attr k a = Some at_ -> cq_reverse (kn_cache k) a = true -> at_unique at_ = None ->
    forall e v, (exists es, cq_entids (kn_cache k) a v = Some es /\ e ∈ es) <-> stored st e a v }.

(** What stays the same while a row is constrained *)
Record grows (c c' : cc) : Prop := Grows {
  g_wheres : exists ks, c_wheres c' = c_wheres c ++ ks;
  g_vals : c_vals c' = c_vals c;
  g_required : c_required c' = c_required c;
  g_next : c_next c' = c_next c;
  g_inputs : c_inputs c' = c_inputs c;
  g_from : c_from c' = c_from c;
  g_computed : c_computed c' = c_computed c;
  g_ne : c_empty c' = false -> c_empty c = false }.
Lemma grows_refl c : grows c c.
Proof. split; try done. exists []. by rewrite app_nil_r. Qed.
Lemma grows_trans c1 c2 c3 : grows c1 c2 -> grows c2 c3 -> grows c1 c3.
Proof.
  intros [[ks1 A1] A2 A3 A4 A5 A6 AC A7] [[ks2 B1] B2 B3 B4 B5 B6 BC B7]. split; try congruence; [|tauto].
  exists (ks1 ++ ks2). by rewrite app_assoc, <- A1.
Qed.
Lemma grows_mark_empty c : grows c (mark_empty c).
Proof. destruct c as [[] l w]. split; try done. exists []. by rewrite app_nil_r. Qed.
Lemma grows_add_where kk c : grows c (add_where kk c).
Proof. destruct c as [[] l w]. split; try done. by exists [kk]. Qed.
Lemma grows_constrain_var v t c : grows c (constrain_var v t c).
Proof. unfold constrain_var. destruct c as [[] l w]. repeat case_match; (split; try done); exists []; by rewrite app_nil_r. Qed.
Lemma grows_to_ref p c : grows c (constrain_to_ref p c).
Proof. destruct p; [apply grows_refl|apply grows_constrain_var|apply grows_refl]. Qed.
Lemma grows_bind_column k q v c : grows c (bind_column k q v c).
Proof.
  unfold bind_column. destruct (c_vals c !! v) as [x|].
  - unfold constrain_constant. repeat case_match; auto using grows_refl, grows_mark_empty, grows_add_where.
  - destruct c as [[] l w]. repeat case_match; (split; try done); exists []; by rewrite app_nil_r.
Qed.
Lemma grows_apply_eplace k q p c : grows c (apply_eplace k q p c).
Proof. destruct p; [apply grows_refl|apply grows_bind_column|apply grows_add_where]. Qed.
Lemma grows_apply_value k al t p c : grows c (apply_value k al t p c).1.
Proof.
  unfold apply_value, constrain_constant. repeat case_match; cbn [fst];
    eauto using grows_refl, grows_mark_empty, grows_add_where, grows_bind_column, grows_constrain_var, grows_trans.
Qed.

(** What is known of [v] *)
Lemma known_constrain_var v t c : c_empty (constrain_var v t c) = false -> c_known (constrain_var v t c) !! v = Some (vts_of_one t).
Proof. unfold constrain_var. destruct c as [[] l w]. cbn. repeat case_match; cbn; try done; by rewrite lookup_insert. Qed.
Lemma known_constrain_var_ne v t c x : x <> v -> c_known (constrain_var v t c) !! x = c_known c !! x.
Proof. intros Hx. unfold constrain_var. destruct c as [[] l w]. cbn. repeat case_match; cbn; by rewrite lookup_insert_ne. Qed.
Lemma cols_constrain_var v t c : c_cols (constrain_var v t c) = c_cols c /\ c_extracted (constrain_var v t c) = c_extracted c.
Proof. unfold constrain_var. destruct c as [[] l w]. by repeat case_match. Qed.
Lemma known_ref_constrain v c x : c_known c !! x = Some (vts_of_one VTRef) -> c_known (constrain_var v VTRef c) !! x = Some (vts_of_one VTRef).
Proof.
  destruct (decide (x = v)) as [->|Hx]; [|by rewrite known_constrain_var_ne]. intros H. unfold constrain_var. rewrite H. rewrite (proj2 (one_contains_iff VTRef VTRef) eq_refl).
  destruct c as [[] l w]. cbn. by rewrite lookup_insert.
Qed.
Lemma known_bind_column k q v c : c_known (bind_column k q v c) = c_known c.
Proof. unfold bind_column, constrain_constant. destruct c as [[] l w]. cbn. repeat case_match; done. Qed.
Lemma known_apply_eplace k q p c : c_known (apply_eplace k q p c) = c_known c.
Proof. destruct p; [done|apply known_bind_column|by destruct c]. Qed.
Lemma extracted_bind_column k al col v c : col <> CV -> c_extracted (bind_column k (al, col) v c) = c_extracted c.
Proof. intros Hc. unfold bind_column, constrain_constant. destruct c as [[] l w]. cbn. destruct col; repeat case_match; cbn; done. Qed.
Lemma extracted_apply_eplace k al col p c : col <> CV -> c_extracted (apply_eplace k (al, col) p c) = c_extracted c.
Proof. intros Hc. destruct p; [done|by apply extracted_bind_column|by destruct c]. Qed.
Lemma known_type_one c v t : c_known c !! v = Some (vts_of_one t) -> known_type c v = Some t.
Proof. intros H. unfold known_type. by rewrite H, one_is_unit, one_exemplar. Qed.

Section apply.
  Context (sq : sqlite) (k : known) (st : store) (G : store_good (sc_attribute_map (kn_schema k)) st) (CO : cache_ok k st).
  Context (M : option nat) (L : string -> Prop) (ins : list string) (V : gmap string typed_value).
  Notation sat := (sat sq st).
  Notation inv := (inv sq k st M L ins V).
  Notation lim := (lim M).
  Notation comp := (comp sq st).
  Notation okenv := (okenv sq st).
  Notation respects := (respects sq st).

  Lemma lim_grows c c' : grows c c' -> lim c' = lim c.
  Proof using Type. intros H. unfold P_QueryInv.lim. by rewrite (g_next _ _ H), (g_computed _ _ H). Qed.
  Lemma comp_grows c c' : grows c c' -> comp c' = comp c.
  Proof using Type. intros H. unfold P_QueryInv.comp. by rewrite (g_computed _ _ H). Qed.
  Lemma okenv_grows O F c c' E : grows c c' -> okenv O F c' E -> okenv O F c E.
  Proof using Type. intros Hg (E0 & HO & HE & Hall). rewrite (comp_grows _ _ Hg) in HE. destruct (g_wheres _ _ Hg) as (ks & Hw). rewrite Hw in Hall. apply Forall_app in Hall as [Hall _]. by exists E0. Qed.

  Lemma inv_apply_eplace O rest F al col p c : inv O rest F c -> col = CE \/ col = CA \/ col = CTx -> below (lim c) al ->
    (forall v, p = EpVar v -> (L v -> v ∉ rest) /\ (c_empty c = false -> c_known c !! v = Some (vts_of_one VTRef))) ->
    (forall E, okenv O F c E -> exists i, env_column E (al, col) = Some (SInt i)) ->
    inv O rest F (apply_eplace k (al, col) p c).
  Proof using Type.
    intros I Hcol Hb Hv Hrow. destruct p as [|v|e]; cbn [apply_eplace]; [done| |].
    - destruct (Hv v eq_refl) as [HL Hk]. unfold bind_column. destruct (c_vals c !! v) as [x|] eqn:Ev.
      + assert (forall e, inv O rest F (add_where (KEquals (al, col) (QEntid e)) c)) as Hadd.
        { intros e. apply inv_add_where; [|done]. by apply respects_equals. }
        destruct Hcol as [-> | [-> | ->]]; cbn [snd]; repeat case_match; auto using inv_mark_empty.
      + assert (associated_tag (al, col) = None) as Hat by (by destruct Hcol as [-> | [-> | ->]]). rewrite Hat.
        match goal with |- context [if ?b then c else c] => replace (if b then c else c) with c by (by destruct b) end.
        apply (inv_push_col _ _ _ _ _ _ _ _ _ _ _ _ VTRef); try done. intros Hne. split; [by apply Hk|]. intros E HE. destruct (Hrow E HE) as [i Hi].
        exists (TVRef i). split; [|done]. by destruct Hcol as [-> | [-> | ->]]; exists i.
    - apply inv_add_where; [|done]. by apply respects_equals.
  Qed.

  (** Which places of a pattern the code treats rightly *)
  Record pat_ok (rest : list string) (c : cc) (p : epattern) : Prop := {
    po_places : forall v, ep_e p = EpVar v \/ ep_a p = EpVar v \/ ep_tx p = EpVar v ->
      (L v -> v ∉ rest) /\ (c_empty c = false -> c_extracted c !! v = None);
    po_entity : forall v, ep_e p = EpVar v -> c_vals c !! v = None;
    po_value : evalue_safe c (value_type_for k c (ep_a p)) (ep_v p);
    po_var : forall v, ep_v p = EvVar v -> (L v -> v ∉ rest) /\ (c_empty c = false -> c_extracted c !! v = None)
      /\ (value_type_for k c (ep_a p) = None ->
          L v /\ v ∉ c_inputs c /\ (forall w, ep_e p = EpVar w \/ ep_a p = EpVar w \/ ep_tx p = EpVar w -> w <> v)
          /\ (c_empty c = false -> c_cols c !! v = None /\ c_known c !! v = None)) }.

  Lemma table_not_computed c p t : table_for_places k c (ep_a p) (ep_v p) = Some t -> forall i, t <> TComputed i.
  Proof using Type.
    unfold table_for_places, table_for_attribute, table_for_unknown. intros H i ->. repeat (case_match; simplify_eq; try done);
      try (apply bind_Some in H as (at_ & _ & H)); repeat (case_match; simplify_eq; try done).
  Qed.
  (** The attribute of a row, if the pattern says which *)
  Lemma inv_apply_for_alias O rest F t p c : inv O rest F c -> pat_ok rest c p -> table_for_places k c (ep_a p) (ep_v p) = Some t ->
    inv O rest (F ++ [(t, ADatoms (c_next c))]) (apply_for_alias k p (ADatoms (c_next c)) (with_next (S (c_next c)) c)).
  Proof using G.
    intros I0 P Ht. pose proof (table_not_computed c p t Ht) as Hnc. pose proof (inv_new_row _ _ _ _ _ _ _ _ _ _ _ _ I0 Hnc) as I.
    set (al := ADatoms (c_next c)) in *. set (F' := F ++ [(t, al)]) in *. set (c0 := with_next (S (c_next c)) c) in *.
    assert (c_empty c0 = c_empty c /\ c_vals c0 = c_vals c /\ c_extracted c0 = c_extracted c /\ c_known c0 = c_known c /\ c_cols c0 = c_cols c
      /\ c_required c0 = c_required c /\ c_inputs c0 = c_inputs c /\ c_next c0 = S (c_next c) /\ c_computed c0 = c_computed c) as (D1 & D2 & D3 & D4 & D5 & D6 & D7 & D8 & D9). { by destruct c as [[]]. }
    assert (below (lim c0) al) as Hb. { cbn. rewrite D8. lia. }
    assert (forall c', forall E, grows c0 c' -> okenv O F' c' E -> exists d, at_row E al d /\ some_row st d /\ RDatom d ∈ table_rows st [] t) as Hrow.
    { intros c' E Hg (E0 & HO & HE & _). apply product_snoc in HE as (E1 & r & HE1 & Hr & ->). rewrite (table_rows_plain st _ t Hnc) in Hr. destruct (plain_rows st t r Hnc Hr) as (d & -> & Hd).
      exists d. split; [apply at_row_head|]. split; [|done]. destruct t as [| | |i]; [..|by destruct (Hnc i)]; cbn [table_rows] in Hd;
        apply elem_of_list_fmap in Hd as (? & [= <-] & Hd); [by right| |by left]. apply elem_of_list_filter in Hd as [_ Hd]. by left. }
    unfold apply_for_alias. destruct (c_empty c0) eqn:Ee; [done|].
    (* the types of the places *)
    set (cr := constrain_to_ref (ep_a p) (constrain_to_ref (ep_e p) (constrain_to_ref (ep_tx p) c0))).
    assert (grows c0 cr) as Gr by (unfold cr; eauto using grows_trans, grows_to_ref).
    assert (c_extracted cr = c_extracted c) as Xr.
    { assert (forall q c1, c_extracted (constrain_to_ref q c1) = c_extracted c1) as H. { intros [] c1; try done. apply cols_constrain_var. } unfold cr. by rewrite !H. }
    assert (c_cols cr = c_cols c) as Cr.
    { assert (forall q c1, c_cols (constrain_to_ref q c1) = c_cols c1) as H. { intros [] c1; try done. apply cols_constrain_var. } unfold cr. by rewrite !H. }
    assert (inv O rest F' cr) as Ir.
    { assert (forall q c1, (forall v, q = EpVar v -> (L v -> v ∉ rest) /\ (c_empty c = false -> c_extracted c !! v = None)) -> grows c0 c1 -> c_extracted c1 = c_extracted c ->
        inv O rest F' c1 -> inv O rest F' (constrain_to_ref q c1)) as H.
      { intros [|v|e] c1 Hq G1 X1 I1; try done. cbn [constrain_to_ref]. destruct (Hq v eq_refl) as [H1 H2]. apply inv_constrain_var; [done| |done].
        intros Hne. rewrite X1. apply H2. congruence. }
      destruct P as [Pp _ _ _]. unfold cr. repeat apply H; try done; try (intros v Hv; apply Pp; naive_solver); try (by eauto using grows_refl, grows_to_ref, grows_trans);
        repeat (match goal with |- c_extracted (constrain_to_ref ?q ?c1) = _ => assert (c_extracted (constrain_to_ref q c1) = c_extracted c1) as -> by (destruct q; try done; apply cols_constrain_var) end); done. }
    assert (forall v, ep_e p = EpVar v \/ ep_a p = EpVar v \/ ep_tx p = EpVar v -> c_empty cr = false -> c_known cr !! v = Some (vts_of_one VTRef)) as Kr.
    { intros v Hv Hne.
      assert (forall q c1 v, c_known c1 !! v = Some (vts_of_one VTRef) -> c_known (constrain_to_ref q c1) !! v = Some (vts_of_one VTRef)) as Hkeep.
      { intros [] c1 w H; try done. by apply known_ref_constrain. }
      unfold cr in *. set (c1 := constrain_to_ref (ep_tx p) c0) in *. set (c2 := constrain_to_ref (ep_e p) c1) in *.
      assert (c_empty c2 = false) as N2. { by apply (g_ne _ _ (grows_to_ref (ep_a p) c2)). }
      assert (c_empty c1 = false) as N1. { by apply (g_ne _ _ (grows_to_ref (ep_e p) c1)). }
      destruct Hv as [Hv|[Hv|Hv]].
      - apply Hkeep. unfold c2 in *. rewrite Hv in *. by apply known_constrain_var.
      - rewrite Hv in *. by apply known_constrain_var.
      - apply Hkeep, Hkeep. unfold c1 in *. rewrite Hv in *. by apply known_constrain_var. }
    assert (forall v, (forall w, ep_e p = EpVar w \/ ep_a p = EpVar w \/ ep_tx p = EpVar w -> w <> v) -> c_known cr !! v = c_known c !! v) as Ur.
    { intros v Hv. assert (forall q c1, (forall w, q = EpVar w -> w <> v) -> c_known (constrain_to_ref q c1) !! v = c_known c1 !! v) as H.
      { intros [|w|] c1 Hq; try done. cbn [constrain_to_ref]. apply known_constrain_var_ne. intros ->. by destruct (Hq w eq_refl). }
      unfold cr. rewrite !H; [by rewrite D4|..]; intros w Hw; apply Hv; naive_solver. }
    clearbody cr.
    (* the entity *)
    assert (forall E (c' : cc), grows c0 c' -> forall col, col = CE \/ col = CA \/ col = CTx -> okenv O F' c' E -> exists i, env_column E (al, col) = Some (SInt i)) as Hint.
    { intros E c' Hg col Hcol HE. destruct (Hrow c' E Hg HE) as (d & [] & _). destruct Hcol as [-> | [-> | ->]]; eauto. }
    set (ce := apply_eplace k (al, CE) (ep_e p) cr).
    assert (grows c0 ce) as Ge by (eapply grows_trans; [exact Gr|apply grows_apply_eplace]).
    assert (inv O rest F' ce) as Ie.
    { apply inv_apply_eplace; try done; [by left|by rewrite (lim_grows _ _ Gr)| |].
      - intros v Hv. split; [apply (po_places _ _ _ P); by left|]. intros Hne. apply Kr; [by left|done].
      - intros E HE. eapply Hint; [exact Gr|by left|exact HE]. }
    assert (c_known ce = c_known cr) as Ke by apply known_apply_eplace.
    assert (c_extracted ce = c_extracted c) as Xe by (unfold ce; by rewrite extracted_apply_eplace).
    assert (c_empty ce = false -> c_empty cr = false) as Ne by (apply grows_apply_eplace).
    assert (forall v, v ∉ map (fun v => v) (match ep_e p with EpVar v => [v] | _ => [] end) -> c_cols ce !! v = c_cols cr !! v) as Ce.
    { intros v Hv. unfold ce. destruct (ep_e p) as [|w|e]; [done| |by destruct cr]. cbn [apply_eplace]. unfold bind_column. clear -Hv.
      destruct (c_vals cr !! w); destruct cr as [[] l ws]; repeat case_match; cbn; try done; rewrite lookup_insert_ne; try done; intros ->; apply Hv; by left. }
    clearbody ce.
    (* the attribute *)
    set (ca := match ep_a p with EpEntid e => add_where (KEquals (al, CA) (QEntid e)) ce | a => apply_eplace k (al, CA) a ce end).
    assert (ca = apply_eplace k (al, CA) (ep_a p) ce) as Eca by (unfold ca; by destruct (ep_a p)).
    assert (grows ce ca) as Gea by (rewrite Eca; apply grows_apply_eplace).
    assert (grows c0 ca) as Ga by (eapply grows_trans; [exact Ge|exact Gea]).
    assert (inv O rest F' ca) as Ia.
    { rewrite Eca. apply inv_apply_eplace; try done; [by right; left|by rewrite (lim_grows _ _ Ge)| |].
      - intros v Hv. split; [apply (po_places _ _ _ P); by right; left|]. intros Hne. rewrite Ke. apply Kr; [by right; left|by apply Ne].
      - intros E HE. eapply Hint; [exact Ge|by right; left|exact HE]. }
    assert (c_known ca = c_known cr) as Ka by (rewrite Eca, known_apply_eplace; exact Ke).
    assert (c_extracted ca = c_extracted c) as Xa by (rewrite Eca, extracted_apply_eplace; done).
    assert (c_empty ca = false -> c_empty cr = false) as Na by (intros H; apply Ne; by apply Gea).
    assert (forall v, (forall w, ep_e p = EpVar w \/ ep_a p = EpVar w \/ ep_tx p = EpVar w -> w <> v) -> c_cols ca !! v = c_cols c !! v) as Ca.
    { intros v Hv. transitivity (c_cols ce !! v).
      - rewrite Eca. destruct (ep_a p) as [|w|e]; [done| |by destruct ce]. cbn [apply_eplace]. unfold bind_column.
        assert (w <> v) as Hw by naive_solver. clear -Hw. destruct (c_vals ce !! w); destruct ce as [[] l ws]; repeat case_match; cbn; try done; by rewrite lookup_insert_ne.
      - rewrite Ce; [by rewrite Cr|]. destruct (ep_e p) as [|w|e]; [by intros ?%elem_of_nil| |by intros ?%elem_of_nil]. intros ->%elem_of_list_singleton.
        naive_solver. }
    assert (value_type_for k ca (ep_a p) = value_type_for k c (ep_a p)) as Et. { unfold value_type_for. by rewrite (g_vals _ _ Ga), D2. }
    (* the row has the type of the attribute *)
    assert (forall v ty E, ep_v p = EvVar v -> value_type_for k c (ep_a p) = Some ty -> c_empty ca = false -> okenv O F' ca E ->
      exists w, encodes E (al, CV) w /\ tv_type w = ty) as Hty.
    { intros v ty E Hpv Hvt Hne HE. destruct (Hrow ca E Ga HE) as (d & Hd & Hsome & Hin).
      assert (exists at_, kn_attr k (d_a d) = Some at_ /\ at_type at_ = ty /\ table_for_attribute at_ (ep_v p) = Some t) as (at_ & Hat & Haty & Htab).
      { destruct HE as (E0 & HO & HE & Hw).
        assert (forall e, KEquals (al, CA) (QEntid e) ∈ c_wheres ca -> d_a d = e) as Hda.
        { intros e He. rewrite Forall_forall in Hw. specialize (Hw _ He). cbn in Hw. apply (eq_entid sq st E (al, CA) (d_a d)) in Hw; [done|apply Hd]. }
        unfold value_type_for, table_for_places in Hvt, Ht. destruct (ep_a p) as [|x|e] eqn:Epa; [done| |].
        - destruct (c_vals c !! x) as [y|] eqn:Ev; [|done].
          assert (c_known ca !! x = Some (vts_of_one (tv_type y))) as Hk1. { apply (i_vals_known Ia Hne). by rewrite (g_vals _ _ Ga), D2. }
          rewrite Ka in Hk1. rewrite Kr in Hk1; [|by right; left|by apply Na].
          assert (tv_type y = VTRef) as Hy. { apply one_contains_iff. assert (vts_of_one VTRef = vts_of_one (tv_type y)) as -> by congruence. by apply one_contains_iff. }
          destruct y as [e| | | | | | |]; try done. destruct (kn_attr k e) as [at_|] eqn:Eat; [|done]. cbn in Hvt, Ht. exists at_. injection Hvt as <-.
          rewrite (Hda e); [done|]. rewrite Eca. cbn [apply_eplace]. unfold bind_column. rewrite (g_vals _ _ Ge), D2, Ev. cbn [snd]. clear.
          destruct ce as [? ? ws]. cbn. apply elem_of_app. right. by left.
        - destruct (kn_attr k e) as [at_|] eqn:Eat; [|done]. cbn in Hvt, Ht. exists at_. injection Hvt as <-. rewrite (Hda e); [done|].
          rewrite Eca. cbn [apply_eplace]. clear. destruct ce as [? ? ws]. cbn. apply elem_of_app. right. by left. }
      destruct (row_typed _ _ G d at_ Hsome Hat) as (w & Hw & Hwt).
      { right. unfold table_for_attribute in Htab. rewrite Hpv in Htab. destruct (at_fulltext at_) eqn:Hf; injection Htab as <-; cbn [table_rows] in Hin;
          apply elem_of_list_fmap in Hin as (? & [= <-] & Hin).
        - by apply elem_of_list_filter in Hin as [_ Hin].
        - destruct (raw_row _ _ G d at_ Hin Hat) as [H|(H & _)]; [done|congruence]. }
      exists w. split; [|congruence]. by apply (at_row_encodes E al d). }
    (* the value *)
    assert (inv O rest F' (apply_value k al (value_type_for k ca (ep_a p)) (ep_v p) ca).1
      /\ (forall v, ep_e p = EpVar v \/ ep_a p = EpVar v \/ ep_tx p = EpVar v -> c_empty (apply_value k al (value_type_for k ca (ep_a p)) (ep_v p) ca).1 = false ->
          c_known (apply_value k al (value_type_for k ca (ep_a p)) (ep_v p) ca).1 !! v = Some (vts_of_one VTRef))) as [Iv Kv].
    { rewrite Et. pose proof (lim_grows _ _ Ga) as Nx. clear Eca. clearbody ca.
      assert (forall v, ep_e p = EpVar v \/ ep_a p = EpVar v \/ ep_tx p = EpVar v -> c_empty ca = false -> c_known ca !! v = Some (vts_of_one VTRef)) as Kca.
      { intros v Hv Hne. rewrite Ka. apply Kr; [done|by apply Na]. }
      assert (forall kk, respects (lim ca) kk -> inv O rest F' (add_where kk ca) /\ (forall v, ep_e p = EpVar v \/ ep_a p = EpVar v \/ ep_tx p = EpVar v ->
        c_empty (add_where kk ca) = false -> c_known (add_where kk ca) !! v = Some (vts_of_one VTRef))) as Hadd.
      { intros kk Hkk. split; [by apply inv_add_where|]. intros v Hv. clear -Kca Hv. specialize (Kca v Hv). by destruct ca. }
      assert (below (lim ca) al) as Hbl by (by rewrite Nx).
      destruct P as [Pp Pe Pv Pvar]. unfold apply_value. destruct (ep_v p) as [|v|e|z|i|x] eqn:Epv; cbn [evalue_safe] in Pv; try done.
      - destruct (Pvar v eq_refl) as (HL & Hex & Hopen). destruct (value_type_for k c (ep_a p)) as [ty|] eqn:Evt.
        + assert (inv O rest F' (constrain_var v ty ca)) as Icv.
          { apply inv_constrain_var; [done| |done]. intros _. rewrite Xa. apply Hex. congruence. }
          assert (grows ca (constrain_var v ty ca)) as Gcv by apply grows_constrain_var.
          destruct (c_empty (constrain_var v ty ca)) eqn:Ecv; cbn [fst]; [split; [done|congruence]|].
          pose proof (known_constrain_var v ty ca Ecv) as Hkv.
          split.
          * unfold bind_column. rewrite (g_vals _ _ Gcv), (g_vals _ _ Ga), D2, Pv. rewrite (known_type_one _ _ _ Hkv). cbn [is_some negb]. rewrite andb_false_r, andb_false_l.
            apply (inv_push_col _ _ _ _ _ _ _ _ _ _ _ _ ty); try done; [by rewrite (lim_grows _ _ Gcv)|]. intros _. split; [done|].
            intros E HE. eapply Hty; [done|done| |by eapply okenv_grows]. by apply Gcv.
          * intros w Hw _. rewrite known_bind_column. pose proof (Kca w Hw (g_ne _ _ Gcv Ecv)) as Hkw.
            destruct (decide (w = v)) as [->|Hwv]; [|by rewrite known_constrain_var_ne].
            rewrite Hkv. f_equal. unfold constrain_var in Ecv. rewrite Hkw in Ecv. destruct (vts_contains (vts_of_one VTRef) ty) eqn:Ec.
            -- by apply one_contains_iff in Ec as ->.
            -- clear -Ecv. destruct ca as [[]]. done.
        + destruct (Hopen eq_refl) as (HLv & Hni & Hpl & Hu). cbn [fst]. split.
          * destruct (c_empty ca) eqn:Eca'.
            { pose proof Ia as [I1 I2 I3 I4 I5 I6 _ I8 IX _ _ _ _ IV]. pose proof (grows_bind_column k (al, CV) v ca) as Gb. apply inv_empty; rewrite ?(lim_grows _ _ Gb), ?(g_computed _ _ Gb).
              - exact I1.
              - exact I2.
              - unfold bind_column. rewrite (g_vals _ _ Ga), D2, Pv. clear -I3. destruct ca as [[] l w]. cbn in *. repeat case_match; done.
              - rewrite (g_inputs _ _ (grows_bind_column k (al, CV) v ca)). done.
              - rewrite (g_vals _ _ (grows_bind_column k (al, CV) v ca)). done.
              - rewrite known_bind_column. done.
              - unfold bind_column. rewrite (g_vals _ _ Ga), D2, Pv.
                match goal with |- context [with_cols _ ?y] => assert (c_cols y = c_cols ca) as Hcy by (destruct ca as [[]]; by repeat case_match); generalize dependent y end.
                intros y Hcy x qs q Hx Hq. assert (<[v := default [] (c_cols ca !! v) ++ [(al, CV)]]> (c_cols ca) !! x = Some qs) as Hx'. { rewrite <- Hcy. clear -Hx. by destruct y as [[]]. }
                destruct (decide (x = v)) as [->|Hxv]; [|rewrite lookup_insert_ne in Hx' by done; by eapply I8].
                rewrite lookup_insert in Hx'. injection Hx' as <-. apply elem_of_app in Hq as [Hq|Hq]; [|by apply elem_of_list_singleton in Hq as ->].
                destruct (c_cols ca !! v) as [qs|] eqn:E; [by apply (I8 v qs)|]. by apply elem_of_nil in Hq.
              - unfold bind_column. rewrite (g_vals _ _ Ga), D2, Pv.
                intros x q Hx. assert (c_extracted ca !! x = Some q \/ q = (al, CTag)) as [Hx'| ->]; [|by eapply IX|done].
                clear -Hx. destruct ca as [[] l w]. revert Hx. cbn. repeat case_match; cbn; intros Hx; try (by left).
                destruct (decide (x = v)) as [->|Hxv]; [rewrite lookup_insert in Hx; injection Hx; auto|rewrite lookup_insert_ne in Hx by done; by left].
              - rewrite (g_vals _ _ Gb). exact IV.
              - destruct (c_empty (bind_column k (al, CV) v ca)) eqn:E; [done|]. apply (g_ne _ _ (grows_bind_column k (al, CV) v ca)) in E. congruence. }
            destruct (Hu ltac:(congruence)) as [Hc Hkn]. assert (c_known ca !! v = None) as Hkn' by (rewrite Ka, Ur; done).
            unfold bind_column. rewrite (g_vals _ _ Ga), D2, Pv. unfold known_type. rewrite Hkn', Xa, Hex by congruence.
            rewrite bool_decide_eq_false_2 by (by rewrite (g_inputs _ _ Ga), D7). cbn [negb is_some andb associated_tag fst snd].
            apply inv_push_lonely; try done; [by apply HL|..].
            -- intros _. split_and!; [done|by rewrite (g_vals _ _ Ga), D2|by rewrite Ca].
            -- intros _ E HE. destruct (Hrow ca E Ga HE) as (d & Hd & Hsome & Hin). exists d. split; [done|].
               assert (t = table_for_unknown c (EvVar v) \/ d ∈ all_datoms st) as [->|H]; [|cbn [table_for_unknown] in Hin|by left].
               { unfold table_for_places, value_type_for in Ht, Evt. destruct (ep_a p) as [|y|e]; [by left; congruence| |].
                 - destruct (c_vals c !! y) as [[e| | | | | |i'|]|]; try done; try (by left; congruence).
                   + by destruct (kn_attr k e).
                   + by destruct (kn_attr_for_ident k i').
                 - by destruct (kn_attr k e). }
               destruct (may_be_string (c_required c) v && may_be_string (c_known c) v) eqn:Em; cbn [table_rows] in Hin;
                 apply elem_of_list_fmap in Hin as (? & [= <-] & Hin); [by left|]. right. split; [done|]. rewrite (g_required _ _ Ga), D6.
               unfold may_be_string in Em. rewrite Hkn, andb_true_r in Em. destruct (c_required c !! v) as [ts|]; [by exists ts|done].
          * intros w Hw Hne. rewrite known_bind_column. apply Kca; [done|]. by apply (g_ne _ _ (grows_bind_column k (al, CV) v ca)).
      - destruct (value_type_for k c (ep_a p)) as [[]|]; cbn [fst];
          try (split; [by apply inv_mark_empty|]; intros w Hw Hne; clear -Hne; by destruct ca as [[]]);
          by apply Hadd, respects_equals.
      - destruct (match value_type_for k c (ep_a p) with Some ty => bool_decide (tv_type x = ty) | None => true end); cbn [fst].
        + assert (respects (lim ca) (KEquals (al, CV) (match x with TVRef e => QEntid e | _ => QValue x end))) as Hrx. { apply respects_equals; [done|by destruct x]. }
          destruct (Hadd _ Hrx) as [I1 K1]. destruct (value_type_for k c (ep_a p)); [split; [exact I1|exact K1]|]. split.
          * apply inv_add_where; [|exact I1]. apply respects_types. clear -Hbl. by destruct ca.
          * intros w Hw Hne. specialize (K1 w Hw). clear -K1 Hne. unfold constrain_constant in *. destruct ca. apply K1. done.
        + split; [by apply inv_mark_empty|]. intros w Hw Hne. clear -Hne. by destruct ca as [[]]. }
    (* the transaction *)
    assert (inv O rest F' (let '(c, stop) := apply_value k al (value_type_for k ca (ep_a p)) (ep_v p) ca in if stop then c else apply_eplace k (al, CTx) (ep_tx p) c)) as Hend.
    { pose proof (grows_apply_value k al (value_type_for k ca (ep_a p)) (ep_v p) ca) as Gv.
      destruct (apply_value k al (value_type_for k ca (ep_a p)) (ep_v p) ca) as [cv stop]. cbn [fst] in *. destruct stop; [done|].
      assert (grows c0 cv) as G0 by (eapply grows_trans; [exact Ga|exact Gv]).
      apply inv_apply_eplace; try done; [by right; right|by rewrite (lim_grows _ _ G0)| |].
      - intros v Hv. split; [apply (po_places _ _ _ P); by right; right|]. intros Hne. apply Kv; [by right; right|done].
      - intros E HE. eapply Hint; [exact G0|by right; right|exact HE]. }
    unfold ca in Hend. destruct (ep_a p) as [|x|e]; [exact Hend|exact Hend|]. destruct (kn_attr k e); [exact Hend|]. by apply inv_mark_empty.
  Qed.

  (* -------------------------------------------------------------- the cache *)
  Lemma inv_bind_value O rest F v x c : ~ uncached k -> inv O rest F c -> (L v -> v ∉ rest) -> (c_empty c = false -> c_extracted c !! v = None) -> storable x ->
    c_vals c !! v = None -> inv O rest F (bind_value v x c).
  Proof using Type.
    intros Hunc I HL Hex Hx Hn. unfold bind_value.
    pose proof (inv_constrain_var _ _ _ _ _ _ _ O rest F v (tv_type x) c I Hex HL) as I1. pose proof (known_constrain_var v (tv_type x) c) as K1.
    pose proof (grows_constrain_var v (tv_type x) c) as G1. set (c1 := constrain_var v (tv_type x) c) in *.
    set (c2 := match c_cols c1 !! v with Some (q :: _) => add_where (KEquals q (QValue x)) c1 | _ => c1 end).
    assert (inv O rest F c2 /\ grows c1 c2 /\ c_known c2 = c_known c1 /\ c_extracted c2 = c_extracted c1) as (I2 & G2 & K2 & X2).
    { unfold c2. destruct (c_cols c1 !! v) as [[|q qs]|] eqn:E; try (by auto using grows_refl). split_and!; [|apply grows_add_where|by clearbody c1; destruct c1|by clearbody c1; destruct c1].
      apply inv_add_where; [|done]. apply respects_equals; [|done]. apply (i_below I1 v _ q E). by left. }
    set (c3 := match c_extracted c2 !! v with Some q => add_where (has_unit_type q.1 (tv_type x)) c2 | None => c2 end).
    assert (inv O rest F c3 /\ grows c2 c3 /\ c_known c3 = c_known c2) as (I3 & G3 & K3).
    { unfold c3. destruct (c_extracted c2 !! v) as [q|] eqn:E; try (by auto using grows_refl). split_and!; [|apply grows_add_where|by clearbody c2; destruct c2].
      apply inv_add_where; [|done]. apply respects_types. apply (i_xbelow I2 v _ E). }
    apply inv_put_val; try done.
    - by rewrite (g_vals _ _ G3), (g_vals _ _ G2), (g_vals _ _ G1).
    - intros Hne. rewrite K3, K2. apply K1. by apply G2, G3.
  Qed.
  Lemma from_bind_value v x c : c_from (bind_value v x c) = c_from c /\ c_next (bind_value v x c) = c_next c /\ c_computed (bind_value v x c) = c_computed c.
  Proof using Type.
    unfold bind_value. pose proof (grows_constrain_var v (tv_type x) c) as G1. set (c1 := constrain_var v (tv_type x) c) in *. clearbody c1.
    destruct G1 as [_ _ _ <- _ <- <- _]. destruct c1 as [[] l w]. cbn. repeat case_match; done.
  Qed.
  Lemma cache_attempt O rest F p c c' done_ : inv O rest F c -> pat_ok rest c p -> attempt_cache k p c = (c', done_) ->
    if done_ then inv O rest F c' /\ c_from c' = c_from c /\ c_next c' = c_next c /\ c_computed c' = c_computed c /\ (forall E σ, sat c' E σ <-> sat c E σ /\ ematches st σ p)
    else c' = c.
  Proof using G CO.
    intros I P H. unfold attempt_cache in H.
    destruct (ep_tx p) eqn:Etx; try (by injection H as <- <-). destruct (ep_a p) as [|x|a] eqn:Ea; try (by injection H as <- <-).
    assert ((forall σ, ~ ematches st σ p) -> inv O rest F (mark_empty c) /\ c_from (mark_empty c) = c_from c /\ c_next (mark_empty c) = c_next c /\ c_computed (mark_empty c) = c_computed c
      /\ (forall E σ, sat (mark_empty c) E σ <-> sat c E σ /\ ematches st σ p)) as Hempty.
    { intros Hno. split_and!; [by apply inv_mark_empty|by destruct c as [[]]|by destruct c as [[]]|by destruct c as [[]]|]. intros E σ. rewrite sat_mark_empty. naive_solver. }
    assert (forall v x, ~ uncached k -> (L v -> v ∉ rest) -> (c_empty c = false -> c_extracted c !! v = None) -> storable x -> c_vals c !! v = None ->
      (forall σ, ematches st σ p <-> σ v = x) -> inv O rest F (bind_value v x c) /\ c_from (bind_value v x c) = c_from c /\ c_next (bind_value v x c) = c_next c /\ c_computed (bind_value v x c) = c_computed c
      /\ (forall E σ, sat (bind_value v x c) E σ <-> sat c E σ /\ ematches st σ p)) as Hbind.
    { intros v x Hunc HL Hex Hx Hn Hm. destruct (from_bind_value v x c) as (? & ? & ?). split_and!; try done; [by apply inv_bind_value|]. intros E σ.
      by rewrite sat_bind_value, Hm. }
    destruct (kn_attr k a) as [at_|] eqn:Eat.
    2:{ injection H as <- <-. apply Hempty. intros σ (d & Hd & _ & Hda & _). rewrite Ea in Hda. cbn in Hda. destruct (sg_view _ _ G d Hd) as (at_ & _ & Hat & _).
        unfold kn_attr in Eat. congruence. }
    assert (forall σ e v, storable v -> ep_e p = EpEntid e \/ (exists x, ep_e p = EpVar x /\ σ x = TVRef e) ->
      (exists d, d ∈ all_datoms st /\ eplace_is σ (ep_e p) (d_e d) /\ eplace_is σ (EpEntid a) (d_a d) /\ row_value d v /\ eplace_is σ EpPlaceholder (d_tx d)) <-> stored st e a v) as Hst.
    { intros σ e v Hv He. rewrite (stored_row _ _ G). split.
      - intros (d & Hd & H1 & H2 & H3 & _). exists d. split_and!; try done. cbn in H2. destruct He as [He|(x & He & Hx)]; rewrite He in H1; cbn in H1; [done|congruence].
      - intros (d & Hd & H1 & H2 & H3). exists d. split_and!; try done. destruct He as [He|(x & He & Hx)]; rewrite He; cbn; congruence. }
    destruct (cq_forward (kn_cache k) a || cq_reverse (kn_cache k) a)%bool; [|by injection H as <- <-].
    destruct P as [Pp Pe Pv Pvar]. unfold ematches in *. rewrite Etx, Ea in *.
    destruct (ep_e p) as [|v|e] eqn:Ee; [destruct (ep_v p); by injection H as <- <-| |].
    - (* an entity with a value *)
      destruct (Pp v ltac:(by left)) as [HL Hex]. specialize (Pe v eq_refl).
      destruct (ep_v p) as [|w|e|z|i|x] eqn:Ev; try (by injection H as <- <-); try done.
      destruct (cq_reverse (kn_cache k) a) eqn:Er; [|by injection H as <- <-]. assert (~ uncached k) as Hunc by (intros Hu; destruct (Hu a); congruence). destruct Pv as [Hx _]. cbn [evalue_row] in *.
      assert (forall σ, (exists d, d ∈ all_datoms st /\ eplace_is σ (EpVar v) (d_e d) /\ eplace_is σ (EpEntid a) (d_a d) /\ row_value d x /\ eplace_is σ EpPlaceholder (d_tx d))
        <-> exists e, σ v = TVRef e /\ stored st e a x) as Hm.
      { intros σ. split.
        - intros (d & Hd & H1 & H2). exists (d_e d). split; [done|]. apply (Hst σ (d_e d) x); [done|right; by exists v|]. by exists d.
        - intros (e & He & Hs). apply (Hst σ e x); [done|right; by exists v|]. done. }
      unfold reverse_lookup in H. rewrite Eat in H. destruct (at_unique at_) eqn:Eu.
      + pose proof (co_entid _ _ CO a at_ Eat Er ltac:(by rewrite Eu)) as Hco. destruct (cq_entid (kn_cache k) a x) as [e|] eqn:Ec.
        * injection H as <- <-. apply Hbind; try done. intros σ. rewrite Hm. split; [|intros ->; exists e; split; [done|by apply Hco]].
          intros (e' & -> & He'%Hco). congruence.
        * injection H as <- <-. apply Hempty. intros σ. rewrite Hm. intros (e' & _ & He'%Hco). congruence.
      + pose proof (co_entids _ _ CO a at_ Eat Er Eu) as Hco. destruct (cq_entids (kn_cache k) a x) as [[|e [|]]|] eqn:Ec; try (by injection H as <- <-).
        * injection H as <- <-. apply Hbind; try done. intros σ. rewrite Hm. split.
          -- intros (e' & -> & He'%Hco). destruct He' as (es & Hes & Hin). rewrite Ec in Hes. injection Hes as <-. by apply elem_of_list_singleton in Hin as ->.
          -- intros ->. exists e. split; [done|]. apply Hco. exists [e]. split; [done|]. by left.
        * injection H as <- <-. apply Hempty. intros σ. rewrite Hm. intros (e' & _ & He'%Hco). destruct He' as (es & Hes & _). congruence.
    - (* the value of an entity *)
      destruct (ep_v p) as [|v|e'|z|i|x] eqn:Ev; try (by injection H as <- <-).
      destruct (cq_forward (kn_cache k) a) eqn:Ef; [|by injection H as <- <-]. assert (~ uncached k) as Hunc by (intros Hu; destruct (Hu a); congruence). destruct (Pvar v eq_refl) as (HL & Hex & _). cbn [evalue_row evalue_safe] in *.
      pose proof (co_value _ _ CO a at_ Eat Ef) as Hco.
      assert (forall σ, (exists d, d ∈ all_datoms st /\ eplace_is σ (EpEntid e) (d_e d) /\ eplace_is σ (EpEntid a) (d_a d) /\ row_value d (σ v) /\ eplace_is σ EpPlaceholder (d_tx d))
        <-> stored st e a (σ v)) as Hm.
      { intros σ. split.
        - intros (d & Hd & H1 & H2 & H3 & H4). apply (Hst σ e (σ v)); [apply H3|by left|]. by exists d.
        - intros Hs. apply (Hst σ e (σ v)); [|by left|done]. apply (stored_row _ _ G) in Hs as (d & _ & _ & _ & (_ & _ & Hv)). done. }
      destruct (cq_value (kn_cache k) a e) as [x|] eqn:Ec; injection H as <- <-.
      + apply Hbind; try done.
        * assert (stored st e a x) as Hs by (by apply Hco). apply (stored_row _ _ G) in Hs as (d & _ & _ & _ & (_ & _ & Hv)). done.
        * intros σ. rewrite Hm, <- Hco, Ec. naive_solver.
      + apply Hempty. intros σ. rewrite Hm, <- Hco, Ec. done.
  Qed.

  (* -------------------------------------------------------------- patterns *)
  Definition Sat (c : cc) (E0 : env) (σ : string -> typed_value) : Prop := exists E, E ∈ product st (comp c) (c_from c) E0 /\ sat c E σ.
  Lemma sat_below n E E' c σ : same_below n E E' -> Forall (respects n) (c_wheres c) -> (forall x qs q, c_cols c !! x = Some qs -> q ∈ qs -> below n q.1) ->
    (forall x q, c_extracted c !! x = Some q -> below n q.1) -> sat c E σ <-> sat c E' σ.
  Proof using Type.
    intros Hs Hw Hc Hx. assert (forall E E', same_below n E E' -> sat c E σ -> sat c E' σ) as H.
    { clear E E' Hs. intros E E' Hs [H1 H2 H3 H4 H5 H6 H7]. split; try done.
      - rewrite Forall_forall in H2, Hw |- *. intros kk Hkk. rewrite <- (H2 kk Hkk). symmetry. by apply (Hw kk Hkk).
      - intros x qs q Hx' Hq. eapply encodes_below; [by apply same_below_sym|by eapply Hc|]. by eapply H3.
      - intros x [al col] Hq. destruct (H7 x _ Hq) as [Hq1 Hq2]. split; [done|]. rewrite <- (Hs al col); [done|]. by apply (Hx x _ Hq). }
    split; apply H; [done|by apply same_below_sym].
  Qed.
  Lemma grows_apply_for_alias p al c : grows c (apply_for_alias k p al c).
  Proof using Type.
    unfold apply_for_alias. destruct (c_empty c); [apply grows_refl|].
    assert (forall c1 t, grows c c1 -> grows c (let '(c, stop) := apply_value k al t (ep_v p) c1 in if stop then c else apply_eplace k (al, CTx) (ep_tx p) c)) as Hend.
    { intros c1 t Hc1. pose proof (grows_apply_value k al t (ep_v p) c1) as Gv. destruct (apply_value k al t (ep_v p) c1) as [c2 []]; cbn [fst] in Gv;
        eauto using grows_trans, grows_apply_eplace. }
    assert (grows c (apply_eplace k (al, CE) (ep_e p) (constrain_to_ref (ep_a p) (constrain_to_ref (ep_e p) (constrain_to_ref (ep_tx p) c))))) as Hc.
    { eapply grows_trans; [|apply grows_apply_eplace]. do 2 (eapply grows_trans; [|apply grows_to_ref]). apply grows_to_ref. }
    destruct (ep_a p) as [|x|e]; [apply Hend|apply Hend|destruct (kn_attr k e); [apply Hend|]]; (eapply grows_trans; [exact Hc|]);
      first [apply grows_apply_eplace|apply grows_add_where|apply grows_mark_empty].
  Qed.
  Lemma next_apply_for_alias p al c : c_next (apply_for_alias k p al c) = c_next c /\ c_from (apply_for_alias k p al c) = c_from c /\ c_computed (apply_for_alias k p al c) = c_computed c.
  Proof using Type. by destruct (grows_apply_for_alias p al c). Qed.
  (** A row of its own for a pattern *)
  Definition aliased (t : table) (p : epattern) (c : cc) : cc :=
    push_from (t, ADatoms (c_next c)) (apply_for_alias k p (ADatoms (c_next c)) (with_next (S (c_next c)) c)).
  Lemma aliased_ok O rest t p c : inv O rest (c_from c) c -> pat_ok rest c p -> table_for_places k c (ep_a p) (ep_v p) = Some t ->
    inv O rest (c_from (aliased t p c)) (aliased t p c) /\ (c_next c <= c_next (aliased t p c))%nat
    /\ c_computed (aliased t p c) = c_computed c /\ (forall E0 σ, Sat (aliased t p c) E0 σ <-> Sat c E0 σ /\ ematches st σ p).
  Proof using G.
    intros I P Et. unfold aliased.
    pose proof (inv_apply_for_alias _ _ _ _ _ _ I P Et) as I'. destruct (next_apply_for_alias p (ADatoms (c_next c)) (with_next (S (c_next c)) c)) as (Hn & Hf & Hcm).
    set (c0 := with_next (S (c_next c)) c) in *. set (al := ADatoms (c_next c)) in *. set (c' := apply_for_alias k p al c0) in *.
    assert (c_from (push_from (t, al) c') = c_from c ++ [(t, al)]) as Hff. { transitivity (c_from c' ++ [(t, al)]); [by clearbody c'; destruct c' as [[]]|]. rewrite Hf. by destruct c as [[]]. }
    rewrite Hff. split_and!.
    { by apply inv_push_from. }
    { transitivity (c_next c'); [rewrite Hn; destruct c as [[]]; cbn; lia|by clearbody c'; destruct c' as [[]]]. }
    { transitivity (c_computed c'); [by clearbody c'; destruct c' as [[]]|rewrite Hcm; by destruct c as [[]]]. }
    assert (comp (push_from (t, al) c') = comp c) as Hcp.
    { unfold P_QueryInv.comp. f_equal. transitivity (c_computed c'); [by clearbody c'; destruct c' as [[]]|rewrite Hcm; by destruct c as [[]]]. }
    intros E0 σ. unfold Sat. rewrite Hff, Hcp.
    assert (evalue_safe c0 (value_type_for k c0 (ep_a p)) (ep_v p)) as Hsafe. { pose proof (po_value _ _ _ P) as H. destruct c as [[]]. exact H. }
    assert (forall E1 d, RDatom d ∈ table_rows st [] t -> sat (push_from (t, al) c') ((al, RDatom d) :: E1) σ <->
      sat c E1 σ /\ eplace_is σ (ep_e p) (d_e d) /\ eplace_is σ (ep_a p) (d_a d) /\ evalue_row σ (ep_v p) d /\ eplace_is σ (ep_tx p) (d_tx d)) as Hrow.
    { intros E1 d Hd. rewrite sat_push_from. unfold c'.
      assert (some_row st d) as Hsome.
      { destruct t as [| | |i]; [..|by cbn in Hd; apply elem_of_nil in Hd]; cbn [table_rows] in Hd;
          apply elem_of_list_fmap in Hd as (? & [= <-] & Hd); [by right| |by left]. apply elem_of_list_filter in Hd as [_ Hd]. by left. }
      assert (sat c0 ((al, RDatom d) :: E1) σ <-> sat c E1 σ) as H0.
      { unfold c0. rewrite sat_with_next. symmetry. apply (sat_below (lim c)); [apply same_below_fresh; cbn; lia|apply I|apply I|apply I]. }
      rewrite (sat_apply_for_alias sq k st G al p c0 _ σ d (at_row_head _ _ _) Hsome Hsafe); [by rewrite H0|].
      intros Hs%H0 Ha. by apply (table_row sq k st G c p t d E1 σ Hs Et Hd). }
    split.
    - intros (E & HE & Hs). apply product_snoc in HE as (E1 & r & HE1 & Hr & ->). rewrite (table_rows_plain st _ t (table_not_computed c p t Et)) in Hr. destruct (plain_rows st t r (table_not_computed c p t Et) Hr) as (d & -> & Hd).
      apply Hrow in Hs as (Hs & He & Ha & Hv & Htx); [|done]. split; [by exists E1|].
      (* a row of the view *)
      destruct (table_row sq k st G c p t d E1 σ Hs Et Hd) as [Hsome _].
      assert (exists d', d' ∈ all_datoms st /\ d_e d' = d_e d /\ d_a d' = d_a d /\ d_tx d' = d_tx d /\ evalue_row σ (ep_v p) d') as (d' & Hd' & H1 & H2 & H3 & H4).
      { destruct Hsome as [Hin|Hin]; [by exists d|]. destruct (sg_raw _ _ G d Hin) as [[_ Hin']|(_ & (i & Hi) & Htag & d' & Hd' & H1 & H2 & H3 & _)]; [by exists d|].
        exists d'. split_and!; try done.
        assert (forall v, ~ row_value d v) as Hno. { intros v (H4 & H5 & _). rewrite Hi in H4. rewrite Htag in H5. by destruct v as [| | |[]| | | |]. }
        destruct (ep_v p); cbn [evalue_row] in *; try done; by apply Hno in Hv. }
      exists d'. split; [done|]. by rewrite H1, H2, H3.
    - intros [(E1 & HE1 & Hs) (d & Hd & He & Ha & Hv & Htx)].
      destruct (table_complete sq k st G c p d E1 σ Hs Hd Ha Hv) as (t' & d0 & Ht' & Hd0 & H1 & H2 & H3 & H4). assert (t' = t) as -> by congruence.
      exists ((al, RDatom d0) :: E1). split; [apply product_snoc; exists E1, (RDatom d0); by rewrite (table_rows_plain st _ t (table_not_computed c p t Et))|]. apply Hrow; [done|]. by rewrite H1, H2, H3.
  Qed.
  Lemma apply_pattern_ok O rest p c : inv O rest (c_from c) c -> pat_ok rest c p ->
    inv O rest (c_from (apply_pattern k p c)) (apply_pattern k p c) /\ (c_next c <= c_next (apply_pattern k p c))%nat
    /\ c_computed (apply_pattern k p c) = c_computed c /\ (forall E0 σ, Sat (apply_pattern k p c) E0 σ <-> Sat c E0 σ /\ ematches st σ p).
  Proof using G CO.
    intros I P. unfold apply_pattern. destruct (attempt_cache k p c) as [c' done_] eqn:Ea. pose proof (cache_attempt _ _ _ _ _ _ _ I P Ea) as Hca.
    destruct done_.
    { destruct Hca as (I' & Hf & Hn & Hcm & Hs). rewrite Hf. split_and!; [done|lia|done|]. intros E0 σ. unfold Sat, P_QueryInv.comp. rewrite Hf, Hcm. setoid_rewrite Hs. naive_solver. }
    subst c'. unfold alias_table. destruct (table_for_places k c (ep_a p) (ep_v p)) as [t|] eqn:Et.
    2:{ split_and!; [|by destruct c as [[]]|by destruct c as [[]]|].
        - replace (c_from (mark_empty (mark_empty c))) with (c_from c) by (by destruct c as [[]]). by apply inv_mark_empty, inv_mark_empty.
        - intros E0 σ. unfold Sat. setoid_rewrite sat_mark_empty. split; [by intros (? & _ & ?)|]. intros [(E & HE & Hs) (d & Hd & _ & Ha & Hv & _)].
          destruct (table_complete sq k st G c p d E σ Hs Hd Ha Hv) as (t & d0 & Ht & _). congruence. }
    by apply (aliased_ok O rest t p c).
  Qed.
End apply.

(** What a set of clauses says about the values of its variables. *)
From Verif Require Import M_Query Spec_Query Spec_Value Spec_Sets P_Value P_Sets P_QuerySql.

(* ---------------------------------------------------------------- the store *)

Record store_good (m : gmap Z attribute) (st : store) : Prop := {
  sg_view : forall d, d ∈ all_datoms st -> exists at_ v, m !! d_a d = Some at_ /\ storable v /\ tv_type v = at_type at_
    /\ d_v d = sql_of v /\ d_tag d = vt_tag (tv_type v) /\ d_ft d = at_fulltext at_;
  sg_raw : forall d, d ∈ st_datoms st -> (d_ft d = false /\ d ∈ all_datoms st)
    \/ (d_ft d = true /\ (exists i, d_v d = SInt i) /\ d_tag d = 10
        /\ exists d', d' ∈ all_datoms st /\ d_e d' = d_e d /\ d_a d' = d_a d /\ d_tx d' = d_tx d /\ d_ft d' = true);
  sg_rows : forall d, d ∈ all_datoms st -> (d_ft d = false /\ d ∈ st_datoms st)
    \/ (d_ft d = true /\ (exists s, d_v d = SText s) /\ d_tag d = 10
        /\ exists d', d' ∈ st_datoms st /\ d_e d' = d_e d /\ d_a d' = d_a d /\ d_tx d' = d_tx d /\ d_ft d' = true) }.
(** A row of a table of datoms *)
Definition some_row (st : store) (d : datom) : Prop := d ∈ all_datoms st \/ d ∈ st_datoms st.

(* ---------------------------------------------------------------- columns *)

(** The column [q] has the value [v]. *)
Definition encodes (E : env) (q : qalias) (v : typed_value) : Prop :=
  match q.2 with
  | CV => env_column E q = Some (sql_of v) /\ env_column E (q.1, CTag) = Some (SInt (vt_tag (tv_type v))) /\ storable v
  | CE | CA | CTx => exists i, v = TVRef i /\ env_column E q = Some (SInt i)
  | CVar _ => env_column E q = Some (sql_of v) /\ storable v
  | _ => False
  end.
Lemma encodes_storable E q v : encodes E q v -> storable v.
Proof. destruct q as [al []]; cbn; try done; try (by intros (i & -> & _)); [by intros (_ & _ & ?)|by intros (_ & ?)]. Qed.
Lemma encodes_column E q v : encodes E q v -> env_column E q = Some (sql_of v).
Proof. destruct q as [al []]; cbn; try done; try (by intros (i & -> & ->)); by intros (? & _). Qed.
Lemma encodes_inj E q v w : encodes E q v -> encodes E q w -> (match q.2 with CVar _ => tv_type v = tv_type w | _ => True end) -> v = w.
Proof.
  destruct q as [al []]; cbn [encodes fst snd]; try done; try (by intros (i & -> & H1) (j & -> & H2); congruence).
  - intros (H1 & H2 & H3) (H4 & H5 & H6) _. apply sql_of_inj; [done|done|congruence|congruence].
  - intros (H1 & H3) (H4 & H6) Ht. apply sql_of_inj; [done|done|congruence|congruence].
Qed.
Lemma encodes_ext E E' q v : (forall c, env_column E (q.1, c) = env_column E' (q.1, c)) -> encodes E q v <-> encodes E' q v.
Proof. intros H. destruct q as [al c]. cbn [fst] in H. unfold encodes. cbn [fst snd]. by rewrite !H. Qed.

Section sat.
  Context (sq : sqlite) (st : store).
  Record sat (c : cc) (E : env) (σ : string -> typed_value) : Prop := Sat {
    sat_ne : c_empty c = false;
    sat_wheres : Forall (fun k => holds_in sq st E k = true) (c_wheres c);
    sat_cols : forall x qs q, c_cols c !! x = Some qs -> q ∈ qs -> encodes E q (σ x);
    sat_vals : forall x v, c_vals c !! x = Some v -> σ x = v;
    sat_known : forall x ts, c_known c !! x = Some ts -> vts_contains ts (tv_type (σ x)) = true;
    sat_required : forall x ts, c_required c !! x = Some ts -> vts_contains ts (tv_type (σ x)) = true;
    sat_extracted : forall x q, c_extracted c !! x = Some q ->
      q.2 = CTag /\ env_column E q = Some (SInt (vt_tag (tv_type (σ x)))) }.

  (** [sat] does not depend on the alias counter and the tables. *)
  Lemma sat_with_next n c E σ : sat (with_next n c) E σ <-> sat c E σ.
  Proof. destruct c as [[]]. by split; intros []; split. Qed.
  Lemma sat_push_from x c E σ : sat (push_from x c) E σ <-> sat c E σ.
  Proof. destruct c as [[]]. by split; intros []; split. Qed.
  Lemma sat_mark_empty c E σ : sat (mark_empty c) E σ <-> False.
  Proof. destruct c as [[]]. split; [|done]. intros []. done. Qed.
  Lemma sat_add_where kk c E σ : sat (add_where kk c) E σ <-> sat c E σ /\ holds_in sq st E kk = true.
  Proof.
    destruct c as [s l w]. split.
    - intros [H1 H2 H3 H4 H5 H6 H7]. change (c_wheres _) with (w ++ [kk]) in H2. apply Forall_app in H2 as [H2 H8]. apply Forall_cons_1 in H8 as [H8 _].
      split; [split|]; assumption.
    - intros [[H1 H2 ?????] H3]. split; try done. cbn. apply Forall_app. split; [done|]. by apply Forall_singleton.
  Qed.
  Lemma sat_add_wheres ks c E σ : sat (add_wheres ks c) E σ <-> sat c E σ /\ Forall (fun kk => holds_in sq st E kk = true) ks.
  Proof.
    destruct c as [s l w]. split.
    - intros [H1 H2 H3 H4 H5 H6 H7]. change (c_wheres _) with (w ++ ks) in H2. apply Forall_app in H2 as [H2 H8]. split; [split|]; assumption.
    - intros [[H1 H2 ?????] H3]. split; try done. cbn. by apply Forall_app.
  Qed.
  Lemma sat_put_known v ts c E σ : (forall ts', c_known c !! v = Some ts' -> vts_contains ts (tv_type (σ v)) = true -> vts_contains ts' (tv_type (σ v)) = true) ->
    sat (put_known v ts c) E σ <-> sat c E σ /\ vts_contains ts (tv_type (σ v)) = true.
  Proof.
    intros Hold. destruct c as [[] l w]. cbn in Hold. split.
    - intros [H1 H2 H3 H4 H5 H6 H7]. cbn in *. assert (vts_contains ts (tv_type (σ v)) = true) as Hv by (apply (H5 v); by rewrite lookup_insert).
      split; [|done]. split; try done. intros x ts' Hx. cbn in Hx. destruct (decide (x = v)) as [->|Hne]; [by apply Hold|].
      apply (H5 x). by rewrite lookup_insert_ne.
    - intros [[H1 H2 H3 H4 H5 H6 H7] Hv]. split; try done. cbn. intros x ts'. destruct (decide (x = v)) as [->|Hne].
      + rewrite lookup_insert. by intros [= <-].
      + rewrite lookup_insert_ne by done. apply H5.
  Qed.
  Lemma sat_constrain_var v t c E σ : sat (constrain_var v t c) E σ <-> sat c E σ /\ tv_type (σ v) = t.
  Proof.
    unfold constrain_var. destruct (c_known c !! v) as [ex|] eqn:Ek.
    - destruct (vts_contains ex t) eqn:Et.
      + rewrite sat_put_known.
        * by rewrite one_contains_iff.
        * intros ts' Hts. rewrite Hts in Ek. injection Ek as <-. by intros ->%one_contains_iff.
      + rewrite sat_mark_empty. split; [done|]. intros [[? ? ? ? H5 ? ?] Ht]. specialize (H5 _ _ Ek). rewrite Ht in H5. congruence.
    - rewrite sat_put_known; [by rewrite one_contains_iff|]. intros ts' Hts. congruence.
  Qed.
  Lemma sat_add_requirement v ts c E σ : sat (add_type_requirement v ts c) E σ <-> sat c E σ /\ vts_contains ts (tv_type (σ v)) = true.
  Proof.
    unfold add_type_requirement. destruct (vts_is_empty ts) eqn:Ee.
    { rewrite sat_mark_empty. split; [done|]. intros [_ H]. rewrite empty_contains in H by done. done. }
    assert (forall ts', (forall t, vts_contains ts' t = true <-> vts_contains ts t = true /\ match c_required c !! v with Some ex => vts_contains ex t = true | None => True end) ->
      sat (put_required v ts' c) E σ <-> sat c E σ /\ vts_contains ts (tv_type (σ v)) = true) as Hput.
    { intros ts' Hts. destruct c as [[] l w]. cbn in Hts. split.
      - intros [H1 H2 H3 H4 H5 H6 H7]. cbn in *. assert (vts_contains ts' (tv_type (σ v)) = true) as Hv by (apply (H6 v); by rewrite lookup_insert).
        apply Hts in Hv as [Hv Hold]. split; [|done]. split; try done. intros x ts'' Hx. cbn in Hx.
        destruct (decide (x = v)) as [->|Hne]; [by rewrite Hx in Hold|]. apply (H6 x). by rewrite lookup_insert_ne.
      - intros [[H1 H2 H3 H4 H5 H6 H7] Hv]. split; try done. cbn. intros x ts''. destruct (decide (x = v)) as [->|Hne].
        + rewrite lookup_insert. intros [= <-]. apply Hts. split; [done|]. cbn in H6. destruct (s_required !! v) eqn:E'; [by apply (H6 v)|done].
        + rewrite lookup_insert_ne by done. apply H6. }
    destruct (c_required c !! v) as [ex|] eqn:Er; [|apply Hput; tauto].
    assert (forall t, vts_contains (vts_intersection ts ex) t = true <-> vts_contains ts t = true /\ vts_contains ex t = true) as Hi.
    { intros t. by rewrite vts_inter_contains, andb_true_iff. }
    destruct (vts_is_empty (vts_intersection ts ex)) eqn:Ei; [|by apply Hput].
    rewrite sat_mark_empty. split; [done|]. intros [Hs Hv]. pose proof (sat_required _ _ _ Hs v ex Er) as H6.
    assert (vts_contains (vts_intersection ts ex) (tv_type (σ v)) = true) as H by (by apply Hi). rewrite empty_contains in H by done. done.
  Qed.
  Lemma sat_narrow_type v ts c E σ : sat (narrow_type v ts c) E σ <-> sat c E σ /\ vts_contains ts (tv_type (σ v)) = true.
  Proof.
    unfold narrow_type. destruct (vts_is_empty ts) eqn:Ee.
    { rewrite sat_mark_empty. split; [done|]. intros [_ H]. rewrite empty_contains in H by done. done. }
    destruct (c_known c !! v) as [ex|] eqn:Ek; [|apply sat_put_known; congruence].
    assert (forall t, vts_contains (vts_intersection ts ex) t = true <-> vts_contains ts t = true /\ vts_contains ex t = true) as Hi.
    { intros t. by rewrite vts_inter_contains, andb_true_iff. }
    destruct (vts_is_empty (vts_intersection ts ex)) eqn:Ei.
    - rewrite sat_mark_empty. split; [done|]. intros [Hs Hv]. pose proof (sat_known _ _ _ Hs v ex Ek) as H6.
      assert (vts_contains (vts_intersection ts ex) (tv_type (σ v)) = true) as H by (by apply Hi). rewrite empty_contains in H by done. done.
    - rewrite sat_put_known.
      + rewrite Hi. split; [tauto|]. intros [Hs Hv]. split; [done|]. split; [done|]. by apply (sat_known _ _ _ Hs v).
      + intros ts' Hts [_ H]%Hi. congruence.
  Qed.
  Lemma sat_push_col v q c E σ : sat (with_cols (fun m => <[v := default [] (m !! v) ++ [q]]> m) c) E σ <-> sat c E σ /\ encodes E q (σ v).
  Proof.
    destruct c as [[] l w]. split.
    - intros [H1 H2 H3 H4 H5 H6 H7]. cbn in *. split.
      + split; try done. cbn. intros x qs q' Hx Hq. destruct (decide (x = v)) as [->|Hne].
        * apply (H3 v (default [] (s_cols !! v) ++ [q])); [by rewrite lookup_insert|]. rewrite Hx. cbn. apply elem_of_app. by left.
        * apply (H3 x qs); [by rewrite lookup_insert_ne|done].
      + apply (H3 v (default [] (s_cols !! v) ++ [q])); [by rewrite lookup_insert|]. apply elem_of_app. right. by left.
    - intros [[H1 H2 H3 H4 H5 H6 H7] Hq]. split; try done. cbn in *. intros x qs q'. destruct (decide (x = v)) as [->|Hne].
      + rewrite lookup_insert. intros [= <-] [Hin|Hin]%elem_of_app.
        * destruct (s_cols !! v) as [qs|] eqn:E'; [by apply (H3 v qs)|]. by apply elem_of_nil in Hin.
        * by apply elem_of_list_singleton in Hin as ->.
      + rewrite lookup_insert_ne by done. apply H3.
  Qed.
  Lemma sat_put_extracted v q c E σ : c_extracted c !! v = None ->
    sat (with_extracted <[v := q]> c) E σ <-> sat c E σ /\ q.2 = CTag /\ env_column E q = Some (SInt (vt_tag (tv_type (σ v)))).
  Proof.
    intros Hn. destruct c as [[] l w]. cbn in Hn. split.
    - intros [H1 H2 H3 H4 H5 H6 H7]. cbn in *. split.
      + split; try done. cbn. intros x q' Hx. destruct (decide (x = v)) as [->|Hne]; [congruence|]. apply H7. by rewrite lookup_insert_ne.
      + apply (H7 v). by rewrite lookup_insert.
    - intros [[H1 H2 H3 H4 H5 H6 H7] Hq]. split; try done. cbn in *. intros x q'. destruct (decide (x = v)) as [->|Hne].
      + rewrite lookup_insert. by intros [= <-].
      + rewrite lookup_insert_ne by done. apply H7.
  Qed.
  Lemma sat_put_val v x c E σ : c_vals c !! v = None -> sat (put_val v x c) E σ <-> sat c E σ /\ σ v = x.
  Proof.
    intros Hn. destruct c as [[] l w]. cbn in Hn. split.
    - intros [H1 H2 H3 H4 H5 H6 H7]. cbn in *. split.
      + split; try done. cbn. intros y z Hy. destruct (decide (y = v)) as [->|Hne]; [congruence|]. apply H4. by rewrite lookup_insert_ne.
      + apply (H4 v). by rewrite lookup_insert.
    - intros [[H1 H2 H3 H4 H5 H6 H7] Hq]. split; try done. cbn in *. intros y z. destruct (decide (y = v)) as [->|Hne].
      + rewrite lookup_insert. by intros [= <-].
      + rewrite lookup_insert_ne by done. apply H4.
  Qed.

  (* -------------------------------------------------------------- constraints on columns *)
  Lemma eq_entid E q i e : env_column E q = Some (SInt i) -> holds_in sq st E (KEquals q (QEntid e)) = true <-> i = e.
  Proof. intros H. cbn [holds_in]. unfold eq_columns, eval_value. rewrite H. apply sql_eq_int. Qed.
  Lemma eq_value E q v x : env_column E q = Some (sql_of v) -> storable v -> storable x -> tv_type v = tv_type x ->
    holds_in sq st E (KEquals q (QValue x)) = true <-> v = x.
  Proof. intros H Hv Hx Ht. cbn [holds_in]. unfold eq_columns, eval_value. rewrite H. by apply sql_eq_typed. Qed.
  Lemma eq_constant E q v x c σ : env_column E q = Some (sql_of v) -> storable v -> storable x -> tv_type v = tv_type x ->
    sat (constrain_constant q x c) E σ <-> sat c E σ /\ v = x.
  Proof.
    intros H Hv Hx Ht. unfold constrain_constant. rewrite sat_add_where. destruct x; try (by rewrite (eq_value E q v) by done).
    destruct v; try done. rewrite (eq_entid E q e0) by done. naive_solver.
  Qed.
  Lemma has_one_type E al t u : env_column E (al, CTag) = Some (SInt u) -> holds_in sq st E (has_unit_type al t) = true <-> u = vt_tag t.
  Proof.
    intros H. unfold has_unit_type. cbn [holds_in]. unfold has_types. rewrite existsb_exists. rewrite H. split.
    - intros (t' & Hin & Ht). apply elem_of_list_In in Hin. apply vts_iter_spec in Hin. unfold vts_den in Hin. apply one_contains_iff in Hin as ->.
      apply andb_true_iff in Ht as [Ht _]. unfold eq_columns in Ht. by apply sql_eq_int in Ht.
    - intros ->. exists t. split; [apply elem_of_list_In, vts_iter_spec; by apply one_contains_iff|]. apply andb_true_iff. split; [|done].
      unfold eq_columns. by apply sql_eq_int.
  Qed.
  Lemma sat_bind_value v x c E σ : c_vals c !! v = None -> storable x -> sat (bind_value v x c) E σ <-> sat c E σ /\ σ v = x.
  Proof.
    intros Hn Hx. unfold bind_value.
    set (c1 := constrain_var v (tv_type x) c).
    assert (forall E, sat c1 E σ <-> sat c E σ /\ tv_type (σ v) = tv_type x) as H1 by (intros; apply sat_constrain_var).
    assert (c_vals c1 !! v = None) as N1. { unfold c1, constrain_var. destruct c as [[] l w]. cbn in *. repeat case_match; done. }
    set (c2 := match c_cols c1 !! v with Some (q :: _) => add_where (KEquals q (QValue x)) c1 | _ => c1 end).
    assert (c_vals c2 !! v = None) as N2. { unfold c2. destruct (c_cols c1 !! v) as [[|q qs]|]; try done. clearbody c1. by destruct c1. }
    set (c3 := match c_extracted c2 !! v with Some q => add_where (has_unit_type q.1 (tv_type x)) c2 | None => c2 end).
    assert (c_vals c3 !! v = None) as N3. { unfold c3. destruct (c_extracted c2 !! v) as [q|]; try done. clearbody c2. by destruct c2. }
    rewrite sat_put_val by done.
    assert (σ v = x -> sat c3 E σ <-> sat c2 E σ) as H3.
    { intros Hv. unfold c3. destruct (c_extracted c2 !! v) as [[al cl]|] eqn:E'; [|done]. rewrite sat_add_where. split; [tauto|]. intros Hs. split; [done|].
      destruct (sat_extracted _ _ _ Hs _ _ E') as [Hq Hc]. cbn [fst snd] in *. subst cl. eapply has_one_type; [done|]. by rewrite Hv. }
    assert (σ v = x -> sat c2 E σ <-> sat c1 E σ) as H2.
    { intros Hv. unfold c2. destruct (c_cols c1 !! v) as [[|q qs]|] eqn:E'; try done. rewrite sat_add_where. split; [tauto|]. intros Hs. split; [done|].
      pose proof (sat_cols _ _ _ Hs v _ q E' ltac:(by left)) as Hq. rewrite Hv in Hq. eapply eq_value; try done. by apply encodes_column. }
    assert (sat c3 E σ -> sat c2 E σ) as H3'. { unfold c3. destruct (c_extracted c2 !! v); [|done]. rewrite sat_add_where. tauto. }
    assert (sat c2 E σ -> sat c1 E σ) as H2'. { unfold c2. destruct (c_cols c1 !! v) as [[]|]; try done. rewrite sat_add_where. tauto. }
    split.
    - intros [Hs Hv]. split; [|done]. apply H3', H2', H1 in Hs. tauto.
    - intros [Hs Hv]. split; [|done]. apply H3; [done|]. apply H2; [done|]. apply H1. split; [done|]. by rewrite Hv.
  Qed.
End sat.

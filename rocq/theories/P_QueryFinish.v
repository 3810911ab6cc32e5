(** Finishing a set of clauses: what it says stays the same, and every row of its tables that meets it gives an assignment. *)
From Verif Require Import M_Query Spec_Query Spec_Value Spec_Sets P_Value P_Sets P_QuerySql P_QuerySat P_QueryPat P_QueryInv.

Lemma sorted_vars_elem x s : x ∈ sorted_vars s <-> x ∈ s.
Proof. unfold sorted_vars. rewrite (merge_sort_Permutation var_le (elements s)). apply elem_of_elements. Qed.
Lemma sorted_vars_nodup s : NoDup (sorted_vars s).
Proof. unfold sorted_vars. rewrite (merge_sort_Permutation var_le (elements s)). apply NoDup_elements. Qed.
Lemma sorted_map_elem {A} (m : gmap var A) x y : (x, y) ∈ sorted_map m <-> m !! x = Some y.
Proof.
  unfold sorted_map. rewrite elem_of_list_omap. split.
  - intros (v & _ & H). destruct (m !! v) as [z|] eqn:E; [|done]. cbn in H. by simplify_eq.
  - intros H. exists x. rewrite sorted_vars_elem, H. split; [by apply elem_of_dom_2 in H|done].
Qed.
Lemma sorted_map_nodup {A} (m : gmap var A) : NoDup (sorted_map m).*1.
Proof.
  unfold sorted_map. pose proof (sorted_vars_nodup (dom m)) as H. revert H. generalize (sorted_vars (dom m)). intros l.
  assert (forall x, x ∈ (omap (fun v => pair v <$> m !! v) l).*1 -> x ∈ l) as Hin.
  { intros x. rewrite elem_of_list_fmap. intros ([v z] & -> & H). apply elem_of_list_omap in H as (w & Hw & H). destruct (m !! w); [|done]. cbn in H. by simplify_eq. }
  revert Hin. induction l as [|v l IH]; intros Hin Hnd; [constructor|]. apply NoDup_cons in Hnd as [Hv Hnd]. cbn.
  assert (forall x, x ∈ (omap (fun v => pair v <$> m !! v) l).*1 -> x ∈ l) as Hin'.
  { intros x. rewrite elem_of_list_fmap. intros ([w z] & -> & H). apply elem_of_list_omap in H as (w' & Hw & H). destruct (m !! w'); [|done]. cbn in H. by simplify_eq. }
  destruct (m !! v) as [z|]; cbn; [|by apply IH]. constructor; [intros H; by apply Hv, Hin'|by apply IH].
Qed.

Lemma one_pow t : vts_of_one t = (2 ^ vt_bit t)%N.
Proof. by destruct t. Qed.
Lemma one_inj t u : Some (vts_of_one t) = Some (vts_of_one u) -> t = u.
Proof. destruct t, u; done. Qed.
Lemma one_subset t ts : vts_contains ts t = true -> vts_is_subset (vts_of_one t) ts = true.
Proof.
  rewrite vts_contains_testbit, one_pow. unfold vts_is_subset. intros H. apply N.eqb_eq, N.bits_inj. intros n. rewrite N.land_spec, N.pow2_bits_eqb.
  destruct (N.eqb_spec (vt_bit t) n) as [<-|_]; [by rewrite H|done].
Qed.
Lemma one_disjoint t ts : vts_contains ts t = false -> vts_is_disjoint (vts_of_one t) ts = true.
Proof.
  rewrite vts_contains_testbit, one_pow. unfold vts_is_disjoint. intros H. apply N.eqb_eq, N.bits_inj. intros n. rewrite N.land_spec, N.pow2_bits_eqb, N.bits_0.
  destruct (N.eqb_spec (vt_bit t) n) as [<-|_]; [by rewrite H|done].
Qed.

(** The first column of a variable with a value is that value. *)
Definition pinned (c : cc) : Prop := forall x v q qs, c_vals c !! x = Some v -> c_cols c !! x = Some (q :: qs) -> KEquals q (QValue v) ∈ c_wheres c.

(** The value in a column of a variable of type [t] *)
Definition decoded (E : env) (t : value_type) (q : qalias) : typed_value :=
  match q.2 with
  | CV => match env_column E q, env_column E (q.1, CTag) with
          | Some v, Some (SInt t) => match from_sql_value_pair v t with Ok x => x | _ => TVRef 0 end
          | _, _ => TVRef 0
          end
  | CVar _ => match env_column E q with Some v => match from_sql_value_pair v (vt_tag t) with Ok x => x | _ => TVRef 0 end | None => TVRef 0 end
  | _ => match env_column E q with Some (SInt i) => TVRef i | _ => TVRef 0 end
  end.
Lemma decoded_encodes E q v t : encodes E q v -> (match q.2 with CVar _ => tv_type v = t | _ => True end) -> decoded E t q = v.
Proof.
  destruct q as [al []]; cbn [encodes fst snd]; try done; unfold decoded; cbn [fst snd]; try (by intros (i & -> & ->)).
  - intros (-> & -> & Hv) _. by rewrite decode_sql.
  - intros (-> & Hv) <-. by rewrite decode_sql.
Qed.
Definition some_value (t : value_type) : typed_value :=
  match t with
  | VTRef => TVRef 0 | VTBoolean => TVBoolean true | VTLong => TVLong 0 | VTDouble => TVDouble (DKey 0) | VTInstant => TVInstant 0
  | VTString => TVString EmptyString | VTKeyword => TVKeyword (Kw None EmptyString) | VTUuid => TVUuid 0
  end.
Lemma some_value_type t : tv_type (some_value t) = t.
Proof. by destruct t. Qed.
(** The value of every variable, given the rows *)
Definition assigned (c : cc) (E : env) (x : string) : typed_value :=
  match c_vals c !! x with
  | Some v => v
  | None =>
      match c_cols c !! x with
      | Some (q :: _) => decoded E (default VTRef (c_known c !! x ≫= vts_exemplar)) q
      | _ => some_value (default VTRef (c_known c !! x ≫= vts_exemplar))
      end
  end.

Section finish.
  Context (sq : sqlite) (st : store).
  Notation sat := (sat sq st).
  Notation comp := (comp sq st).
  Notation holds := (fun E kk => holds_in sq st E kk = true).

  Lemma select_elem c E0 E : c_computed c = [] \/ E0 = [] -> E ∈ select sq st E0 c <-> E ∈ product st (comp c) (c_from c) E0 /\ Forall (holds E) (c_wheres c).
  Proof using Type.
    destruct c as [s l w]. intros Hc. assert (map (computed_rows sq st E0) l = comp (CC s l w)) as Hcm. { unfold P_QueryInv.comp. destruct Hc as [Hc| ->]; [|done]. cbn in Hc. by subst. }
    change (select sq st E0 (CC s l w)) with (filter (fun e => forallb (holds_in sq st e) w = true) (product st (map (computed_rows sq st E0) l) (s_from s) E0)).
    rewrite Hcm, elem_of_list_filter. change (c_wheres (CC s l w)) with w. change (c_from (CC s l w)) with (s_from s). split.
    - intros [H1 H2]. split; [done|]. rewrite forallb_forall in H1. apply Forall_forall. intros kk Hkk. by apply H1, elem_of_list_In.
    - intros [H1 H2]. split; [|done]. rewrite Forall_forall in H2. apply forallb_forall. intros kk Hkk. by apply H2, elem_of_list_In.
  Qed.

  Lemma has_types_sat E al ts v : env_column E (al, CTag) = Some (SInt (vt_tag (tv_type v))) -> env_column E (al, CV) = Some (sql_of v) -> storable v ->
    holds_in sq st E (KTypes al ts true) = true <-> vts_contains ts (tv_type v) = true.
  Proof using Type.
    intros Ht Hv Hst. cbn [holds_in]. unfold has_types. rewrite Ht, Hv. rewrite existsb_exists. cbn [eq_columns negb orb]. split.
    - intros (t & Hin & H). apply elem_of_list_In, vts_iter_spec in Hin. unfold vts_den in Hin. apply andb_true_iff in H as [H1 H2]. apply (proj1 (sql_eq_int sq _ _)) in H1.
      destruct v as [| | |[|]| | | |], t; try done; cbn in *; apply orb_true_iff in H2 as [H2|H2]; done.
    - intros Hc. exists (tv_type v). split; [by apply elem_of_list_In, vts_iter_spec|]. apply andb_true_iff. split; [by apply (sql_eq_int sq)|].
      destruct v as [| | |[|]| | | |]; try done; cbn; apply orb_true_r.
  Qed.

  (* -------------------------------------------------------------- the required types *)

  Lemma loop_ok l : forall c c', process_required_loop l c = Ok c' -> NoDup l.*1 -> (forall v ts, (v, ts) ∈ l -> c_required c !! v = Some ts) ->
    (forall v ts, v ∈ l.*1 -> c_known c !! v = Some ts -> exists t, ts = vts_of_one t) ->
    (forall x q, c_extracted c !! x = Some q -> q.2 = CTag /\ c_cols c !! x = Some [(q.1, CV)]) ->
    (c_from c' = c_from c /\ c_next c' = c_next c /\ c_cols c' = c_cols c /\ c_inputs c' = c_inputs c /\ c_vals c' = c_vals c /\ c_extracted c' = c_extracted c
      /\ c_required c' = c_required c /\ c_computed c' = c_computed c)
    /\ (exists ks, c_wheres c' = c_wheres c ++ ks /\ forall kk, kk ∈ ks -> exists x q ts, kk = KTypes q.1 ts true /\ c_extracted c !! x = Some q)
    /\ (forall x, c_known c' !! x = c_known c !! x \/ (c_known c !! x = None /\ is_Some (c_known c' !! x) /\ c_required c !! x = c_known c' !! x))
    /\ (forall E σ, sat c' E σ <-> sat c E σ)
    /\ (c_empty c' = false -> c_empty c = false /\ forall v ts, (v, ts) ∈ l ->
         (exists t, c_known c !! v = Some (vts_of_one t) /\ vts_contains ts t = true)
         \/ (c_known c !! v = None /\ exists q, c_extracted c !! v = Some q /\ KTypes q.1 ts true ∈ c_wheres c')).
  Proof using Type.
    induction l as [|[v ts] l IH]; intros c c' Hr Hnd Hreq Hk Hx; cbn [process_required_loop] in Hr.
    { injection Hr as <-. split_and!; try done; [exists []; rewrite app_nil_r; split; [done|]; intros kk Hkk; by apply elem_of_nil in Hkk|auto|].
      intros Hne. split; [done|]. intros ? ? H. by apply elem_of_nil in H. }
    cbn [fmap list_fmap fst] in Hnd. apply NoDup_cons in Hnd as [Hv Hnd].
    assert (forall v ts, (v, ts) ∈ l -> c_required c !! v = Some ts) as Hreq'. { intros ? ? H. apply Hreq. by right. }
    pose proof (Hreq v ts ltac:(by left)) as Hts.
    destruct (c_known c !! v) as [ts0|] eqn:Ek.
    - destruct (Hk v ts0 ltac:(by left) Ek) as [t ->]. destruct (vts_is_disjoint (vts_of_one t) ts) eqn:Ed.
      { injection Hr as <-. split_and!; try (by destruct c as [[]]).
        - exists []. rewrite app_nil_r. split; [by destruct c as [[]]|]. intros kk Hkk. by apply elem_of_nil in Hkk.
        - intros x. left. by destruct c as [[]].
        - intros E σ. rewrite sat_mark_empty. split; [done|]. intros Hs. pose proof (sat_known _ _ _ _ _ Hs _ _ Ek) as H1. pose proof (sat_required _ _ _ _ _ Hs _ _ Hts) as H2.
          by eapply disjoint_contains. }
      destruct (vts_is_subset (vts_of_one t) ts) eqn:Es.
      2:{ exfalso. destruct (vts_contains ts t) eqn:E; [apply one_subset in E|apply one_disjoint in E]; congruence. }
      destruct (IH c c' Hr Hnd Hreq') as (A1 & A2 & A3 & A4 & A5); [intros x ts' Hin; apply Hk; by right|done|]. split_and!; try done; [apply A1..|].
      intros Hne. destruct (A5 Hne) as [Hne' H]. split; [done|]. intros x ts' [[= -> ->]|Hin]%elem_of_cons; [|by apply H].
      left. exists t. split; [done|]. apply (subset_contains _ _ _ Es). by apply one_contains_iff.
    - set (c1 := narrow_type v ts c) in *.
      assert (c_from c1 = c_from c /\ c_next c1 = c_next c /\ c_cols c1 = c_cols c /\ c_inputs c1 = c_inputs c /\ c_vals c1 = c_vals c /\ c_extracted c1 = c_extracted c
        /\ c_required c1 = c_required c /\ c_computed c1 = c_computed c /\ c_wheres c1 = c_wheres c) as (B1 & B2 & B3 & B4 & B5 & B6 & B7 & B8 & B9).
      { unfold c1, narrow_type. rewrite Ek. destruct c as [[]]. by destruct (vts_is_empty ts). }
      assert (forall x, x <> v -> c_known c1 !! x = c_known c !! x) as Bk.
      { intros x Hxv. unfold c1, narrow_type. rewrite Ek. destruct c as [[]]. destruct (vts_is_empty ts); cbn; [done|by rewrite lookup_insert_ne]. }
      assert (c_known c1 !! v = None \/ c_known c1 !! v = Some ts) as Bv.
      { unfold c1, narrow_type. rewrite Ek. destruct c as [[]]. destruct (vts_is_empty ts); cbn; [by left|right; by rewrite lookup_insert]. }
      assert (c_empty c1 = false -> c_empty c = false) as Be. { unfold c1, narrow_type. rewrite Ek. destruct c as [[]]. by destruct (vts_is_empty ts). }
      assert (forall E σ, sat c1 E σ <-> sat c E σ /\ vts_contains ts (tv_type (σ v)) = true) as Bs by (intros; apply sat_narrow_type).
      clearbody c1. rewrite B6 in Hr. destruct (c_extracted c !! v) as [q|] eqn:Eq; [|done].
      set (c2 := add_where (KTypes q.1 ts true) c1) in *.
      assert (c_from c2 = c_from c1 /\ c_next c2 = c_next c1 /\ c_cols c2 = c_cols c1 /\ c_inputs c2 = c_inputs c1 /\ c_vals c2 = c_vals c1 /\ c_extracted c2 = c_extracted c1
        /\ c_required c2 = c_required c1 /\ c_computed c2 = c_computed c1 /\ c_wheres c2 = c_wheres c1 ++ [KTypes q.1 ts true] /\ c_known c2 = c_known c1 /\ c_empty c2 = c_empty c1)
        as (C1 & C2 & C3 & C4 & C5 & C6 & C7 & C8 & C9 & C10 & C11) by (unfold c2; by destruct c1 as [[]]).
      assert (forall E σ, sat c2 E σ <-> sat c E σ) as Cs.
      { intros E σ. unfold c2. rewrite sat_add_where, Bs. split; [tauto|]. intros Hs. pose proof (sat_required _ _ _ _ _ Hs _ _ Hts) as H1. split_and!; try done.
        destruct (Hx v q Eq) as [Hq Hcols]. destruct (sat_extracted _ _ _ _ _ Hs _ _ Eq) as [_ Htag]. destruct q as [al col]. cbn [fst snd] in *. subst col.
        pose proof (sat_cols _ _ _ _ _ Hs v _ (al, CV) Hcols ltac:(by left)) as (Hcol & _ & Hst). by apply (has_types_sat E al ts (σ v)). }
      clearbody c2. destruct (IH c2 c' Hr Hnd) as (A1 & A2 & A3 & A4 & A5).
      + intros x ts' Hin. rewrite C7, B7. by apply Hreq'.
      + intros x ts' Hin. rewrite C10. rewrite Bk; [apply Hk; by right|]. by intros ->.
      + intros x q'. rewrite C6, B6, C3, B3. apply Hx.
      + destruct A1 as (D1 & D2 & D3 & D4 & D5 & D6 & D7 & D8). destruct A2 as (ks & Hks & Hkk). split_and!; try congruence.
        * exists (KTypes q.1 ts true :: ks). split; [by rewrite Hks, C9, B9, <- app_assoc|]. intros kk [->|Hin]%elem_of_cons; [by exists v, q, ts|].
          destruct (Hkk kk Hin) as (x & q' & ts' & -> & Hx'). exists x, q', ts'. split; [done|]. congruence.
        * intros x. destruct (decide (x = v)) as [->|Hxv].
          -- destruct (A3 v) as [H|(H1 & H2 & H3)].
             ++ rewrite H, C10. destruct Bv as [->| ->]; [left; by rewrite Ek|right]. split_and!; [done|done|congruence].
             ++ right. split_and!; [done|done|congruence].
          -- destruct (A3 x) as [H|(H1 & H2 & H3)]; [left|right]; rewrite C10, Bk in * by done; [done|]. split_and!; [done|done|congruence].
        * intros E σ. by rewrite A4, Cs.
        * intros Hne. destruct (A5 Hne) as [Hne2 H]. rewrite C11 in Hne2. split; [auto|]. intros x ts' Hin. destruct (decide (x = v)) as [->|Hxv].
          -- apply elem_of_cons in Hin as [[= ->]|Hin]; [|exfalso; apply Hv, elem_of_list_fmap; by exists (v, ts')].
             right. split; [done|]. exists q. split; [done|]. rewrite Hks, C9. apply elem_of_app. left. apply elem_of_app. right. by left.
          -- apply elem_of_cons in Hin as [[= ]|Hin]; [done|]. destruct (H x ts' Hin) as [(t & Ht & Hc)|(H1 & q' & Hq' & Hw)].
             ++ left. exists t. by rewrite <- Bk, <- C10.
             ++ right. rewrite <- Bk, <- C10 by done. split; [done|]. exists q'. split; [congruence|done].
  Qed.

  (* -------------------------------------------------------------- all of it *)

  Context (k : known) (M : option nat) (L : string -> Prop) (ins : list string) (V : gmap string typed_value).
  Notation inv := (inv sq k st M L ins V).
  Lemma inv_select (O : env -> Prop) c E0 : match M with None => forall E0, O E0 -> E0 = [] | Some _ => c_computed c = [] end -> O E0 -> c_computed c = [] \/ E0 = [].
  Proof using Type. destruct M; [by left|]. intros H HO. right. by apply H. Qed.

  (** What is left of the clauses [c] in [c'] *)
  Record finished (O : env -> Prop) (c c' : cc) : Prop := {
    f_from : c_from c' = c_from c;
    f_next : c_next c' = c_next c;
    f_cols : c_cols c' = c_cols c;
    f_inputs : c_inputs c' = c_inputs c;
    f_vals : c_vals c' = c_vals c;
    f_extracted : c_extracted c' = c_extracted c;
    f_computed : c_computed c' = c_computed c;
    f_wheres : Forall (respects sq st (lim M c)) (c_wheres c');
    f_more : exists ks, c_wheres c' = c_wheres c ++ ks;
    f_known : forall x, c_known c' !! x = c_known c !! x \/ (c_known c !! x = None /\ is_Some (c_known c' !! x));
    f_ne : c_empty c' = false -> c_empty c = false;
    f_sat : forall E σ, sat c' E σ <-> sat c E σ;
    f_assigned : c_empty c' = false -> forall E0 E, O E0 -> E ∈ select sq st E0 c' -> sat c' E (assigned c E) }.

  Lemma expand_elem c kk : kk ∈ c_wheres (expand_columns c) <-> kk ∈ c_wheres c \/ exists x q qs q', c_cols c !! x = Some (q :: qs) /\ q' ∈ qs /\ kk = KEquals q (QColumn q').
  Proof using Type.
    unfold expand_columns. destruct c as [s l w]. cbn [add_wheres c_wheres]. rewrite elem_of_app. f_equiv. rewrite elem_of_list_In, in_flat_map. split.
    - intros ([x qs] & Hin & H). apply elem_of_list_In, sorted_map_elem in Hin. destruct qs as [|q qs]; [done|]. cbn [snd] in H. apply in_map_iff in H as (q' & <- & Hq').
      exists x, q, qs, q'. split_and!; [done|by apply elem_of_list_In|done].
    - intros (x & q & qs & q' & Hx & Hq & ->). exists (x, q :: qs). split; [by apply elem_of_list_In, sorted_map_elem|]. cbn [snd]. apply in_map_iff. exists q'. split; [done|by apply elem_of_list_In].
  Qed.
  Lemma eq_two E q q' v : encodes E q v -> encodes E q' v -> holds_in sq st E (KEquals q (QColumn q')) = true.
  Proof using Type.
    intros H1 H2. cbn [holds_in eval_value]. rewrite (encodes_column _ _ _ H1), (encodes_column _ _ _ H2). cbn. apply sql_eq_refl. by eapply encodes_storable.
  Qed.
  Lemma finish_ok O rest c c' : (forall d, d ∈ st_datoms st -> d ∈ all_datoms st \/ d_tag d = 10) -> (forall d, d ∈ all_datoms st -> exists v, row_value d v) ->
    inv O rest (c_from c) c -> c_empty c = false -> pinned c -> process_required (prune_extracted (expand_columns c)) = Ok c' -> finished O c c'.
  Proof using Type.
    intros Hraw Hview I Hne Hpin Hr. set (c1 := expand_columns c) in *.
    assert (c_from c1 = c_from c /\ c_next c1 = c_next c /\ c_cols c1 = c_cols c /\ c_inputs c1 = c_inputs c /\ c_vals c1 = c_vals c /\ c_extracted c1 = c_extracted c
        /\ c_required c1 = c_required c /\ c_computed c1 = c_computed c /\ c_known c1 = c_known c /\ c_empty c1 = c_empty c)
      as (B1 & B2 & B3 & B4 & B5 & B6 & B7 & B8 & B9 & B10) by (unfold c1, expand_columns; by destruct c as [[]]).
    assert (exists ks, c_wheres c1 = c_wheres c ++ ks) as [ks1 Hks1]. { unfold c1, expand_columns. destruct c as [[] l w]. by eexists. }
    pose proof (expand_elem c) as Hel. fold c1 in Hel.
    assert (forall E σ, sat c1 E σ <-> sat c E σ) as Bs.
    { intros E σ. unfold c1, expand_columns. rewrite sat_add_wheres. split; [tauto|]. intros Hs. split; [done|]. apply Forall_forall. intros kk Hkk.
      destruct (proj1 (Hel kk)) as [Hkk'|(x & q & qs & q' & Hx & Hq & ->)].
      - unfold c1, expand_columns. destruct c as [[] l w]. cbn [add_wheres c_wheres]. apply elem_of_app. by right.
      - pose proof (sat_wheres _ _ _ _ _ Hs) as H. rewrite Forall_forall in H. by apply H.
      - apply (eq_two E q q' (σ x)); apply (sat_cols _ _ _ _ _ Hs x _ _ Hx); [by left|by right]. }
    clearbody c1.
    assert (prune_extracted c1 = c1) as Hp.
    { unfold prune_extracted. assert (filter (fun x : var * qalias => match c_known c1 !! x.1 with Some ts => negb (vts_is_unit ts) | None => true end = true) (c_extracted c1) = c_extracted c1) as He.
      - apply map_filter_id. intros x q Hx. cbn [fst]. rewrite B6 in Hx. destruct (i_extracted I Hne x q Hx) as (_ & _ & Hk & _). by rewrite B9, Hk.
      - destruct c1 as [[]]. unfold with_extracted, set_scope. cbn in *. by rewrite He. }
    rewrite Hp in Hr. unfold process_required in Hr. rewrite B10, Hne in Hr.
    assert (forall x q, c_extracted c !! x = Some q -> q.2 = CTag /\ c_cols c !! x = Some [(q.1, CV)]) as Hex.
    { intros x q Hx. destruct (i_extracted I Hne x q Hx) as (_ & _ & Hk & Hv & Hc & Hx' & _). rewrite Hx in Hx'. injection Hx' as Hx'. split; [by rewrite Hx'|done]. }
    destruct (loop_ok (sorted_map (c_required c1)) c1 c' Hr) as (A1 & (ks & Hks & Hkk) & A3 & A4 & A5).
    { apply sorted_map_nodup. }
    { intros v ts. apply sorted_map_elem. }
    { intros v ts _. rewrite B9. apply (i_known I). }
    { intros x q. rewrite B6, B3. apply Hex. }
    destruct A1 as (D1 & D2 & D3 & D4 & D5 & D6 & D7 & D8).
    assert (Forall (respects sq st (lim M c)) (c_wheres c')) as Hresp.
    { rewrite Hks. apply Forall_app. split; apply Forall_forall; intros kk Hin.
      - apply Hel in Hin as [Hin|(x & q & qs & q' & Hx & Hq & ->)].
        + pose proof (i_wheres I) as H. rewrite Forall_forall in H. by apply H.
        + apply respects_equals; apply (i_below I x _ _ Hx); [by left|by right].
      - destruct (Hkk kk Hin) as (x & q & ts & -> & Hx). apply respects_types. apply (i_xbelow I x). congruence. }
    assert (c_computed c' = c_computed c) as Hcomp by congruence.
    split; try congruence.
    - exists (ks1 ++ ks). by rewrite Hks, Hks1, app_assoc.
    - intros x. rewrite <- B9. destruct (A3 x) as [H|(H1 & H2 & H3)]; [by left|by right].
    - intros E σ. by rewrite A4, Bs.
    - intros Hne' E0 E HO HE. destruct (A5 Hne') as [_ Hreq]. apply select_elem in HE as [HE Hw]; [|rewrite Hcomp; exact (inv_select O c E0 (i_computed I) HO)]. unfold P_QueryInv.comp in HE. rewrite D1, B1, Hcomp in HE.
      assert (okenv sq st O (c_from c) c E) as Hok. { exists E0. split_and!; try done. rewrite Hks, Hks1 in Hw. apply Forall_app in Hw as [Hw _]. by apply Forall_app in Hw as [Hw _]. }
      apply A4, Bs. rewrite Forall_forall in Hw.
      assert (forall x q qs q', c_cols c !! x = Some (q :: qs) -> q' ∈ qs -> holds_in sq st E (KEquals q (QColumn q')) = true) as Heq.
      { intros x q qs q' Hx Hq. apply Hw. rewrite Hks. apply elem_of_app. left. apply Hel. right. by exists x, q, qs, q'. }
      assert (forall v ts, c_required c !! v = Some ts -> (exists t, c_known c !! v = Some (vts_of_one t) /\ vts_contains ts t = true)
         \/ (c_known c !! v = None /\ exists q, c_extracted c !! v = Some q /\ holds_in sq st E (KTypes q.1 ts true) = true)) as Hreq'.
      { intros v ts Hv. rewrite <- B9, <- B6. rewrite <- B7 in Hv. apply sorted_map_elem in Hv. destruct (Hreq v ts Hv) as [H|(H1 & q & H2 & H3)]; [by left|right]. eauto. }
      (* the values in the columns *)
      assert (forall x qs, c_vals c !! x = None -> c_cols c !! x = Some qs -> (exists t, c_known c !! x = Some (vts_of_one t) /\ tv_type (assigned c E x) = t /\ forall q, q ∈ qs -> encodes E q (assigned c E x))
        \/ (exists al, lonely sq st O (c_from c) c x al /\ encodes E (al, CV) (assigned c E x))) as Hcols.
      { intros x qs Hv Hx. destruct (i_cols I Hne x qs Hx) as [Hqs [(t & Ht & Hcol)|(al & Hl)]].
        - left. exists t. split; [done|]. destruct qs as [|q qs]; [done|]. unfold assigned. rewrite Hv, Hx. destruct (Hcol E q Hok ltac:(by left)) as (v & Hv1 & Hv2).
          assert (default VTRef (c_known c !! x ≫= vts_exemplar) = t) as -> by (rewrite Ht; cbn [mbind option_bind]; by rewrite one_exemplar).
          rewrite (decoded_encodes _ _ _ t Hv1) by (by destruct (q.2)). split; [done|]. intros q' [->|Hq']%elem_of_cons; [done|]. destruct (Hcol E q' Hok ltac:(by right)) as (v' & Hv1' & Hv2').
          pose proof (Heq x q qs q' Hx Hq') as H. cbn [holds_in eval_value] in H. rewrite (encodes_column _ _ _ Hv1), (encodes_column _ _ _ Hv1') in H. cbn in H.
          apply sql_eq_typed in H; [by subst|by eapply encodes_storable|by eapply encodes_storable|congruence].
        - right. exists al. split; [done|]. pose proof Hl as (Hk & _ & Hc & Hxt & Hd). destruct (Hd E Hok) as (d & Hrow & Hin). unfold assigned. rewrite Hv, Hc.
          assert (exists v, row_value d v) as [v Hval].
          { destruct Hin as [Hin|(Hin & ts & Hts & Hstr)]; [by apply Hview|]. destruct (Hraw d Hin) as [Hin'|Htag]; [by apply Hview|]. exfalso.
            destruct (Hreq' x ts Hts) as [(t & Ht & _)|(_ & q & Hq & Hh)]; [congruence|]. rewrite Hxt in Hq. injection Hq as <-. cbn [fst] in Hh.
            cbn [holds_in] in Hh. unfold has_types in Hh. apply existsb_exists in Hh as (t & Ht & Hh). apply andb_true_iff in Hh as [Hh _]. destruct Hrow as [_ _ _ _ Hrt].
            rewrite Hrt, Htag in Hh. cbn [eq_columns] in Hh. apply (proj1 (sql_eq_int sq _ _)) in Hh. apply elem_of_list_In, vts_iter_spec in Ht. unfold vts_den in Ht. destruct t; try done. congruence. }
          apply (at_row_encodes _ _ _ v Hrow) in Hval. by rewrite (decoded_encodes _ _ _ _ Hval Logic.I). }
      assert (forall x, c_vals c !! x = None -> forall ts, c_required c !! x = Some ts -> vts_contains ts (tv_type (assigned c E x)) = true) as Hrq.
      { intros x Hv ts Hts. destruct (Hreq' x ts Hts) as [(t & Ht & Hc)|(Hk & q & Hq & Hh)].
        - assert (tv_type (assigned c E x) = t) as ->; [|done]. destruct (c_cols c !! x) as [qs|] eqn:Ec.
          + destruct (Hcols x qs Hv Ec) as [(t' & Ht' & Hty & _)|(al & (Hk & _) & _)]; [|congruence]. rewrite Hty.
            apply one_inj. congruence.
          + unfold assigned. rewrite Hv, Ec, Ht. cbn [mbind option_bind]. rewrite one_exemplar. apply some_value_type.
        - destruct (Hex x q Hq) as [Hq2 Hc]. destruct (Hcols x _ Hv Hc) as [(t' & Ht' & _)|(al & Hl & Hen)]; [congruence|]. destruct Hl as (_ & _ & Hc' & _).
          assert (al = q.1) as -> by congruence. destruct Hen as (H1 & H2 & H3). by apply (has_types_sat E q.1 ts). }
      split; [done| |intros x qs q Hx Hq|intros x v Hx; unfold assigned; by rewrite Hx|intros x ts Hx|intros x ts Hx|intros x q Hx].
      + apply Forall_forall. intros kk Hin. apply Hw. rewrite Hks, Hks1, !elem_of_app. tauto.
      + destruct (c_vals c !! x) as [v|] eqn:Ev.
        * assert (assigned c E x = v) as -> by (unfold assigned; by rewrite Ev). destruct (i_cols I Hne x qs Hx) as [Hqs [(t & Ht & Hcol)|(al & Hl)]]; [|destruct Hl; naive_solver].
          pose proof (i_vals_known I Hne _ _ Ev) as Hk. pose proof (i_vals I _ _ Ev) as Hst. rewrite Hk in Ht. apply one_inj in Ht.
          destruct qs as [|q0 qs]; [done|]. destruct (Hcol E q0 Hok ltac:(by left)) as (v0 & Hv1 & Hv2).
          assert (holds_in sq st E (KEquals q0 (QValue v)) = true) as H. { apply Hw. rewrite Hks, Hks1, !elem_of_app. left. left. by apply (Hpin x v q0 qs). }
          cbn [holds_in eval_value] in H. rewrite (encodes_column _ _ _ Hv1) in H. cbn in H. apply sql_eq_typed in H; [|by eapply encodes_storable|done|congruence]. subst v0.
          apply elem_of_cons in Hq as [->|Hq]; [done|]. destruct (Hcol E q Hok ltac:(by right)) as (v' & Hv1' & Hv2').
          pose proof (Heq x q0 qs q Hx Hq) as H. cbn [holds_in eval_value] in H. rewrite (encodes_column _ _ _ Hv1), (encodes_column _ _ _ Hv1') in H. cbn in H.
          apply sql_eq_typed in H; [by subst|done|by eapply encodes_storable|congruence].
        * destruct (Hcols x qs Ev Hx) as [(t & Ht & _ & H)|(al & Hl & Hen)]; [by apply H|]. destruct Hl as (_ & _ & Hc & _). rewrite Hx in Hc. injection Hc as ->.
          apply elem_of_list_singleton in Hq as ->. done.
      + destruct (c_vals c !! x) as [v|] eqn:Ev.
        * rewrite (i_vals_known I Hne _ _ Ev) in Hx. assert (ts = vts_of_one (tv_type v)) as -> by congruence. apply one_contains_iff. unfold assigned. by rewrite Ev.
        * destruct (i_known I _ _ Hx) as [t ->]. apply one_contains_iff. destruct (c_cols c !! x) as [qs|] eqn:Ec.
          -- destruct (Hcols x qs Ev Ec) as [(t' & Ht' & Hty & _)|(al & (Hk & _) & _)]; [|congruence]. rewrite Hty.
             apply one_inj. congruence.
          -- unfold assigned. rewrite Ev, Ec, Hx. cbn [mbind option_bind]. rewrite one_exemplar. apply some_value_type.
      + destruct (c_vals c !! x) as [v|] eqn:Ev; [|by apply Hrq]. unfold assigned. rewrite Ev. pose proof (i_vals_known I Hne _ _ Ev) as Hk.
        destruct (Hreq' x ts Hx) as [(t & Ht & Hc)|(Hk' & _)]; [|congruence].
        rewrite Hk in Ht. apply one_inj in Ht. by rewrite Ht.
      + destruct (i_extracted I Hne x q Hx) as (_ & _ & Hl). pose proof Hl as (_ & Hv & Hc & Hq & _). rewrite Hx in Hq. injection Hq as Hq.
        destruct (Hcols x _ Hv Hc) as [(t & Ht & _)|(al & Hl' & Hen)]; [destruct Hl; congruence|]. destruct Hl' as (_ & _ & Hc' & _). assert (al = q.1) as -> by congruence.
        destruct Hen as (_ & H2 & _). rewrite Hq. split; [done|]. exact H2.
  Qed.
End finish.

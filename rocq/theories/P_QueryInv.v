(** What holds of a set of clauses while it is built. *)
From Verif Require Import M_Query Spec_Query Spec_Value Spec_Sets P_Value P_Sets P_QuerySql P_QuerySat P_QueryPat.

(* ---------------------------------------------------------------- environments *)

(** [n]: the number of the next alias for datoms, and of the next one for a computed table *)
Definition nle (n n' : nat * nat) : Prop := (n.1 <= n'.1)%nat /\ (n.2 <= n'.2)%nat.
Lemma nle_refl n : nle n n.
Proof. split; lia. Qed.
Definition below (n : nat * nat) (al : alias) : Prop := match al with ADatoms m => (m < n.1)%nat | AComputed i => (i < n.2)%nat end.
Lemma below_le n n' al : nle n n' -> below n al -> below n' al.
Proof. intros [H1 H2]. destruct al; cbn; lia. Qed.
Definition same_below (n : nat * nat) (E E' : env) : Prop := forall al c, below n al -> env_column E (al, c) = env_column E' (al, c).
Lemma same_below_cons n al r E E' : same_below n E E' -> same_below n ((al, r) :: E) ((al, r) :: E').
Proof. intros H al' c Hb. cbn. by rewrite (H al' c Hb). Qed.
Lemma same_below_fresh n al r E : ~ below n al -> same_below n E ((al, r) :: E).
Proof. intros Hn al' c Hb. cbn. rewrite decide_False; [done|]. by intros <-. Qed.
Lemma same_below_le n n' E E' : nle n n' -> same_below n' E E' -> same_below n E E'.
Proof. intros Hn H al c Hb. apply H. by eapply below_le. Qed.
Lemma same_below_sym n E E' : same_below n E E' -> same_below n E' E.
Proof. intros H al c Hb. symmetry. by apply H. Qed.
Lemma encodes_below n E E' q v : same_below n E E' -> below n q.1 -> encodes E q v <-> encodes E' q v.
Proof. intros H Hb. apply encodes_ext. intros c. by apply H. Qed.
Lemma at_row_below n E E' al d : same_below n E E' -> below n al -> at_row E al d -> at_row E' al d.
Proof. intros H Hb []. by split; rewrite <- (H al _ Hb). Qed.

(** No attribute is cached. *)
Definition uncached (k : known) : Prop := forall a, cq_forward (kn_cache k) a = false /\ cq_reverse (kn_cache k) a = false.

Section inv.
  Context (sq : sqlite) (k : known) (st : store) (G : store_good (sc_attribute_map (kn_schema k)) st).
  Notation sat := (sat sq st).
  Definition respects (n : nat * nat) (kk : constraint) : Prop := forall E E', same_below n E E' -> holds_in sq st E kk = holds_in sq st E' kk.
  Lemma respects_le n n' kk : nle n n' -> respects n kk -> respects n' kk.
  Proof using Type. intros Hn H E E' Hs. apply H. by eapply same_below_le. Qed.
  Lemma respects_equals n q v : below n q.1 -> match v with QColumn q' => below n q'.1 | _ => True end -> respects n (KEquals q v).
  Proof using Type.
    intros Hq Hv E E' H. destruct q as [al c]. cbn [fst] in Hq. assert (env_column E (al, c) = env_column E' (al, c)) as Hc by (by apply H).
    destruct v as [[al' c']| | |z]; cbn [holds_in eval_value]; rewrite Hc; try done.
    - cbn [fst] in Hv. by rewrite (H al' c' Hv).
    - destruct c; cbn; try done. by rewrite (H al CTag Hq).
  Qed.
  Lemma respects_types n al ts b : below n al -> respects n (KTypes al ts b).
  Proof using Type. intros Hq E E' H. cbn [holds_in]. unfold has_types. by rewrite (H al CTag Hq), (H al CV Hq). Qed.

  (* -------------------------------------------------------------- products *)
  Lemma product_snoc l F t al E0 E : E ∈ product st l (F ++ [(t, al)]) E0 <-> exists E1 r, E1 ∈ product st l F E0 /\ r ∈ table_rows st l t /\ E = (al, r) :: E1.
  Proof using Type.
    revert E0. induction F as [|[t0 al0] F IH]; intros E0; cbn [M_Query.product app].
    - rewrite elem_of_list_In, in_flat_map. split.
      + intros (r & Hr & HE). apply elem_of_list_In in HE, Hr. apply elem_of_list_singleton in HE as ->. exists E0, r. split_and!; [by left|done|done].
      + intros (E1 & r & H1 & Hr & ->). apply elem_of_list_singleton in H1 as ->. exists r. split; [by apply elem_of_list_In|]. by left.
    - rewrite elem_of_list_In, in_flat_map. split.
      + intros (r0 & Hr0 & HE). apply elem_of_list_In, IH in HE as (E1 & r & H1 & Hr & ->). exists E1, r. split_and!; try done.
        apply elem_of_list_In, in_flat_map. exists r0. split; [done|]. by apply elem_of_list_In.
      + intros (E1 & r & H1 & Hr & ->). apply elem_of_list_In, in_flat_map in H1 as (r0 & Hr0 & H1). exists r0. split; [done|].
        apply elem_of_list_In, IH. exists E1, r. split_and!; try done. by apply elem_of_list_In.
  Qed.
  Lemma table_rows_plain l t : (forall i, t <> TComputed i) -> table_rows st l t = table_rows st [] t.
  Proof using Type. intros Ht. destruct t as [| | |i]; try done. by destruct (Ht i). Qed.
  (** More computed tables do not change the others. *)
  Lemma product_more l l' F : (forall t al, (t, al) ∈ F -> table_rows st l' t = table_rows st l t) -> forall E0, product st l' F E0 = product st l F E0.
  Proof using Type.
    induction F as [|[t al] F IH]; intros HF E0; cbn [M_Query.product]; [done|]. rewrite (HF t al) by (by left).
    apply flat_map_ext. intros r. apply IH. intros t' al' H. apply (HF t' al'). by right.
  Qed.
  Lemma plain_rows t r : (forall i, t <> TComputed i) -> r ∈ table_rows st [] t -> exists d, r = RDatom d /\ RDatom d ∈ table_rows st [] t.
  Proof using Type.
    intros Ht Hr. destruct t as [| | |i]; [..|by destruct (Ht i)]; cbn [table_rows] in Hr |- *;
      pose proof Hr as (d & -> & _)%elem_of_list_fmap; by exists d.
  Qed.

  (* -------------------------------------------------------------- the invariant *)
  (** [L]: the variables that are the value of an open pattern and occur nowhere else; [V]: the inputs *)
  (** [M]: [None] unless inside a [not]; there no more tables are computed, and outside were as many *)
  Context (M : option nat) (L : string -> Prop) (ins : list string) (V : gmap string typed_value).
  Definition lim (c : cc) : nat * nat := (c_next c, match M with Some m => m | None => length (c_computed c) end).
  (** The computed tables *)
  Definition comp (c : cc) : list (list row) := map (computed_rows sq st []) (c_computed c).
  Definition sited (n : nat * nat) (m : nat) (F : list (table * alias)) : Prop := forall t al, (t, al) ∈ F ->
    match t with TComputed i => al = AComputed i /\ (i < m)%nat | _ => exists j, al = ADatoms j /\ (j < n.1)%nat end.
  Definition okenv (O : env -> Prop) (F : list (table * alias)) (c : cc) (E : env) : Prop :=
    exists E0, O E0 /\ E ∈ product st (comp c) F E0 /\ Forall (fun kk => holds_in sq st E kk = true) (c_wheres c).
  Definition typed_cols (O : env -> Prop) F (c : cc) (x : string) (qs : list qalias) : Prop :=
    exists t, c_known c !! x = Some (vts_of_one t) /\ forall E q, okenv O F c E -> q ∈ qs -> exists v, encodes E q v /\ tv_type v = t.
  Definition lonely (O : env -> Prop) F (c : cc) (x : string) (al : alias) : Prop :=
    c_known c !! x = None /\ c_vals c !! x = None /\ c_cols c !! x = Some [(al, CV)] /\ c_extracted c !! x = Some (al, CTag)
    /\ forall E, okenv O F c E -> exists d, at_row E al d /\
        (d ∈ all_datoms st \/ (d ∈ st_datoms st /\ exists ts, c_required c !! x = Some ts /\ vts_contains ts VTString = false)).
  Record inv (O : env -> Prop) (rest : list string) (F : list (table * alias)) (c : cc) : Prop := Inv {
    i_computed : match M with None => forall E0, O E0 -> E0 = [] | Some _ => c_computed c = [] end;
    i_from : sited (lim c) (length (c_computed c)) F;
    i_wheres : Forall (respects (lim c)) (c_wheres c);
    i_inputs : forall x, x ∈ c_inputs c -> x ∈ ins;
    i_vals : forall x v, c_vals c !! x = Some v -> storable v;
    i_known : forall x ts, c_known c !! x = Some ts -> exists t, ts = vts_of_one t;
    i_vals_known : c_empty c = false -> forall x v, c_vals c !! x = Some v -> c_known c !! x = Some (vts_of_one (tv_type v));
    i_below : forall x qs q, c_cols c !! x = Some qs -> q ∈ qs -> below (lim c) q.1;
    i_xbelow : forall x q, c_extracted c !! x = Some q -> below (lim c) q.1;
    i_cols : c_empty c = false -> forall x qs, c_cols c !! x = Some qs -> qs <> [] /\ (typed_cols O F c x qs \/ exists al, lonely O F c x al);
    i_extracted : c_empty c = false -> forall x q, c_extracted c !! x = Some q -> L x /\ x ∉ rest /\ lonely O F c x q.1;
    i_fresh : c_empty c = false -> forall x, L x -> x ∈ rest -> c_cols c !! x = None /\ c_known c !! x = None /\ c_vals c !! x = None;
    i_given : c_empty c = false -> forall x, x ∈ rest -> x ∈ ins -> exists v, V !! x = Some v /\ c_vals c !! x = Some v;
    i_own : uncached k -> forall x v, c_vals c !! x = Some v -> x ∈ ins }.

  Lemma inv_empty (O : env -> Prop) rest F c :
    match M with None => forall E0, O E0 -> E0 = [] | Some _ => c_computed c = [] end -> sited (lim c) (length (c_computed c)) F -> Forall (respects (lim c)) (c_wheres c) ->
    (forall x, x ∈ c_inputs c -> x ∈ ins) -> (forall x v, c_vals c !! x = Some v -> storable v) ->
    (forall x ts, c_known c !! x = Some ts -> exists t, ts = vts_of_one t) ->
    (forall x qs q, c_cols c !! x = Some qs -> q ∈ qs -> below (lim c) q.1) -> (forall x q, c_extracted c !! x = Some q -> below (lim c) q.1) ->
    (uncached k -> forall x v, c_vals c !! x = Some v -> x ∈ ins) -> c_empty c = true -> inv O rest F c.
  Proof using Type. intros. split; try done; congruence. Qed.
  Lemma inv_mark_empty O rest F c : inv O rest F c -> inv O rest F (mark_empty c).
  Proof using Type. intros []. apply inv_empty; by destruct c as [[]]. Qed.
  Lemma inv_weaken O rest rest' F c : (forall x, x ∈ rest' -> x ∈ rest) -> inv O rest F c -> inv O rest' F c.
  Proof using Type.
    intros Hr []. split; try done.
    - intros Hne x q Hx. destruct (i_extracted0 Hne x q Hx) as (? & Hn & ?). split_and!; try done. intros H'. by apply Hn, Hr.
    - intros Hne x HL Hx. apply i_fresh0; [done|done|by apply Hr].
    - intros Hne x Hx. apply i_given0; [done|by apply Hr].
  Qed.

  Lemma okenv_where O F kk c E : okenv O F (add_where kk c) E -> okenv O F c E /\ holds_in sq st E kk = true.
  Proof using Type.
    intros (E0 & HO & HE & Hw). destruct c as [s l w]. cbn in Hw. apply Forall_app in Hw as [Hw H1]. apply Forall_cons_1 in H1 as [H1 _].
    split; [|done]. exists E0. done.
  Qed.
  Lemma inv_add_where O rest F kk c : respects (lim c) kk -> inv O rest F c -> inv O rest F (add_where kk c).
  Proof using Type.
    intros Hk [I1 I2 I3 I4 I5 I6 I7 I8 IX I9 I10 I11 I12 IV].
    assert (forall x al, lonely O F c x al -> lonely O F (add_where kk c) x al) as Hlone.
    { intros x al (H1 & H2 & H3 & H4 & H5). destruct c as [[] l w]. split_and!; try done. intros E HE. apply (H5 E). by apply okenv_where in HE as [HE _]. }
    assert (forall x qs, typed_cols O F c x qs -> typed_cols O F (add_where kk c) x qs) as Htyped.
    { intros x qs (t & H1 & H2). exists t. split; [by destruct c as [[] l w]|]. intros E q HE. apply H2. by apply okenv_where in HE as [HE _]. }
    split; try (by destruct c as [[] l w]).
    - destruct c as [s l w]. change (Forall (respects (lim (CC s l w))) (w ++ [kk])). apply Forall_app. split; [done|]. by apply Forall_singleton.
    - intros Hne x qs Hx. destruct (I9 ltac:(by destruct c) x qs ltac:(by destruct c)) as [? [Ht|[al Ha]]]; (split; [done|]).
      + left. by apply Htyped.
      + right. exists al. by apply Hlone.
    - intros Hne x q Hx. destruct (I10 ltac:(by destruct c) x q ltac:(by destruct c)) as (? & ? & Ha). split_and!; try done. by apply Hlone.
  Qed.

  (** [c'] differs from [c] only in what it says about [v]. *)
  Lemma typed_cols_ext O F c c' x qs : c_wheres c' = c_wheres c -> c_computed c' = c_computed c -> c_known c' !! x = c_known c !! x -> typed_cols O F c x qs -> typed_cols O F c' x qs.
  Proof using Type. intros Hw Hcm Hk (t & H1 & H2). exists t. split; [congruence|]. intros E q HE. apply H2. unfold okenv, comp in *. by rewrite <- Hw, <- Hcm. Qed.
  Lemma lonely_ext O F c c' x al : c_wheres c' = c_wheres c -> c_computed c' = c_computed c -> c_known c' !! x = c_known c !! x -> c_vals c' !! x = c_vals c !! x ->
    c_cols c' !! x = c_cols c !! x -> c_extracted c' !! x = c_extracted c !! x -> c_required c' !! x = c_required c !! x ->
    lonely O F c x al -> lonely O F c' x al.
  Proof using Type.
    intros Hw Hcm H1 H2 H3 H4 H5 (K1 & K2 & K3 & K4 & K5). split_and!; try congruence. intros E HE. rewrite H5. apply K5. unfold okenv, comp in *. by rewrite <- Hw, <- Hcm.
  Qed.

  Lemma inv_constrain_var O rest F v t c : inv O rest F c -> (c_empty c = false -> c_extracted c !! v = None) -> (L v -> v ∉ rest) ->
    inv O rest F (constrain_var v t c).
  Proof using Type.
    intros I Hex HL. pose proof I as [I1 I2 I3 I4 I5 I6 I7 I8 IX I9 I10 I11 I12 IV]. unfold constrain_var. destruct (c_known c !! v) as [ts|] eqn:Ek.
    - destruct (I6 _ _ Ek) as [t' ->]. destruct (vts_contains (vts_of_one t') t) eqn:Ec.
      + apply one_contains_iff in Ec as ->. assert (put_known v (vts_of_one t') c = c) as ->; [|done].
        destruct c as [[] l w]. cbn in *. by rewrite insert_id.
      + apply inv_empty; destruct c as [[] l w]; try done. cbn. intros x ts. destruct (decide (x = v)) as [->|Hne].
        * rewrite lookup_insert. intros [= <-]. by exists t.
        * rewrite lookup_insert_ne by done. apply I6.
    - set (c' := put_known v (vts_of_one t) c).
      assert (forall x, x <> v -> c_known c' !! x = c_known c !! x) as Hk. { intros x Hx. destruct c as [[] l w]. cbn. by rewrite lookup_insert_ne. }
      assert (c_computed c' = c_computed c /\ c_wheres c' = c_wheres c /\ c_vals c' = c_vals c /\ c_cols c' = c_cols c /\ c_extracted c' = c_extracted c /\ c_required c' = c_required c
        /\ c_empty c' = c_empty c /\ c_known c' !! v = Some (vts_of_one t)) as (Ecm & Ew & Ev & Ec & Ee & Er & Em & Hv).
      { destruct c as [[] l w]. cbn. by rewrite lookup_insert. }
      split; try (by destruct c as [[] l w]); rewrite ?Em, ?Ev, ?Ec, ?Ee.
      + intros x ts. destruct (decide (x = v)) as [->|Hx]; [rewrite Hv; intros [= <-]; by exists t|]. rewrite Hk by done. apply I6.
      + intros Hne x y Hx. destruct (decide (x = v)) as [->|Hxv]; [|rewrite Hk by done; by apply I7]. rewrite (I7 Hne _ _ Hx) in Ek. done.
      + intros Hne x qs Hx. destruct (I9 Hne x qs Hx) as [Hq H]. split; [done|]. destruct (decide (x = v)) as [->|Hxv].
        * exfalso. destruct H as [(t' & Ht & _)|(al & _ & _ & _ & Ha & _)]; [congruence|]. rewrite Hex in Ha by done. done.
        * destruct H as [Ht|[al Ha]]; [left; apply (typed_cols_ext O F c); auto|]. right. exists al. apply (lonely_ext O F c); rewrite ?Ev, ?Ec, ?Ee, ?Er; auto.
      + intros Hne x q Hx. destruct (decide (x = v)) as [->|Hxv]; [rewrite Hex in Hx; done|]. destruct (I10 Hne x q Hx) as (? & ? & Ha). split_and!; try done.
        apply (lonely_ext O F c); rewrite ?Ev, ?Ec, ?Ee, ?Er; auto.
      + intros Hne x HLx Hx. destruct (I11 Hne x HLx Hx) as (? & ? & ?). split_and!; try done. rewrite Hk; [done|]. intros ->. by apply HL.
  Qed.

  (** The column [q] of a new row *)
  Lemma inv_push_col O rest F v q t c : inv O rest F c -> (L v -> v ∉ rest) -> below (lim c) q.1 ->
    (c_empty c = false -> c_known c !! v = Some (vts_of_one t) /\ (forall E, okenv O F c E -> exists w, encodes E q w /\ tv_type w = t)) ->
    inv O rest F (with_cols (fun m => <[v := default [] (m !! v) ++ [q]]> m) c).
  Proof using Type.
    intros I HL Hb Hq. pose proof I as [I1 I2 I3 I4 I5 I6 I7 I8 IX I9 I10 I11 I12 IV]. set (c' := with_cols _ c).
    assert (c_computed c' = c_computed c /\ c_wheres c' = c_wheres c /\ c_vals c' = c_vals c /\ c_known c' = c_known c /\ c_extracted c' = c_extracted c /\ c_required c' = c_required c
        /\ c_empty c' = c_empty c /\ c_next c' = c_next c /\ c_cols c' = <[v := default [] (c_cols c !! v) ++ [q]]> (c_cols c)) as (Ecm & Ew & Ev & Ek & Ee & Er & Em & En & Ec).
    { by destruct c as [[] l w]. }
    assert (c_empty c = false -> c_extracted c !! v = None) as Hex.
    { intros Hne. destruct (c_extracted c !! v) as [q'|] eqn:E; [|done]. destruct (I10 Hne v q' E) as (_ & _ & Hkn & _).
      destruct (Hq Hne) as [H _]. congruence. }
    assert (lim c' = lim c) as El by (unfold lim; by rewrite En, Ecm).
    split; try (by destruct c as [[] l w]); rewrite ?Em, ?Ev, ?Ek, ?Ee, ?El, ?Ec; try done.
    - intros x qs q'. destruct (decide (x = v)) as [->|Hx]; [|rewrite lookup_insert_ne by done; by apply I8].
      rewrite lookup_insert. intros [= <-] [Hin|Hin]%elem_of_app; [|by apply elem_of_list_singleton in Hin as ->].
      destruct (c_cols c !! v) as [qs|] eqn:E; [by apply (I8 v qs)|]. by apply elem_of_nil in Hin.
    - intros Hne x qs. destruct (decide (x = v)) as [->|Hx].
      + rewrite lookup_insert. intros [= <-]. split; [by destruct (default [] (c_cols c !! v))|]. left. destruct (Hq Hne) as [Hkn Hen]. exists t. rewrite Ek. split; [done|].
        assert (forall E, okenv O F c' E -> okenv O F c E) as Hok. { unfold okenv, comp. by rewrite Ew, Ecm. }
        intros E q' HE%Hok [Hin|Hin]%elem_of_app; [|apply elem_of_list_singleton in Hin as ->; by apply Hen].
        destruct (c_cols c !! v) as [qs|] eqn:Eqs; [|by apply elem_of_nil in Hin]. destruct (I9 Hne v qs Eqs) as [_ [(t' & Hk' & H')|(al & Hk' & _)]]; [|congruence].
        assert (vts_of_one t' = vts_of_one t) as Ht by congruence. destruct (H' E q' HE Hin) as (w & Hw & Hwt). exists w. split; [done|].
        apply one_contains_iff. rewrite <- Ht. by apply one_contains_iff.
      + rewrite lookup_insert_ne by done. intros Hc. destruct (I9 Hne x qs Hc) as [? [Ht|[al Ha]]]; (split; [done|]).
        * left. apply (typed_cols_ext O F c); rewrite ?Ek; auto.
        * right. exists al. apply (lonely_ext O F c); rewrite ?Ek, ?Ev, ?Ec, ?Ee, ?Er, ?lookup_insert_ne; auto.
    - intros Hne x q' Hx. destruct (I10 Hne x q' Hx) as (? & ? & Ha). split_and!; try done.
      assert (x <> v). { intros ->. rewrite Hex in Hx; done. }
      apply (lonely_ext O F c); rewrite ?Ek, ?Ev, ?Ec, ?Ee, ?Er, ?lookup_insert_ne; auto.
    - intros Hne x HLx Hx. rewrite lookup_insert_ne; [by apply I11|]. intros ->. by apply HL.
  Qed.
  Lemma inv_push_lonely O rest F v al c : inv O rest F c -> L v -> v ∉ rest -> below (lim c) al ->
    (c_empty c = false -> c_known c !! v = None /\ c_vals c !! v = None /\ c_cols c !! v = None) ->
    (c_empty c = false -> forall E, okenv O F c E -> exists d, at_row E al d /\
        (d ∈ all_datoms st \/ (d ∈ st_datoms st /\ exists ts, c_required c !! v = Some ts /\ vts_contains ts VTString = false))) ->
    inv O rest F (with_cols (fun m => <[v := default [] (m !! v) ++ [(al, CV)]]> m) (with_extracted <[v := (al, CTag)]> c)).
  Proof using Type.
    intros I HL Hr Hb Hu Hd. pose proof I as [I1 I2 I3 I4 I5 I6 I7 I8 IX I9 I10 I11 I12 IV]. set (c' := with_cols _ (with_extracted _ c)).
    assert (c_computed c' = c_computed c /\ c_wheres c' = c_wheres c /\ c_vals c' = c_vals c /\ c_known c' = c_known c /\ c_extracted c' = <[v := (al, CTag)]> (c_extracted c) /\ c_required c' = c_required c
        /\ c_empty c' = c_empty c /\ c_next c' = c_next c /\ c_cols c' = <[v := default [] (c_cols c !! v) ++ [(al, CV)]]> (c_cols c)) as (Ecm & Ew & Ev & Ek & Ee & Er & Em & En & Ec).
    { by destruct c as [[] l w]. }
    assert (forall E, okenv O F c' E -> okenv O F c E) as Hok. { unfold okenv, comp. by rewrite Ew, Ecm. }
    assert (c_empty c = false -> lonely O F c' v al) as Hlone.
    { intros Hne. destruct (Hu Hne) as (H1 & H2 & H3). unfold lonely. rewrite Ek, Ev, Ec, Ee, Er, !lookup_insert, H3. split_and!; try done.
      intros E HE%Hok. by apply Hd. }
    assert (lim c' = lim c) as El by (unfold lim; by rewrite En, Ecm).
    split; try (by destruct c as [[] l w]); rewrite ?Em, ?Ev, ?Ek, ?Ee, ?El, ?Ec; try done.
    - intros x qs q'. destruct (decide (x = v)) as [->|Hx]; [|rewrite lookup_insert_ne by done; by apply I8].
      rewrite lookup_insert. intros [= <-] [Hin|Hin]%elem_of_app; [|by apply elem_of_list_singleton in Hin as ->].
      destruct (c_cols c !! v) as [qs|] eqn:E; [by apply (I8 v qs)|]. by apply elem_of_nil in Hin.
    - intros x q'. destruct (decide (x = v)) as [->|Hx]; [|rewrite lookup_insert_ne by done; by apply IX].
      rewrite lookup_insert. by intros [= <-].
    - intros Hne x qs. destruct (decide (x = v)) as [->|Hx].
      + rewrite lookup_insert. intros [= <-]. split; [by destruct (default [] (c_cols c !! v))|]. right. exists al. by apply Hlone.
      + rewrite lookup_insert_ne by done. intros Hc. destruct (I9 Hne x qs Hc) as [? [Ht|[al' Ha]]]; (split; [done|]).
        * left. apply (typed_cols_ext O F c); rewrite ?Ek; auto.
        * right. exists al'. apply (lonely_ext O F c); rewrite ?Ek, ?Ev, ?Ec, ?Ee, ?Er, ?lookup_insert_ne; auto.
    - intros Hne x q'. destruct (decide (x = v)) as [->|Hx].
      + rewrite lookup_insert. intros [= <-]. split_and!; try done. by apply Hlone.
      + rewrite lookup_insert_ne by done. intros Hq. destruct (I10 Hne x q' Hq) as (? & ? & Ha). split_and!; try done.
        apply (lonely_ext O F c); rewrite ?Ek, ?Ev, ?Ec, ?Ee, ?Er, ?lookup_insert_ne; auto.
    - intros Hne x HLx Hx. rewrite lookup_insert_ne; [by apply I11|]. intros ->. done.
  Qed.
  Lemma inv_put_val O rest F v x c : ~ uncached k -> inv O rest F c -> (L v -> v ∉ rest) -> storable x -> c_vals c !! v = None ->
    (c_empty c = false -> c_known c !! v = Some (vts_of_one (tv_type x))) -> inv O rest F (put_val v x c).
  Proof using Type.
    intros Hunc I HL Hx Hn Hk. pose proof I as [I1 I2 I3 I4 I5 I6 I7 I8 IX I9 I10 I11 I12 IV]. set (c' := put_val v x c).
    assert (c_computed c' = c_computed c /\ c_wheres c' = c_wheres c /\ c_known c' = c_known c /\ c_cols c' = c_cols c /\ c_extracted c' = c_extracted c /\ c_required c' = c_required c
        /\ c_empty c' = c_empty c /\ c_next c' = c_next c /\ c_vals c' = <[v := x]> (c_vals c)) as (Ecm & Ew & Ek & Ec & Ee & Er & Em & En & Ev).
    { by destruct c as [[] l w]. }
    assert (c_empty c = false -> forall y al, lonely O F c y al -> lonely O F c' y al) as Hlone.
    { intros Hne y al Ha. apply (lonely_ext O F c); rewrite ?Ek, ?Ec, ?Ee, ?Er; auto. rewrite Ev, lookup_insert_ne; [done|]. intros <-.
      destruct Ha as (Ha & _). rewrite Hk in Ha; done. }
    assert (lim c' = lim c) as El by (unfold lim; by rewrite En, Ecm).
    split; try (by destruct c as [[] l w]); rewrite ?Em, ?Ev, ?Ek, ?Ee, ?El, ?Ec; try done.
    - intros y w. destruct (decide (y = v)) as [->|Hy]; [rewrite lookup_insert; by intros [= <-]|]. rewrite lookup_insert_ne by done. apply I5.
    - intros Hne y w. destruct (decide (y = v)) as [->|Hy]; [rewrite lookup_insert; intros [= <-]; by apply Hk|]. rewrite lookup_insert_ne by done. by apply I7.
    - intros Hne y qs Hc. destruct (I9 Hne y qs Hc) as [? [Ht|[al Ha]]]; (split; [done|]).
      + left. apply (typed_cols_ext O F c); rewrite ?Ek; auto.
      + right. exists al. by apply Hlone.
    - intros Hne y q Hq. destruct (I10 Hne y q Hq) as (? & ? & Ha). split_and!; try done. by apply Hlone.
    - intros Hne y HLy Hy. rewrite lookup_insert_ne; [by apply I11|]. intros ->. by apply HL.
    - intros Hne y Hy Hi. destruct (I12 Hne y Hy Hi) as (w & ? & ?). exists w. split; [done|]. rewrite lookup_insert_ne; [done|]. intros ->. congruence.
  Qed.
  (** A row more *)
  Lemma inv_new_row O rest F t c : inv O rest F c -> (forall i, t <> TComputed i) ->
    inv O rest (F ++ [(t, ADatoms (c_next c))]) (with_next (S (c_next c)) c).
  Proof using Type.
    intros I Ht. pose proof I as [I1 I2 I3 I4 I5 I6 I7 I8 IX I9 I10 I11 I12 IV]. set (c' := with_next _ c).
    assert (c_computed c' = c_computed c /\ c_wheres c' = c_wheres c /\ c_known c' = c_known c /\ c_cols c' = c_cols c /\ c_extracted c' = c_extracted c /\ c_required c' = c_required c
        /\ c_empty c' = c_empty c /\ c_next c' = S (c_next c) /\ c_vals c' = c_vals c) as (Ecm & Ew & Ek & Ec & Ee & Er & Em & En & Ev).
    { by destruct c as [[] l w]. }
    assert (~ below (lim c) (ADatoms (c_next c))) as Hfr by (cbn; lia).
    assert (nle (lim c) (lim c')) as Hle by (unfold lim; rewrite En, Ecm; split; cbn; lia).
    assert (forall E, okenv O (F ++ [(t, ADatoms (c_next c))]) c' E -> exists E1, okenv O F c E1 /\ same_below (lim c) E1 E) as Hok.
    { intros E (E0 & HO & HE & Hw). unfold comp in HE. rewrite Ecm in HE. apply product_snoc in HE as (E1 & r & HE & Hr & ->). exists E1. split; [|by apply same_below_fresh].
      exists E0. split_and!; try done. rewrite Ew in Hw. apply Forall_forall. intros kk Hkk. rewrite Forall_forall in Hw, I3.
      rewrite <- (Hw kk Hkk). apply (I3 kk Hkk). by apply same_below_fresh. }
    assert (c_empty c = false -> forall y al, lonely O F c y al -> lonely O (F ++ [(t, ADatoms (c_next c))]) c' y al) as Hlone.
    { intros Hne y al (H1 & H2 & H3 & H4 & H5). unfold lonely. rewrite Ek, Ev, Ec, Ee, Er. split_and!; try done.
      intros E (E1 & HE1 & Hsame)%Hok. destruct (H5 E1 HE1) as (d & Hd & Hds). exists d. split; [|done]. eapply at_row_below; [done| |done].
      apply (I8 y _ (al, CV) H3). by left. }
    split; rewrite ?Em, ?Ev, ?Ek, ?Ee, ?Ec, ?Ew; try done.
    - by destruct c as [[]].
    - intros t' al [Hin|Hin]%elem_of_app.
      + specialize (I2 _ _ Hin). rewrite Ecm. destruct t'; [..|done]; destruct I2 as (j & -> & Hj); exists j; cbn in *; rewrite En; split; (done || lia).
      + apply elem_of_list_singleton in Hin as [= -> ->]. destruct t; [..|by destruct (Ht i)]; exists (c_next c); cbn; rewrite En; split; (done || lia).
    - eapply Forall_impl; [exact I3|]. intros kk. by apply respects_le.
    - by destruct c as [[]].
    - intros x qs q Hx Hq. eapply below_le; [exact Hle|by eapply I8].
    - intros x q Hx. eapply below_le; [exact Hle|by eapply IX].
    - intros Hne x qs Hx. destruct (I9 Hne x qs Hx) as [? [(ty & H1 & H2)|[al Ha]]]; (split; [done|]).
      + left. exists ty. rewrite Ek. split; [done|]. intros E q (E1 & HE1 & Hsame)%Hok Hq. destruct (H2 E1 q HE1 Hq) as (v & Hv & Hvt). exists v. split; [|done].
        eapply encodes_below; [by apply same_below_sym| |done]. by eapply I8.
      + right. exists al. by apply Hlone.
    - intros Hne x q Hq. destruct (I10 Hne x q Hq) as (? & ? & Ha). split_and!; try done. by apply Hlone.
  Qed.
  Lemma inv_push_from O rest F x c : inv O rest F c -> inv O rest F (push_from x c).
  Proof using Type.
    intros [I1 I2 I3 I4 I5 I6 I7 I8 IX I9 I10 I11 I12 IV]. destruct c as [[] l w]. split; try done.
  Qed.
  Lemma inv_with_next O rest F n c : (c_next c <= n)%nat -> inv O rest F c -> inv O rest F (with_next n c).
  Proof using Type.
    intros Hn [I1 I2 I3 I4 I5 I6 I7 I8 IX I9 I10 I11 I12 IV].
    assert (nle (lim c) (lim (with_next n c))) as Hle by (destruct c as [[]]; split; cbn in *; lia).
    split; try (by destruct c as [[] l w]).
    - intros t al Hin. specialize (I2 _ _ Hin). destruct c as [[] l w]. cbn in *. destruct t; [..|done]; destruct I2 as (j & -> & Hj); exists j; split; (done || lia).
    - destruct c as [[] l w]. eapply Forall_impl; [exact I3|]. intros kk. by apply respects_le.
    - intros x qs q Hx Hq. eapply below_le; [exact Hle|]. destruct c as [[] l w]. by eapply I8.
    - intros x q Hx. eapply below_le; [exact Hle|]. destruct c as [[] l w]. by eapply IX.
  Qed.
End inv.
Global Arguments i_computed {sq k st M L ins V O rest F c} _.
Global Arguments i_from {sq k st M L ins V O rest F c} _.
Global Arguments i_wheres {sq k st M L ins V O rest F c} _.
Global Arguments i_inputs {sq k st M L ins V O rest F c} _.
Global Arguments i_vals {sq k st M L ins V O rest F c} _.
Global Arguments i_known {sq k st M L ins V O rest F c} _.
Global Arguments i_vals_known {sq k st M L ins V O rest F c} _.
Global Arguments i_below {sq k st M L ins V O rest F c} _.
Global Arguments i_xbelow {sq k st M L ins V O rest F c} _.
Global Arguments i_cols {sq k st M L ins V O rest F c} _.
Global Arguments i_extracted {sq k st M L ins V O rest F c} _.
Global Arguments i_fresh {sq k st M L ins V O rest F c} _.
Global Arguments i_given {sq k st M L ins V O rest F c} _.
Global Arguments i_own {sq k st M L ins V O rest F c} _.

(** Schema evolution. *)
From Verif Require Import M_Store M_Meta M_Tx P_Base.

(* ---------------------------------------------------------------- sorting *)

Lemma sorted_e_elem {V} (m : gmap Z V) k v : (k, v) ∈ sorted_e m <-> m !! k = Some v.
Proof. unfold sorted_e. rewrite merge_sort_elem. apply elem_of_map_to_list. Qed.
Lemma sorted_e_nodup {V} (m : gmap Z V) : NoDup (sorted_e m).*1.
Proof. unfold sorted_e. rewrite merge_sort_Permutation. apply NoDup_fst_map_to_list. Qed.
Lemma sorted_ea_elem {V} (m : gmap (Z * Z) V) k v : (k, v) ∈ sorted_ea m <-> m !! k = Some v.
Proof. unfold sorted_ea. rewrite merge_sort_elem. apply elem_of_map_to_list. Qed.

(* ---------------------------------------------------------------- altering one attribute *)

Record mutated (a a' : attribute) (muts : list alteration) : Prop := {
  mu_type : at_type a' = at_type a;
  mu_fulltext : at_fulltext a' = at_fulltext a;
  mu_card : AltCardinality ∈ muts <-> at_multival a' <> at_multival a;
  mu_unique : AltUnique ∈ muts <-> at_unique a' <> at_unique a;
  mu_index : AltIndex ∈ muts <-> at_index a' <> at_index a }.

Lemma mutate_spec b a a' muts : mutate b a = (a', muts) -> mutated a a' muts.
Proof.
  unfold mutate.
  destruct (match b_multival b with Some x => _ | None => _ end) as [mv m1] eqn:E1.
  destruct (match b_unique b with Some x => _ | None => _ end) as [un m2] eqn:E2.
  destruct (match b_index b with Some x => _ | None => _ end) as [ix m3] eqn:E3.
  destruct (match b_component b with Some x => _ | None => _ end) as [co m4] eqn:E4.
  destruct (match b_no_history b with Some x => _ | None => _ end) as [nh m5] eqn:E5.
  intros [= <- <-].
  assert ((mv = at_multival a /\ m1 = []) \/ (mv <> at_multival a /\ m1 = [AltCardinality])) as K1.
  { destruct (b_multival b); repeat case_decide; simplify_eq/=; auto. }
  assert ((un = at_unique a /\ m2 = []) \/ (un <> at_unique a /\ m2 = [AltUnique])) as K2.
  { destruct (b_unique b); repeat case_decide; simplify_eq/=; auto. }
  assert ((ix = at_index a /\ m3 = []) \/ (ix <> at_index a /\ m3 = [AltIndex])) as K3.
  { destruct (b_index b); repeat case_decide; simplify_eq/=; auto. }
  assert (m4 = [] \/ m4 = [AltIsComponent]) as K4.
  { destruct (b_component b); repeat case_decide; simplify_eq/=; auto. }
  assert (m5 = [] \/ m5 = [AltNoHistory]) as K5.
  { destruct (b_no_history b); repeat case_decide; simplify_eq/=; auto. }
  split; simpl; try done; rewrite !elem_of_app;
    destruct K1 as [[-> ->]|[? ->]], K2 as [[-> ->]|[? ->]], K3 as [[-> ->]|[? ->]], K4 as [->| ->], K5 as [->| ->];
    rewrite ?elem_of_nil, ?elem_of_list_singleton; split; intros; naive_solver.
Qed.

(* ---------------------------------------------------------------- the attribute map *)

(** How the attribute map changes, and what the report says. *)
Record attrs_evolve (m m' : gmap Z attribute) (rep : mreport) : Prop := {
  ae_nodup : NoDup (mr_altered rep).*1;
  ae_altered : forall e muts, (e, muts) ∈ mr_altered rep -> exists a a', m !! e = Some a /\ m' !! e = Some a' /\ mutated a a' muts;
  ae_installed : forall e, e ∈ mr_installed rep -> m !! e = None /\ exists a', m' !! e = Some a' /\ attribute_validate a' = Ok tt;
  ae_other : forall e, e ∉ (mr_altered rep).*1 -> e ∉ mr_installed rep -> m' !! e = m !! e }.

Lemma apply_builders_Ok l : forall m0 m rep m' rep',
  attrs_evolve m0 m rep ->
  NoDup l.*1 -> (forall e, e ∈ l.*1 -> e ∉ (mr_altered rep).*1 /\ e ∉ mr_installed rep) ->
  rfold apply_builder (m, rep) l = Ok (m', rep') -> attrs_evolve m0 m' rep'.
Proof.
  induction l as [|[e b] l IH]; intros m0 m rep m' rep' He Hn Hfresh H; simpl in H.
  - by injection H as <- <-.
  - apply rbind_Ok in H as ([m1 rep1] & H1 & H). apply NoDup_cons in Hn as [Hel Hn].
    destruct (Hfresh e) as [F1 F2]; [by left|].
    assert (attrs_evolve m0 m1 rep1 /\ forall e', e' ∈ l.*1 -> e' ∉ (mr_altered rep1).*1 /\ e' ∉ mr_installed rep1) as [K1 K2].
    2: { eapply IH; eauto. }
    pose proof (ae_other _ _ _ He e F1 F2) as Hm.
    destruct (m !! e) as [a|] eqn:E; simpl in H1.
    + apply rbind_Ok in H1 as (u0 & _ & H1). destruct (mutate b a) as [a' muts] eqn:Em. injection H1 as <- <-.
      apply mutate_spec in Em. simpl. split; [split|]; simpl.
      * rewrite fmap_app. apply NoDup_app. split_and!; [apply He| |apply NoDup_singleton].
        intros x Hx ->%elem_of_list_singleton. done.
      * intros x ms [Hx|Hx]%elem_of_app.
        -- destruct (ae_altered _ _ _ He x ms Hx) as (y & y' & Hy & Hy' & Hmu). exists y, y'. split_and!; try done.
           rewrite lookup_insert_ne; [done|]. intros ->. apply F1. by apply (elem_of_list_fmap_1 fst) in Hx.
        -- apply elem_of_list_singleton in Hx as [= -> ->]. exists a, a'. split_and!; [congruence|by rewrite lookup_insert|done].
      * intros x Hx. destruct (ae_installed _ _ _ He x Hx) as (Hy & y & Hy' & Hv). split; [done|]. exists y. split; [|done].
        rewrite lookup_insert_ne; [done|]. by intros ->.
      * intros x Hx Hx2. rewrite fmap_app in Hx. simpl in Hx.
        rewrite lookup_insert_ne by set_solver. apply He; set_solver.
      * intros x Hx. destruct (Hfresh x) as [G1 G2]; [by right|]. split; [|done]. rewrite fmap_app. simpl. set_solver.
    + apply rbind_Ok in H1 as (u0 & _ & H1). apply rbind_Ok in H1 as (u & Hv & [= <- <-]). destruct u. simpl. split; [split|]; simpl.
      * apply He.
      * intros x ms Hx. destruct (ae_altered _ _ _ He x ms Hx) as (y & y' & Hy & Hy' & Hmu). exists y, y'. split_and!; try done.
        rewrite lookup_insert_ne; [done|]. intros ->. apply F1. by apply (elem_of_list_fmap_1 fst) in Hx.
      * intros x [Hx|Hx]%elem_of_app.
        -- destruct (ae_installed _ _ _ He x Hx) as (Hy & y & Hy' & Hv'). split; [done|]. exists y. split; [|done].
           rewrite lookup_insert_ne; [done|]. by intros ->.
        -- apply elem_of_list_singleton in Hx as ->. split; [congruence|]. exists (build b). by rewrite lookup_insert.
      * intros x Hx Hx2. rewrite lookup_insert_ne by set_solver. apply He; set_solver.
      * intros x Hx. destruct (Hfresh x) as [G1 G2]; [by right|]. split; [done|]. set_solver.
Qed.

Lemma attrs_evolve_refl m : attrs_evolve m m (MReport [] [] []).
Proof. split; simpl; try done; [constructor|..]; intros; set_solver. Qed.

Lemma triples_evolve m assertions retractions m' rep :
  update_attribute_map_from_entid_triples m assertions retractions = Ok (m', rep) -> attrs_evolve m m' rep.
Proof.
  unfold update_attribute_map_from_entid_triples. intros H.
  apply rbind_Ok in H as (bs1 & _ & H). apply rbind_Ok in H as (bs2 & _ & H).
  eapply apply_builders_Ok; [apply attrs_evolve_refl|apply sorted_e_nodup| |exact H].
  simpl. intros. set_solver.
Qed.

(* ---------------------------------------------------------------- quadruples *)

Lemma witness_retracted {K} `{Countable K} {V} (s : aras K V) k v b x y :
  ar_retracted (witness s k v b) !! x = Some y -> ar_retracted s !! x = Some y \/ (b = false /\ x = k).
Proof.
  unfold witness. destruct b.
  - destruct (ar_retracted s !! k) eqn:E; simpl; [|by left]. rewrite lookup_delete_Some. naive_solver.
  - destruct (ar_asserted s !! k) eqn:E; simpl; [by left|]. rewrite lookup_insert_Some. naive_solver.
Qed.

Definition no_type_retraction (quads : list quad) : Prop :=
  forall e v, (e, DB_VALUE_TYPE, v, false) ∈ quads -> False.

Lemma witness_quads_retracted quads : forall acc attrs idents,
  no_type_retraction quads -> (forall e, ar_retracted acc.1 !! (e, DB_VALUE_TYPE) = None) ->
  rfold witness_quad acc quads = Ok (attrs, idents) -> forall e, ar_retracted attrs !! (e, DB_VALUE_TYPE) = None.
Proof.
  induction quads as [|[[[e a] v] b] quads IH]; intros acc attrs idents Hq Hacc H; simpl in H.
  - by injection H as ->.
  - apply rbind_Ok in H as (acc1 & H1 & H). eapply IH; [| |exact H].
    { intros e' v' Hin. apply (Hq e' v'). by right. }
    destruct acc as [at0 id0]. unfold witness_quad in H1. case_decide as Ha.
    + destruct v; try done. injection H1 as <-. done.
    + injection H1 as <-. simpl in *. intros e'. destruct (ar_retracted _ !! _) eqn:E; [|done]. exfalso.
      apply witness_retracted in E as [E|[-> [= -> Ha2]]]; [by rewrite Hacc in E|].
      apply (Hq e v). rewrite Ha2. by left.
Qed.

Lemma schema_retractions_keep m retr ids m' out :
  (forall e v, (e, DB_VALUE_TYPE, v) ∈ retr -> False) ->
  update_attribute_map_from_schema_retractions m retr ids = Ok (m', out) -> m' = m.
Proof.
  unfold update_attribute_map_from_schema_retractions. intros Hno H.
  apply (rfold_inv (fun acc : gmap Z attribute * list eav => acc.1 = m)) in H; [done| |done].
  intros [m1 out1] r [m2 out2] Hr Hm1 H1. simpl in Hm1. subst m1. simpl.
  rewrite bool_decide_eq_false_2 with (P := DB_VALUE_TYPE ∈ _) in H1.
  - rewrite andb_false_r in H1. by injection H1 as <- <-.
  - unfold retraction_attrs. intros ([[e a] v] & Hv & Hin)%elem_of_list_fmap. simpl in Hv. subst a.
    apply elem_of_list_filter in Hin as [_ Hin]. by apply (Hno e v).
Qed.

Lemma update_schema_evolve s quads s' rep :
  no_type_retraction quads ->
  update_schema_from_entid_quadruples s quads = Ok (s', rep) ->
  attrs_evolve (sc_attribute_map s) (sc_attribute_map s') rep.
Proof.
  unfold update_schema_from_entid_quadruples. intros Hq H.
  apply rbind_Ok in H as ([attrs idents] & Hw & H). apply rbind_Ok in H as ([m1 non] & Hr & H).
  apply rbind_Ok in H as ([m2 rep2] & Ht & H). destruct (apply_idents _ _) as [em im]. injection H as <- <-. simpl.
  apply schema_retractions_keep in Hr as ->.
  - apply triples_evolve in Ht. destruct Ht. by split.
  - intros e v ([k w] & Heq & Hin)%elem_of_list_fmap. apply sorted_ea_elem in Hin.
    unfold triple_of in Heq. simpl in Heq. destruct k as [k1 k2]. simpl in Heq. injection Heq as <- <- _.
    rewrite (witness_quads_retracted quads (aras_empty, aras_empty) attrs idents) in Hin; [done|exact Hq| |exact Hw].
    intros. apply lookup_empty.
Qed.

(* ---------------------------------------------------------------- update_metadata *)

(** Only flags change. *)
Definition same_core (d d' : datom) : Prop :=
  d_e d' = d_e d /\ d_a d' = d_a d /\ d_v d' = d_v d /\ d_tag d' = d_tag d /\ d_tx d' = d_tx d
  /\ d_vaet d' = d_vaet d /\ d_ft d' = d_ft d.
Lemma same_core_refl d : same_core d d.
Proof. done. Qed.
Lemma same_core_trans d1 d2 d3 : same_core d1 d2 -> same_core d2 d3 -> same_core d1 d3.
Proof. unfold same_core. naive_solver congruence. Qed.
Lemma same_core_key d d' : same_core d d' -> d_key d' = d_key d.
Proof. unfold same_core, d_key. naive_solver congruence. Qed.

Lemma Forall2_map_key {B} (f : datom -> B) ds ds' :
  (forall d d', same_core d d' -> f d' = f d) -> Forall2 same_core ds ds' -> map f ds' = map f ds.
Proof. intros Hf H. induction H; simpl; [done|]. f_equal; auto. Qed.

Lemma filter_vaet_key ds ds' : Forall2 same_core ds ds' ->
  map d_vaet_key (filter (fun d => d_vaet d = true) ds') = map d_vaet_key (filter (fun d => d_vaet d = true) ds).
Proof.
  induction 1 as [|d d' ds ds' Hd _ IH]; [done|]. rewrite !filter_cons.
  assert (d_vaet d' = d_vaet d) as -> by (unfold same_core in Hd; naive_solver).
  destruct (decide _); simpl; [|done]. f_equal; [|done]. unfold same_core, d_vaet_key in *. naive_solver congruence.
Qed.

(** The flags of [d'] after [alts] have been applied to the datoms of [e]. *)
Definition flags_after (e : Z) (at_ : attribute) (alts : list alteration) (d d' : datom) : Prop :=
  same_core d d'
  /\ d_avet d' = (if decide (d_a d = e /\ AltIndex ∈ alts) then at_index at_ else d_avet d)
  /\ d_uq d' = (if decide (d_a d = e /\ AltUnique ∈ alts) then is_some (at_unique at_) else d_uq d).

Lemma datoms_unique_flags ds ds' : Forall2 (fun d d' => same_core d d' /\ d_uq d' = d_uq d) ds ds' ->
  datoms_unique ds' = datoms_unique ds.
Proof.
  intros H. unfold datoms_unique.
  assert (Forall2 same_core ds ds') as Hc by (eapply Forall2_impl; [exact H|]; by intros ?? [? _]).
  rewrite (Forall2_map_key d_key ds ds' same_core_key Hc), (filter_vaet_key _ _ Hc).
  assert (map d_uq_key (filter (fun d => d_uq d = true) ds') = map d_uq_key (filter (fun d => d_uq d = true) ds)) as ->; [|done].
  clear Hc. induction H as [|d d' ds ds' [Hd Hu] _ IH]; [done|]. rewrite !filter_cons, Hu.
  destruct (decide _); simpl; [|done]. f_equal; [|done]. unfold same_core, d_uq_key in *. naive_solver congruence.
Qed.

Record same_tables (st st' : store) : Prop := {
  st_same_log : st_log st' = st_log st;
  st_same_fts : st_fts st' = st_fts st;
  st_same_parts : st_parts st' = st_parts st }.

Lemma Forall2_map_r {A B} (R : A -> B -> Prop) (g : A -> B) l : (forall x, R x (g x)) -> Forall2 R l (map g l).
Proof. intros H. induction l; simpl; constructor; auto. Qed.

Lemma apply_alteration_Ok e at_ st alt st' u : datoms_unique (st_datoms st) = true ->
  apply_alteration e at_ st alt = (st', Ok u) ->
  same_tables st st' /\ st_idents st' = st_idents st /\ st_schema st' = st_schema st
  /\ Forall2 (flags_after e at_ [alt]) (st_datoms st) (st_datoms st')
  /\ datoms_unique (st_datoms st') = true /\ (alt = AltCardinality -> at_multival at_ = true).
Proof.
  intros Hu H.
  assert (forall alt, alt <> AltIndex -> alt <> AltUnique -> Forall2 (flags_after e at_ [alt]) (st_datoms st) (st_datoms st)) as Hid.
  { intros alt' N1 N2. apply Forall_Forall2_diag, Forall_forall. intros d _. split_and!; try done.
    - rewrite decide_False; [done|]. set_solver.
    - rewrite decide_False; [done|]. set_solver. }
  destruct alt; simpl in H.
  - injection H as <- _. simpl. split; [done|]. split_and!; try done.
    + apply Forall2_map_r. intros d. unfold set_avet. destruct (decide (d_a d = e)) as [Hd|Hd].
      * split_and!; simpl; [done| |]; [rewrite decide_True by set_solver; done|rewrite decide_False; [done|set_solver]].
      * split_and!; simpl; [done| |]; (rewrite decide_False; [done|set_solver]).
    + rewrite (datoms_unique_flags (st_datoms st)); [done|]. apply Forall2_map_r. intros d. unfold set_avet. by case_decide.
  - destruct (datoms_unique (map _ _)) eqn:Ed; [|by destruct (at_unique at_)]. injection H as <- _. simpl. split; [done|]. split_and!; try done.
    apply Forall2_map_r. intros d. unfold set_uq. destruct (decide (d_a d = e)) as [Hd|Hd].
    + split_and!; simpl; [done| |]; [rewrite decide_False; [done|set_solver]|rewrite decide_True by set_solver; done].
    + split_and!; simpl; [done| |]; (rewrite decide_False; [done|set_solver]).
  - destruct (at_multival at_) eqn:Em; [|done]. injection H as <- _. split; [done|]. split_and!; try done. by apply Hid.
  - injection H as <- _. split; [done|]. split_and!; try done. by apply Hid.
  - injection H as <- _. split; [done|]. split_and!; try done. by apply Hid.
Qed.

Lemma same_tables_trans a b c : same_tables a b -> same_tables b c -> same_tables a c.
Proof. intros [? ? ?] [? ? ?]. split; congruence. Qed.

Lemma Forall2_trans_gen {A} (R1 R2 R3 : A -> A -> Prop) l1 l2 l3 :
  (forall x y z, R1 x y -> R2 y z -> R3 x z) -> Forall2 R1 l1 l2 -> Forall2 R2 l2 l3 -> Forall2 R3 l1 l3.
Proof.
  intros H H1. revert l3. induction H1; intros l3 H2; inversion H2; subst; constructor; eauto.
Qed.

Lemma apply_alterations_Ok e at_ alts : forall st st' u, datoms_unique (st_datoms st) = true ->
  apply_alterations e at_ st alts = (st', Ok u) ->
  same_tables st st' /\ st_idents st' = st_idents st /\ st_schema st' = st_schema st
  /\ Forall2 (flags_after e at_ alts) (st_datoms st) (st_datoms st')
  /\ datoms_unique (st_datoms st') = true /\ (AltCardinality ∈ alts -> at_multival at_ = true).
Proof.
  induction alts as [|alt alts IH]; intros st st' u Hu H; simpl in H.
  - injection H as <- _. split; [done|]. split_and!; try done.
    + apply Forall_Forall2_diag, Forall_forall. intros d _. split_and!; try done; (rewrite decide_False; [done|set_solver]).
    + set_solver.
  - destruct (apply_alteration e at_ st alt) as [st1 [u1| |]] eqn:E; try done.
    apply apply_alteration_Ok in E as (T1 & I1 & S1 & F1 & U1 & C1); [|done].
    apply IH in H as (T2 & I2 & S2 & F2 & U2 & C2); [|done].
    split; [by eapply same_tables_trans|]. split_and!; try congruence.
    + eapply Forall2_trans_gen; [|exact F1|exact F2]. intros x y z (Cx & Ax & Ux) (Cy & Ay & Uy). split_and!.
      * by eapply same_core_trans.
      * assert (d_a y = d_a x) as Ey by apply Cx. rewrite Ay, Ax, Ey. repeat case_decide; set_solver.
      * assert (d_a y = d_a x) as Ey by apply Cx. rewrite Uy, Ux, Ey. repeat case_decide; set_solver.
    + intros [<-|Hin]%elem_of_cons; auto.
Qed.

Lemma apply_altered_Ok sc l : forall st st' u, NoDup l.*1 -> datoms_unique (st_datoms st) = true ->
  apply_altered sc st l = (st', Ok u) ->
  same_tables st st' /\ st_idents st' = st_idents st /\ st_schema st' = st_schema st
  /\ datoms_unique (st_datoms st') = true
  /\ Forall2 (fun d d' =>
       same_core d d' /\ (d_a d ∉ l.*1 -> d' = d)
       /\ forall alts, (d_a d, alts) ∈ l -> exists at_, sc_attribute_map sc !! d_a d = Some at_ /\ flags_after (d_a d) at_ alts d d')
     (st_datoms st) (st_datoms st')
  /\ (forall e alts, (e, alts) ∈ l -> AltCardinality ∈ alts -> exists at_, sc_attribute_map sc !! e = Some at_ /\ at_multival at_ = true).
Proof.
  induction l as [|[e alts] l IH]; intros st st' u Hn Hu H; simpl in H.
  - injection H as <- _. split; [done|]. split_and!; try done.
    + apply Forall_Forall2_diag, Forall_forall. intros d _. split_and!; try done. intros. set_solver.
    + intros. set_solver.
  - destruct (require_attribute sc e) as [at_| |] eqn:Er; try done. apply ok_or_Ok in Er.
    destruct (apply_alterations e at_ st alts) as [st1 [u1| |]] eqn:E; try done.
    apply apply_alterations_Ok in E as (T1 & I1 & S1 & F1 & U1 & C1); [|done].
    apply NoDup_cons in Hn as [Hne Hn].
    apply IH in H as (T2 & I2 & S2 & U2 & F2 & C2); [|done|done].
    split; [by eapply same_tables_trans|]. split_and!; try congruence.
    + eapply Forall2_trans_gen; [|exact F1|exact F2]. intros x y z (Cx & Ax & Ux) (Cy & Ny & Ay). split_and!.
      * by eapply same_core_trans.
      * assert (d_a y = d_a x) as Ey by apply Cx. rewrite Ey in *. simpl. intros Hx.
        rewrite Ny by set_solver. rewrite decide_False in Ax by set_solver. rewrite decide_False in Ux by set_solver.
        destruct x, y; unfold same_core in Cx; simpl in *. naive_solver congruence.
      * assert (d_a y = d_a x) as Ey by apply Cx. rewrite Ey in *.
        intros alts' [[= Hxe ->]|Hin]%elem_of_cons.
        -- exists at_. split; [by rewrite Hxe|]. assert (z = y) as ->. { apply Ny. rewrite Hxe. done. }
           split_and!; [done|rewrite Ax, Hxe; done|rewrite Ux, Hxe; done].
        -- destruct (Ay _ Hin) as (at2 & Hat2 & (Cz & Az & Uz)). exists at2. split; [done|].
           assert (d_a x <> e) as Hxe. { intros Hxe. apply Hne. rewrite <- Hxe. by apply (elem_of_list_fmap_1 fst) in Hin. }
           rewrite decide_False in Ax by naive_solver. rewrite decide_False in Ux by naive_solver.
           split_and!; [by eapply same_core_trans|rewrite Az, Ey, Ax; done|rewrite Uz, Ey, Ux; done].
    + intros e' alts' [[= -> ->]|Hin]%elem_of_cons Hc; [|eauto]. exists at_. eauto.
Qed.

Lemma update_metadata_Ok st sc rep st' u : NoDup (mr_altered rep).*1 -> datoms_unique (st_datoms st) = true ->
  update_metadata st sc rep = (st', Ok u) ->
  same_tables st st'
  /\ st_idents st' = (if is_nil (mr_idents rep) then st_idents st else idents_view (st_datoms st))
  /\ st_schema st' = (if (is_nil (mr_installed rep) && is_nil (mr_altered rep) && is_nil (mr_idents rep))%bool
                      then st_schema st else schema_view (st_datoms st))
  /\ datoms_unique (st_datoms st') = true
  /\ Forall2 (fun d d' =>
       same_core d d' /\ (d_a d ∉ (mr_altered rep).*1 -> d' = d)
       /\ forall alts, (d_a d, alts) ∈ mr_altered rep -> exists at_, sc_attribute_map sc !! d_a d = Some at_ /\ flags_after (d_a d) at_ alts d d')
     (st_datoms st) (st_datoms st')
  /\ (forall e alts, (e, alts) ∈ mr_altered rep -> AltCardinality ∈ alts -> exists at_, sc_attribute_map sc !! e = Some at_ /\ at_multival at_ = true).
Proof.
  unfold update_metadata. intros Hn Hu H.
  apply apply_altered_Ok in H as (T & I & S & U & F & C); [|done|by destruct (is_nil (mr_idents rep)), (_ && _ && _)%bool].
  split; [|split_and!].
  - destruct T. destruct (is_nil (mr_idents rep)), (_ && _ && _)%bool; by split.
  - rewrite I. destruct (is_nil (mr_idents rep)), (_ && _ && _)%bool; done.
  - rewrite S. destruct (is_nil (mr_idents rep)), (_ && _ && _)%bool; done.
  - done.
  - destruct (is_nil (mr_idents rep)), (_ && _ && _)%bool; done.
  - done.
Qed.

(** The builder and EDN say the same. *)
From Verif Require Import M_Builder Spec_Entity Spec_Builder P_Entity.

Lemma pushes_terms l b : tb_terms (eb_builder (eb_pushes l b)) = tb_terms (eb_builder b) ++ map (fun y => EntAdd y.1.1 (eb_entity b) y.1.2 y.2) l
  /\ eb_entity (eb_pushes l b) = eb_entity b.
Proof.
  revert b. induction l as [|x l IH]; intros b; [by rewrite app_nil_r|]. cbn [eb_pushes fold_left map] in *. destruct (IH (eb_push x.1.1 x.1.2 x.2 b)) as [H1 H2].
  unfold eb_pushes in H1, H2. rewrite H1, H2. cbn. by rewrite <- app_assoc.
Qed.
Lemma builder_step_terms b x : tb_terms (builder_step b x) = tb_terms b ++ says x.
Proof.
  destruct x as [o e a v|n|n|e l|n l]; cbn; [done|by rewrite app_nil_r|by rewrite app_nil_r| |].
  - by destruct (pushes_terms l (describe e b)) as [-> _].
  - destruct (pushes_terms l (describe (EPTempId (TExternal n)) (named_tempid n b).2)) as [H _]. exact H.
Qed.
Lemma builder_run_terms l : tb_terms (builder_run l) = flat_map says l.
Proof.
  unfold builder_run. change (flat_map says l) with (tb_terms tb_new ++ flat_map says l). generalize tb_new as b. induction l as [|x l IH]; intros b; [by rewrite app_nil_r|].
  cbn [fold_left flat_map]. by rewrite IH, builder_step_terms, app_assoc.
Qed.

Section same.
  Context (pm : partition_map) (s : schema) (tx : Z).

  Lemma a_name a n : entity_a_into_term_a s a = Ok n -> reads_name s a n.
  Proof. destruct a as [e|k]; cbn; [by intros [= ->]|]. unfold require_entid, ok_or. destruct (sc_ident_map s !! k); [|done]. by intros [= ->]. Qed.
  Lemma a_type a n at_ : entity_a_into_term_a s a = Ok n -> require_attribute s n = Ok at_ -> has_type s a (at_type at_).
  Proof.
    intros H1%a_name H2. unfold require_attribute in H2. exists n, at_. split; [done|]. split; [|done]. unfold ok_or in H2. destruct (sc_attribute_map s !! n); [|done]. by injection H2 as ->.
  Qed.
  Lemma about_back a fa vt : eoi_unreversed a = Ok (Some fa) -> has_type s fa vt -> about_type s a vt.
  Proof.
    destruct a as [e|k]; [done|]. cbn. unfold kw_unreversed. destruct (kw_is_backward k); [|done]. intros H Hf. exists (match fa with EIdent k' => k' | _ => k end).
    destruct (kw_to_reversed k) as [k'| |]; cbn in *; try done. by injection H as <-.
  Qed.
  Lemma about_forth a vt : eoi_unreversed a = Ok None -> has_type s a vt -> about_type s a vt.
  Proof.
    destruct a as [e|k]; [done|]. cbn. unfold kw_unreversed. destruct (kw_is_backward k); [|done]. by destruct (kw_to_reversed k).
  Qed.

  Lemma literal_typed vt x v : literal s vt x v -> into_typed_value s (VEdn x) vt = into_typed_value s (VTyped v) vt.
  Proof.
    intros [? ? N|? ? N|? ? N|? ? N|? ? N|? ? N|? ? N|n|k e He]; try (destruct vt0; done); try done.
    cbn. unfold require_entid. by rewrite He.
  Qed.
  Lemma literal_no_tempid x v : literal s VTRef x v -> as_tempid (VEdn x) = None /\ as_tempid (VTyped v) = None.
  Proof. intros H. inversion H; subst; done. Qed.
  Lemma lookup_same ip a v x : writes_lookup s a v x -> intern_lookup_ref s ip a (VEdn x) = intern_lookup_ref s ip a (VTyped v).
  Proof.
    intros H. unfold intern_lookup_ref. destruct (entity_a_into_term_a s a) as [n| |] eqn:En; cbn [rbind]; try done. destruct (require_attribute s n) as [at_| |] eqn:Ea; cbn [rbind]; try done.
    by rewrite (literal_typed _ _ _ (H _ (a_type _ _ _ En Ea))).
  Qed.
  Lemma e_same ip e e' : writes_entity s e e' -> entity_e_into_term_e pm s tx ip e' = entity_e_into_term_e pm s tx ip e.
  Proof. intros [|a v x H]; [done|]. cbn [entity_e_into_term_e]. by rewrite (lookup_same _ _ _ _ H). Qed.
  Lemma ev_same ip e e' : writes_entity s e e' -> entity_e_into_term_v pm s tx ip e' = entity_e_into_term_v pm s tx ip e.
  Proof. intros H. unfold entity_e_into_term_v. by rewrite (e_same _ _ _ H). Qed.

  Lemma v_same ip v v' fa : (forall vt, has_type s fa vt -> writes_value s vt v v') -> entity_v_into_term_e s tx ip v' fa = entity_v_into_term_e s tx ip v fa.
  Proof.
    intros H. unfold entity_v_into_term_e. destruct (entity_a_into_term_a s fa) as [n| |] eqn:En; cbn [rbind]; try done. destruct (require_attribute s n) as [at_| |] eqn:Ea; cbn [rbind]; try done.
    specialize (H _ (a_type _ _ _ En Ea)). destruct (decide (at_type at_ = VTRef)) as [Ht|]; [|done]. rewrite Ht in H. destruct H as [v|v x H|n' _|k _|n' _|a v x H|l l' _|m m' _]; try done.
    - destruct (literal_no_tempid _ _ H) as [-> ->]. by rewrite (literal_typed _ _ _ H).
    - cbn [as_tempid entity_a_into_term_a into_typed_value to_typed_value from_edn_value]. destruct (require_entid s k); done.
    - by rewrite (lookup_same _ _ _ _ H).
  Qed.
  Lemma reversed_same ip v v' fa e e' : (forall vt, has_type s fa vt -> writes_value s vt v v') -> writes_entity s e e' ->
    reversed_term pm s tx ip v' fa e' = reversed_term pm s tx ip v fa e.
  Proof.
    intros Hv He. unfold reversed_term. rewrite (v_same _ _ _ _ Hv). destruct (entity_v_into_term_e s tx ip v fa) as [[re ip']| |]; cbn [rbind]; try done.
    destruct (entity_a_into_term_a s fa); cbn [rbind]; try done. by rewrite (ev_same _ _ _ He).
  Qed.

  (* two outcomes that differ only in the entities still to be done *)
  Definition alike {A} (r r' : res (A * list entity * inproc)) : Prop :=
    match r, r' with
    | Ok (x, l, ip), Ok (x', l', ip') => x' = x /\ ip' = ip /\ Forall2 (writes s) l l'
    | Err e, Err e' => e' = e
    | Panic p, Panic p' => p' = p
    | _, _ => False
    end.
  Lemma writes_value_refl vt v : writes_value s vt v v.
  Proof. constructor. Qed.
  Lemma entid_type n vt at_ : require_attribute s n = Ok at_ -> about_type s (EEntid n) vt -> vt = at_type at_.
  Proof. intros H (m & at' & -> & Ha & <-). unfold require_attribute in H. rewrite Ha in H. by injection H as ->. Qed.

  Definition entry_writes (p p' : entid_or_ident * value_place) : Prop :=
    p'.1 = p.1 /\ (p.1 = db_id_key -> p'.2 = p.2) /\ (p.1 <> db_id_key -> forall t, about_type s p.1 t -> writes_value s t p.2 p'.2).
  Lemma remove_same m m' : Forall2 entry_writes m m' ->
    match remove_db_id m, remove_db_id m' with
    | Ok (i, l), Ok (i', l') => i' = i /\ Forall2 (fun p p' => entry_writes p p' /\ p.1 <> db_id_key) l l'
    | Err e, Err e' => e' = e | Panic p, Panic p' => p' = p | _, _ => False end.
  Proof.
    intros H. unfold remove_db_id.
    assert (Forall2 (fun p p' => entry_writes p p' /\ p.1 <> db_id_key) (filter (fun p => p.1 <> db_id_key) m) (filter (fun p => p.1 <> db_id_key) m')) as Hf.
    { induction H as [|p p' m m' Hp H IH]; [constructor|]. destruct Hp as (E & Hp). rewrite !filter_cons. rewrite E. destruct (decide (p.1 <> db_id_key)); [|done]. constructor; [|done]. split; [|done]. by split. }
    assert (list_find (fun p => p.1 = db_id_key) m' = (fun x => (x.1, x.2)) <$> list_find (fun p => p.1 = db_id_key) m) as ->; [clear Hf|].
    { induction H as [|p p' m m' (E & Ed & _) H IH]; [done|]. cbn [list_find]. rewrite E. destruct (decide (p.1 = db_id_key)) as [Hk|Hk].
      - cbn. f_equal. f_equal. rewrite (surjective_pairing p), (surjective_pairing p'). by rewrite E, (Ed Hk).
      - rewrite IH. by destruct (list_find _ m) as [[]|]. }
    destruct (list_find _ m) as [[i [key v]]|]; cbn; [|by split]. destruct v as [e|t|a v|f|l|v|l]; cbn; try done. by destruct (into_entity_place v).
  Qed.
  Lemma nested_same d b ts pushed pushed' ip p p' : entry_writes p p' -> p.1 <> db_id_key -> Forall2 (writes s) pushed pushed' ->
    alike (nested_entry pm s tx d (b, ts, pushed, ip) p) (nested_entry pm s tx d (b, ts, pushed', ip) p').
  Proof.
    intros (E & _ & Hw) Hk Hp. unfold nested_entry. rewrite E. specialize (Hw Hk). destruct (eoi_unreversed p.1) as [[fa|]| |] eqn:Ef; cbn [rbind]; try done.
    - rewrite (reversed_same ip p.2 p'.2 fa d d); [|intros vt Hvt; apply Hw; by eapply about_back|constructor].
      by destruct (reversed_term pm s tx ip p.2 fa d) as [[t ip']| |].
    - destruct (entity_a_into_term_a s p.1) as [n| |] eqn:En; cbn [rbind]; try done. destruct (require_attribute s n) as [at_| |] eqn:Ea; cbn [rbind]; try done.
      split_and!; try done. constructor; [|done]. split_and!; try done; [constructor|]. intros vt Hvt. apply (entid_type _ _ _ Ea) in Hvt as ->. apply Hw. by eapply about_forth, a_type.
  Qed.
  Lemma nested_all d l l' : Forall2 (fun p p' => entry_writes p p' /\ p.1 <> db_id_key) l l' -> forall b ts pushed pushed' ip, Forall2 (writes s) pushed pushed' ->
    alike (rfold (nested_entry pm s tx d) (b, ts, pushed, ip) l) (rfold (nested_entry pm s tx d) (b, ts, pushed', ip) l').
  Proof.
    induction 1 as [|p p' l l' [Hp Hk] H IH]; intros b ts pushed pushed' ip Hpu; [by cbn|]. cbn [rfold].
    pose proof (nested_same d b ts pushed pushed' ip p p' Hp Hk Hpu) as Hn. unfold alike in Hn.
    destruct (nested_entry pm s tx d (b, ts, pushed, ip) p) as [[[[b1 ts1] pu1] ip1]| |], (nested_entry pm s tx d (b, ts, pushed', ip) p') as [[[[b2 ts2] pu2] ip2]| |]; cbn [rbind]; try done.
    destruct Hn as ([= -> ->] & -> & Hn). by apply IH.
  Qed.

  Lemma forward_same ip o e e' a at_ v v' : require_attribute s a = Ok at_ -> writes_entity s e e' -> writes_value s (at_type at_) v v' ->
    alike (forward_value pm s tx ip o e a at_ v) (forward_value pm s tx ip o e' a at_ v').
  Proof.
    intros Ha He Hv.
    assert (forall vs vs', Forall2 (writes_value s (at_type at_)) vs vs' ->
      Forall2 (writes s) (rev (map (fun vv => EntAdd o e (EEntid a) vv) vs)) (rev (map (fun vv => EntAdd o e' (EEntid a) vv) vs'))) as Hrev.
    { intros vs vs' H. induction H as [|v1 v2 vs vs' Hv1 H IH]; [constructor|]. cbn [map rev]. apply Forall2_app; [done|]. constructor; [|constructor]. split_and!; try done. intros vt Hvt. by apply (entid_type _ _ _ Ha) in Hvt as ->. }
    assert (forall m m', Forall2 entry_writes m m' -> alike (forward_value pm s tx ip o e a at_ (VPMap m)) (forward_value pm s tx ip o e' a at_ (VPMap m'))) as Hmap.
    { intros m m' Hm. cbn [forward_value]. destruct o; [|done]. destruct (decide (at_type at_ = VTRef)); [|done]. pose proof (remove_same m m' Hm) as Hr.
      destruct (remove_db_id m) as [[i l]| |], (remove_db_id m') as [[i' l']| |]; cbn [rbind]; try done. destruct Hr as [-> Hl].
      destruct (match i with Some x => (x, ip) | None => allocate_mentat_id ip end) as [d ip1].
      pose proof (nested_all d l l' Hl (negb (is_some i) && negb (at_component at_))%bool [] [] [] ip1 ltac:(constructor)) as Hn. unfold alike in Hn.
      destruct (rfold _ _ l) as [[[[b1 ts1] pu1] ip2]| |], (rfold _ _ l') as [[[[b2 ts2] pu2] ip3]| |]; cbn [rbind]; try done.
      destruct Hn as ([= -> ->] & -> & Hn). destruct b1; [by cbn|]. destruct (entity_e_into_term_v pm s tx ip2 d) as [[tv ip4]| |]; cbn [rbind]; [by split_and!|by cbn|by cbn]. }
    destruct Hv as [v|v x H|n Ht|k Ht|n Ht|la v x H|l l' Hl|m m' Hm].
    - destruct v as [x|t|la x|f|l|x|m]; cbn [forward_value].
      + destruct (entity_a_into_term_a s x); cbn; try done; by split_and!.
      + by cbn; try done; split_and!.
      + destruct (decide _); [|by cbn]. destruct (intern_lookup_ref s ip la x) as [[? ?]| |]; cbn; try done; by split_and!.
      + destruct (transaction_fn tx f); cbn; try done. destruct (decide _); cbn; try done; by split_and!.
      + destruct (at_multival at_); [|by cbn]. split_and!; try done. apply Hrev. induction l; constructor; [constructor|done].
      + destruct (if decide _ then _ else _); [cbn; try done; by split_and!|]. destruct (into_typed_value s x (at_type at_)); cbn; try done; by split_and!.
      + apply Hmap. induction m; constructor; [|done]. split_and!; try done. constructor.
    - cbn [forward_value]. rewrite (literal_typed _ _ _ H). destruct (decide (at_type at_ = VTRef)) as [Ht|].
      + rewrite Ht in H. destruct (literal_no_tempid _ _ H) as [-> ->]. by destruct (into_typed_value _ _ _).
      + by destruct (into_typed_value _ _ _).
    - cbn [forward_value]. rewrite Ht. cbn. by split_and!.
    - cbn [forward_value]. rewrite Ht. cbn. destruct (require_entid s k); cbn; try done; by split_and!.
    - cbn [forward_value]. rewrite Ht. cbn. by split_and!.
    - cbn [forward_value]. destruct (decide _); [|done]. rewrite (lookup_same _ _ _ _ H). destruct (intern_lookup_ref s ip la (VTyped v)) as [[? ?]| |]; cbn [rbind]; done.
    - cbn [forward_value]. destruct (at_multival at_); [|by cbn]. split_and!; try done. by apply Hrev.
    - by apply Hmap.
  Qed.
  Lemma process_same ip x y : writes s x y -> alike (process_entity pm s tx ip x) (process_entity pm s tx ip y).
  Proof.
    destruct x as [o e a v|m], y as [o' e' a' v'|m']; try done. intros (-> & -> & He & Hv). cbn [process_entity]. destruct (eoi_unreversed a) as [[fa|]| |] eqn:Ef; cbn [rbind]; try done.
    - rewrite (reversed_same ip v v' fa e e'); [|intros vt Hvt; apply Hv; by eapply about_back|done]. destruct (reversed_term pm s tx ip v fa e) as [[t ip']| |]; cbn [rbind]; done.
    - destruct (entity_a_into_term_a s a) as [n| |] eqn:En; cbn [rbind]; try done. destruct (require_attribute s n) as [at_| |] eqn:Ea; cbn [rbind]; try done.
      pose proof (forward_same ip o e e' n at_ v v' Ea He (Hv _ (about_forth _ _ Ef (a_type _ _ _ En Ea)))) as H. unfold alike in H.
      destruct (forward_value pm s tx ip o e n at_ v) as [[[[tv ts] pu] ip1]| |], (forward_value pm s tx ip o e' n at_ v') as [[[[tv' ts'] pu'] ip1']| |]; cbn [rbind]; try done.
      destruct H as ([= -> ->] & -> & H). destruct tv as [tv|]; [|done]. rewrite (e_same _ _ _ He). destruct (entity_e_into_term_e pm s tx ip1 e) as [[te ip2]| |]; cbn [rbind]; done.
  Qed.
  Lemma loop_same fuel : forall d d' ts ip, Forall2 (writes s) d d' -> stage1_loop pm s tx fuel d' ts ip = stage1_loop pm s tx fuel d ts ip.
  Proof.
    induction fuel as [|fuel IH]; intros d d' ts ip Hd; [by destruct Hd|]. destruct Hd as [|x y d d' Hx Hd]; [done|]. cbn [stage1_loop].
    pose proof (process_same ip x y Hx) as H. unfold alike in H.
    destruct (process_entity pm s tx ip x) as [[[ts1 pu1] ip1]| |], (process_entity pm s tx ip y) as [[[ts2 pu2] ip2]| |]; cbn [rbind]; try congruence; try done.
    destruct H as (-> & -> & H). apply IH. by apply Forall2_app.
  Qed.
End same.
Lemma stage1_same pm s tx es es' : Forall2 (writes s) es es' -> stage1 pm s tx es' = stage1 pm s tx es.
Proof.
  intros H. unfold stage1. set (n := Nat.max (list_sum (map ent_size es)) (list_sum (map ent_size es'))).
  rewrite <- (stage1_loop_fuel pm s tx n _ es') by (unfold n; lia). rewrite <- (stage1_loop_fuel pm s tx n _ es) by (unfold n; lia). by apply loop_same.
Qed.
Lemma terms_same mv st pm s tx es es' : Forall2 (writes s) es es' -> entities_to_terms mv st pm s tx es' = entities_to_terms mv st pm s tx es.
Proof. intros H. unfold entities_to_terms. by rewrite (stage1_same pm s tx es es' H). Qed.
Lemma ig_transact_same mv now ig es es' : Forall2 (writes (ig_schema ig)) es es' -> ig_transact mv now ig es' = ig_transact mv now ig es.
Proof.
  intros H. unfold ig_transact, watch_transact, transact. destruct (pm_allocate (ig_parts ig) ":db.part/tx" 1) as [[tx pm]| |]; try done.
  by rewrite (terms_same mv (ig_store ig) pm (ig_schema ig) tx es es' H).
Qed.

(** Whatever the state of the InProgress *)
Lemma builder_transact_same mv now ig prog es : Forall2 (writes (ig_schema ig)) (flat_map says prog) es ->
  builder_transact mv now ig (builder_run prog) = ig_transact mv now ig es.
Proof. intros H. unfold builder_transact, tb_build. cbn [fst]. rewrite builder_run_terms. symmetry. by apply ig_transact_same. Qed.
Lemma builder_commit_same mv now c prog es : Forall2 (writes (md_schema (cn_md c))) (flat_map says prog) es ->
  builder_commit mv now c (conn_begin c) (builder_run prog) = conn_transact mv now c es.
Proof. intros H. unfold builder_commit, conn_transact. by rewrite (builder_transact_same mv now (conn_begin c) prog es H). Qed.

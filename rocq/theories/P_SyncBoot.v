(** All new files hold the same, apart from when they were created. *)
From Verif Require Import M_Sync Spec_Tx Spec_Conn Spec_Transact Spec_Sync P_Base P_Partition P_Store P_Fill P_Value P_Step P_Meta P_Inv P_Upsert P_Resolve P_Conn P_TxProps P_Timelines P_SchemaStep P_Sort P_SyncStep P_SyncReplay P_SyncChain.

Definition boot_stage1 : res (schema * list term_lt * inproc) :=
  let! s := bootstrap_schema_res in
  let! (tx, pm) := pm_allocate bootstrap_partition_map ":db.part/tx" 1 in
  let! (ts, ip) := stage1 pm s tx bootstrap_entities in Ok (s, ts, ip).
Definition plain_lt (t : term_lt) : option term_s :=
  match tm_e t, tm_v t with inl e, inl v => Some (Term (tm_op t) e (tm_a t) v) | _, _ => None end.
Definition boot_terms : list term_s := match boot_stage1 with Ok (_, ts, _) => omap plain_lt ts | _ => [] end.
Definition boot_checks : bool :=
  match boot_stage1 with
  | Ok (s, ts, ip) =>
      forallb (fun t => is_some (plain_lt t)) ts
      && forallb (fun t => bool_decide (tm_op t = OAdd) && bool_decide (tm_a t <> DB_TX_INSTANT) && (tm_e t <? TX0)
                           && match sc_attribute_map s !! tm_a t with Some at_ => negb (at_fulltext at_) | None => false end)
            (omap plain_lt ts)
      && match sc_attribute_map s !! DB_TX_INSTANT with Some at_ => negb (at_fulltext at_) | None => false end
  | _ => false
  end.
Lemma boot_checks_ok : boot_checks = true.
Proof. vm_compute. reflexivity. Qed.

Lemma plain_lt_Some t u : plain_lt t = Some u -> t = lt_of u.
Proof. destruct t as [o [e|] a [v|]]; unfold plain_lt; simpl; try done. by intros [= <-]. Qed.
Lemma boot_terms_of ts : forallb (fun t => is_some (plain_lt t)) ts = true -> ts = map lt_of (omap plain_lt ts).
Proof.
  induction ts as [|t ts IH]; [done|]. cbn [forallb]. rewrite andb_true_iff. intros [Ht Hts]. destruct (plain_lt t) as [u|] eqn:E; [|done].
  change (omap plain_lt (t :: ts)) with (match plain_lt t with Some y => y :: omap plain_lt ts | None => omap plain_lt ts end). rewrite E. cbn [map]. rewrite <- IH by done. f_equal. by apply plain_lt_Some.
Qed.
Lemma plain_entities mv st pm s tx es ts ids l : (exists ip, stage1 pm s tx es = Ok (map lt_of l, ip)) ->
  entities_to_terms mv st pm s tx es = Ok (ts, ids) -> ts = map inert_term l.
Proof.
  intros (ip & E) H. unfold entities_to_terms in H. rewrite E in H. cbn [rbind] in H. apply rbind_Ok in H as (look & _ & H).
  apply rbind_Ok in H as (ts1 & Hr & [= <- _]). unfold resolve_lookup_refs in Hr. apply rmapM_Ok in Hr. clear E. revert ts1 Hr.
  induction l as [|p ps IH]; intros ts1 Hr; inversion Hr; subst; [done|]. cbn [map]. f_equal; [|by apply IH]. cbn in *. by simplify_eq.
Qed.

(** What the bootstrap says *)
Definition boot_says (i : Z) (e a : Z) (p : sqlval * Z) : Prop :=
  (exists v, Term OAdd e a v ∈ boot_terms /\ to_sql_value_pair v = p) \/ (e = TX0 /\ a = DB_TX_INSTANT /\ p = to_sql_value_pair (TVInstant i)).
Record boot_rows (l : list txrow) : Prop := {
  br_tx : forall r, r ∈ l -> t_tx r = TX0 /\ t_timeline r = TIMELINE_MAIN /\ t_added r = true;
  br_says : exists i, forall e a p, (exists r, r ∈ l /\ t_e r = e /\ t_a r = a /\ (t_v r, t_tag r) = p) <-> boot_says i e a p }.

Lemma boot_says_attr s i e a p : bootstrap_schema_res = Ok s -> boot_says i e a p -> exists at_, sc_attribute_map s !! a = Some at_ /\ at_fulltext at_ = false.
Proof.
  intros Hs. pose proof boot_checks_ok as C. unfold boot_checks, boot_says, boot_terms in *. unfold boot_stage1 in *. rewrite Hs in *. cbn [rbind] in *.
  destruct (rbind _ _) as [[[s1 ts] ip]| |] eqn:E; [|done..].
  assert (s1 = s) as ->. { apply rbind_Ok in E as ([tx pm] & _ & E). by apply rbind_Ok in E as ([ts1 ip1] & _ & [= -> _ _]). }
  rewrite !andb_true_iff in C. destruct C as [[C1 C2] C3]. intros [(v & Hv & _)|(-> & -> & _)].
  - rewrite forallb_forall in C2. apply elem_of_list_In in Hv. specialize (C2 _ Hv). cbn [tm_a] in C2. rewrite !andb_true_iff in C2. destruct C2 as [_ C2].
    destruct (sc_attribute_map s !! a) as [at_|]; [|done]. exists at_. split; [done|]. by destruct (at_fulltext at_).
  - destruct (sc_attribute_map s !! DB_TX_INSTANT) as [at_|]; [|done]. exists at_. split; [done|]. by destruct (at_fulltext at_).
Qed.
Lemma boot_terms_about t : t ∈ boot_terms -> tm_op t = OAdd /\ tm_a t <> DB_TX_INSTANT /\ tm_e t < TX0.
Proof.
  pose proof boot_checks_ok as C. unfold boot_checks, boot_terms in *. destruct boot_stage1 as [[[s1 ts] ip]| |]; [|done..].
  rewrite !andb_true_iff in C. destruct C as [[_ C2] _]. rewrite forallb_forall in C2. intros Ht%elem_of_list_In. specialize (C2 _ Ht).
  rewrite !andb_true_iff, !bool_decide_eq_true, Z.ltb_lt in C2. tauto.
Qed.

Lemma first_facts m st n : store_ok m st n -> (forall r, r ∈ st_log st -> t_added r = true) ->
  (forall r at_, r ∈ st_log st -> m !! t_a r = Some at_ -> at_fulltext at_ = false) ->
  forall e a p, (e, a, p) ∈ facts st <-> exists r, r ∈ st_log st /\ t_e r = e /\ t_a r = a /\ (t_v r, t_tag r) = p.
Proof.
  intros H0 Hadd Hft e a p. assert (transactions st = st_log st) as Et by apply transactions_all, H0. rewrite (facts_elem m) by apply H0. split.
  - intros (d & at_ & tv & Hd & <- & <- & Ha & (T & Ee & N) & ->).
    destruct (proj1 (so_log _ _ _ H0 (d_key d) (d_tx d))) as (r & Hr & _); [by exists d|].
    apply last_elem, rows_of_elem in Hr as [Hr Hk]. rewrite Et in Hr. exists r. unfold t_key, d_key in Hk. injection Hk as K1 K2 K3 K4.
    split_and!; try done. rewrite K3, K4, Ee. rewrite enc_plain; [done|]. apply (Hft r); [done|]. by rewrite K2.
  - intros (r & Hr & <- & <- & <-).
    assert (exists r0, last (rows_of (transactions st) (t_key r)) = Some r0) as (r0 & Hr0).
    { destruct (last (rows_of (transactions st) (t_key r))) as [r0|] eqn:E; [by exists r0|]. apply last_None in E.
      assert (r ∈ rows_of (transactions st) (t_key r)) as K by (apply rows_of_elem; by rewrite Et). rewrite E in K. by apply elem_of_nil in K. }
    pose proof Hr0 as Hin. apply last_elem, rows_of_elem in Hin as [Hin Hk]. rewrite Et in Hin.
    destruct (proj2 (so_log _ _ _ H0 (t_key r) (t_tx r0))) as (d & Hd & Ek & _); [exists r0; split_and!; try done; by apply Hadd|].
    unfold t_key, d_key in Ek. injection Ek as K1 K2 K3 K4. destruct (so_datoms _ _ _ H0 d Hd) as (at_ & Ha & (tv & Hs) & _).
    exists d, at_, tv. rewrite <- K2. split_and!; try done. destruct Hs as (T & Ee & N). rewrite enc_plain in Ee by (apply (Hft r); [done|]; by rewrite <- K2).
    by rewrite <- Ee, K3, K4.
Qed.

Lemma create_boot mv now d : create_current_version mv now = Ok d -> bootstrap_schema_res = Ok (db_schema d) /\ boot_rows (st_log (db_store d)).
Proof.
  intros H. pose proof (create_ok _ _ _ H) as [[Htx _ _ _ _ _] Hadd]. unfold create_current_version in H. apply rbind_Ok in H as (s & Hs & H).
  pose proof (bootstrap_core s Hs) as Hcore. pose proof (core_instant _ Hcore) as Hi.
  pose proof (fun i e a p => boot_says_attr s i e a p Hs) as Hattr. pose proof boot_terms_about as Habout.
  assert (forall mv st pm tx ts ids, pm_allocate bootstrap_partition_map ":db.part/tx" 1 = Ok (tx, pm) -> entities_to_terms mv st pm s tx bootstrap_entities = Ok (ts, ids) -> ts = map inert_term boot_terms) as Hents.
  { intros mv0 st0 pm tx ts ids Hal. apply plain_entities. pose proof boot_checks_ok as C. unfold boot_checks, boot_terms, boot_stage1 in *.
    rewrite Hs, Hal in *. cbn [rbind] in *. destruct (stage1 pm s tx bootstrap_entities) as [[ts0 ip]| |]; [|done..]. cbn [rbind] in *.
    rewrite !andb_true_iff in C. destruct C as [[C1 _] _]. exists ip. by rewrite <- boot_terms_of. }
  enough (db_schema d = s /\ boot_rows (st_log (db_store d))) as [-> ?] by (split; assumption). clear Hs. revert H Hents. generalize bootstrap_entities. intros bes H Hents.
  assert (bootstrap_partition_map !! ":db.part/tx" = Some (Part TX0 I64_MAX false TX0)) as Hbp by (vm_compute; reflexivity).
  revert H Hbp Hents. generalize bootstrap_partition_map. intros bpm H Hbp Hents.
  assert (sc_attribute_map schema_default = ∅) as Hsd by done. revert H Hsd. generalize schema_default. intros sd H Hsd.
  destruct (transact _ _ _ _ _ _ _) as [st' [r| |]] eqn:Et; [|discriminate H..].
  assert (d = Db st' (tr_parts r) s) as ->.
  { destruct (tr_schema r) as [s'|]; [|by injection H as <-]. destruct (decide (s' = s)) as [->|]; [|done]. by injection H as <-. }
  clear H. cbn [db_store db_parts db_schema] in *. split; [done|].
  set (st0 := Store [] [] [] [] [] bootstrap_known_parts) in *.
  unfold transact in Et. destruct (pm_allocate _ _ _) as [[tx pm1]| |] eqn:Ep; try done.
  destruct (entities_to_terms _ _ _ _ _ _) as [[ts ids]| |] eqn:Ee; try done.
  apply (Hents _ _ _ _ _ _ eq_refl) in Ee as ->. clear Hents.
  apply tx_alloc in Ep as (p0 & Hp0 & -> & _). assert (p0 = Part TX0 I64_MAX false TX0) as -> by congruence. cbn [pt_next] in *.
  apply transact_simple_Ok in Et as (rv & tr & Hrv & Htr & Hwf & Hap & _ & _ & _).
  apply resolve_inert in Hrv as (R1 & R2 & R3). rewrite R1, R2, R3 in Htr. clear R1 R2 R3. apply into_aev_trie_Ok in Htr as (_ & _ & Hreq).
  assert (store_ok (sc_attribute_map s) st0 TX0) as H0 by apply store_ok_empty.
  pose proof (applied_trie_ok _ _ _ _ _ _ _ _ _ _ _ H0 Hi Hwf Hap) as (st2 & rs & tr' & H2 & Hapd & Hins & Hkp & _ & _ & He & _).
  assert (st_log st' = st_log st2) as Elog.
  { destruct (existsb _ _); [|by injection He as <- _]. unfold evolve_metadata in He. destruct (rbind _ _) as [[n2 rep]| |]; [|done..].
    case_decide; [by injection He as <- _|]. apply with_st_Ok in He as (st3 & u & Hum & [= <- _]).
    pose proof (update_metadata_log st2 n2 rep) as Hl. by rewrite Hum in Hl. }
  destruct (ap_log _ _ _ _ _ _ _ Hapd) as (new & El & Hnew). change (st_log st0) with (@nil txrow) in El. cbn [app] in El.
  set (i := rp_instant (tr_report r)) in *.
  assert (forall e a p, asked tr' OAdd e a p <-> boot_says i e a p) as Hask.
  { intros e a p. unfold boot_says. split.
    - intros (v & Hv & <-). apply (ap_req _ _ _ _ _ _ _ Hapd) in Hv as [Hv|(_ & -> & -> & ->)]; [|by right]. left. exists v. split; [|done].
      apply Hreq in Hv as [[]%elem_of_nil|[[]%elem_of_nil|(t & E%inert_term_inj & Hin)%elem_of_list_fmap]]. by subst.
    - intros [(v & Hv & <-)|(-> & -> & ->)].
      + exists v. split; [|done]. apply (ap_req _ _ _ _ _ _ _ Hapd). left. apply Hreq. right. right. apply elem_of_list_fmap. by eexists.
      + eexists. split; [|done]. apply (ap_req _ _ _ _ _ _ _ Hapd). by right. }
  assert (forall e a p, (e, a, p) ∈ facts st2 <-> boot_says i e a p) as Hfacts.
  { intros e a p. split.
    - intros Hf. destruct (ap_known _ _ _ _ _ _ _ Hapd _ _ _ Hf) as (at_ & Ha). apply Hask. apply (ap_facts _ _ _ _ _ _ _ Hapd e a p at_ Ha) in Hf.
      destruct (at_multival at_); destruct Hf as [[[]%elem_of_nil _]|[Hf _]]; done.
    - intros Hb. destruct (Hattr i e a p Hb) as (at_ & Ha & _). apply (ap_facts _ _ _ _ _ _ _ Hapd e a p at_ Ha). apply Hask in Hb.
      destruct (at_multival at_); right; (split; [done|by intros ?%elem_of_nil]). }
  assert (forall e a p, changed st0 st2 true (e, a, p) <-> boot_says i e a p) as Hch.
  { intros e a p. unfold changed. rewrite Hfacts. split; [tauto|]. intros ?. split; [by intros ?%elem_of_nil|done]. }
  rewrite Elog, El in *. split.
  - intros x Hx. destruct (Hnew x Hx) as [-> ->]. split_and!; try done. by apply Hadd.
  - exists i. intros e a p. rewrite <- Hch, <- (ap_rows _ _ _ _ _ _ _ Hapd new El). split.
    + intros (x & Hx & <- & <- & <-). exists x. split_and!; try done; [by apply Hadd|].
      destruct (ap_valued _ _ _ _ _ _ _ Hapd new x El Hx) as (q & Hq).
      assert (changed st0 st2 true (t_e x, t_a x, q)) as Hc by (apply (ap_rows _ _ _ _ _ _ _ Hapd new El); exists x; split_and!; try done; by apply Hadd).
      apply Hch in Hc. destruct (Hattr _ _ _ _ Hc) as (at_ & Ha & Hf). exists at_. split; [done|]. by rewrite Hf.
    + intros (x & Hx & <- & <- & Hb & Hv). exists x. split_and!; try done.
      assert (changed st0 st2 true (t_e x, t_a x, p)) as Hc by (apply (ap_rows _ _ _ _ _ _ _ Hapd new El); by exists x).
      apply Hch in Hc. destruct (Hattr _ _ _ _ Hc) as (at_ & Ha & Hf). destruct Hv as (at2 & Ha2 & Hp). assert (at2 = at_) as -> by congruence. by rewrite Hf in Hp.
Qed.

(* ---------------------------------------------------------------- new files *)

Lemma res_inj {A} (x : res A) a b : x = Ok a -> x = Ok b -> a = b.
Proof. intros -> [= ->]. done. Qed.

Record opened (c : conn) : Prop := {
  op_ok : conn_ok c;
  op_boot : boot_rows (st_log (disk c));
  op_schema : bootstrap_schema_res = Ok (schema_of c);
  op_facts : forall e a p, (e, a, p) ∈ facts (disk c) <-> exists r, r ∈ st_log (disk c) /\ t_e r = e /\ t_a r = a /\ (t_v r, t_tag r) = p }.
Lemma conn_open_opened mv now c : conn_open mv now None = Ok c -> opened c.
Proof.
  intros H. pose proof (conn_open_ok _ _ _ H) as [Hok Hadd]. unfold conn_open in H. apply rbind_Ok in H as (d & Hd & [= <-]).
  pose proof (create_boot _ _ _ Hd) as [Hs Hb]. clear Hd. split; [assumption|assumption|assumption|].
  pose proof (fun i e a p => boot_says_attr _ i e a p Hs) as Hattr. clear Hs. cbn [cn_disk] in *. pose proof Hok as [(p & _ & H0 & _) _ _ _ _ _].
  apply (first_facts _ _ _ H0 Hadd). intros r at_ Hr Ha. destruct (br_says _ Hb) as (i & Hi).
  destruct (Hattr i (t_e r) (t_a r) (t_v r, t_tag r)) as (at2 & Ha2 & Hf); [apply Hi; by exists r|].
  cbn in Ha2, Ha. congruence.
Qed.
Lemma boot_rows_about l r : boot_rows l -> r ∈ l -> (t_a r = DB_TX_INSTANT -> t_e r = TX0) /\ (TX0 <= t_e r -> t_e r = TX0).
Proof.
  intros H Hr. destruct (br_says _ H) as (i & Hi). assert (boot_says i (t_e r) (t_a r) (t_v r, t_tag r)) as [(v & Hv & _)|(E1 & E2 & _)] by (apply Hi; by exists r).
  - apply boot_terms_about in Hv as (_ & ? & ?). cbn [tm_a tm_e] in *. split; [done|lia].
  - done.
Qed.
Lemma boot_rows_same l1 l2 r : boot_rows l1 -> boot_rows l2 -> ~ about_creation (t_e r) (t_a r) -> r ∈ l1 -> r ∈ l2.
Proof.
  intros H1 H2 N Hr. destruct (br_says _ H1) as (i & Hi), (br_says _ H2) as (j & Hj).
  assert (boot_says i (t_e r) (t_a r) (t_v r, t_tag r)) as Hs by (apply Hi; by exists r).
  assert (boot_says j (t_e r) (t_a r) (t_v r, t_tag r)) as Hs' by (destruct Hs as [?|(? & ? & _)]; [by left|by destruct N]).
  apply Hj in Hs' as (r' & Hr' & E1 & E2 & E3). destruct (br_tx _ H1 r Hr) as (X1 & X2 & X3), (br_tx _ H2 r' Hr') as (Y1 & Y2 & Y3).
  assert (r = r') as ->; [|done]. destruct r, r'. simpl in *. congruence.
Qed.
Lemma boot_rows_ne l : boot_rows l -> exists r, r ∈ l /\ t_e r = TX0 /\ t_a r = DB_TX_INSTANT.
Proof.
  intros H. destruct (br_says _ H) as (i & Hi). destruct (proj2 (Hi TX0 DB_TX_INSTANT (to_sql_value_pair (TVInstant i)))) as (r & Hr & E1 & E2 & _); [by right|].
  by exists r.
Qed.
Lemma boot_rows_sendable l : boot_rows l -> sendable l.
Proof.
  intros H. split.
  - intros r Hr [_ E]. destruct (br_tx _ H r Hr) as (_ & _ & E'). congruence.
  - intros r Hr Ha. destruct (br_tx _ H r Hr) as (-> & _). exact (proj1 (boot_rows_about l r H Hr) Ha).
  - intros r Hr Ha. destruct (br_tx _ H r Hr) as (-> & _). by rewrite (proj2 (boot_rows_about l r H Hr) Ha).
  - intros r v Hr Ht. destruct (br_tx _ H r Hr) as (E & _). lia.
Qed.
Lemma opened_same c1 c2 : opened c1 -> opened c2 -> feq (disk c1) (disk c2) /\ schema_of c1 = schema_of c2.
Proof.
  intros H1 H2. split; [|exact (res_inj _ _ _ (op_schema _ H1) (op_schema _ H2))]. intros e a p N.
  rewrite (op_facts _ H1), (op_facts _ H2). split; intros (r & Hr & <- & <- & <-); exists r; (split; [|done]).
  - exact (boot_rows_same _ _ r (op_boot _ H1) (op_boot _ H2) N Hr).
  - exact (boot_rows_same _ _ r (op_boot _ H2) (op_boot _ H1) N Hr).
Qed.

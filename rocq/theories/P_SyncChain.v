(** Histories as chains of transactions. *)
From Verif Require Import M_Sync Spec_Tx Spec_Conn Spec_Transact Spec_Sync P_Base P_Partition P_Store P_Fill P_Value P_Step P_Meta P_Inv P_Upsert P_Resolve P_Conn P_TxProps P_Timelines P_SchemaStep P_Sort P_SyncStep P_SyncReplay.

Notation seg := (Z * list txrow)%type (only parsing).
Fixpoint chain (st : store) (s : schema) (segs : list seg) (st' : store) (s' : schema) : Prop :=
  match segs with
  | [] => feq st st' /\ s = s'
  | (tx, new) :: segs => exists st0 st1 s1, feq st st0 /\ step st0 s tx new st1 s1 /\ chain st1 s1 segs st' s'
  end.
Definition rows_of_segs (segs : list seg) : list txrow := concat (map snd segs).
Fixpoint ordered (l : list txrow) (segs : list seg) : Prop :=
  match segs with [] => True | (tx, new) :: segs => (forall r, r ∈ l -> t_tx r < tx) /\ ordered (l ++ new) segs end.

(** A transaction of a log that is [sendable] *)
Record seg_ok (x : seg) : Prop := {
  sg_tx : TX0 < x.1 <= I64_MAX;
  sg_rows : forall r, r ∈ x.2 -> t_tx r = x.1 /\ t_timeline r = TIMELINE_MAIN;
  sg_own : forall r, r ∈ x.2 -> t_a r = DB_TX_INSTANT -> t_e r = x.1;
  sg_inst : exists r, r ∈ x.2 /\ t_e r = x.1 /\ t_a r = DB_TX_INSTANT /\ t_added r = true;
  sg_earlier : forall r, r ∈ x.2 -> TX0 <= t_e r -> t_e r <= x.1;
  sg_back : forall r v, r ∈ x.2 -> from_sql_value_pair (t_v r) (t_tag r) = Ok v -> to_sql_value_pair v = (t_v r, t_tag r);
  sg_installed : never_uninstalled x.2 }.
Definition readable (x : seg) : Prop := forall r, r ∈ x.2 -> is_ok (from_sql_value_pair (t_v r) (t_tag r)) = true.
Definition seg_eq (x y : seg) : Prop := x.1 = y.1 /\ x.2 ≡ₚ y.2.
Global Instance seg_eq_equiv : Equivalence seg_eq.
Proof. split; [by intros ?|by intros x y [? ?]|intros x y z [E1 P1] [E2 P2]; split; [congruence|by rewrite P1]]. Qed.

Lemma feq_refl st : feq st st.
Proof. by intros e a p _. Qed.
Lemma chain_feq st0 st s segs st' s' : feq st0 st -> chain st s segs st' s' -> chain st0 s segs st' s'.
Proof.
  intros H. destruct segs as [|[tx new] segs]; simpl; [intros [? ?]; split; [by eapply feq_trans|done]|].
  intros (st1 & st2 & s1 & F & R). exists st1, st2, s1. split; [by eapply feq_trans|done].
Qed.
Lemma chain_app l1 : forall st s st1 s1 l2 st2 s2, chain st s l1 st1 s1 -> chain st1 s1 l2 st2 s2 -> chain st s (l1 ++ l2) st2 s2.
Proof.
  induction l1 as [|[tx new] l1 IH]; intros st s st1 s1 l2 st2 s2 H1 H2; cbn [chain app] in *.
  - destruct H1 as [F ->]. by eapply chain_feq.
  - destruct H1 as (sta & stb & sb & F & T & C). exists sta, stb, sb. split_and!; try done. by eapply IH.
Qed.
Lemma chain_split l1 : forall st s l2 st2 s2, chain st s (l1 ++ l2) st2 s2 -> exists st1 s1, chain st s l1 st1 s1 /\ chain st1 s1 l2 st2 s2.
Proof.
  induction l1 as [|[tx new] l1 IH]; intros st s l2 st2 s2 H; cbn [chain app] in *.
  - exists st, s. split; [split; [apply feq_refl|done]|done].
  - destruct H as (sta & stb & sb & F & T & C). apply IH in C as (st1 & s1 & C1 & C2). exists st1, s1. split; [|done]. by exists sta, stb, sb.
Qed.

Lemma plain_of_grows m st tx new st' : grows m st tx new st' -> seg_ok (tx, new) -> readable (tx, new) -> plain_rows m new.
Proof.
  intros G Hok Hr r Hin. specialize (Hr r Hin). cbn [snd] in Hr.
  destruct (from_sql_value_pair (t_v r) (t_tag r)) as [v| |] eqn:E; [|done..].
  split; [|exists v; split; [done|]; by apply (sg_back _ Hok)].
  destruct (gr_typed _ _ _ _ _ G r Hin) as (f & at_ & tv & Ha & T & Ee & N). exists at_. split; [done|].
  destruct (at_fulltext at_) eqn:Hf; [|done]. destruct (enc_fulltext _ _ _ _ _ Hf Ee N) as (x & i & -> & _ & Ev & Et). by rewrite Ev, Et in E.
Qed.

Lemma chain_det segs1 : forall segs2 st1 st2 s st1' st2' s1' s2', chain st1 s segs1 st1' s1' -> chain st2 s segs2 st2' s2' -> Forall2 seg_eq segs1 segs2 ->
  Forall seg_ok segs1 -> Forall readable segs1 -> feq st1 st2 -> feq st1' st2' /\ s1' = s2'.
Proof.
  induction segs1 as [|[tx new] segs1 IH]; intros segs2 st1 st2 s st1' st2' s1' s2' C1 C2 Hs Hok Hr F; inversion Hs as [|? [tx2 new2] ? segs2' [E P] Hs']; subst; cbn [chain] in *.
  - destruct C1 as [F1 <-], C2 as [F2 <-]. split; [|done]. eapply feq_trans; [by apply feq_sym|]. by eapply feq_trans.
  - destruct C1 as (a1 & b1 & c1 & F1 & T1 & C1), C2 as (a2 & b2 & c2 & F2 & T2 & C2).
    apply Forall_cons in Hok as [Ho Hok], Hr as [Hr0 Hr]. assert (feq a1 a2) as F' by (eapply feq_trans; [by apply feq_sym|]; by eapply feq_trans).
    destruct (step_det _ _ _ _ _ _ _ _ _ _ _ T1 T2) as [G1 ->]; try done; [by eapply plain_of_grows; [apply T1|..]|]. by eapply IH.
Qed.

Lemma ordered_app l s1 : forall s2, ordered l (s1 ++ s2) <-> ordered l s1 /\ ordered (l ++ rows_of_segs s1) s2.
Proof.
  revert l. induction s1 as [|[tx new] s1 IH]; intros l s2; cbn [app ordered rows_of_segs map concat snd].
  - rewrite app_nil_r. tauto.
  - rewrite IH, app_assoc. unfold rows_of_segs. tauto.
Qed.
Lemma rows_of_segs_app s1 s2 : rows_of_segs (s1 ++ s2) = rows_of_segs s1 ++ rows_of_segs s2.
Proof. unfold rows_of_segs. by rewrite map_app, concat_app. Qed.

(* ---------------------------------------------------------------- one history *)

Record extended (st : store) (s : schema) (segs : list seg) (st' : store) (s' : schema) : Prop := {
  ex_log : st_log st' = st_log st ++ rows_of_segs segs;
  ex_chain : chain st s segs st' s';
  ex_ok : Forall seg_ok segs;
  ex_ordered : ordered (st_log st) segs }.
Lemma extended_refl st s : extended st s [] st s.
Proof. split; [by rewrite app_nil_r|split; [apply feq_refl|done]|constructor|done]. Qed.
Lemma extended_trans st s l1 st1 s1 l2 st2 s2 : extended st s l1 st1 s1 -> extended st1 s1 l2 st2 s2 -> extended st s (l1 ++ l2) st2 s2.
Proof.
  intros [A1 A2 A3 A4] [B1 B2 B3 B4]. split.
  - by rewrite B1, A1, rows_of_segs_app, app_assoc.
  - by eapply chain_app.
  - by apply Forall_app.
  - apply ordered_app. by rewrite <- A1.
Qed.

Lemma facts_logged_a m st n e a p : store_ok m st n -> (e, a, p) ∈ facts st -> exists r, r ∈ st_log st /\ t_e r = e /\ t_a r = a.
Proof.
  intros H0 Hf. apply (facts_elem m) in Hf as (d & at_ & tv & Hd & He & Ha & _); [|apply H0].
  destruct (proj1 (so_log _ _ _ H0 (d_key d) (d_tx d))) as (r & Hr & _); [by exists d|].
  apply last_elem, rows_of_elem in Hr as [Hr Hk]. exists r. split.
  - unfold transactions in Hr. by apply elem_of_list_filter in Hr as [_ Hr].
  - unfold t_key, d_key in Hk. split; congruence.
Qed.

Lemma sendable_app l new : sendable (l ++ new) -> sendable l.
Proof. intros [A B C D]. split; [by eapply never_uninstalled_app|..]; intros r; [intros ?; apply B; set_solver|intros ?; apply C; set_solver|intros v ?; apply D; set_solver]. Qed.

Lemma step_feq st s tx new st1 st' s' : step st s tx new st1 s' -> (forall x, x ∈ facts st' <-> x ∈ facts st1) -> chain st s [(tx, new)] st' s'.
Proof. intros H F. exists st, st1, s'. split; [apply feq_refl|]. split; [done|]. split; [|done]. intros e a p _. by rewrite F. Qed.

Lemma transact_extended mv now st pm pm1 s tx ts ids st' r : db_ok st pm s -> st_log st <> [] -> pm_allocate pm ":db.part/tx" 1 = Ok (tx, pm1) ->
  transact_simple_terms mv now MaterializeAndCommit st pm1 s s tx ts ids = (st', Ok r) -> sendable (st_log st') ->
  exists segs, extended st s segs st' (default s (tr_schema r)).
Proof.
  intros H0 Hne Hal H Hsd. destruct (transact_grows _ _ _ _ _ _ _ _ _ _ _ H0 Hal H) as (rv & tr & tr' & i & st2 & new & _ & _ & _ & _ & _ & G & El & Hf & Hq).
  assert (st_log st' = st_log st ++ new) as El' by (rewrite El; apply G).
  assert (tx <= I64_MAX) as Hmax.
  { destruct (ok_tx _ _ _ H0) as (p & Hp & _ & _ & _ & B). pose proof (tx_alloc _ _ _ Hal) as (p0 & Hp0 & E & _). assert (p0 = p) as -> by congruence. lia. }
  assert (TX0 < tx) as Htx.
  { destruct (st_log st) as [|r0 l] eqn:E; [done|]. assert (r0 ∈ st_log st) as Hr0 by (rewrite E; left).
    pose proof (ok_range _ _ _ H0 r0 Hr0). pose proof (gr_old _ _ _ _ _ G r0 Hr0). lia. }
  assert (forall x, x ∈ new -> x ∈ st_log st' /\ t_tx x = tx) as Hin.
  { intros x Hx. split; [rewrite El'; set_solver|]. by apply (gr_new _ _ _ _ _ G). }
  exists [(tx, new)]. split.
  - by rewrite El'; unfold rows_of_segs; cbn [map concat snd]; rewrite app_nil_r.
  - eapply step_feq; [split; [exact G|exact Hq]|]. by apply Hf, Hsd.
  - repeat constructor; cbn [fst snd]; try done.
    + apply (gr_new _ _ _ _ _ G). done.
    + apply (gr_new _ _ _ _ _ G). done.
    + intros x Hx Ha. destruct (Hin x Hx) as [Hx' Et]. rewrite <- Et. by apply (sd_instant _ Hsd).
    + destruct (gr_instant _ _ _ _ _ G) as (i0 & Hi).
      { intros p Hp. destruct (ok_tx _ _ _ H0) as (q & _ & Hst & _). destruct (facts_logged_a _ _ _ _ _ _ Hst Hp) as (x & Hx & E1 & E2).
        pose proof (gr_old _ _ _ _ _ G x Hx). assert (t_e x = t_tx x) by (apply (sd_instant _ Hsd); [rewrite El'; set_solver|done]). lia. }
      assert (changed st st2 true (tx, DB_TX_INSTANT, to_sql_value_pair (TVInstant i0))) as Hc.
      { split; [|done]. intros Hp. destruct (ok_tx _ _ _ H0) as (q & _ & Hst & _). destruct (facts_logged_a _ _ _ _ _ _ Hst Hp) as (x & Hx & E1 & E2).
        pose proof (gr_old _ _ _ _ _ G x Hx). assert (t_e x = t_tx x) by (apply (sd_instant _ Hsd); [rewrite El'; set_solver|done]). lia. }
      apply (gr_rows _ _ _ _ _ G) in Hc as (x & Hx & E1 & E2 & E3 & _). by exists x.
    + intros x Hx. destruct (Hin x Hx) as [Hx' Et]. rewrite <- Et. intros. by apply (sd_earlier _ Hsd).
    + intros x v Hx. destruct (Hin x Hx) as [Hx' Et]. intros Hv. apply (sd_reads_back _ Hsd); [done|lia|done].
    + intros x Hx. apply (sd_installed _ Hsd). by apply Hin.
  - split; [|done]. apply (gr_old _ _ _ _ _ G).
Qed.

Lemma ig_step_extended mv ig o ig' r : ig_ok ig -> st_log (ig_store ig) <> [] -> ig_step mv ig o = (ig', r) -> (match o with OpRollbackTo _ => False | _ => True end) ->
  r = Ok tt \/ ig_store ig' = ig_store ig -> sendable (st_log (ig_store ig')) ->
  exists segs, extended (ig_store ig) (ig_schema ig) segs (ig_store ig') (ig_schema ig').
Proof.
  intros H0 Hne H Ho Hr Hd. destruct o as [now es|now ts ids|n|n|n]; simpl in H; try done.
  - unfold ig_transact, ig_transacted in H.
    destruct (ig_watch_same ig (watch_transact mv now (ig_store ig) (ig_parts ig) (ig_schema ig) es)) as (W1 & W2 & W3 & _).
    destruct (transact _ _ _ _ _ _ _) as [st' [x| |]] eqn:Et; simplify_eq/=.
    + rewrite W3. unfold transact in Et. destruct (pm_allocate (ig_parts ig) ":db.part/tx" 1) as [[tx pm1]| |] eqn:Ep; [|done..].
      destruct (entities_to_terms _ _ _ _ _ _) as [[ts ids]| |] eqn:Ee; [|done..]. by eapply transact_extended.
    + destruct Hr as [?|Hr]; [done|]. rewrite W3, Hr. exists []. apply extended_refl.
    + destruct Hr as [?|Hr]; [done|]. rewrite W3, Hr. exists []. apply extended_refl.
  - unfold ig_transact_terms, ig_transacted in H.
    destruct (ig_watch_same ig (watch_transact_terms mv now (ig_store ig) (ig_parts ig) (ig_schema ig) ts ids)) as (W1 & W2 & W3 & _).
    destruct (transact_terms _ _ _ _ _ _ _ _ _) as [st' [x| |]] eqn:Et; simplify_eq/=.
    + rewrite W3. unfold transact_terms in Et. destruct (pm_allocate (ig_parts ig) ":db.part/tx" 1) as [[tx pm1]| |] eqn:Ep; [|done..]. by eapply transact_extended.
    + destruct Hr as [?|Hr]; [done|]. rewrite W3, Hr. exists []. apply extended_refl.
    + destruct Hr as [?|Hr]; [done|]. rewrite W3, Hr. exists []. apply extended_refl.
  - unfold ig_savepoint in H. simplify_eq/=. exists []. apply extended_refl.
  - unfold ig_release_savepoint in H. destruct (savepoints_from _ _) as [[st l]|]; simplify_eq/=; exists []; apply extended_refl.
Qed.
Lemma extended_ne st s segs st' s' : extended st s segs st' s' -> st_log st <> [] -> st_log st' <> [].
Proof. intros H Hne E. rewrite (ex_log _ _ _ _ _ H) in E. by apply app_eq_nil in E as [? _]. Qed.

Lemma ig_steps_extended mv l : forall ig ig' rs, ig_ok ig -> st_log (ig_store ig) <> [] -> ig_steps mv ig l = Ok (ig', rs) -> clean_calls mv ig l ->
  sendable (st_log (ig_store ig')) -> exists segs, extended (ig_store ig) (ig_schema ig) segs (ig_store ig') (ig_schema ig').
Proof.
  induction l as [|o l IH]; intros ig ig' rs H0 Hne H Hc Hd; cbn [ig_steps clean_calls] in H, Hc.
  - injection H as <- <-. exists []. apply extended_refl.
  - destruct (ig_step mv ig o) as [ig1 r] eqn:Eo. destruct Hc as (Hno & Hr & Hc).
    assert (exists rs', ig_steps mv ig1 l = Ok (ig', rs')) as (rs' & H').
    { destruct r; [| |done]; apply rbind_Ok in H as ([ig2 rs'] & H & [= -> <-]); eauto. }
    destruct (ig_steps_log _ _ _ _ _ H' Hc) as (new & E).
    assert (sendable (st_log (ig_store ig1))) as Hd1 by (rewrite E in Hd; by eapply sendable_app).
    destruct (ig_step_extended mv ig o ig1 r) as (s1 & X1); try done.
    destruct (IH ig1 ig' rs') as (s2 & X2); try done.
    + apply (ig_step_ok mv ig o ig1 r); try done. apply Hd1.
    + by eapply extended_ne.
    + exists (s1 ++ s2). by eapply extended_trans.
Qed.
Lemma conn_step_extended mv c o : conn_ok c -> st_log (disk c) <> [] -> clean_step mv c o -> (match o with CReopen => schema_of (conn_step mv c o).1 = schema_of c | _ => True end) ->
  sendable (st_log (disk (conn_step mv c o).1)) ->
  exists segs, extended (disk c) (schema_of c) segs (disk (conn_step mv c o).1) (schema_of (conn_step mv c o).1).
Proof.
  intros H0 Hne Hc Hre Hd. destruct o as [now es|l commit|].
  - cbn [conn_step] in Hd |- *. destruct (conn_transact mv now c es) as [c' r] eqn:E. cbn [fst] in Hd |- *. destruct r as [x| |].
    + apply conn_transact_Ok in E as (y & Et & _ & Em). rewrite Em. cbn [md_schema].
      unfold transact in Et. destruct (pm_allocate (md_parts (cn_md c)) ":db.part/tx" 1) as [[tx pm1]| |] eqn:Ep; [|done..].
      destruct (entities_to_terms _ _ _ _ _ _) as [[ts ids]| |] eqn:Ee; [|done..]. by eapply transact_extended.
    + apply conn_transact_fail in E as ->; [|done]. exists []. apply extended_refl.
    + apply conn_transact_fail in E as ->; [|done]. exists []. apply extended_refl.
  - cbn [conn_step] in Hd |- *. destruct (ig_steps mv (conn_begin c) l) as [[ig rs]| |] eqn:E; try (exists []; apply extended_refl).
    destruct commit; [|exists []; apply extended_refl]. unfold conn_commit in *. case_decide; [|exists []; apply extended_refl]. simpl in Hd |- *.
    eapply ig_steps_extended in E; [exact E|done|done|by apply Hc|done].
  - exists []. rewrite Hre. assert (disk (conn_step mv c CReopen).1 = disk c) as ->; [|apply extended_refl]. unfold conn_step, conn_open.
    destruct (rbind _ _) as [c'| |] eqn:E; [|done..]. by apply rbind_Ok in E as ([pm sc] & _ & [= <-]).
Qed.
Lemma conn_run_extended mv l : forall c, conn_ok c -> st_log (disk c) <> [] -> clean_history mv c l -> reopens_same mv c l -> sendable (st_log (disk (conn_run mv c l))) ->
  exists segs, extended (disk c) (schema_of c) segs (disk (conn_run mv c l)) (schema_of (conn_run mv c l)).
Proof.
  induction l as [|o l IH]; intros c H0 Hne Hc Hre Hd; cbn [conn_run fold_left clean_history reopens_same] in *; [exists []; apply extended_refl|].
  destruct Hc as [Ho Hc], Hre as [Hro Hre]. destruct (conn_run_log mv l _ Hc) as (new & E). unfold conn_run in E.
  assert (clean_step mv c o) as Hs by by destruct o.
  assert (sendable (st_log (disk (conn_step mv c o).1))) as Hd1 by (rewrite E in Hd; by eapply sendable_app).
  destruct (conn_step_extended mv c o) as (s1 & X1); try done.
  destruct (IH (conn_step mv c o).1) as (s2 & X2); try done; [apply conn_step_ok; try done; apply Hd1|by eapply extended_ne|].
  exists (s1 ++ s2). by eapply extended_trans.
Qed.

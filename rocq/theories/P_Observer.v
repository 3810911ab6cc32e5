From Verif Require Import M_Observer Spec_Tx Spec_Conn Spec_Transact Spec_Observer.
From Verif Require Import P_Base P_Store P_Fill P_Step P_Meta P_Inv P_Conn P_Upsert P_Resolve P_Tx P_TxProps P_History P_TxThms P_Events.

(* ---------------------------------------------------------------- the observers as a map *)

Definition observers_are (l : list (string * observer)) (m : gmap string observer) : Prop := NoDup l.*1 /\ list_to_map l = m.

Lemma observers_insert_elem k o l x : NoDup l.*1 -> x ∈ observers_insert k o l <-> x = (k, o) \/ (x ∈ l /\ x.1 <> k).
Proof.
  induction l as [|[k' o'] l IH]; simpl; intros Hnd; [set_solver|]. apply NoDup_cons in Hnd as [Hk Hnd].
  case_decide as Hd.
  - subst k'. rewrite !elem_of_cons. split.
    + intros [H|H]; [by left|]. right. split; [by right|]. intros Hx. apply Hk. rewrite <- Hx. by apply elem_of_list_fmap_1.
    + intros [H|[[H|H] Hx]]; [by left|by subst|by right].
  - rewrite !elem_of_cons, IH by done. split.
    + intros [->|[H|[H Hx]]]; [right; split; [by left|simpl; congruence]|by left|]. right. split; [by right|done].
    + intros [H|[[H|H] Hx]]; [right; by left|by left|right; by right].
Qed.
Lemma observers_insert_keys k o l : (observers_insert k o l).*1 = if decide (k ∈ l.*1) then l.*1 else l.*1 ++ [k].
Proof.
  induction l as [|[k' o'] l IH]; simpl; [done|].
  destruct (decide (k = k')) as [->|Hd]; csimpl.
  - by rewrite decide_True by set_solver.
  - rewrite IH. destruct (decide (k ∈ l.*1)).
    + by rewrite decide_True by set_solver.
    + rewrite decide_False by set_solver. done.
Qed.
Lemma observers_insert_are k o l m : observers_are l m -> observers_are (observers_insert k o l) (<[k := o]> m).
Proof.
  intros [Hnd <-].
  assert (NoDup (observers_insert k o l).*1) as Hnd'.
  { rewrite observers_insert_keys. case_decide; [done|]. apply NoDup_app. split; [done|]. split; [set_solver|apply NoDup_singleton]. }
  split; [done|]. apply map_eq. intros k'. apply option_eq. intros o'.
  rewrite <- elem_of_list_to_map by done. rewrite observers_insert_elem by done.
  destruct (decide (k = k')) as [->|Hk].
  - rewrite lookup_insert. split; [intros [[= ->]|[_ ?]]; done|intros [= ->]; by left].
  - rewrite lookup_insert_ne by done. rewrite <- elem_of_list_to_map by done. simpl. split.
    + intros [[= ? ?]|[? _]]; [congruence|done].
    + intros ?. right. done.
Qed.
Lemma observers_remove_perm k l : NoDup l.*1 ->
  match list_find (fun x => x.1 = k) l with
  | None => observers_remove k l = l /\ k ∉ l.*1
  | Some (i, x) => x.1 = k /\ l ≡ₚ x :: observers_remove k l
  end.
Proof.
  intros Hnd. unfold observers_remove. destruct (list_find _ l) as [[i x]|] eqn:E.
  - apply list_find_Some in E as (Hi & Hx & _). split; [done|]. destruct (last l) as [y|] eqn:Ey.
    2:{ apply last_None in Ey as ->. done. }
    pose proof (take_drop_middle l i x Hi) as Hl. apply last_Some in Ey as (l0 & ->).
    rewrite app_length in *. simpl. case_decide as Hd.
    + assert (i = length l0) as -> by lia. rewrite take_app. rewrite list_lookup_middle in Hi by done. injection Hi as ->.
      by rewrite Permutation_app_comm.
    + assert (i < length l0)%nat as Hlt.
      { apply lookup_lt_Some in Hi. rewrite app_length in Hi. simpl in Hi. lia. }
      replace (pred (length l0 + 1)) with (length l0) by lia.
      rewrite take_app. rewrite take_app_le by lia. rewrite lookup_app_l in Hi by lia.
      pose proof (take_drop_middle l0 i x Hi) as Hl0. rewrite <- Hl0 at 1. rewrite <- app_assoc. simpl.
      rewrite <- Permutation_middle. apply Permutation_skip. apply Permutation_app_head. symmetry. by rewrite Permutation_cons_append.
  - apply list_find_None in E. split; [done|]. intros (x & -> & Hx)%elem_of_list_fmap. rewrite Forall_forall in E. by apply (E x).
Qed.
Lemma observers_remove_are k l m : observers_are l m -> observers_are (observers_remove k l) (delete k m).
Proof.
  intros [Hnd <-]. pose proof (observers_remove_perm k l Hnd) as H. destruct (list_find _ l) as [[i [k' o]]|].
  - destruct H as [Hk P]. simpl in Hk. subst k'. pose proof (fmap_Permutation fst _ _ P) as Pk. simpl in Pk.
    rewrite Pk in Hnd. apply NoDup_cons in Hnd as [Hn Hnd']. split; [done|].
    rewrite (list_to_map_proper _ _ ltac:(rewrite Pk; by apply NoDup_cons) P). simpl. rewrite delete_insert; [done|].
    by apply not_elem_of_list_to_map_1.
  - destruct H as [-> Hk]. split; [done|]. rewrite delete_notin; [done|]. by apply not_elem_of_list_to_map_1.
Qed.
Lemma observers_are_nil l m : observers_are l m -> l = [] <-> m = ∅.
Proof.
  intros [Hnd <-]. destruct l as [|[k o] l]; [done|]. simpl. split; [done|]. intros H.
  by apply insert_non_empty in H.
Qed.

(* ---------------------------------------------------------------- executing a command *)

Lemma applicable_reports_spec o txes : sublist (applicable_reports o txes) txes
  /\ forall r, r ∈ txes -> r ∈ applicable_reports o txes <-> interested o r.
Proof.
  split.
  - unfold applicable_reports. induction txes as [|r txes IH]; [constructor|]. rewrite filter_cons. case_decide; by constructor.
  - intros r Hr. unfold applicable_reports. rewrite elem_of_list_filter. unfold interested. split.
    + intros [H _]. apply set_choose_L in H as (a & Ha). exists a. set_solver.
    + intros (a & H1 & H2). split; [|done]. apply non_empty_inhabited_L with a. set_solver.
Qed.
Lemma applicable_reports_nil o txes : applicable_reports o txes <> [] <-> Exists (interested o) txes.
Proof.
  destruct (applicable_reports_spec o txes) as [Hs He]. rewrite Exists_exists. split.
  - intros H. destruct (applicable_reports o txes) as [|r l] eqn:E; [done|]. exists r.
    assert (r ∈ txes) as Hr by (eapply elem_of_submseteq; [|by apply sublist_submseteq]; set_solver).
    split; [done|]. apply He; [done|set_solver].
  - intros (r & Hr & Hi) Hnil. apply He in Hi; [|done]. rewrite Hnil in Hi. set_solver.
Qed.

Definition calls_of (obs : list (string * observer)) (txes : reports) : list call :=
  omap (fun '(k, o) => match applicable_reports o txes with [] => None | rs => Some (ob_fn o, k, rs) end) obs.
Lemma calls_of_elem obs txes x : x ∈ calls_of obs txes <->
  exists o, (x.1.2, o) ∈ obs /\ x = (ob_fn o, x.1.2, applicable_reports o txes) /\ applicable_reports o txes <> [].
Proof.
  unfold calls_of. rewrite elem_of_list_omap. split.
  - intros ([k o] & Hin & H). destruct (applicable_reports o txes) as [|r l] eqn:E; [done|]. injection H as <-. simpl. exists o.
    rewrite E. done.
  - intros (o & Hin & Hx & Hne). exists (x.1.2, o). split; [done|]. destruct (applicable_reports o txes); [done|]. by rewrite <- Hx.
Qed.
Lemma calls_of_for obs m txes : observers_are obs m -> calls_for m txes (calls_of obs txes).
Proof.
  intros [Hnd Hm]. split; [|split].
  - clear Hm. induction obs as [|[k o] obs IH]; [constructor|]. apply NoDup_cons in Hnd as [Hk Hnd]. unfold calls_of. cbn [omap].
    fold (calls_of obs txes). simpl. destruct (applicable_reports o txes) as [|r l]; [by apply IH|]. simpl. constructor; [|by apply IH].
    intros (x & Hx1 & Hx)%elem_of_list_fmap. apply calls_of_elem in Hx as (o' & Hin & _). apply Hk. simpl in *. rewrite Hx1.
    by apply (elem_of_list_fmap_1 fst _ (x.1.2, o')).
  - intros x (o & Hin & Hx & Hne)%calls_of_elem. exists o, (applicable_reports o txes). split.
    { rewrite <- Hm. by apply elem_of_list_to_map. }
    split; [done|]. split; [done|]. apply applicable_reports_spec.
  - intros k o Hk He. rewrite <- Hm in Hk. apply elem_of_list_to_map in Hk; [|done]. exists (ob_fn o, k, applicable_reports o txes).
    split; [|done]. apply calls_of_elem. simpl. exists o. split; [done|]. split; [done|]. by apply applicable_reports_nil.
Qed.
Lemma calls_for_empty txes : calls_for ∅ txes [].
Proof. split; [constructor|]. split; [set_solver|]. intros k o H. by rewrite lookup_empty in H. Qed.

(* ---------------------------------------------------------------- schedules *)

(** The commands in the queue, with the observers registered when they were sent.  [b]: none was disturbed. *)
Record queue_ok (b : bool) (sv : service) (m : gmap string observer) (qs : list (gmap string observer * reports)) : Prop := {
  qo_obs : observers_are (sv_observers sv) m;
  qo_queue : Forall2 (fun c x => cm_reports c = x.2 /\ (cm_observers c <= sv_alloc sv)%nat
    /\ (b = true -> cm_observers c = sv_alloc sv) /\ (cm_observers c = sv_alloc sv -> x.1 = m)) (sv_queue sv) qs }.
Definition good (b : bool) (x : gmap string observer * reports) (cs : list call) : Prop :=
  calls_for x.1 x.2 cs \/ (b = false /\ cs = []).

Lemma make_mut_spec sv : (sv_alloc sv <= make_mut sv)%nat /\ (make_mut sv = sv_alloc sv -> forall c, c ∈ sv_queue sv -> cm_observers c <> sv_alloc sv).
Proof.
  unfold make_mut. destruct (existsb _ _) eqn:E; split; try lia. intros _ c Hc Heq.
  assert (existsb (fun c => Nat.eqb (cm_observers c) (sv_alloc sv)) (sv_queue sv) = true) as H.
  { apply existsb_exists. exists c. split; [by apply elem_of_list_In|]. by apply Nat.eqb_eq. }
  congruence.
Qed.
Lemma disturbed_queue sv m qs obs' m' calls :
  queue_ok false sv m qs -> observers_are obs' m' -> queue_ok false (Service (make_mut sv) obs' (sv_queue sv) calls) m' qs.
Proof.
  intros [Ho Hq] Ho'. split; [done|]. simpl. destruct (make_mut_spec sv) as [Hle Hmm].
  apply Forall2_same_length_lookup. split; [by eapply Forall2_length|].
  intros i c x Hc Hx. destruct (Forall2_lookup_lr _ _ _ _ _ _ Hq Hc Hx) as (H1 & H2 & H3 & H4).
  split; [done|]. split; [lia|]. split; [done|]. intros Heq. apply elem_of_list_lookup_2 in Hc.
  destruct (decide (make_mut sv = sv_alloc sv)) as [E|E]; [exfalso; apply (Hmm E c Hc); congruence|lia].
Qed.
Lemma disturbed_empty b sv m obs' m' calls :
  queue_ok b sv m [] -> observers_are obs' m' -> queue_ok b (Service (make_mut sv) obs' (sv_queue sv) calls) m' [].
Proof. intros [Ho Hq] Ho'. split; [done|]. simpl. apply Forall2_nil_inv_r in Hq as ->. constructor. Qed.
Lemma queue_ok_false b sv m qs : queue_ok b sv m qs -> queue_ok false sv m qs.
Proof. intros [Ho Hq]. split; [done|]. eapply Forall2_impl; [exact Hq|]. naive_solver. Qed.

Lemma schedule b l : forall sv m qs, queue_ok b sv m qs -> (b = true -> undisturbed (length qs) m l) ->
  exists css, Forall2 (good b) (qs ++ commits m l) css /\ sv_calls (fold_left sv_step l sv) = sv_calls sv ++ concat css.
Proof.
  induction l as [|o l IH]; intros sv m qs Hq Hu.
  - simpl. rewrite app_nil_r. exists (replicate (length qs) []). split.
    + apply Forall2_same_length_lookup. split; [by rewrite replicate_length|]. intros i x cs Hx Hcs. apply lookup_replicate in Hcs as [-> _].
      right. split; [|done]. destruct b; [|done]. specialize (Hu eq_refl). simpl in Hu. destruct qs; done.
    + assert (forall n, concat (replicate n ([] : list call)) = []) as -> by (induction n; done). by rewrite app_nil_r.
  - cbn [fold_left]. destruct o as [k o|k|txes|]; cbn [sv_step commits].
    + destruct b.
      * specialize (Hu eq_refl). simpl in Hu. destruct Hu as [Hn Hu]. destruct qs; [|done].
        destruct (IH (register sv k o) (<[k:=o]> m) []) as (css & F & E).
        { apply (disturbed_empty _ sv m); [done|]. apply observers_insert_are, Hq. }
        { done. }
        by exists css.
      * destruct (IH (register sv k o) (<[k:=o]> m) qs) as (css & F & E); [|done|].
        { apply (disturbed_queue sv m); [done|]. apply observers_insert_are, Hq. }
        by exists css.
    + destruct b.
      * specialize (Hu eq_refl). simpl in Hu. destruct Hu as [Hn Hu]. destruct qs; [|done].
        destruct (IH (deregister sv k) (delete k m) []) as (css & F & E).
        { apply (disturbed_empty _ sv m); [done|]. apply observers_remove_are, Hq. }
        { done. }
        by exists css.
      * destruct (IH (deregister sv k) (delete k m) qs) as (css & F & E); [|done|].
        { apply (disturbed_queue sv m); [done|]. apply observers_remove_are, Hq. }
        by exists css.
    + pose proof (observers_are_nil _ _ (qo_obs _ _ _ _ Hq)) as Hnil. unfold did_commit.
      destruct (sv_observers sv) as [|x obs] eqn:Eo.
      * assert (m = ∅) as Hm by by apply Hnil. destruct (IH sv m qs Hq) as (css & F & E).
        { intros Hb. specialize (Hu Hb). simpl in Hu. by rewrite decide_True in Hu. }
        apply Forall2_app_inv_l in F as (cs1 & cs2 & F1 & F2 & ->). exists (cs1 ++ [] :: cs2). split.
        { apply Forall2_app; [done|]. constructor; [|done]. left. simpl. rewrite Hm. apply calls_for_empty. }
        rewrite E, !concat_app. done.
      * rewrite <- Eo. assert (m <> ∅) as Hm by (intros Hm; by apply Hnil in Hm).
        destruct (IH (Service (sv_alloc sv) (sv_observers sv) (sv_queue sv ++ [Command txes (sv_alloc sv)]) (sv_calls sv)) m (qs ++ [(m, txes)])) as (css & F & E).
        { destruct Hq as [Ho Hq]. split; [done|]. simpl. apply Forall2_app; [done|]. constructor; [|constructor]. done. }
        { intros Hb. specialize (Hu Hb). simpl in Hu. rewrite decide_False in Hu by done. rewrite app_length. simpl. by rewrite Nat.add_1_r. }
        rewrite <- app_assoc in F. by exists css.
    + unfold work. destruct Hq as [Ho Hq]. destruct (sv_queue sv) as [|c q] eqn:Eq.
      * apply Forall2_nil_inv_l in Hq as ->. destruct (IH sv m []) as (css & F & E); [|done|by exists css].
        split; [done|]. rewrite Eq. constructor.
      * apply Forall2_cons_inv_l in Hq as (x & qs' & (H1 & H2 & H3 & H4) & Hq & ->).
        destruct (IH (Service (sv_alloc sv) (sv_observers sv) q (sv_calls sv ++ execute sv c)) m qs') as (css & F & E).
        { by split. }
        { intros Hb. by specialize (Hu Hb). }
        exists (execute sv c :: css). split; [|rewrite E; simpl; by rewrite <- app_assoc].
        simpl. constructor; [|done]. unfold execute. destruct (Nat.eqb _ _) eqn:Ee.
        -- apply Nat.eqb_eq in Ee. left. rewrite (H4 Ee), H1. by apply calls_of_for.
        -- apply Nat.eqb_neq in Ee. right. split; [|done]. destruct b; [|done]. by destruct (Ee (H3 eq_refl)).
Qed.

Lemma service_new_ok b : queue_ok b service_new ∅ [].
Proof. split; [split; [constructor|done]|constructor]. Qed.
Lemma thm_calls l : exists css, Forall2 (fun x cs => calls_for x.1 x.2 cs \/ cs = []) (commits ∅ l) css /\ sv_calls (sv_run l) = concat css.
Proof.
  destruct (schedule false l service_new ∅ [] (service_new_ok _)) as (css & F & E); [done|]. exists css. split; [|exact E].
  eapply Forall2_impl; [exact F|]. intros x cs [H|[_ H]]; [by left|by right].
Qed.
Lemma thm_all_calls l : undisturbed 0 ∅ l -> exists css, Forall2 (fun x cs => calls_for x.1 x.2 cs) (commits ∅ l) css /\ sv_calls (sv_run l) = concat css.
Proof.
  intros Hu. destruct (schedule true l service_new ∅ [] (service_new_ok _)) as (css & F & E); [done|]. exists css. split; [|exact E].
  eapply Forall2_impl; [exact F|]. intros x cs [H|[? _]]; done.
Qed.

(* ---------------------------------------------------------------- what a session hands over *)

Definition next_tx (pm : partition_map) : Z := default 0 (pt_next <$> pm !! ":db.part/tx").
Definition ev_attrs (ev : list event) : gset Z := list_to_set (map (fun '(_, _, a, _) => a) ev).
Lemma ev_attrs_elem ev a : a ∈ ev_attrs ev <-> exists x, x ∈ ev /\ ev_attr x = a.
Proof.
  unfold ev_attrs. rewrite elem_of_list_to_set, elem_of_list_fmap. split; intros (x & H1 & H2); exists x; destruct x as [[[o e] a'] v]; simpl in *; done.
Qed.
Lemma index_insert_new {V} k (v : V) l : (forall x, x ∈ l -> x.1 <> k) -> index_insert k v l = l ++ [(k, v)].
Proof.
  induction l as [|[k' v'] l IH]; intros H; simpl; [done|]. rewrite decide_False; [|intros ->; apply (H (k', v')); [by left|done]].
  rewrite IH; [done|]. intros x Hx. apply H. by right.
Qed.

Lemma simple_next mv now st pm pm1 s tx ts ids st' r : pm_allocate pm ":db.part/tx" 1 = Ok (tx, pm1) ->
  transact_simple_terms mv now MaterializeAndCommit st pm1 s s tx ts ids = (st', Ok r) ->
  rp_tx (tr_report r) = next_tx pm /\ next_tx (tr_parts r) = next_tx pm + 1.
Proof.
  intros (p & Hp & -> & _ & Hp1 & _)%tx_alloc (rv & tr & Hrv & _ & _ & _ & -> & -> & _)%transact_simple_Ok.
  apply resolve_terms_parts in Hrv. unfold next_tx. by rewrite Hrv, Hp1, Hp.
Qed.
Lemma transact_next mv now st pm s es st' r : transact mv now st pm s s es = (st', Ok r) ->
  rp_tx (tr_report r) = next_tx pm /\ next_tx (tr_parts r) = next_tx pm + 1.
Proof.
  intros H. unfold transact in H. destruct (pm_allocate pm ":db.part/tx" 1) as [[tx pm1]| |] eqn:Ep; try done.
  destruct (entities_to_terms _ _ _ _ _ _) as [[ts ids]| |] eqn:Ee; try done. by eapply simple_next.
Qed.
Lemma transact_terms_next mv now st pm s ts ids st' r :
  transact_terms mv now MaterializeAndCommit st pm s s ts ids = (st', Ok r) ->
  rp_tx (tr_report r) = next_tx pm /\ next_tx (tr_parts r) = next_tx pm + 1.
Proof.
  intros H. unfold transact_terms in H. destruct (pm_allocate pm ":db.part/tx" 1) as [[tx pm1]| |] eqn:Ep; try done. by eapply simple_next.
Qed.

(** Nothing was collected for a transaction that did not happen, and the transactions collected are earlier ones. *)
Record collected_ok (ig : inprog) : Prop := {
  co_none : ig_collected ig = ∅;
  co_earlier : forall x, x ∈ ig_txes ig -> x.1 < next_tx (ig_parts ig) }.
Definition reported (ig ig' : inprog) (n : nat) : Prop :=
  exists new txes, st_log (ig_store ig') = st_log (ig_store ig) ++ new /\ ig_txes ig' = ig_txes ig ++ txes
    /\ txes.*1 = seqZ (next_tx (ig_parts ig)) (Z.of_nat n) /\ next_tx (ig_parts ig') = next_tx (ig_parts ig) + Z.of_nat n
    /\ (forall row, row ∈ new -> exists attrs, (t_tx row, attrs) ∈ txes /\ t_a row ∈ attrs)
    /\ (forall tx attrs, (tx, attrs) ∈ txes -> DB_TX_INSTANT ∈ attrs).

Lemma watched_step ig st' x ev (m : gmap Z attribute) ig' :
  collected_ok ig -> events_ok m (ig_store ig) st' (rp_tx (tr_report x)) (tr_events x) ->
  rp_tx (tr_report x) = next_tx (ig_parts ig) -> next_tx (tr_parts x) = next_tx (ig_parts ig) + 1 ->
  ev = Watched (tr_events x) (Some (rp_tx (tr_report x))) ->
  ig' = (ig_transacted (ig_watch ig ev) (st', Ok x)).1 -> reported ig ig' 1 /\ collected_ok ig'.
Proof.
  intros [Hn Hel] E Etx Enx -> ->. unfold ig_watch. cbn [wa_done wa_events]. rewrite Hn, union_empty_l_L. fold (ev_attrs (tr_events x)).
  rewrite index_insert_new.
  2:{ intros y Hy. specialize (Hel y Hy). lia. }
  destruct (eo_rows _ _ _ _ _ E) as (new & El & Hnew). destruct (eo_instant _ _ _ _ _ E) as (i & Hi).
  unfold ig_transacted, reported. cbn [fst ig_store ig_txes ig_parts]. split.
  - exists new, [(rp_tx (tr_report x), ev_attrs (tr_events x))]. split; [done|]. split; [done|]. split; [by rewrite <- Etx|]. split; [lia|]. split.
    + intros row Hrow. destruct (Hnew row Hrow) as [-> Ha]. exists (ev_attrs (tr_events x)). split; [set_solver|]. by apply ev_attrs_elem.
    + intros tx attrs [= -> ->]%elem_of_list_singleton. apply ev_attrs_elem. by eexists.
  - split; [done|]. cbn [ig_txes ig_parts]. intros y [Hy| ->%elem_of_list_singleton]%elem_of_app; [specialize (Hel y Hy); lia|simpl; lia].
Qed.

Lemma reported_trans ig1 ig2 ig3 n1 n2 : reported ig1 ig2 n1 -> reported ig2 ig3 n2 -> reported ig1 ig3 (n1 + n2).
Proof.
  intros (new1 & t1 & L1 & T1 & S1 & N1 & R1 & I1) (new2 & t2 & L2 & T2 & S2 & N2 & R2 & I2).
  exists (new1 ++ new2), (t1 ++ t2). rewrite L2, L1, T2, T1, !app_assoc. split; [done|]. split; [done|].
  split. { rewrite fmap_app, S1, S2, N1. rewrite Nat2Z.inj_add, seqZ_app by lia. done. }
  split; [lia|]. split.
  - intros row [Hr|Hr]%elem_of_app; [destruct (R1 row Hr) as (a & ? & ?)|destruct (R2 row Hr) as (a & ? & ?)]; exists a; set_solver.
  - intros tx attrs [?|?]%elem_of_app; eauto.
Qed.
Lemma reported_same ig ig' : ig_store ig' = ig_store ig -> ig_parts ig' = ig_parts ig -> ig_txes ig' = ig_txes ig -> reported ig ig' 0.
Proof.
  intros E1 E2 E3. exists [], []. rewrite E1, E2, E3, !app_nil_r. split_and!; try done; [lia|..]; set_solver.
Qed.

Lemma ig_step_reported mv ig o ig' : ig_ok ig -> collected_ok ig -> (forall s, o <> OpRollbackTo s) -> ig_step mv ig o = (ig', Ok tt) ->
  never_uninstalled (st_log (ig_store ig')) -> reported ig ig' (if is_transact o then 1 else 0) /\ collected_ok ig'.
Proof.
  intros Hok Hco Hno H Hn. destruct o as [now es|now ts ids|n|n|n]; cbn [ig_step is_transact] in *.
  - destruct (ig_transact mv now ig es) as [ig1 r] eqn:E. destruct r as [r| |]; try done. injection H as ->.
    unfold ig_transact in E. destruct (transact _ _ _ _ _ _ _) as [st' [x| |]] eqn:Et; try done.
    apply (watched_step ig st' x _ (sc_attribute_map (ig_schema ig)) ig' Hco) with (5 := f_equal fst (eq_sym E)).
    + eapply transact_events; [exact Hok|exact Et|]. unfold ig_transacted in E. by injection E as <- _.
    + by eapply transact_next.
    + by eapply transact_next.
    + by eapply watch_transact_Ok.
  - destruct (ig_transact_terms mv now ig ts ids) as [ig1 r] eqn:E. destruct r as [r| |]; try done. injection H as ->.
    unfold ig_transact_terms in E. destruct (transact_terms _ _ _ _ _ _ _ _ _) as [st' [x| |]] eqn:Et; try done.
    apply (watched_step ig st' x _ (sc_attribute_map (ig_schema ig)) ig' Hco) with (5 := f_equal fst (eq_sym E)).
    + eapply transact_terms_events; [exact Hok|exact Et|]. unfold ig_transacted in E. by injection E as <- _.
    + by eapply transact_terms_next.
    + by eapply transact_terms_next.
    + by eapply watch_transact_terms_Ok.
  - unfold ig_savepoint in H. injection H as <-. split; [by apply reported_same|]. destruct Hco. by split.
  - by destruct (Hno n).
  - unfold ig_release_savepoint in H. destruct (savepoints_from _ _) as [[st l]|]; try done. injection H as <-.
    split; [by apply reported_same|]. destruct Hco. by split.
Qed.

Lemma ig_steps_reported mv l : forall ig ig' rs, ig_ok ig -> collected_ok ig -> ig_steps mv ig l = Ok (ig', rs) -> Forall (eq (Ok tt)) rs ->
  (forall s, OpRollbackTo s ∉ l) -> never_uninstalled (st_log (ig_store ig')) -> reported ig ig' (length (filter is_transact l)).
Proof.
  induction l as [|o l IH]; intros ig ig' rs Hok Hco H Hall Hno Hn; cbn [ig_steps] in H.
  - injection H as <- <-. by apply reported_same.
  - destruct (ig_step mv ig o) as [ig1 r] eqn:Eo.
    assert (r = Ok tt /\ exists rs', ig_steps mv ig1 l = Ok (ig', rs') /\ Forall (eq (Ok tt)) rs') as (-> & rs' & H' & Hall').
    { destruct r as [u| |]; [| |done]; apply rbind_Ok in H as ([ig2 rs'] & H & [= -> <-]); apply Forall_cons in Hall as [E Hall]; [|done].
      split; [done|]. by exists rs'. }
    assert (clean_calls mv ig1 l) as Hcl.
    { clear -H' Hall' Hno. revert ig1 rs' H' Hall'. induction l as [|o' l IH]; intros ig1 rs' H Hall; [done|]. cbn [ig_steps clean_calls] in *.
      destruct (ig_step mv ig1 o') as [ig2 r] eqn:Eo.
      assert (r = Ok tt /\ exists rs2, ig_steps mv ig2 l = Ok (ig', rs2) /\ Forall (eq (Ok tt)) rs2) as (-> & rs2 & H2 & Hall2).
      { destruct r as [u| |]; [| |done]; apply rbind_Ok in H as ([ig3 rs3] & H & [= -> <-]); apply Forall_cons in Hall as [E Hall]; [|done].
        split; [done|]. by exists rs3. }
      split; [|split; [by left|]].
      - destruct o'; try done. apply (Hno n). set_solver.
      - eapply IH; try done. intros s Hs. apply (Hno s). set_solver. }
    assert (never_uninstalled (st_log (ig_store ig1))) as Hn1.
    { destruct (ig_steps_log _ _ _ _ _ H' Hcl) as (new & E). rewrite E in Hn. by eapply never_uninstalled_app. }
    assert (forall s, o <> OpRollbackTo s) as Hno1 by (intros s ->; apply (Hno s); set_solver).
    destruct (ig_step_reported _ _ _ _ Hok Hco Hno1 Eo Hn1) as [R1 Hco1].
    assert (ig_ok ig1) as Hok1.
    { apply (ig_step_ok mv ig o ig1 (Ok tt)); try done; [|by left]. destruct o; try done. by destruct (Hno1 n). }
    pose proof (IH ig1 ig' rs' Hok1 Hco1 H' Hall' ltac:(intros s Hs; apply (Hno s); set_solver) Hn) as R2.
    pose proof (reported_trans _ _ _ _ _ R1 R2) as R. rewrite filter_cons. destruct (is_transact o); exact R.
Qed.

Lemma thm_handed mv c o n txes c' : clean mv c -> succeeds mv c o n -> conn_step mv c o = (c', Ok tt) -> conn_handed mv c o = Some txes ->
  never_uninstalled (st_log (disk c')) ->
  exists p new, parts_of c !! ":db.part/tx" = Some p /\ txes.*1 = seqZ (pt_next p) (Z.of_nat n) /\ st_log (disk c') = st_log (disk c) ++ new
    /\ (forall row, row ∈ new -> exists attrs, (t_tx row, attrs) ∈ txes /\ t_a row ∈ attrs)
    /\ (forall tx attrs, (tx, attrs) ∈ txes -> DB_TX_INSTANT ∈ attrs).
Proof.
  intros Hc%clean_ok Hs H Hh Hn.
  assert (ig_ok (conn_begin c)) as Hok by exact Hc.
  assert (collected_ok (conn_begin c)) as Hco by (split; [done|]; intros x Hx; by apply elem_of_nil in Hx).
  assert (exists p, parts_of c !! ":db.part/tx" = Some p /\ next_tx (parts_of c) = pt_next p) as (p & Hp & Enx).
  { destruct Hc as [(p & Hp & _) _ _ _ _ _]. exists p. split; [done|]. unfold next_tx. by rewrite Hp. }
  assert (exists ig, reported (conn_begin c) ig n /\ disk c' = ig_store ig /\ txes = ig_txes ig) as (ig & R & E1 & E2).
  { assert (forall ig t c2, conn_commit c ig = Ok (c2, t) -> disk c2 = ig_store ig /\ t = ig_txes ig) as Hcm.
    { intros ig t c2. unfold conn_commit. case_decide; [|done]. by intros [= <- <-]. }
    destruct o as [now es|l [|]|]; cbn [conn_step conn_handed succeeds] in *; try done.
    - subst n. unfold conn_transact in H. destruct (ig_transact mv now (conn_begin c) es) as [ig [r| |]] eqn:E; try done.
      destruct (conn_commit c ig) as [[c2 t2]| |] eqn:Ec; try done. injection Hh as <-. injection H as <-.
      destruct (Hcm _ _ _ Ec) as [E1 E2]. exists ig. split; [|done].
      pose proof (ig_step_reported mv (conn_begin c) (OpTransact now es) ig Hok Hco) as R. cbn [ig_step is_transact] in R. rewrite E in R.
      apply R; [done|done|]. by rewrite <- E1.
    - destruct Hs as (-> & Hno & ig & rs & E & Hall). rewrite E in H, Hh. destruct (conn_commit c ig) as [[c2 t2]| |] eqn:Ec; try done.
      injection Hh as <-. injection H as <-. destruct (Hcm _ _ _ Ec) as [E1 E2]. exists ig. split; [|done].
      eapply ig_steps_reported; try done. by rewrite <- E1. }
  destruct R as (new & txes' & L & T & S & _ & R & I). exists p, new. simpl in T. assert (txes = txes') as -> by congruence.
  split; [done|]. split; [by rewrite S; simpl; rewrite Enx|]. split; [by rewrite E1, L|done].
Qed.

Lemma thm_attributes mv now c es c' r : accepted mv now c es c' r -> exists l ts σ attrs, understood c es r l ts σ
  /\ conn_handed mv c (CTransact now es) = Some [(rp_tx r, attrs)]
  /\ (forall a, a ∈ attrs -> a = DB_TX_INSTANT \/ exists o e v, asks ts σ o e a v)
  /\ (forall t, t ∈ ts -> tm_a t ∈ attrs \/ upserting c ts σ t)
  /\ (forall b e a p, changed (disk c) (disk c') b (e, a, p) -> a ∈ attrs).
Proof.
  intros Hacc. pose proof Hacc as (Hc & H & Hn). destruct (conn_transact_outcome_events _ _ _ _ _ _ Hc H Hn) as (l2 & ts2 & σ2 & τ2 & rv2 & tr2 & tr2' & O2 & Eev).
  pose proof (conn_transact_Ok _ _ _ _ _ _ H) as (x & Ht & Er & Em).
  assert (conn_handed mv c (CTransact now es) = Some [(rp_tx r, ev_attrs (tr_events x))]) as Hh.
  { cbn [conn_handed]. unfold ig_transact. cbn [conn_begin ig_store ig_parts ig_schema]. rewrite (watch_transact_Ok _ _ _ _ _ _ _ _ _ Ht), Ht.
    unfold ig_watch, ig_transacted, conn_commit. cbn [wa_done wa_events ig_gen conn_begin ig_collected ig_txes index_insert].
    rewrite decide_True by done. rewrite Er. do 3 f_equal. unfold ev_attrs. by rewrite union_empty_l_L. }
  pose proof (clean_ok _ _ Hc) as Hok.
  specialize (Eev x Ht).
  exists l2, ts2, σ2, (ev_attrs (tr_events x)). split; [apply O2|]. split; [done|].
  assert (forall a, a ∈ ev_attrs (tr_events x) <-> exists o e v, req tr2' o e a v) as Hat.
  { intros a. rewrite ev_attrs_elem, Eev. split.
    - intros ([[[o e] a'] v] & Hin & <-). exists o, e, v. by apply events_req.
    - intros (o & e & v & Hq). exists (o, e, a, v). split; [by apply events_req|done]. }
  split; [|split].
  - intros a (o & e & v & Hq)%Hat. apply (ap_req _ _ _ _ _ _ _ (out_applied _ _ _ _ _ _ _ _ _ _ _ _ O2)) in Hq as [Hq|(_ & _ & -> & _)]; [|by left].
    right. exists o, e, v. by eapply req_asks.
  - intros t Hin. destruct (out_some _ _ _ _ _ _ _ _ _ _ _ _ O2 t Hin) as ([o e a v] & Hs).
    destruct (asks_req O2 _ _ _ _ _ Hin Hs) as [Hq|?]; [left|by right]. pose proof (subst_op _ _ _ _ _ Hs) as (_ & -> & _).
    apply Hat. exists o, e, v. apply (ap_req _ _ _ _ _ _ _ (out_applied _ _ _ _ _ _ _ _ _ _ _ _ O2)). by left.
  - intros b e a p Hch. pose proof (transact_events _ _ _ _ _ _ _ _ Hok Ht Hn) as Ev. apply ev_attrs_elem.
    destruct (eo_rows _ _ _ _ _ Ev) as (new & El & Hnew).
    pose proof (ap_rows _ _ _ _ _ _ _ (out_applied _ _ _ _ _ _ _ _ _ _ _ _ O2) new El e a p b) as [_ Hrow].
    destruct (Hrow Hch) as (row & Hr & _ & <- & _). by apply (Hnew row Hr).
Qed.

(** a commit, and only that, hands something over *)
Lemma thm_handed_when mv c o : (exists txes, conn_handed mv c o = Some txes) <-> committing o /\ (conn_step mv c o).2 = Ok tt.
Proof.
  destruct o as [now es|l [|]|]; cbn [conn_handed conn_step committing].
  - unfold conn_transact. destruct (ig_transact _ _ _ _) as [ig [r| |]]; cbn.
    + destruct (conn_commit c ig) as [[c' t]| |]; cbn; split; try (intros (? & ?)); try (intros [_ ?]); try done; eauto.
    + split; [intros (? & ?)|intros [_ ?]]; done.
    + split; [intros (? & ?)|intros [_ ?]]; done.
  - destruct (ig_steps _ _ _) as [[ig rs]| |]; cbn.
    + destruct (conn_commit c ig) as [[c' t]| |]; cbn; split; try (intros (? & ?)); try (intros [_ ?]); try done; eauto.
    + split; [intros (? & ?)|intros [_ ?]]; done.
    + split; [intros (? & ?)|intros [_ ?]]; done.
  - split; [intros (? & ?)|intros [? ?]]; done.
  - split; [intros (? & ?)|intros [[] ?]]; done.
Qed.

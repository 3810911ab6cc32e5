(** What holds of files that share a remote. *)
From Verif Require Import M_Sync Spec_Tx Spec_Conn Spec_Transact Spec_Sync P_Base P_Step P_Inv P_Conn P_Timelines P_SyncStep P_SyncReplay P_SyncChain P_SyncBoot P_SyncUp P_SyncSend P_SyncHist.

(* ---------------------------------------------------------------- the table of uuids *)

Record tu_ok (tu : gmap Z N) (t : Z) (u : N) : Prop := {
  tu_here : tu !! t = Some u;
  tu_only : forall t', tu !! t' = Some u -> t' = t;
  tu_below : forall t', is_Some (tu !! t') -> t' <= t }.
Lemma tu_insert_ok tu t u : (forall t', is_Some (tu !! t') -> t' <= t) -> tu_ok (tu_insert tu t u) t u.
Proof.
  intros H. unfold tu_insert. split.
  - apply lookup_insert.
  - intros t' E. destruct (decide (t' = t)) as [->|N]; [done|]. rewrite lookup_insert_ne in E by done. apply map_filter_lookup_Some in E as [_ E]. done.
  - intros t' [u' E]. destruct (decide (t' = t)) as [->|N]; [lia|]. rewrite lookup_insert_ne in E by done. apply map_filter_lookup_Some in E as [E _]. apply H. by eexists.
Qed.
Lemma tu_insert_all_ok l : forall tu, l <> [] -> StronglySorted Z.lt (map fst l) -> (forall t' p, is_Some (tu !! t') -> p ∈ l -> t' <= p.1) ->
  exists t u, last l = Some (t, u) /\ tu_ok (tu_insert_all tu l) t u.
Proof.
  induction l as [|[t u] l IH]; intros tu Hne Hs Hb; [done|]. cbn [tu_insert_all fold_left fst snd]. fold (tu_insert_all (tu_insert tu t u) l).
  assert (tu_ok (tu_insert tu t u) t u) as H1. { apply tu_insert_ok. intros t' Ht. apply (Hb t' (t, u)); [done|left]. }
  destruct l as [|x l]; [exists t, u; done|]. cbn [map] in Hs. inversion Hs as [|? ? Hs' Hlt]; subst. destruct (IH (tu_insert tu t u)) as (t2 & u2 & E & H2); try done.
  - intros t' p Ht Hp. apply (tu_below _ _ _ H1) in Ht. rewrite Forall_forall in Hlt. assert (p.1 ∈ x.1 :: map fst l) as Hp' by (change (p.1 ∈ map fst (x :: l)); apply elem_of_list_fmap; by exists p).
    apply Hlt in Hp'. cbn in Hp'. lia.
  - exists t2, u2. by rewrite last_cons_cons.
Qed.
Lemma tx_for_uuid_ok tu t u : tu_ok tu t u -> tx_for_uuid tu u = Some t.
Proof.
  intros [A B _]. unfold tx_for_uuid. destruct (filter (fun p : Z * N => p.2 = u) (map_to_list tu)) as [|[t' u'] l] eqn:E.
  - exfalso. assert ((t, u) ∈ filter (fun p : Z * N => p.2 = u) (map_to_list tu)) as K by (apply elem_of_list_filter; split; [done|by apply elem_of_map_to_list]). rewrite E in K. by apply elem_of_nil in K.
  - assert ((t', u') ∈ filter (fun p : Z * N => p.2 = u) (map_to_list tu)) as K by (rewrite E; left). apply elem_of_list_filter in K as [Eu K]. cbn in Eu. subst u'.
    apply elem_of_map_to_list, B in K. by rewrite <- K.
Qed.

(* ---------------------------------------------------------------- uuids *)

Lemma sorted_lt_app (l1 l2 : list nat) n : StronglySorted lt l1 -> StronglySorted lt l2 -> Forall (fun k => k < n)%nat l1 -> Forall (fun k => n <= k)%nat l2 -> StronglySorted lt (l1 ++ l2).
Proof.
  intros H1 H2 F1 F2. induction H1 as [|x l H IH Hx]; [done|]. apply Forall_cons in F1 as [Fx F1]. cbn [app]. constructor; [by apply IH|]. apply Forall_app. split; [done|].
  eapply Forall_impl; [exact F2|]. simpl. lia.
Qed.
Lemma named_app U n n' l es : named U 0 n l -> named U n n' es -> (n <= n')%nat -> named U 0 n' (l ++ es).
Proof.
  intros (k1 & S1 & F1 & E1) (k2 & S2 & F2 & E2) Hn. exists (k1 ++ k2). split_and!.
  - apply (sorted_lt_app _ _ n); [done|done|eapply Forall_impl; [exact F1|]|eapply Forall_impl; [exact F2|]]; simpl; intros; lia.
  - apply Forall_app. split; [eapply Forall_impl; [exact F1|]|eapply Forall_impl; [exact F2|]]; simpl; intros; lia.
  - by rewrite !map_app, E1, E2.
Qed.
Lemma named_nodup U n l : uuids_fresh U -> named U 0 n l -> NoDup (map en_uuid l).
Proof.
  intros [Hi _] (ks & S & _ & ->). assert (NoDup ks) as Hk. { induction S as [|x l' H IH Hx]; constructor; [|done]. intros Hin. rewrite Forall_forall in Hx. apply Hx in Hin. lia. }
  apply NoDup_fmap_2_strong; [|done]. intros x y _ _. apply Hi.
Qed.
Lemma named_nonnil U n l en : uuids_fresh U -> named U 0 n l -> en ∈ l -> en_uuid en <> 0%N.
Proof.
  intros [_ H0] (ks & _ & _ & E) Hen. assert (en_uuid en ∈ map en_uuid l) as K by (apply elem_of_list_fmap; by exists en). rewrite E in K.
  apply elem_of_list_fmap in K as (k & -> & _). apply H0.
Qed.

(* ---------------------------------------------------------------- the invariant *)

Record remote_ok (U : nat -> N) (s : remote) (n : nat) (ML M : list seg) : Prop := {
  ro_sent : Forall2 sent ML (rm_log s);
  ro_ml : (ML = [] /\ M = []) \/ exists boot, boot_rows boot /\ ML = (TX0, boot) :: M;
  ro_head : rm_head s = head_of 0%N (rm_log s);
  ro_uuids : named U 0 n (rm_log s);
  ro_linked : linked 0%N (rm_log s);
  ro_ok : Forall seg_ok M;
  ro_sorted : StronglySorted Z.lt (TX0 :: map fst M);
  ro_chain : exists c st' s', opened c /\ chain (disk c) (schema_of c) M st' s' }.

(** Where a file is: it never synced, or it has everything up to the [j]th transaction. *)
Definition placed (s : remote) (M segs : list seg) (tu : gmap Z N) (known : N) : Prop :=
  (known = 0%N /\ tu = ∅ /\ segs = []) \/
  exists j en, rm_log s !! j = Some en /\ en_uuid en = known /\ Forall2 seg_eq (take j M) segs /\ tu_ok tu (last_tx segs) known.
Definition peer_ok (s : remote) (M : list seg) (p : peer) : Prop :=
  conn_ok (pe_conn p) /\ exists boot segs, hist (disk (pe_conn p)) (schema_of (pe_conn p)) boot segs /\ placed s M segs (pe_tu p) (pe_known p).

Section steps.
  Context (U : nat -> N) (HU : uuids_fresh U).

  Lemma remote_len s n ML M : remote_ok U s n ML M -> rm_log s <> [] -> length (rm_log s) = S (length M).
  Proof using Type.
    intros H Hne. pose proof (ro_sent _ _ _ _ _ H) as F. rewrite <- (Forall2_length _ _ _ F). destruct (ro_ml _ _ _ _ _ H) as [[-> _]|(b & _ & ->)]; [|done].
    apply Forall2_nil_inv_l in F. done.
  Qed.
  Lemma remote_head_log s n ML M : remote_ok U s n ML M -> (rm_head s = 0%N <-> rm_log s = []).
  Proof using HU.
    intros H. rewrite (ro_head _ _ _ _ _ H). unfold head_of. split; [|by intros ->]. intros E. destruct (last (map en_uuid (rm_log s))) as [u|] eqn:El.
    - apply last_elem in El. apply elem_of_list_fmap in El as (en & -> & Hen). cbn [default] in E. exfalso. by eapply (named_nonnil U n (rm_log s) en); [|apply H|..].
    - apply last_None in El. by destruct (rm_log s).
  Qed.
  Lemma remote_same_place s n ML M i j x y : remote_ok U s n ML M -> rm_log s !! i = Some x -> rm_log s !! j = Some y -> en_uuid x = en_uuid y -> i = j.
  Proof using HU.
    intros H Hx Hy E. pose proof (named_nodup U n _ HU (ro_uuids _ _ _ _ _ H)) as N. eapply NoDup_lookup; [exact N|..].
    - rewrite list_lookup_fmap, Hx. reflexivity.
    - rewrite list_lookup_fmap, Hy. cbn. by rewrite E.
  Qed.
  Lemma remote_last s n ML M j en : remote_ok U s n ML M -> rm_log s !! j = Some en -> (en_uuid en = rm_head s <-> j = length M).
  Proof using HU.
    intros H Hj. assert (rm_log s <> []) as Hne by by intros E; rewrite E in Hj. pose proof (remote_len _ _ _ _ H Hne) as Hl.
    rewrite (ro_head _ _ _ _ _ H). unfold head_of. destruct (last (rm_log s)) as [x|] eqn:El; [|by apply last_None in El].
    assert (last (map en_uuid (rm_log s)) = Some (en_uuid x)) as -> by by rewrite fmap_last, El. cbn [default]. rewrite last_lookup, Hl in El. cbn [pred] in El. split.
    - intros E. by eapply remote_same_place.
    - intros ->. rewrite Hj in El. by injection El as ->.
  Qed.
  Lemma entries_after_at l : NoDup (map en_uuid l) -> forall j en, l !! j = Some en -> entries_after (en_uuid en) l = Some (drop (S j) l).
  Proof using Type.
    induction l as [|x l IH]; intros Hn j en Hj; [done|]. cbn [map] in Hn. apply NoDup_cons in Hn as [Hx Hn]. cbn [entries_after]. destruct j as [|j].
    - injection Hj as ->. assert (entries_after (en_uuid en) l = None) as ->.
      { clear -Hx. induction l as [|y l IH]; [done|]. cbn [entries_after map] in *. rewrite IH by set_solver. case_decide; [set_solver|done]. }
      by rewrite decide_True.
    - cbn in Hj. by rewrite (IH Hn j en Hj).
  Qed.
  Lemma placed_mono s M s' M' segs tu known n ML : remote_ok U s n ML M -> (exists es, rm_log s' = rm_log s ++ es) -> (exists M2, M' = M ++ M2) ->
    placed s M segs tu known -> placed s' M' segs tu known.
  Proof using Type.
    intros H (es & E) (M2 & ->) [?|(j & en & Hj & Hk & F & T)]; [by left|right]. exists j, en. rewrite E. split; [by apply lookup_app_l_Some|]. split; [done|]. split; [|done].
    rewrite take_app_le; [done|]. assert (rm_log s <> []) as Hne by by intros E'; rewrite E' in Hj. apply lookup_lt_Some in Hj. rewrite (remote_len _ _ _ _ H Hne) in Hj. lia.
  Qed.
  Lemma remote_readable s n ML M : remote_ok U s n ML M -> Forall readable M.
  Proof using Type.
    intros H. pose proof (ro_sent _ _ _ _ _ H) as F. assert (Forall readable ML) as R.
    { clear -F. induction F; constructor; [by eapply sent_readable|done]. }
    destruct (ro_ml _ _ _ _ _ H) as [[_ ->]|(b & _ & ->)]; [constructor|]. by apply Forall_cons in R as [_ R].
  Qed.
  Lemma seg_eq_fst (l1 l2 : list seg) : Forall2 seg_eq l1 l2 -> map fst l1 = map fst l2.
  Proof using Type. induction 1 as [|x y l1 l2 [E _] _ IH]; [done|]. cbn [map]. congruence. Qed.

  Lemma joined_chain s n ML M st sc boot segs E : remote_ok U s n ML M -> hist st sc boot (segs ++ E) -> Forall2 seg_eq M segs ->
    exists c st' s', opened c /\ chain (disk c) (schema_of c) (M ++ E) st' s'.
  Proof using Type.
    intros H Hh F. destruct (ro_chain _ _ _ _ _ H) as (c & stM & sM & Hc & C). destruct (hi_chain _ _ _ _ Hh) as (c' & Hc' & C').
    apply chain_split in C' as (st1 & s1 & C1 & C2). destruct (opened_same _ _ Hc Hc') as [Fo Es]. rewrite <- Es in C1.
    destruct (chain_det _ _ _ _ _ _ _ _ _ C C1 F (ro_ok _ _ _ _ _ H) (remote_readable _ _ _ _ H) Fo) as [Ff ->].
    exists c, st, sc. split; [done|]. eapply chain_app; [exact C|]. by eapply chain_feq.
  Qed.

  (** After an upload *)
  Lemma uploaded s n ML M st sc boot segs E L2 es s' n' tu known ig cl' :
    remote_ok U s n ML M -> hist st sc boot (segs ++ E) -> Forall2 seg_eq M segs ->
    (rm_log s = [] /\ segs = [] /\ tu = ∅ /\ L2 = (TX0, boot) :: E) \/ (rm_log s <> [] /\ L2 = E /\ E <> [] /\ tu_ok tu (last_tx segs) known) ->
    Forall2 sent L2 es -> linked (rm_head s) es -> rm_log s' = rm_log s ++ es -> rm_head s' = head_of (rm_head s) es -> named U n n' es -> (n <= n')%nat ->
    cl' = Client ig (tu_insert_all tu (zip (map fst L2) (map en_uuid es))) (head_of known es) ->
    (exists ML', remote_ok U s' n' ML' (M ++ E)) /\ placed s' (M ++ E) (segs ++ E) (cl_tu cl') (cl_known cl') /\ cl_known cl' = rm_head s'.
  Proof using HU.
    intros H Hh F Hcase Hsent Hlink Hlog Hhead Hnamed Hn ->. cbn [cl_tu cl_known].
    assert (L2 <> []) as Hne by (destruct Hcase as [(_ & _ & _ & ->)|(_ & -> & ? & _)]; done).
    assert (es <> []) as Hes by (intros ->; apply Forall2_nil_inv_r in Hsent; done).
    assert (exists en, last es = Some en) as (en & Hen) by (destruct (last es) eqn:X; [by eexists|by apply last_None in X]).
    assert (forall h, head_of h es = en_uuid en) as Hh2 by (intros h; unfold head_of; by rewrite fmap_last, Hen).
    pose proof (seg_eq_fst _ _ F) as Efst. assert (map fst (M ++ E) = map fst (segs ++ E)) as Efst' by (rewrite !map_app; congruence).
    assert (StronglySorted Z.lt (TX0 :: map fst (segs ++ E))) as Hsort by apply Hh.
    assert (remote_ok U s' n' (ML ++ L2) (M ++ E)) as H'.
    { split.
      - rewrite Hlog. apply Forall2_app; [apply H|done].
      - right. destruct Hcase as [(El & -> & _ & ->)|(Hl & -> & _)].
        + apply Forall2_nil_inv_r in F as ->. exists boot. split; [apply Hh|]. pose proof (ro_sent _ _ _ _ _ H) as Fs. rewrite El in Fs. by apply Forall2_nil_inv_r in Fs as ->.
        + destruct (ro_ml _ _ _ _ _ H) as [[-> _]|(b & Hb & ->)]; [|exists b; done]. exfalso. pose proof (ro_sent _ _ _ _ _ H) as Fs. by apply Forall2_nil_inv_l in Fs.
      - rewrite Hhead, Hlog. unfold head_of. rewrite map_app, last_app. rewrite fmap_last, Hen. done.
      - rewrite Hlog. by eapply named_app; [apply H|..].
      - rewrite Hlog. pose proof (ro_linked _ _ _ _ _ H) as L. rewrite (ro_head _ _ _ _ _ H) in Hlink. clear -L Hlink. revert L Hlink. generalize 0%N.
        induction (rm_log s) as [|y l IH]; intros h L Hlink; [done|]. destruct L as [L1 L]. split; [done|]. fold (linked (en_uuid y) (l ++ es)). apply IH; [done|].
        unfold head_of in *. cbn [map] in Hlink. rewrite last_cons in Hlink. destruct (last (map en_uuid l)); done.
      - apply Forall_app. split; [apply H|]. pose proof (hi_ok _ _ _ _ Hh) as X. by apply Forall_app in X as [_ X].
      - rewrite Efst'. done.
      - by eapply joined_chain. }
    split; [by eexists|]. rewrite Hh2. split; [|by rewrite Hhead, Hh2]. right. exists (length (M ++ E)), en.
    assert (rm_log s' <> []) as Hne' by (rewrite Hlog; intros [_ ?]%app_eq_nil; done).
    split_and!; [|done|..].
    - rewrite last_lookup in Hen. rewrite Hlog. pose proof (remote_len _ _ _ _ H' Hne') as Hl. rewrite Hlog, app_length in Hl. rewrite lookup_app_r.
      + rewrite <- Hen. f_equal. destruct es; [done|]. cbn [length] in *. lia.
      + destruct es; [done|]. cbn [length] in *. lia.
    - rewrite firstn_all. apply Forall2_app; [done|]. apply Forall2_Forall_diag || (clear; induction E; constructor; [reflexivity|done]).
    - assert (length (map fst L2) = length (map en_uuid es)) as Hlen by (rewrite !map_length; by eapply Forall2_length).
      assert (map fst (zip (map fst L2) (map en_uuid es)) = map fst L2) as Ez by (apply fst_zip; lia).
      destruct (tu_insert_all_ok (zip (map fst L2) (map en_uuid es)) tu) as (t & u & El & Ht).
      + destruct L2; [done|]. destruct es; done.
      + rewrite Ez. destruct Hcase as [(El & -> & _ & ->)|(Hl & -> & _)]; [done|]. cbn [map] in Hsort. rewrite map_app in Hsort. clear -Hsort.
        change (TX0 :: map fst segs ++ map fst E) with ((TX0 :: map fst segs) ++ map fst E) in Hsort. induction (TX0 :: map fst segs) as [|z l IH]; [done|]. apply IH. by inversion Hsort.
      + intros t' q Ht Hq. destruct Hcase as [(_ & _ & -> & _)|(Hl & -> & _ & Htu)]; [rewrite lookup_empty in Ht; by destruct Ht|].
        apply (tu_below _ _ _ Htu) in Ht. assert (q.1 ∈ map fst E) as Hq1 by (rewrite <- Ez; apply elem_of_list_fmap; by exists q).
        assert (last_tx segs < q.1); [|lia]. rewrite map_app in Hsort. clear -Hsort Hq1. unfold last_tx. revert Hsort. generalize TX0. induction (map fst segs) as [|z l IH]; intros t0 Hs.
        * inversion Hs as [|? ? _ Hf]; subst. rewrite Forall_forall in Hf. by apply Hf.
        * rewrite last_cons. cbn [app] in Hs. inversion Hs as [|? ? Hs' _]; subst. specialize (IH _ Hs'). destruct (last l); done.
      + assert (t = last_tx (segs ++ E)) as <-.
        { assert (last (map fst (zip (map fst L2) (map en_uuid es))) = Some t) as X by by rewrite fmap_last, El. rewrite Ez in X. unfold last_tx. destruct Hcase as [(_ & -> & _ & ->)|(_ & -> & Ene & _)].
          - cbn [map app fst] in *. rewrite last_cons in X. destruct (last (map fst E)); cbn in *; congruence.
          - rewrite map_app, last_app, X. done. }
        assert (u = en_uuid en) as <-; [|done].
        assert (last (map snd (zip (map fst L2) (map en_uuid es))) = Some u) as X by by rewrite fmap_last, El. rewrite snd_zip in X by lia. rewrite fmap_last, Hen in X. cbn in X. congruence.
  Qed.

  Lemma chain_take M : forall j st s st' s', chain st s M st' s' -> exists st1 s1, chain st s (take j M) st1 s1 /\ chain st1 s1 (drop j M) st' s'.
  Proof using Type. intros j st s st' s' C. rewrite <- (take_drop j M) in C. by apply chain_split. Qed.

  (** After a download *)
  Lemma downloaded w s n ML M cl j boot segs cl' rep :
    remote_ok U s n ML M -> (j < length M)%nat -> rm_log s <> [] -> ig_ok (cl_ig cl) -> hist (ig_store (cl_ig cl)) (ig_schema (cl_ig cl)) boot segs ->
    Forall2 seg_eq (take j M) segs -> tu_ok (cl_tu cl) (last_tx segs) (cl_known cl) ->
    fast_forward_local w cl (map rtx_of (drop (S j) (rm_log s))) = (cl', SOk rep) ->
    ig_ok (cl_ig cl') /\ ig_gen (cl_ig cl') = ig_gen (cl_ig cl) /\ cl_known cl' = rm_head s
    /\ exists segs', hist (ig_store (cl_ig cl')) (ig_schema (cl_ig cl')) boot segs' /\ placed s M segs' (cl_tu cl') (cl_known cl').
  Proof using HU.
    intros H Hj Hne Hig Hh F Htu Hff. destruct (ro_chain _ _ _ _ _ H) as (c & stM & sM & Hc & C). apply (chain_take _ j) in C as (stA & sA & C1 & C2).
    destruct (hi_chain _ _ _ _ Hh) as (c' & Hc' & C'). destruct (opened_same _ _ Hc Hc') as [Fo Es]. rewrite <- Es in C'.
    pose proof (ro_ok _ _ _ _ _ H) as Hok. pose proof (remote_readable _ _ _ _ H) as Hrd.
    assert (Forall seg_ok (take j M)) as Hok1 by by apply Forall_take. assert (Forall readable (take j M)) as Hrd1 by by apply Forall_take.
    destruct (chain_det _ _ _ _ _ _ _ _ _ C1 C' F Hok1 Hrd1 Fo) as [Ff EsA].
    assert (Forall2 sent (drop j M) (drop (S j) (rm_log s))) as Hs.
    { pose proof (ro_sent _ _ _ _ _ H) as X. destruct (ro_ml _ _ _ _ _ H) as [[-> _]|(b & _ & ->)]; [by apply Forall2_nil_inv_l in X|].
      apply (Forall2_drop _ _ _ (S j)) in X. exact X. }
    assert (exists x, last (drop j M) = Some x) as (x & Hx).
    { destruct (last (drop j M)) eqn:X; [by eexists|]. apply last_None in X. apply (f_equal length) in X. rewrite drop_length in X. cbn in X. lia. }
    assert (exists en, last (drop (S j) (rm_log s)) = Some en) as (en & Hen).
    { destruct (last (drop (S j) (rm_log s))) eqn:X; [by eexists|]. apply last_None in X. rewrite X in Hs. apply Forall2_nil_inv_r in Hs. by rewrite Hs in Hx. }
    assert (map fst segs = map fst (take j M)) as Efst by (symmetry; by apply seg_eq_fst).
    unfold fast_forward_local in Hff. destruct (fast_forward_txs w (cl_ig cl) None _) as [ig' [o| |]] eqn:Eff; [|done..].
    eapply (pull_all w (drop j M)) in Eff as (-> & Hig' & Hg & ys & Fy & Hh'); [| | | | | | | exact Ff | exact EsA]; try eassumption.
    2:{ by apply Forall_drop. }
    2:{ pose proof (ro_sorted _ _ _ _ _ H) as X. rewrite <- (take_drop j M), map_app in X. unfold last_tx. rewrite Efst. clear -X. revert X. generalize TX0.
        induction (map fst (take j M)) as [|z l IH]; intros t X; [done|]. rewrite last_cons. cbn [app] in X. inversion X as [|? ? X' _]; subst. specialize (IH _ X'). by destruct (last l). }
    rewrite Hx, fmap_last, Hen in Hff. cbn [fmap option_fmap option_map] in Hff. injection Hff as <- <-. cbn [set_remote_head_and_map with_ig cl_ig cl_tu cl_known].
    assert (rm_log s !! length M = Some en) as Hlast.
    { pose proof (remote_len _ _ _ _ H Hne) as Hl. rewrite last_lookup, lookup_drop, drop_length, Hl in Hen. rewrite <- Hen. f_equal. lia. }
    split; [done|]. split; [done|]. split; [by apply (remote_last _ _ _ _ _ _ H Hlast)|]. exists (segs ++ ys). split; [done|]. right. exists (length M), en. split; [done|]. split; [done|].
    assert (Forall2 seg_eq M (segs ++ ys)) as FM by (rewrite <- (take_drop j M); by apply Forall2_app). split; [by rewrite firstn_all|].
    assert (last_tx (segs ++ ys) = x.1) as ->.
    { unfold last_tx. rewrite <- (seg_eq_fst _ _ FM), <- (take_drop j M), map_app, last_app, fmap_last, Hx. done. }
    apply tu_insert_ok. intros t' Ht. apply (tu_below _ _ _ Htu) in Ht. assert (last_tx segs <= x.1); [|lia].
    pose proof (sorted_last _ _ (ro_sorted _ _ _ _ _ H)) as K. assert (default TX0 (last (map fst M)) = x.1) as Ex by (rewrite <- (take_drop j M), map_app, last_app, fmap_last, Hx; done).
    rewrite <- Ex. apply K. unfold last_tx. rewrite Efst. destruct (last (map fst (take j M))) as [z|] eqn:Ez; [|left]. right. cbn [default]. apply last_elem in Ez.
    apply elem_of_list_fmap in Ez as (q & -> & Hq). apply elem_of_list_fmap. exists q. split; [done|]. rewrite <- (take_drop j M). set_solver.
  Qed.
End steps.

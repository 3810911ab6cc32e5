(** The attribute cache agrees with the store. *)
From Verif Require Import M_Cache Spec_Value Spec_Tx Spec_Conn Spec_Transact Spec_Cache.
From Verif Require Import P_Value P_Base P_Store P_Fill P_Step P_Meta P_Inv P_Conn P_Tx P_TxProps P_History P_TxThms P_Events.

(* ---------------------------------------------------------------- the four kinds of maps *)

Definition single_has (m : single_map) (x : ev) : Prop := mjoin (m !! x.1) = Some x.2.
Definition multi_has (m : multi_map) (x : ev) : Prop := exists vs, m !! x.1 = Some vs /\ x.2 ∈ vs.
Definition unique_has (m : unique_map) (x : ev) : Prop := mjoin (m !! x.2) = Some x.1.
Definition nonunique_has (m : nonunique_map) (x : ev) : Prop := exists es, m !! x.2 = Some es /\ x.1 ∈ es.

Lemma single_removes l : forall m e v, single_has (fold_left single_remove l m) (e, v) <-> single_has m (e, v) /\ forall w, (e, w) ∉ l.
Proof.
  induction l as [|[e' w'] l IH]; intros m e v; cbn [fold_left]; [set_solver|]. rewrite IH. unfold single_has, single_remove. cbn [fst snd].
  destruct (decide (e = e')) as [->|Hne].
  - rewrite lookup_insert. split; [by intros [? _]|]. intros [_ H]. destruct (H w'). by left.
  - rewrite lookup_insert_ne by done. setoid_rewrite not_elem_of_cons. naive_solver.
Qed.
Lemma single_sets l : (forall e v w, (e, v) ∈ l -> (e, w) ∈ l -> v = w) -> forall m e v,
  single_has (fold_left single_set l m) (e, v) <-> (e, v) ∈ l \/ (single_has m (e, v) /\ forall w, (e, w) ∉ l).
Proof.
  induction l as [|[e' w'] l IH]; intros Hf m e v; cbn [fold_left]; [set_solver|].
  rewrite IH by (intros e0 v0 w0 H1 H2; apply (Hf e0); by right). unfold single_has, single_set. cbn [fst snd].
  destruct (decide (e = e')) as [->|Hne].
  - rewrite lookup_insert. simpl. split.
    + intros [H|[[= ->] _]]; left; [by right|by left].
    + intros [H|[_ H]]; [|destruct (H w'); by left].
      assert (v = w') as -> by (apply (Hf e'); [done|by left]).
      destruct (decide (Exists (fun x => x.1 = e') l)) as [Hx|Hx].
      * apply Exists_exists in Hx as ([e0 w0] & Hin & Heq). simpl in Heq. subst e0. left.
        assert (w0 = w') as -> by (apply (Hf e'); [by right|by left]). done.
      * right. split; [done|]. intros w Hw. apply Hx, Exists_exists. by exists (e', w).
  - rewrite lookup_insert_ne by done. setoid_rewrite not_elem_of_cons. setoid_rewrite elem_of_cons. naive_solver.
Qed.
Lemma multi_has_default m e v : multi_has m (e, v) <-> v ∈ default [] (m !! e).
Proof. unfold multi_has. simpl. destruct (m !! e); simpl; [naive_solver|]. split; [naive_solver|]. by intros ?%elem_of_nil. Qed.
Lemma multi_removes l : forall m e v, multi_has (fold_left multi_remove l m) (e, v) <-> multi_has m (e, v) /\ (e, v) ∉ l.
Proof.
  induction l as [|[e' w'] l IH]; intros m e v; cbn [fold_left]; [set_solver|]. rewrite IH. unfold multi_has, multi_remove. cbn [fst snd].
  rewrite not_elem_of_cons. destruct (decide (e = e')) as [->|Hne].
  - rewrite lookup_alter. destruct (m !! e') as [vs|]; simpl; [|naive_solver]. split.
    + intros [(? & [= <-] & H%elem_of_list_filter) ?]. split; [naive_solver|]. split; [|done]. intros [= ->]. by destruct H.
    + intros [(? & [= <-] & H) [? ?]]. split; [|done]. eexists. split; [done|]. apply elem_of_list_filter. split; [congruence|done].
  - rewrite lookup_alter_ne by done. naive_solver.
Qed.
Lemma multi_accs l : forall m e v, multi_has (fold_left multi_acc l m) (e, v) <-> multi_has m (e, v) \/ (e, v) ∈ l.
Proof.
  induction l as [|[e' w'] l IH]; intros m e v; cbn [fold_left]; [set_solver|]. rewrite IH, !multi_has_default. unfold multi_acc. cbn [fst snd].
  rewrite elem_of_cons. destruct (decide (e = e')) as [->|Hne].
  - rewrite lookup_insert. simpl. rewrite elem_of_app, elem_of_list_singleton. naive_solver.
  - rewrite lookup_insert_ne by done. naive_solver.
Qed.
Lemma unique_removes l : forall m e v, unique_has (fold_left unique_remove l m) (e, v) <-> unique_has m (e, v) /\ forall e', (e', v) ∉ l.
Proof.
  induction l as [|[e' w'] l IH]; intros m e v; cbn [fold_left]; [set_solver|]. rewrite IH. unfold unique_has, unique_remove. cbn [fst snd].
  destruct (decide (v = w')) as [->|Hne].
  - rewrite lookup_insert. split; [by intros [? _]|]. intros [_ H]. destruct (H e'). by left.
  - rewrite lookup_insert_ne by done. setoid_rewrite not_elem_of_cons. naive_solver.
Qed.
Lemma unique_sets l : (forall e e' v, (e, v) ∈ l -> (e', v) ∈ l -> e = e') -> forall m e v,
  unique_has (fold_left unique_set l m) (e, v) <-> (e, v) ∈ l \/ (unique_has m (e, v) /\ forall e', (e', v) ∉ l).
Proof.
  induction l as [|[e' w'] l IH]; intros Hf m e v; cbn [fold_left]; [set_solver|].
  rewrite IH by (intros e0 v0 w0 H1 H2; eapply Hf; by right). unfold unique_has, unique_set. cbn [fst snd].
  destruct (decide (v = w')) as [->|Hne].
  - rewrite lookup_insert. simpl. split.
    + intros [H|[[= ->] _]]; left; [by right|by left].
    + intros [H|[_ H]]; [|destruct (H e'); by left].
      assert (e = e') as -> by (apply (Hf _ _ w'); [done|by left]).
      destruct (decide (Exists (fun x => x.2 = w') l)) as [Hx|Hx].
      * apply Exists_exists in Hx as ([e0 w0] & Hin & Heq). simpl in Heq. subst w0. left.
        assert (e0 = e') as -> by (apply (Hf _ _ w'); [by right|by left]). done.
      * right. split; [done|]. intros w Hw. apply Hx, Exists_exists. by exists (w, w').
  - rewrite lookup_insert_ne by done. setoid_rewrite not_elem_of_cons. setoid_rewrite elem_of_cons. naive_solver.
Qed.
Lemma nonunique_has_default m e v : nonunique_has m (e, v) <-> e ∈ default ∅ (m !! v).
Proof. unfold nonunique_has. simpl. destruct (m !! v); simpl; [naive_solver|]. split; [naive_solver|]. by intros ?%elem_of_empty. Qed.
Lemma nonunique_removes l : forall m e v, nonunique_has (fold_left nonunique_remove l m) (e, v) <-> nonunique_has m (e, v) /\ (e, v) ∉ l.
Proof.
  induction l as [|[e' w'] l IH]; intros m e v; cbn [fold_left]; [set_solver|]. rewrite IH. unfold nonunique_has, nonunique_remove. cbn [fst snd].
  rewrite not_elem_of_cons. destruct (decide (v = w')) as [->|Hne].
  - rewrite lookup_alter. destruct (m !! w') as [es|]; simpl; [|naive_solver]. split.
    + intros [(? & [= <-] & [H H2]%elem_of_difference) ?]. split; [naive_solver|]. split; [|done]. intros [= ->]. by apply H2, elem_of_singleton.
    + intros [(? & [= <-] & H) [? ?]]. split; [|done]. eexists. split; [done|]. apply elem_of_difference. split; [done|]. rewrite elem_of_singleton. congruence.
  - rewrite lookup_alter_ne by done. naive_solver.
Qed.
Lemma nonunique_accs l : forall m e v, nonunique_has (fold_left nonunique_acc l m) (e, v) <-> nonunique_has m (e, v) \/ (e, v) ∈ l.
Proof.
  induction l as [|[e' w'] l IH]; intros m e v; cbn [fold_left]; [set_solver|]. rewrite IH, !nonunique_has_default. unfold nonunique_acc. cbn [fst snd].
  rewrite elem_of_cons. destruct (decide (v = w')) as [->|Hne].
  - rewrite lookup_insert. simpl. rewrite elem_of_union, elem_of_singleton. naive_solver.
  - rewrite lookup_insert_ne by done. naive_solver.
Qed.

(** The second map has every key of the first one. *)
Definition covers {K V} `{Countable K} (m m' : gmap K V) : Prop := dom m ⊆ dom m'.
Lemma covers_fold {K V X} `{Countable K} (f : gmap K V -> X -> gmap K V) l : (forall m x, dom m ⊆ dom (f m x)) -> forall m, covers m (fold_left f l m).
Proof. intros Hf. induction l as [|x l IH]; intros m; cbn [fold_left]; [by unfold covers|]. unfold covers in *. specialize (Hf m x). specialize (IH (f m x)). set_solver. Qed.
Lemma absorb_opt_single mi mo e v : covers mi mo -> single_has (absorb_opt mi mo) (e, v) <-> single_has mo (e, v).
Proof.
  intros Hc. unfold single_has, absorb_opt. simpl. rewrite lookup_merge. unfold diag_None. specialize (Hc e). rewrite !elem_of_dom in Hc.
  destruct (mi !! e) as [o|] eqn:E1, (mo !! e) as [[w|]|] eqn:E2; try done. by destruct Hc.
Qed.
Lemma absorb_opt_unique mi mo e v : covers mi mo -> unique_has (absorb_opt mi mo) (e, v) <-> unique_has mo (e, v).
Proof.
  intros Hc. unfold unique_has, absorb_opt. simpl. rewrite lookup_merge. unfold diag_None. specialize (Hc v). rewrite !elem_of_dom in Hc.
  destruct (mi !! v) as [o|] eqn:E1, (mo !! v) as [[w|]|] eqn:E2; try done. by destruct Hc.
Qed.
Lemma absorb_multi_has mi mo e v : covers mi mo -> multi_has (absorb_multi mi mo) (e, v) <-> multi_has mo (e, v).
Proof.
  intros Hc. rewrite !multi_has_default. unfold absorb_multi. rewrite lookup_merge. unfold diag_None. specialize (Hc e). rewrite !elem_of_dom in Hc.
  destruct (mi !! e) as [o|] eqn:E1, (mo !! e) as [[|w vs]|] eqn:E2; try done. by destruct Hc.
Qed.
Lemma absorb_nonunique_has mi mo e v : covers mi mo -> nonunique_has (absorb_nonunique mi mo) (e, v) <-> nonunique_has mo (e, v).
Proof.
  intros Hc. rewrite !nonunique_has_default. unfold absorb_nonunique. rewrite lookup_merge. unfold diag_None. specialize (Hc v). rewrite !elem_of_dom in Hc.
  destruct (mi !! v) as [o|] eqn:E1, (mo !! v) as [es|] eqn:E2; try done.
  - case_decide; subst; simpl; set_solver.
  - by destruct Hc.
  - case_decide; subst; simpl; set_solver.
Qed.

(* ---------------------------------------------------------------- rows *)

Definition evs_of (a : Z) (rs : list (Z * list ev)) : list ev := flat_map (fun r : Z * list ev => if decide (r.1 = a) then r.2 else []) rs.
Lemma evs_of_runs a l x : x ∈ evs_of a (runs l) <-> (a, x.1, x.2) ∈ l.
Proof.
  induction l as [|[[a' e] v] l IH]; cbn [runs]; [set_solver|]. rewrite elem_of_cons, <- IH. destruct x as [xe xv]. cbn [fst snd].
  destruct (runs l) as [|[a2 evs] r] eqn:E; unfold evs_of; cbn [flat_map fst snd].
  - destruct (decide (a' = a)) as [->|Hne]; cbn [app]; rewrite ?elem_of_list_singleton, ?elem_of_nil;
      (split; [intros H; first [done|left; congruence]|intros [H|H]; first [done|congruence|by injection H as -> ->]]).
  - assert (forall l' : list ev, (a, xe, xv) = (a', e, v) \/ (xe, xv) ∈ l' <-> (a = a' /\ (xe, xv) = (e, v)) \/ (xe, xv) ∈ l') as Hs.
    { intros l'. split; (intros [H|H]; [left|by right]); [by injection H as -> -> ->|destruct H as [-> H]; congruence]. }
    rewrite Hs. destruct (decide (a' = a2)) as [->|Hne]; cbn [flat_map fst snd].
    + destruct (decide (a2 = a)) as [->|Hne2]; cbn [app]; [rewrite elem_of_cons; split; (intros [H|H]; [left|by right]); [done|by destruct H]|].
      split; [intros H; by right|intros [[? _]|H]; [congruence|done]].
    + destruct (decide (a' = a)) as [->|Hne2]; cbn [app].
      * rewrite decide_False by congruence. cbn [app]. rewrite elem_of_cons. split; (intros [H|H]; [left|by right]); [done|by destruct H].
      * split; [intros H; by right|intros [[? _]|H]; [congruence|done]].
Qed.
Lemma evs_of_runs_nil a l : evs_of a (runs l) = [] <-> forall e v, (a, e, v) ∉ l.
Proof.
  split.
  - intros E e v Hin. apply (evs_of_runs a l (e, v)) in Hin. rewrite E in Hin. by apply elem_of_nil in Hin.
  - intros H. destruct (evs_of a (runs l)) as [|[e v] r] eqn:E; [done|]. destruct (H e v). apply (evs_of_runs a l (e, v)). rewrite E. by left.
Qed.
Lemma runs_nonempty l : Forall (fun r => r.2 <> []) (runs l).
Proof.
  induction l as [|[[a e] v] l IH]; cbn [runs]; [constructor|]. destruct (runs l) as [|[a' evs] r]; [by constructor|].
  apply Forall_cons in IH as [? ?]. case_decide; repeat constructor; done.
Qed.

Lemma collect_elem o k evs a : forall x, x ∈ default [] (collect o k evs !! a) <->
  (k, x.1, a, x.2) ∈ evs /\ (ov_cached_forward o a = true \/ ov_cached_reverse o a = true).
Proof.
  unfold collect. intros x.
  assert (forall m, x ∈ default [] (fold_left (fun m (y : event) => let '(k', e, a, v) := y in
    if bool_decide (k' = k) && (ov_cached_forward o a || ov_cached_reverse o a) then <[a := default [] (m !! a) ++ [(e, v)]]> m else m) evs m !! a)
    <-> x ∈ default [] ((m : gmap Z (list ev)) !! a) \/ ((k, x.1, a, x.2) ∈ evs /\ (ov_cached_forward o a = true \/ ov_cached_reverse o a = true))) as H.
  { induction evs as [|[[[k' e'] a'] v'] evs IH]; intros m; cbn [fold_left]; [set_solver|]. rewrite IH. clear IH. rewrite elem_of_cons.
    destruct x as [e v]. cbn [fst snd].
    destruct (bool_decide (k' = k) && (ov_cached_forward o a' || ov_cached_reverse o a')) eqn:Eb.
    - apply andb_true_iff in Eb as [->%bool_decide_eq_true Hc%orb_true_iff].
      destruct (decide (a = a')) as [->|Hne].
      + rewrite lookup_insert. simpl. rewrite elem_of_app, elem_of_list_singleton. naive_solver.
      + rewrite lookup_insert_ne by done. naive_solver.
    - split; [naive_solver|]. intros [?|[[[= -> -> -> ->]|?] Hc]]; [by left| |by right].
      rewrite bool_decide_eq_true_2, andb_true_l in Eb by done. apply orb_true_iff in Hc. congruence. }
  rewrite H, lookup_empty. simpl. set_solver.
Qed.
Lemma flatten_elem m a e v : (a, e, v) ∈ flatten m <-> (e, v) ∈ default [] (m !! a).
Proof.
  unfold flatten. rewrite elem_of_list_In, in_flat_map. split.
  - intros (a' & _ & Hin). apply in_map_iff in Hin as ([e' v'] & [= -> -> ->] & Hin). by apply elem_of_list_In.
  - intros Hin. exists a. split.
    + apply elem_of_list_In. rewrite merge_sort_Permutation, elem_of_elements, elem_of_dom. destruct (m !! a); [done|]. by apply elem_of_nil in Hin.
    + apply in_map_iff. exists (e, v). split; [done|]. by apply elem_of_list_In.
Qed.
Lemma told_rows o k evs a e v : (a, e, v) ∈ flatten (collect o k evs) <->
  (k, e, a, v) ∈ evs /\ (ov_cached_forward o a = true \/ ov_cached_reverse o a = true).
Proof. by rewrite flatten_elem, (collect_elem o k evs a (e, v)). Qed.

(* ---------------------------------------------------------------- what a transaction does, in terms of values *)

Definition one_value (s : schema) (st : store) : Prop :=
  forall e a at_ p q, sc_attribute_map s !! a = Some at_ -> at_multival at_ = false -> (e, a, p) ∈ facts st -> (e, a, q) ∈ facts st -> p = q.

Lemma said_iff C st s s' evs o e a v : gentle C st s s' evs -> C a -> storable v -> said evs o e a (to_sql_value_pair v) <-> (o, e, a, v) ∈ evs.
Proof.
  intros G Ha Hv. split; [|by exists v]. intros (w & Hw & E). pose proof (ge_storable _ _ _ _ _ G _ _ _ _ Hw Ha) as Hs.
  by rewrite (codec_inj v w) by done.
Qed.
Lemma add_holds C st st' s s' tx evs e a v : events_ok (sc_attribute_map s) st st' tx evs -> gentle C st s s' evs -> C a ->
  (OAdd, e, a, v) ∈ evs -> storable v /\ holds st' e a v.
Proof.
  intros E G Ha Hin. pose proof (ge_storable _ _ _ _ _ G _ _ _ _ Hin Ha) as Hv. split; [done|].
  destruct (eo_known _ _ _ _ _ E _ _ _ _ Hin) as (at_ & Hat & _). unfold holds. rewrite (eo_facts _ _ _ _ _ E e a _ at_ Hat).
  destruct (at_multival at_) eqn:Em.
  - destruct (decide ((e, a, to_sql_value_pair v) ∈ facts st)) as [Hh|Hh]; [left|right; split; [by exists v|done]].
    split; [done|]. rewrite (said_iff _ _ _ _ _ _ _ _ _ G Ha Hv). intros Hr. apply (ge_clash _ _ _ _ _ G e a v v); try done. by left.
  - destruct (decide ((e, a, to_sql_value_pair v) ∈ facts st)) as [Hh|Hh]; [left|right; split; [by exists v|done]].
    split; [done|]. split.
    + intros q (w & Hw & _). apply (ge_clash _ _ _ _ _ G e a v w); try done. right. by exists at_.
    + intros q (w & Hw & <-). by rewrite (eo_one _ _ _ _ _ E e a at_ v w).
Qed.
Lemma keep_holds C C' st st' s s' tx evs e a at_ v : events_ok (sc_attribute_map s) st st' tx evs -> gentle C st s s' evs -> gentle_reverse C' st st' s evs ->
  one_value s st -> C a -> C' a -> sc_attribute_map s !! a = Some at_ -> storable v -> holds st e a v -> (ORetract, e, a, v) ∉ evs -> holds st' e a v.
Proof.
  intros E G R One Ha Ha' Hat Hv Hh Hr. unfold holds. rewrite (eo_facts _ _ _ _ _ E e a _ at_ Hat).
  destruct (at_multival at_) eqn:Em; left; (split; [done|]).
  - by rewrite (said_iff _ _ _ _ _ _ _ _ _ G Ha Hv).
  - split.
    + intros q (w & Hw & <-). apply Hr. pose proof (gr_there _ _ _ _ _ R _ _ _ Hw Ha') as Hw'.
      rewrite (codec_inj v w); [done|done|by eapply (ge_storable _ _ _ _ _ G)|]. by apply (One e a at_).
    + intros q (w & Hw & <-). destruct (gr_replaced _ _ _ _ _ R e a w v) as [->|?]; try done. by exists at_.
Qed.
Lemma from_holds C st st' s s' tx evs e a at_ v : events_ok (sc_attribute_map s) st st' tx evs -> gentle C st s s' evs ->
  C a -> sc_attribute_map s !! a = Some at_ -> storable v -> holds st' e a v ->
  (OAdd, e, a, v) ∈ evs \/ (holds st e a v /\ (ORetract, e, a, v) ∉ evs /\ (at_multival at_ = false -> forall w, (ORetract, e, a, w) ∉ evs /\ (OAdd, e, a, w) ∉ evs)).
Proof.
  intros E G Ha Hat Hv Hh. unfold holds in Hh. rewrite (eo_facts _ _ _ _ _ E e a _ at_ Hat) in Hh.
  destruct (decide ((OAdd, e, a, v) ∈ evs)) as [Hin|Hnin]; [by left|right].
  destruct (at_multival at_) eqn:Em.
  - destruct Hh as [[H1 H2]|[H1 _]]; [|by rewrite (said_iff _ _ _ _ _ _ _ _ _ G Ha Hv) in H1].
    rewrite (said_iff _ _ _ _ _ _ _ _ _ G Ha Hv) in H2. done.
  - destruct Hh as [(H1 & H2 & H3)|[H1 _]]; [|by rewrite (said_iff _ _ _ _ _ _ _ _ _ G Ha Hv) in H1].
    split; [done|]. split; [intros H; apply (H2 (to_sql_value_pair v)); by exists v|]. intros _ w. split.
    + intros H. apply (H2 (to_sql_value_pair w)). by exists w.
    + intros H. pose proof (ge_storable _ _ _ _ _ G _ _ _ _ H Ha) as Hw.
      assert (to_sql_value_pair w = to_sql_value_pair v) as Ew by (apply H3; by exists w).
      apply codec_inj in Ew; [|done..]. by subst w.
Qed.

(* ---------------------------------------------------------------- lanes *)

(** One of the four kinds of maps *)
Record lane := Lane {
  l_rev : bool; l_map : Type; l_emp : l_map; l_add : l_map -> ev -> l_map; l_rem : l_map -> ev -> l_map; l_abs : l_map -> l_map -> l_map;
  l_has : l_map -> ev -> Prop; l_cov : l_map -> l_map -> Prop; l_get : caches -> gmap Z l_map; l_kind : attribute -> bool;
  (** what may be added at once *)
  l_fun : list ev -> Prop }.
Definition l_cached (L : lane) (c : caches) : gset Z := if l_rev L then ca_rev c else ca_fwd c.
Definition l_fallback (L : lane) (b : behavior) (fb : option caches) (a : Z) : l_map L :=
  default (l_emp L) ((if is_replacing b then None else fb) ≫= fun f => if decide (a ∈ l_cached L f) then l_get L f !! a else None).
Definition l_op (L : lane) (b : behavior) : l_map L -> ev -> l_map L := match b with BAdd _ => l_add L | BRemove => l_rem L end.
(** The map has the values that there are. *)
Definition agrees (L : lane) (st : store) (a : Z) (m : l_map L) : Prop := forall e v, l_has L m (e, v) <-> storable v /\ holds st e a v.

Record lane_ok (L : lane) : Prop := {
  lo_emp : forall x, ~ l_has L (l_emp L) x;
  lo_cov_emp : forall m, l_cov L (l_emp L) m;
  lo_cov_refl : forall m, l_cov L m m;
  lo_cov_trans : forall m1 m2 m3, l_cov L m1 m2 -> l_cov L m2 m3 -> l_cov L m1 m3;
  lo_cov_op : forall b m x, l_cov L m (l_op L b m x);
  lo_abs : forall mi mo x, l_cov L mi mo -> l_has L (l_abs L mi mo) x <-> l_has L mo x;
  lo_acc : forall fb s b c a evs c' at_, accumulate_evs fb s b c (a, evs) = Ok c' -> sc_attribute_map s !! a = Some at_ ->
    l_get L c' = if l_kind L at_ && bool_decide (a ∈ l_cached L c)
                 then <[a := fold_left (l_op L b) evs (if is_replacing b then l_emp L else default (l_fallback L b fb a) (l_get L c !! a))]> (l_get L c)
                 else l_get L c;
  lo_absorb : forall c o, l_get L (caches_absorb c o) = extend_by_absorbing (l_abs L) (l_get L c) (l_get L o);
  lo_unreg : forall c a, l_get L (unregister_attribute c a) = delete a (l_get L c);
  lo_mark : forall c a f r, l_get L (mark c a f r) = l_get L c;
  lo_from : forall c, l_get L (ov_overlay (ov_from c)) = ∅;
  lo_empty : l_get L caches_empty = ∅;
  lo_kind : forall at_ at', at_multival at' = at_multival at_ -> (is_Some (at_unique at') <-> is_Some (at_unique at_)) -> l_kind L at' = l_kind L at_;
  lo_adds : forall l x, l_fun L l -> l_has L (fold_left (l_add L) l (l_emp L)) x <-> x ∈ l;
  lo_rows : forall st s a at_ l, one_value s st ->
    (l_rev L = true -> is_Some (at_unique at_) -> forall e1 e2 p, (e1, a, p) ∈ facts st -> (e2, a, p) ∈ facts st -> e1 = e2) ->
    sc_attribute_map s !! a = Some at_ -> l_kind L at_ = true -> (forall x, x ∈ l <-> storable x.2 /\ holds st x.1 a x.2) -> l_fun L l;
  lo_batch : forall C C' st st' s s' tx evs a at_ m adds rems, events_ok (sc_attribute_map s) st st' tx evs -> gentle C st s s' evs ->
    (l_rev L = true -> gentle_reverse C' st st' s evs) -> one_value s st -> C a -> (l_rev L = true -> C' a) ->
    sc_attribute_map s !! a = Some at_ -> l_kind L at_ = true ->
    (forall x, x ∈ adds <-> (OAdd, x.1, a, x.2) ∈ evs) -> (forall x, x ∈ rems <-> (ORetract, x.1, a, x.2) ∈ evs) ->
    agrees L st a m -> agrees L st' a (fold_left (l_add L) adds (fold_left (l_rem L) rems m)) }.

Lemma accumulate_op {M} (emp : M) add rem b evs m :
  accumulate emp add rem b evs m = fold_left (match b with BAdd _ => add | BRemove => rem end) evs (if is_replacing b then emp else m).
Proof. by destruct b. Qed.

Definition single_lane : lane :=
  Lane false single_map ∅ single_set single_remove absorb_opt single_has covers ca_single (fun at_ => negb (at_multival at_))
    (fun l => forall e v w, (e, v) ∈ l -> (e, w) ∈ l -> v = w).
Definition multi_lane : lane :=
  Lane false multi_map ∅ multi_acc multi_remove absorb_multi multi_has covers ca_multi at_multival (fun _ => True).
Definition unique_lane : lane :=
  Lane true unique_map ∅ unique_set unique_remove absorb_opt unique_has covers ca_unique (fun at_ => if at_unique at_ then true else false)
    (fun l => forall e e' v, (e, v) ∈ l -> (e', v) ∈ l -> e = e').
Definition nonunique_lane : lane :=
  Lane true nonunique_map ∅ nonunique_acc nonunique_remove absorb_nonunique nonunique_has covers ca_nonunique (fun at_ => if at_unique at_ then false else true)
    (fun _ => True).

Ltac acc_tac := let H := fresh in let Ha := fresh in
  intros fb s b c a evs c' at_ H Ha; unfold accumulate_evs in H; rewrite Ha in H;
  unfold l_fallback, l_op, l_cached; cbn [l_rev l_map l_emp l_add l_rem l_get l_kind];
  destruct (decide (a ∈ ca_fwd c)) as [Hf|Hf];
  [rewrite !(bool_decide_eq_true_2 _ Hf) in H; rewrite ?(bool_decide_eq_true_2 _ Hf)|rewrite !(bool_decide_eq_false_2 _ Hf) in H; rewrite ?(bool_decide_eq_false_2 _ Hf)];
  (destruct (decide (a ∈ ca_rev c)) as [Hr|Hr];
  [rewrite !(bool_decide_eq_true_2 _ Hr) in H; rewrite ?(bool_decide_eq_true_2 _ Hr)|rewrite !(bool_decide_eq_false_2 _ Hr) in H; rewrite ?(bool_decide_eq_false_2 _ Hr)]);
  cbn [andb negb] in H; try done; injection H as <-;
  destruct (at_multival at_), (at_unique at_); cbn [andb negb ca_rev ca_fwd ca_single ca_multi ca_unique ca_nonunique];
  rewrite ?accumulate_op; try done;
  (f_equal; f_equal; destruct (is_replacing b); [done|]; unfold entry_or_copy; cbn [andb negb];
   destruct fb as [f|]; [|done]; simpl; case_decide; done).

Lemma covers_insert {K V} `{Countable K} (m : gmap K V) k v : dom m ⊆ dom (<[k := v]> m).
Proof. rewrite dom_insert. set_solver. Qed.
Lemma covers_alter {K V} `{Countable K} (m : gmap K V) k f : dom m ⊆ dom (alter f k m).
Proof. by rewrite dom_alter. Qed.

Lemma is_Some_if {A B} (o o' : option A) (x y : B) : (is_Some o' <-> is_Some o) -> (if o' then x else y) = (if o then x else y).
Proof.
  intros [H1 H2]. destruct o, o'; try done.
  - by destruct (is_Some_None (H2 ltac:(by eexists))).
  - by destruct (is_Some_None (H1 ltac:(by eexists))).
Qed.

Lemma single_ok : lane_ok single_lane.
Proof.
  split; cbn [single_lane l_rev l_map l_emp l_add l_rem l_abs l_has l_cov l_get l_kind l_fun].
  - intros x. unfold single_has. by rewrite lookup_empty.
  - intros m. unfold covers. set_solver.
  - by unfold covers.
  - unfold covers. set_solver.
  - intros [] m x; apply covers_insert.
  - intros mi mo [e v]. apply absorb_opt_single.
  - acc_tac.
  - done.
  - done.
  - done.
  - done.
  - done.
  - by intros at_ at' ->.
  - intros l [e v] Hl. rewrite (single_sets l Hl). unfold single_has at 1. rewrite lookup_empty. simpl. naive_solver.
  - intros st s a at_ l One _ Hat Hk Hl e v w Hv Hw. apply Hl in Hv as [Hv1 Hv2], Hw as [Hw1 Hw2].
    apply codec_inj; try done. apply negb_true_iff in Hk. by apply (One e a at_).
  - intros C C' st st' s s' tx evs a at_ m adds rems E G _ One Ha _ Hat Hk Hadds Hrems Hm e v.
    cbn [single_lane l_has l_add l_rem]. apply negb_true_iff in Hk.
    assert (forall e0 v0 w0, (e0, v0) ∈ adds -> (e0, w0) ∈ adds -> v0 = w0) as Hfun.
    { intros e0 v0 w0 H1%Hadds H2%Hadds. by apply (eo_one _ _ _ _ _ E e0 a at_). }
    rewrite (single_sets adds Hfun), single_removes. split.
    + intros [Hin|[[Hh Hr] Hn]].
      * apply Hadds in Hin. by apply (add_holds _ _ _ _ _ _ _ _ _ _ E G Ha Hin).
      * apply Hm in Hh as [Hv Hh]. split; [done|]. unfold holds. rewrite (eo_facts _ _ _ _ _ E e a _ at_ Hat), Hk. left. split; [done|]. split.
        { intros q (w & Hw & _). by apply (Hr w), Hrems. }
        { intros q (w & Hw & _). by destruct (Hn w); apply Hadds. }
    + intros [Hv Hh]. destruct (from_holds _ _ _ _ _ _ _ _ _ _ _ E G Ha Hat Hv Hh) as [H|(H1 & H2 & H3)]; [left; by apply Hadds|right].
      split; [split|].
      * by apply Hm.
      * intros w Hw%Hrems. exact (proj1 (H3 Hk w) Hw).
      * intros w Hw%Hadds. exact (proj2 (H3 Hk w) Hw).
Qed.
Lemma multi_ok : lane_ok multi_lane.
Proof.
  split; cbn [multi_lane l_rev l_map l_emp l_add l_rem l_abs l_has l_cov l_get l_kind l_fun].
  - intros x. unfold multi_has. setoid_rewrite lookup_empty. naive_solver.
  - intros m. unfold covers. set_solver.
  - by unfold covers.
  - unfold covers. set_solver.
  - intros [] m x; [apply covers_insert|apply covers_alter].
  - intros mi mo [e v]. apply absorb_multi_has.
  - acc_tac.
  - done.
  - done.
  - done.
  - done.
  - done.
  - by intros at_ at' ->.
  - intros l [e v] _. rewrite multi_accs. unfold multi_has. setoid_rewrite lookup_empty. naive_solver.
  - done.
  - intros C C' st st' s s' tx evs a at_ m adds rems E G _ One Ha _ Hat Hk Hadds Hrems Hm e v.
    cbn [multi_lane l_has l_add l_rem l_kind] in *.
    rewrite multi_accs, multi_removes. split.
    + intros [[Hh Hr]|Hin].
      * apply Hm in Hh as [Hv Hh]. split; [done|]. unfold holds. rewrite (eo_facts _ _ _ _ _ E e a _ at_ Hat), Hk. left. split; [done|].
        rewrite (said_iff _ _ _ _ _ _ _ _ _ G Ha Hv). intros H. by apply Hr, Hrems.
      * apply Hadds in Hin. by apply (add_holds _ _ _ _ _ _ _ _ _ _ E G Ha Hin).
    + intros [Hv Hh]. destruct (from_holds _ _ _ _ _ _ _ _ _ _ _ E G Ha Hat Hv Hh) as [H|(H1 & H2 & _)]; [right; by apply Hadds|left].
      split; [by apply Hm|]. by intros ?%Hrems.
Qed.
Lemma unique_ok : lane_ok unique_lane.
Proof.
  split; cbn [unique_lane l_rev l_map l_emp l_add l_rem l_abs l_has l_cov l_get l_kind l_fun].
  - intros x. unfold unique_has. by rewrite lookup_empty.
  - intros m. unfold covers. set_solver.
  - by unfold covers.
  - unfold covers. set_solver.
  - intros [] m x; apply covers_insert.
  - intros mi mo [e v]. apply absorb_opt_unique.
  - acc_tac.
  - done.
  - done.
  - done.
  - done.
  - done.
  - intros at_ at' _ H. by apply is_Some_if.
  - intros l [e v] Hl. rewrite (unique_sets l Hl). unfold unique_has at 1. rewrite lookup_empty. simpl. naive_solver.
  - intros st s a at_ l One Hu Hat Hk Hl e e' v Hv Hw. apply Hl in Hv as [Hv1 Hv2], Hw as [Hw1 Hw2].
    apply (Hu eq_refl) with (p := to_sql_value_pair v); try done. by destruct (at_unique at_).
  - intros C C' st st' s s' tx evs a at_ m adds rems E G R One Ha Ha' Hat Hk Hadds Hrems Hm e v.
    cbn [unique_lane l_has l_add l_rem l_kind l_rev] in *. specialize (R eq_refl). specialize (Ha' eq_refl).
    assert (is_Some (at_unique at_)) as Hu by (by destruct (at_unique at_)).
    assert (forall e0 e0' v0, (e0, v0) ∈ adds -> (e0', v0) ∈ adds -> e0 = e0') as Hfun.
    { intros e0 e0' v0 H1%Hadds H2%Hadds. apply (gr_unique' _ _ _ _ _ R a at_ e0 e0' (to_sql_value_pair v0)); try done.
      - by apply (add_holds _ _ _ _ _ _ _ _ _ _ E G Ha H1).
      - by apply (add_holds _ _ _ _ _ _ _ _ _ _ E G Ha H2). }
    rewrite (unique_sets adds Hfun), unique_removes. split.
    + intros [Hin|[[Hh Hr] Hn]].
      * apply Hadds in Hin. by apply (add_holds _ _ _ _ _ _ _ _ _ _ E G Ha Hin).
      * apply Hm in Hh as [Hv Hh]. split; [done|]. apply (keep_holds _ _ _ _ _ _ _ _ _ _ _ _ E G R One Ha Ha' Hat Hv Hh).
        intros H. by apply (Hr e), Hrems.
    + intros [Hv Hh]. destruct (from_holds _ _ _ _ _ _ _ _ _ _ _ E G Ha Hat Hv Hh) as [H|(H1 & H2 & _)]; [left; by apply Hadds|].
      destruct (decide ((e, v) ∈ adds)) as [|Hna]; [by left|right]. split; [split|].
      * by apply Hm.
      * intros e' He'%Hrems. pose proof (gr_there _ _ _ _ _ R _ _ _ He' Ha') as H'. apply H2.
        assert (e' = e) as <- by (by apply (gr_unique _ _ _ _ _ R a at_ e' e (to_sql_value_pair v))). done.
      * intros e' He'. pose proof He' as He2. apply Hadds in He2. destruct (add_holds _ _ _ _ _ _ _ _ _ _ E G Ha He2) as [_ H'].
        assert (e' = e) as -> by (by apply (gr_unique' _ _ _ _ _ R a at_ e' e (to_sql_value_pair v))). done.
Qed.
Lemma nonunique_ok : lane_ok nonunique_lane.
Proof.
  split; cbn [nonunique_lane l_rev l_map l_emp l_add l_rem l_abs l_has l_cov l_get l_kind l_fun].
  - intros x. unfold nonunique_has. setoid_rewrite lookup_empty. naive_solver.
  - intros m. unfold covers. set_solver.
  - by unfold covers.
  - unfold covers. set_solver.
  - intros [] m x; [apply covers_insert|apply covers_alter].
  - intros mi mo [e v]. apply absorb_nonunique_has.
  - acc_tac.
  - done.
  - done.
  - done.
  - done.
  - done.
  - intros at_ at' _ H. by apply is_Some_if.
  - intros l [e v] _. rewrite nonunique_accs. unfold nonunique_has. setoid_rewrite lookup_empty. naive_solver.
  - done.
  - intros C C' st st' s s' tx evs a at_ m adds rems E G R One Ha Ha' Hat Hk Hadds Hrems Hm e v.
    cbn [nonunique_lane l_has l_add l_rem l_kind l_rev] in *. specialize (R eq_refl). specialize (Ha' eq_refl).
    rewrite nonunique_accs, nonunique_removes. split.
    + intros [[Hh Hr]|Hin].
      * apply Hm in Hh as [Hv Hh]. split; [done|]. apply (keep_holds _ _ _ _ _ _ _ _ _ _ _ _ E G R One Ha Ha' Hat Hv Hh).
        intros H. by apply Hr, Hrems.
      * apply Hadds in Hin. by apply (add_holds _ _ _ _ _ _ _ _ _ _ E G Ha Hin).
    + intros [Hv Hh]. destruct (from_holds _ _ _ _ _ _ _ _ _ _ _ E G Ha Hat Hv Hh) as [H|(H1 & H2 & _)]; [right; by apply Hadds|left].
      split; [by apply Hm|]. by intros ?%Hrems.
Qed.

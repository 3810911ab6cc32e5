(** Pull gives what was asked for. *)
From Verif Require Import M_Pull Spec_Value Spec_Tx Spec_Conn Spec_Transact Spec_Cache Spec_Pull Spec_Schema.
From Verif Require Import P_Value P_Base P_Store P_Fill P_Step P_Meta P_Inv P_Conn P_Tx P_TxProps P_Panic P_History P_TxThms P_Events P_Observer P_Cache P_CacheInv P_Reopen P_SchemaThms.

(* ---------------------------------------------------------------- the rows *)

Definition about (e a : Z) (d : datom) : Prop := d_e d = e /\ d_a d = a.
Local Instance about_dec e a d : Decision (about e a d) := ltac:(unfold about; apply _).
Definition decode (f : fact) : res typed_value := from_sql_value_pair f.2.1 f.2.2.
Definition as_fact (d : datom) : fact := (d_e d, d_a d, (d_v d, d_tag d)).

Lemma facts_about_datoms st e a : facts_about st e a = map as_fact (filter (about e a) (all_datoms st)).
Proof.
  unfold facts_about, facts. induction (all_datoms st) as [|d l IH]; [done|].
  cbn [map filter list_filter]. unfold filter in IH. destruct (decide (about e a d)) as [H|H].
  - rewrite decide_True by exact H. cbn [map]. f_equal. exact IH.
  - rewrite decide_False by exact H. exact IH.
Qed.
Lemma filter_filter_imp {A} (P Q : A -> Prop) `{!forall x, Decision (P x), !forall x, Decision (Q x)} (l : list A) :
  (forall x, x ∈ l -> P x -> Q x) -> filter P (filter Q l) = filter P l.
Proof.
  intros Hpq. induction l as [|x l IH]; [done|]. rewrite (filter_cons Q), (filter_cons P x l).
  assert (filter P (filter Q l) = filter P l) as E by (apply IH; intros y Hy; apply Hpq; by right). destruct (decide (Q x)) as [Hq|Hq].
  - rewrite filter_cons. by rewrite E.
  - rewrite decide_False by (intros Hp; apply Hq, Hpq; [by left|done]). done.
Qed.
Lemma filter_none {A} (P : A -> Prop) `{!forall x, Decision (P x)} (l : list A) : (forall x, x ∈ l -> ~ P x) -> filter P l = [].
Proof.
  intros Hn. induction l as [|x l IH]; [done|]. rewrite filter_cons, decide_False by (apply Hn; by left). apply IH. intros y Hy. apply Hn. by right.
Qed.
(** Attributes that are not fulltext have the same rows in the table and the view. *)
Lemma plain_rows st e a : (forall d, d ∈ st_datoms st -> d_a d = a -> d_ft d = false) ->
  filter (about e a) (all_datoms st) = filter (about e a) (st_datoms st).
Proof.
  unfold all_datoms. induction (st_datoms st) as [|d l IH]; intros H; [done|]. cbn [flat_map]. rewrite filter_app, filter_cons.
  rewrite IH by (intros d' Hd'; apply H; by right). destruct (d_ft d) eqn:Ef.
  - rewrite decide_False by (intros [_ Ha]; by rewrite (H d) in Ef; [|left|]).
    rewrite filter_none; [done|]. intros x Hx. destruct (fts_text _ _); [|by apply elem_of_nil in Hx].
    apply elem_of_list_singleton in Hx as ->. intros [_ Ha]. cbn in Ha. rewrite (H d) in Ef; [done|by left|done].
  - rewrite filter_cons. destruct (decide (about e a d)); done.
Qed.
Lemma all_datoms_elem st d : d ∈ all_datoms st -> exists d0, d0 ∈ st_datoms st /\ d_e d = d_e d0 /\ d_a d = d_a d0 /\ d_ft d = d_ft d0.
Proof.
  intros H. unfold all_datoms in H. apply elem_of_list_In, in_flat_map in H as (d0 & Hd0 & Hd). apply elem_of_list_In in Hd0, Hd. exists d0.
  split; [done|]. destruct (d_ft d0) eqn:E.
  - destruct (fts_text _ _); [|by apply elem_of_nil in Hd]. apply elem_of_list_singleton in Hd as ->. done.
  - apply elem_of_list_singleton in Hd as ->. done.
Qed.

Lemma pull_rows_about m st s fts non_fts es e a at_ : datoms_ok m st -> m = sc_attribute_map s -> m !! a = Some at_ -> e ∈ es ->
  (at_fulltext at_ = true -> a ∈ fts /\ a ∉ non_fts) -> (at_fulltext at_ = false -> a ∈ non_fts /\ a ∉ fts) ->
  Permutation (map as_fact (filter (about e a) (pull_rows st fts non_fts es))) (facts_about st e a).
Proof.
  intros Hok -> Hat He H1 H2. rewrite facts_about_datoms. apply Permutation_map. unfold pull_rows. rewrite merge_sort_Permutation, filter_app.
  assert (forall d, d ∈ st_datoms st -> d_a d = a -> d_ft d = at_fulltext at_) as Hft.
  { intros d Hd Ha. destruct (Hok d Hd) as (at2 & Hat2 & _ & (_ & _ & F & _)). rewrite Ha in Hat2. congruence. }
  destruct (at_fulltext at_) eqn:Ef.
  - destruct (H1 eq_refl) as [Hin Hout]. rewrite filter_none; [|intros d Hd%elem_of_list_filter [_ Ha]; rewrite Ha in Hd; tauto]. cbn [app].
    rewrite filter_filter_imp; [done|]. intros d Hd [Hde Hda]. rewrite Hde, Hda. split_and!; [|done|done].
    apply all_datoms_elem in Hd as (d0 & Hd0 & _ & Ha & ->). apply Hft; [done|congruence].
  - destruct (H2 eq_refl) as [Hin Hout]. rewrite (filter_none _ (filter _ (all_datoms st)));
      [|intros d Hd%elem_of_list_filter [_ Ha]; rewrite Ha in Hd; tauto]. rewrite app_nil_r.
    rewrite filter_filter_imp; [|intros d Hd [-> ->]; done]. by rewrite plain_rows.
Qed.

(* ---------------------------------------------------------------- the maps *)

Definition values_at (e : Z) (evs : list ev) : list typed_value := map snd (filter (fun x : ev => x.1 = e) evs).
Lemma multi_accs_at l e : forall m, fold_left multi_acc l m !! e =
  match values_at e l with [] => m !! e | vs => Some (default [] (m !! e) ++ vs) end.
Proof.
  induction l as [|[e' v] l IH]; intros m; [done|]. cbn [fold_left]. rewrite IH. unfold values_at, multi_acc. rewrite filter_cons. cbn [fst snd].
  destruct (decide (e' = e)) as [->|Hne].
  - cbn [map]. rewrite lookup_insert. cbn [default from_option id]. fold (values_at e l). destruct (values_at e l); [done|]. cbn [snd]. by rewrite <- app_assoc.
  - rewrite lookup_insert_ne by done. done.
Qed.
Lemma single_sets_at l e : forall m, fold_left single_set l m !! e = match last (values_at e l) with Some v => Some (Some v) | None => m !! e end.
Proof.
  induction l as [|[e' v] l IH]; intros m; [done|]. cbn [fold_left]. rewrite IH. unfold values_at, single_set. rewrite filter_cons. cbn [fst snd].
  destruct (decide (e' = e)) as [->|Hne].
  - cbn [map]. rewrite lookup_insert. fold (values_at e l). rewrite last_cons. cbn [snd]. by destruct (last (values_at e l)).
  - by rewrite lookup_insert_ne.
Qed.
Lemma evs_of_runs_list a l : evs_of a (runs l) = map (fun r : aev => (r.1.2, r.2)) (filter (fun r : aev => r.1.1 = a) l).
Proof.
  induction l as [|[[a' e] v] l IH]; [done|]. cbn [runs]. rewrite filter_cons. cbn [fst snd].
  destruct (runs l) as [|[a2 evs] r] eqn:E.
  - unfold evs_of in *. cbn [flat_map fst snd] in *. destruct (decide (a' = a)); cbn [map]; rewrite <- IH; done.
  - destruct (decide (a' = a2)) as [->|Hne].
    + unfold evs_of in *. cbn [flat_map fst snd] in *. destruct (decide (a2 = a)); cbn [map fst snd]; rewrite <- IH; done.
    + unfold evs_of in *. cbn [flat_map fst snd] in *. destruct (decide (a' = a)); cbn [map fst snd]; rewrite <- IH; done.
Qed.
Lemma values_of_rows e a rows aevs : Forall2 (fun d x => row_to_aev d = Ok x) rows aevs ->
  map Ok (values_at e (evs_of a (runs aevs))) = map decode (map as_fact (filter (about e a) rows)).
Proof.
  intros H. rewrite evs_of_runs_list. unfold values_at. induction H as [|d [[a' e'] v] rows aevs Hd H IH]; [done|].
  unfold row_to_aev in Hd. destruct (from_sql_value_pair (d_v d) (d_tag d)) as [w| |] eqn:Ef; try done. injection Hd as <- <- <-.
  rewrite !filter_cons. unfold about at 1. cbn [fst snd]. destruct (decide (d_a d = a)) as [Ha|Ha].
  - cbn [map]. rewrite filter_cons. cbn [fst snd]. destruct (decide (d_e d = e)) as [He|He].
    + rewrite decide_True by done. cbn [map snd]. rewrite IH. f_equal. unfold decode, as_fact. cbn [fst snd]. done.
    + rewrite decide_False by (intros [??]; done). done.
  - rewrite decide_False by (intros [??]; done). done.
Qed.

Lemma cache_for_binding st s fts non_fts es c a at_ e :
  datoms_ok (sc_attribute_map s) st -> one_value s st -> facts_distinct st ->
  cache_for st s fts non_fts es = Ok c -> sc_attribute_map s !! a = Some at_ -> e ∈ es ->
  (at_fulltext at_ = true -> a ∈ fts /\ a ∉ non_fts) -> (at_fulltext at_ = false -> a ∈ non_fts /\ a ∉ fts) ->
  match binding_for c s a e with Some b => shows st at_ e a b | None => facts_about st e a = [] end.
Proof.
  intros Hok Hone Hnd E Hat He H1 H2.
  assert (a ∈ fts \/ a ∈ non_fts) as Hin by (destruct (at_fulltext at_); [left; by apply H1|right; by apply H2]).
  assert (exists rows, rmapM row_to_aev (pull_rows st fts non_fts es) = Ok rows
    /\ accumulate_into None s (BAdd false) (Caches ∅ (list_to_set non_fts ∪ list_to_set fts) ∅ ∅ ∅ ∅) rows = Ok c) as (rows & Er & Ea).
  { unfold cache_for in E. destruct fts as [|f fts].
    - destruct non_fts as [|n non_fts]; [destruct Hin as [Hin|Hin]; by apply elem_of_nil in Hin|]. by apply rbind_Ok in E.
    - by apply rbind_Ok in E. }
  apply rmapM_Ok in Er. unfold accumulate_into in Ea.
  pose proof (values_of_rows e a _ _ Er) as Hv.
  pose proof (pull_rows_about _ st s fts non_fts es e a at_ Hok eq_refl Hat He H1 H2) as Hp.
  apply (Permutation_map decode) in Hp. rewrite <- Hv in Hp.
  set (c0 := Caches ∅ (list_to_set non_fts ∪ list_to_set fts) ∅ ∅ ∅ ∅) in *.
  assert (a ∈ ca_fwd c0) as Hc0 by (cbn; set_solver). unfold binding_for.
  destruct (accumulate_runs multi_lane multi_ok _ _ (BAdd false) _ eq_refl _ _ Ea) as (_ & F1 & _ & A1 & _).
  unfold is_cached_forward. rewrite F1, (bool_decide_eq_true_2 _ Hc0), Hat. cbn [mbind option_bind].
  destruct (at_multival at_) eqn:Em.
  - specialize (A1 a at_ Hat Em Hc0). unfold l_fallback, l_op in A1. cbn [multi_lane l_get l_map l_add l_emp is_replacing c0 ca_multi mbind option_bind default from_option id] in A1.
    rewrite lookup_empty in A1. cbn [default from_option id] in A1.
    pose proof (multi_accs_at (evs_of a (runs rows)) e ∅) as G. rewrite <- A1, lookup_empty in G. cbn [default from_option id app] in G.
    assert ((ca_multi c !! a ≫= fun m => BVec <$> m !! e) = match values_at e (evs_of a (runs rows)) with [] => None | vs => Some (BVec vs) end) as ->.
    { destruct (ca_multi c !! a) as [m|]; cbn [default from_option id mbind option_bind] in *.
      - rewrite G. by destruct (values_at _ _).
      - rewrite lookup_empty in G. by destruct (values_at _ _). }
    destruct (values_at e (evs_of a (runs rows))) as [|v vs].
    + apply Permutation_nil in Hp. by destruct (facts_about st e a).
    + unfold shows. rewrite Em. by exists (v :: vs).
  - destruct (accumulate_runs single_lane single_ok _ _ (BAdd false) _ eq_refl _ _ Ea) as (_ & _ & _ & A2 & _).
    specialize (A2 a at_ Hat ltac:(cbn; by rewrite Em) Hc0). unfold l_fallback, l_op in A2.
    cbn [single_lane l_get l_map l_add l_emp is_replacing c0 ca_single mbind option_bind default from_option id] in A2.
    rewrite lookup_empty in A2. cbn [default from_option id] in A2.
    pose proof (single_sets_at (evs_of a (runs rows)) e ∅) as G. rewrite <- A2, lookup_empty in G.
    assert ((ca_single c !! a ≫= fun m => BScalar <$> mjoin (m !! e)) = BScalar <$> last (values_at e (evs_of a (runs rows)))) as ->.
    { destruct (ca_single c !! a) as [m|]; cbn [default from_option id mbind option_bind] in *.
      - rewrite G. by destruct (last _).
      - rewrite lookup_empty in G. by destruct (last _). }
    assert (facts_about st e a = [] \/ exists f, facts_about st e a = [f]) as Hf.
    { assert (NoDup (facts_about st e a)) as Hn by (apply NoDup_filter; exact Hnd).
      assert (forall f, f ∈ facts_about st e a -> f ∈ facts st /\ f.1 = (e, a)) as Hf.
      { intros [[e1 a1] p] Hf. apply elem_of_list_filter in Hf as [[<- <-] Hf]. done. }
      destruct (facts_about st e a) as [|[ea p] [|[ea' q] l]]; [by left|right; by eexists|]. exfalso.
      destruct (Hf (ea, p)) as [Hp1 Hp2]; [by left|]. destruct (Hf (ea', q)) as [Hq1 Hq2]; [by right; left|]. cbn [fst] in Hp2, Hq2. subst ea ea'.
      assert (p = q) as -> by exact (Hone e a at_ p q Hat Em Hp1 Hq1). apply NoDup_cons in Hn as [Hn _]. apply Hn. by left. }
    destruct Hf as [Hf|(f & Hf)]; rewrite Hf in *; cbn [map] in Hp.
    + apply Permutation_sym, Permutation_nil in Hp. destruct (values_at e (evs_of a (runs rows))); [done|done].
    + apply Permutation_sym, Permutation_length_1_inv in Hp. destruct (values_at e (evs_of a (runs rows))) as [|v [|? ?]]; [done| |done].
      cbn [last fmap option_fmap option_map]. injection Hp as Hp. unfold shows. rewrite Em. exists v, f. done.
Qed.

(* ---------------------------------------------------------------- names *)

Lemma name_all_Ok s l : forall names names', name_all s names l = Ok names' ->
  forall a, names' !! a = if decide (a ∈ l) then sc_entid_map s !! a else names !! a.
Proof.
  unfold name_all. induction l as [|x l IH]; intros names names' E a; cbn [rfold] in E; [by injection E as <-|].
  apply rbind_Ok in E as (n1 & (k & Ek & [= <-])%rbind_Ok & E). rewrite (IH _ _ E a). unfold lookup_name in Ek.
  destruct (sc_entid_map s !! x) as [k'|] eqn:Ex; simpl in Ek; [|done]. injection Ek as ->.
  destruct (decide (a ∈ l)) as [H|H].
  - rewrite decide_True by (by right). done.
  - destruct (decide (a = x)) as [->|Hne].
    + rewrite lookup_insert, decide_True by (by left). done.
    + rewrite lookup_insert_ne, decide_False by (first [done|by intros [?|?]%elem_of_cons]). done.
Qed.
Lemma sorted_keys_elem {A} (m : gmap Z A) a : a ∈ sorted_keys m <-> is_Some (m !! a).
Proof. unfold sorted_keys. rewrite merge_sort_Permutation, elem_of_elements. apply elem_of_dom. Qed.

Lemma asks_cons s x l a k : asks s (x :: l) a k <-> asks s [x] a k \/ asks s l a k.
Proof. unfold asks. setoid_rewrite (elem_of_cons l). setoid_rewrite elem_of_list_singleton. naive_solver. Qed.
Lemma asks_id_cons x l k : asks_id (x :: l) k <-> asks_id [x] k \/ asks_id l k.
Proof. unfold asks_id. setoid_rewrite (elem_of_cons l). setoid_rewrite elem_of_list_singleton. naive_solver. Qed.
Lemma name_attributes_Ok s l : (forall l1 l2, l = l1 ++ PuWildcard :: l2 -> l2 = []) -> forall names id names' id',
  name_attributes s l names id = Ok (names', id') ->
  (forall a k, names' !! a = Some k -> is_Some (sc_attribute_map s !! a) -> names !! a = Some k \/ asks s l a k)
  /\ (forall a, is_Some (names !! a) \/ (exists k, asks s l a k) -> is_Some (names' !! a))
  /\ (forall k, id' = Some k <-> id = Some k \/ asks_id l k).
Proof.
  induction l as [|x l IH]; intros Hl names id names' id' E.
  - injection E as <- <-. split; [intros a k H _; by left|]. split.
    + intros a [H|(k & _ & H)]; [done|]. exfalso. destruct H as [[H _]|[(? & ? & H & _)|(? & H & _)]]; by apply elem_of_nil in H.
    + intros k. split; [by left|]. intros [H|(? & H & _)]; [done|by apply elem_of_nil in H].
  - assert (forall l1 l2, l = l1 ++ PuWildcard :: l2 -> l2 = []) as Hl' by (intros l1 l2 ->; exact (Hl (x :: l1) l2 eq_refl)).
    specialize (IH Hl'). setoid_rewrite (asks_cons s x l). setoid_rewrite (asks_id_cons x l). destruct x as [|[i|a0] alias]; cbn [name_attributes] in E.
    + assert (l = []) as -> by exact (Hl [] l eq_refl). apply rbind_Ok in E as (n & En & [= <- <-]).
      pose proof (name_all_Ok s _ _ _ En) as Hn. split; [|split].
      * intros a k Hk Ha. rewrite Hn in Hk. destruct (decide (a ∈ sorted_keys (sc_attribute_map s))); [|by left]. right. left.
        split; [done|]. left. split; [by left|done].
      * intros a Ha. rewrite Hn. destruct (decide (a ∈ sorted_keys (sc_attribute_map s))) as [Hi|Hi].
        -- assert (exists n', name_all s names (sorted_keys (sc_attribute_map s)) = Ok n') as (n' & E') by eauto. clear - Hi E'.
           revert names E'. induction (sorted_keys (sc_attribute_map s)) as [|y r IH]; intros names E'; [by apply elem_of_nil in Hi|].
           unfold name_all in E'. cbn [rfold] in E'. apply rbind_Ok in E' as (n1 & (k & Ek & [= <-])%rbind_Ok & E').
           apply elem_of_cons in Hi as [->|Hi]; [|by apply (IH Hi _ E')]. unfold lookup_name in Ek. by destruct (sc_entid_map s !! y).
        -- destruct Ha as [Ha|(k & Ha)]; [done|]. exfalso. apply Hi, sorted_keys_elem. destruct Ha as [[Ha _]|[Ha _]]; done.
      * intros k. split; [by left|]. intros [H|[(? & H & _)|(? & H & _)]]; [done|by apply elem_of_list_singleton in H|by apply elem_of_nil in H].
    + destruct (decide (i = db_id)) as [->|Hi].
      * destruct id as [|]; [done|]. destruct (IH _ _ _ _ E) as (I1 & I2 & I3). split; [|split].
        -- intros a k Hk Ha. destruct (I1 a k Hk Ha); naive_solver.
        -- intros a Ha. apply I2. destruct Ha as [Ha|(k & [(_ & H)|H])]; [by left| |right; by exists k]. exfalso.
           destruct H as [[H _]|[(j & al & H & Hne & _)|(al & H & _)]]; apply elem_of_list_singleton in H; congruence.
        -- intros k. rewrite I3. split.
           ++ intros [[= <-]|H]; right; [left|by right]. exists alias. split; [by left|done].
           ++ intros [H|[(al & H & ->)|H]]; [done|left|by right]. apply elem_of_list_singleton in H. congruence.
      * assert (forall k, ~ asks_id [PuAttr (PuIdent i) alias] k) as Hno by (intros k (al & H%elem_of_list_singleton & _); congruence).
        destruct (sc_ident_map s !! i) as [a1|] eqn:Ei.
        -- destruct (IH _ _ _ _ E) as (I1 & I2 & I3). split; [|split].
           ++ intros a k Hk Ha. destruct (I1 a k Hk Ha) as [H|H]; [|by right; right].
              apply lookup_insert_Some in H as [[<- <-]|[_ H]]; [|by left]. right. left. split; [done|]. right. left.
              exists i, alias. split; [by left|done].
           ++ intros a Ha. apply I2. destruct Ha as [[k Ha]|(k & [(_ & H)|H])]; [left| |right; by exists k].
              { destruct (decide (a1 = a)) as [->|Hne]; [rewrite lookup_insert; by eexists|rewrite lookup_insert_ne by done; by eexists]. }
              left. destruct H as [[H _]|[(j & al & H & Hne & Hj & _)|(al & H & _)]]; apply elem_of_list_singleton in H; [done| |done].
              injection H as <- <-. assert (a1 = a) as -> by congruence. rewrite lookup_insert. by eexists.
           ++ intros k. rewrite I3. specialize (Hno k). tauto.
        -- destruct (IH _ _ _ _ E) as (I1 & I2 & I3). split; [|split].
           ++ intros a k Hk Ha. destruct (I1 a k Hk Ha); naive_solver.
           ++ intros a Ha. apply I2. destruct Ha as [Ha|(k & [(_ & H)|H])]; [by left| |right; by exists k]. exfalso.
              destruct H as [[H _]|[(j & al & H & Hne & Hj & _)|(al & H & _)]]; apply elem_of_list_singleton in H; congruence.
           ++ intros k. rewrite I3. specialize (Hno k). tauto.
    + assert (forall k, ~ asks_id [PuAttr (PuEntid a0) alias] k) as Hno by (intros k (al & H%elem_of_list_singleton & _); congruence).
      apply rbind_Ok in E as (k0 & Ek & E). destruct (IH _ _ _ _ E) as (I1 & I2 & I3). split; [|split].
      * intros a k Hk Ha. destruct (I1 a k Hk Ha) as [H|H]; [|by right; right].
        apply lookup_insert_Some in H as [[<- <-]|[_ H]]; [|by left]. right. left. split; [done|]. right. right. exists alias. split; [by left|].
        destruct alias; [left; congruence|right]. split; [done|]. unfold lookup_name in Ek. destruct (sc_entid_map s !! a0); simpl in Ek; congruence.
      * intros a Ha. apply I2. destruct Ha as [[k Ha]|(k & [(_ & H)|H])]; [left| |right; by exists k].
        { destruct (decide (a0 = a)) as [->|Hne]; [rewrite lookup_insert; by eexists|rewrite lookup_insert_ne by done; by eexists]. }
        left. destruct H as [[H _]|[(j & al & H & _)|(al & H & _)]]; apply elem_of_list_singleton in H; [done|done|].
        injection H as -> <-. rewrite lookup_insert. by eexists.
      * intros k. rewrite I3. specialize (Hno k). tauto.
Qed.

(* ---------------------------------------------------------------- putting the result together *)

Lemma said_put maps e k b e' k' : said_of (put maps e k b) e' k' = if decide (e' = e /\ k' = k) then Some b else said_of maps e' k'.
Proof.
  unfold said_of, put. destruct (decide (e' = e)) as [->|Hne].
  - rewrite lookup_insert. cbn [mbind option_bind]. destruct (decide (k' = k)) as [->|Hk].
    + rewrite lookup_insert, decide_True by done. done.
    + rewrite lookup_insert_ne, decide_False by (first [congruence|tauto]). destruct (maps !! e); [done|]. cbn [default from_option id]. exact (lookup_empty k').
  - rewrite lookup_insert_ne, decide_False by (first [congruence|tauto]). done.
Qed.
Definition put_all (g : Z -> option binding) (k : keyword) (es : list Z) (maps : pulled) : pulled :=
  fold_left (fun maps e => match g e with Some b => put maps e k b | None => maps end) es maps.
Lemma said_put_all g k es : forall maps e k', said_of (put_all g k es maps) e k' =
  if decide (e ∈ es /\ k' = k) then match g e with Some b => Some b | None => said_of maps e k' end else said_of maps e k'.
Proof.
  unfold put_all. induction es as [|x es IH]; intros maps e k'; cbn [fold_left].
  - rewrite decide_False; [done|]. by intros [?%elem_of_nil _].
  - rewrite IH. destruct (decide (k' = k)) as [->|Hk].
    2: { rewrite !decide_False by tauto. destruct (g x); [|done]. rewrite said_put, decide_False by tauto. done. }
    destruct (decide (e ∈ es)) as [Hi|Hi].
    + rewrite !decide_True by (split; [by try right|done]). destruct (g e) eqn:Eg; [done|]. destruct (g x) eqn:Ex; [|done].
      rewrite said_put, decide_False; [done|]. intros [-> _]. congruence.
    + rewrite decide_False by tauto. destruct (decide (e = x)) as [->|Hne].
      * rewrite decide_True by (split; [by left|done]). destruct (g x); [|done]. by rewrite said_put, decide_True.
      * rewrite decide_False by (intros [[?|?]%elem_of_cons _]; done). destruct (g x); [|done]. rewrite said_put, decide_False by tauto. done.
Qed.
Definition full (maps : pulled) : Prop := forall e sm, maps !! e = Some sm -> sm <> ∅.
Lemma put_full maps e k b : full maps -> full (put maps e k b).
Proof.
  intros H e' sm Hs. unfold put in Hs. apply lookup_insert_Some in Hs as [[_ <-]|[_ Hs]]; [apply insert_non_empty|by apply (H e')].
Qed.
Lemma put_all_full g k es : forall maps, full maps -> full (put_all g k es maps).
Proof.
  unfold put_all. induction es as [|x es IH]; intros maps H; cbn [fold_left]; [done|]. apply IH. destruct (g x); [by apply put_full|done].
Qed.
Definition put_attrs (names : gmap Z keyword) (g : Z -> Z -> option binding) (es l : list Z) (maps : pulled) : pulled :=
  fold_left (fun maps a => match names !! a with Some k => put_all (g a) k es maps | None => maps end) l maps.
Lemma put_attrs_full names g es l : forall maps, full maps -> full (put_attrs names g es l maps).
Proof.
  unfold put_attrs. induction l as [|a l IH]; intros maps H; cbn [fold_left]; [done|]. apply IH. destruct (names !! a); [by apply put_all_full|done].
Qed.
Lemma put_attrs_said names g es l : forall maps e k,
  (forall b, said_of (put_attrs names g es l maps) e k = Some b ->
    said_of maps e k = Some b \/ exists a, names !! a = Some k /\ e ∈ es /\ g a e = Some b)
  /\ (forall a b, a ∈ l -> names !! a = Some k -> e ∈ es -> g a e = Some b -> is_Some (said_of (put_attrs names g es l maps) e k))
  /\ (is_Some (said_of maps e k) -> is_Some (said_of (put_attrs names g es l maps) e k)).
Proof.
  unfold put_attrs. induction l as [|x l IH]; intros maps e k; cbn [fold_left].
  { split; [by left|]. split; [|done]. intros a b H%elem_of_nil. done. }
  set (maps1 := match names !! x with Some k0 => put_all (g x) k0 es maps | None => maps end).
  destruct (IH maps1 e k) as (I1 & I2 & I3).
  assert (forall b, said_of maps1 e k = Some b -> said_of maps e k = Some b \/ (names !! x = Some k /\ e ∈ es /\ g x e = Some b)) as H1.
  { intros b Hb. unfold maps1 in Hb. destruct (names !! x) as [k0|]; [|by left]. rewrite said_put_all in Hb. case_decide as Hd; [|by left].
    destruct Hd as [He ->]. destruct (g x e) eqn:Eg; [|by left]. right. split; [done|]. split; [done|congruence]. }
  split; [|split].
  - intros b Hb. destruct (I1 b Hb) as [H|H]; [|by right]. destruct (H1 b H) as [H2|H2]; [by left|]. right. by exists x.
  - intros a b Ha Hn He Hg. apply elem_of_cons in Ha as [->|Ha]; [|by apply (I2 a b)]. apply I3. unfold maps1. rewrite Hn, said_put_all, decide_True by done.
    by rewrite Hg.
  - intros Hs. apply I3. unfold maps1. destruct (names !! x) as [k0|]; [|done]. rewrite said_put_all. case_decide; [|done]. destruct (g x e); [by eexists|done].
Qed.

Lemma prepare_Ok s l p : prepare s l = Ok p -> exists names id, name_attributes s l ∅ None = Ok (names, id) /\ pl_names p = names /\ pl_id p = id
  /\ forall a at_, is_Some (names !! a) -> sc_attribute_map s !! a = Some at_ ->
     (at_fulltext at_ = true -> a ∈ pl_fts p /\ a ∉ pl_non_fts p) /\ (at_fulltext at_ = false -> a ∈ pl_non_fts p /\ a ∉ pl_fts p).
Proof.
  intros E. unfold prepare in E. apply rbind_Ok in E as ([names id] & E & [= <-]). exists names, id. split; [done|]. split; [done|]. split; [done|].
  cbn [pl_fts pl_non_fts]. intros a at_ Hn Ha. setoid_rewrite elem_of_list_filter. unfold is_fulltext, is_plain. rewrite Ha.
  apply sorted_keys_elem in Hn. split; intros ->; (split; [done|]); by intros [? _].
Qed.

Lemma thm_pull_store st s l p es m : datoms_ok (sc_attribute_map s) st -> one_value s st -> facts_distinct st ->
  unambiguous s l -> prepare s l = Ok p -> pull p s st es = Ok m -> pulls st s es (asks s l) (asks_id l) m.
Proof.
  intros Hok Hone Hnd Hu Ep E. destruct (prepare_Ok _ _ _ Ep) as (names & id & En & Hn & Hid & Hspec).
  destruct (name_attributes_Ok s l (un_last _ _ Hu) _ _ _ _ En) as (N1 & N2 & N3).
  assert (forall a k, names !! a = Some k -> is_Some (sc_attribute_map s !! a) -> asks s l a k) as N1'.
  { intros a k Hk Ha. destruct (N1 a k Hk Ha) as [H|H]; [|done]. by rewrite lookup_empty in H. }
  assert (forall k, id = Some k <-> asks_id l k) as N3' by (intros k; rewrite N3; naive_solver).
  unfold pull in E. apply rbind_Ok in E as (c & Ec & E). rewrite Hn, Hid in E.
  set (maps0 := match id with Some k => fold_left (fun maps e => put maps e k (BScalar (TVRef e))) es ∅ | None => ∅ end) in E.
  assert (m = put_attrs names (binding_for c s) es (sorted_keys names) maps0) as -> by (injection E as <-; done). clear E.
  assert (forall e k, said_of maps0 e k = if decide (e ∈ es /\ id = Some k) then Some (BScalar (TVRef e)) else None) as H0.
  { intros e k. unfold maps0. destruct id as [k0|].
    - change (said_of (put_all (fun e => Some (BScalar (TVRef e))) k0 es ∅) e k = if decide (e ∈ es /\ Some k0 = Some k) then Some (BScalar (TVRef e)) else None).
      rewrite said_put_all. destruct (decide (e ∈ es /\ k = k0)) as [[Hi ->]|Hd].
      + by rewrite decide_True.
      + rewrite decide_False; [|intros [? [= ->]]; tauto]. unfold said_of. by rewrite lookup_empty.
    - rewrite decide_False by (by intros [_ ?]). unfold said_of. by rewrite lookup_empty. }
  assert (full maps0) as F0.
  { unfold maps0. destruct id as [k0|]; [|by intros e sm; rewrite lookup_empty].
    change (full (put_all (fun e => Some (BScalar (TVRef e))) k0 es ∅)). apply put_all_full. intros e sm. by rewrite lookup_empty. }
  assert (forall a e b, binding_for c s a e = Some b -> is_Some (sc_attribute_map s !! a)) as Hb.
  { intros a e b H. unfold binding_for in H. destruct (is_cached_forward c a); [|done]. destruct (sc_attribute_map s !! a); [by eexists|done]. }
  assert (forall a at_ e k, names !! a = Some k -> sc_attribute_map s !! a = Some at_ -> e ∈ es ->
    match binding_for c s a e with Some b => shows st at_ e a b | None => facts_about st e a = [] end) as Hshow.
  { intros a at_ e k Hk Ha He. destruct (Hspec a at_) as [S1 S2]; [by eexists|done|]. eapply (cache_for_binding st s _ _ es c a at_ e); eassumption. }
  pose proof (put_attrs_said names (binding_for c s) es (sorted_keys names) maps0) as Hs.
  split; [|split; [|split]].
  - intros e k b Hsaid. destruct (Hs e k) as (S1 & _). destruct (S1 b Hsaid) as [H|(a & Hk & He & Hbb)].
    + rewrite H0 in H. case_decide as Hd; [|done]. injection H as <-. destruct Hd as [He Hi]. split; [done|]. left. split; [by apply N3'|done].
    + split; [done|]. right. destruct (Hb a e b Hbb) as (at_ & Ha). exists a, at_. split; [apply N1'; [done|by eexists]|]. split; [done|].
      specialize (Hshow a at_ e k Hk Ha He). by rewrite Hbb in Hshow.
  - intros e k He Hi. pose proof (proj2 (N3' k) Hi) as Hid'. destruct (Hs e k) as (S1 & _ & S3).
    assert (said_of maps0 e k = Some (BScalar (TVRef e))) as H0' by (by rewrite H0, decide_True).
    destruct S3 as [b Hb3]; [by eexists|]. destruct (S1 b Hb3) as [H|(a & Hk & _ & Hbb)]; [congruence|]. exfalso.
    apply (un_id _ _ Hu a k Hi). apply N1'; [done|]. by eapply Hb.
  - intros e a k He Hask Hfacts. destruct (N2 a) as [k' Hk']; [right; by exists k|]. pose proof Hask as [[at_ Ha] _].
    assert (k' = k) as -> by (apply (un_name _ _ Hu a); [apply N1'; [done|by eexists]|done]).
    specialize (Hshow a at_ e k Hk' Ha He). destruct (binding_for c s a e) as [b|] eqn:Eb; [|done].
    destruct (Hs e k) as (_ & S2 & _). apply (S2 a b); [apply sorted_keys_elem; by eexists|done|done|done].
  - apply put_attrs_full. exact F0.
Qed.
Lemma thm_pull mv c l p es m : clean mv c -> unambiguous (schema_of c) l -> prepare (schema_of c) l = Ok p ->
  pull p (schema_of c) (disk c) es = Ok m -> pulls (disk c) (schema_of c) es (asks (schema_of c) l) (asks_id l) m.
Proof.
  intros Hc Hu Ep E. pose proof (clean_ok mv c Hc) as Hok. eapply thm_pull_store; try done.
  - exact (db_ok_datoms _ _ _ Hok).
  - exact (db_ok_one _ _ _ Hok).
  - by apply conn_facts_distinct.
Qed.

(* ---------------------------------------------------------------- no other outcome *)

Lemma rmapM_total {A B} (f : A -> res B) l : (forall x, x ∈ l -> exists y, f x = Ok y) -> exists ys, rmapM f l = Ok ys.
Proof.
  induction l as [|x l IH]; intros H; [by exists []|]. destruct (H x) as [y Hy]; [by left|]. destruct IH as [ys Hys]; [intros z Hz; apply H; by right|].
  exists (y :: ys). cbn [rmapM]. by rewrite Hy, Hys.
Qed.
Lemma accumulate_total s rs : forall c, (forall r, r ∈ rs -> r.1 ∈ ca_fwd c /\ is_Some (sc_attribute_map s !! r.1)) ->
  exists c', rfold (accumulate_evs None s (BAdd false)) c rs = Ok c'.
Proof.
  induction rs as [|[a evs] rs IH]; intros c H; [by exists c|]. destruct (H (a, evs)) as [H1 [at_ H2]]; [by left|]. cbn [fst] in H1, H2. cbn [rfold].
  destruct (accumulate_evs None s (BAdd false) c (a, evs)) as [c1|e|p] eqn:E.
  - cbn [rbind]. apply IH. intros r Hr. destruct (accumulate_evs_Ok _ _ _ _ _ _ E) as (_ & -> & _). apply H. by right.
  - exfalso. unfold accumulate_evs in E. rewrite H2, (bool_decide_eq_true_2 _ H1) in E. cbn [negb andb] in E. done.
  - exfalso. unfold accumulate_evs in E. rewrite H2, (bool_decide_eq_true_2 _ H1) in E. cbn [negb andb] in E. done.
Qed.
Lemma runs_from l r : r ∈ runs l -> exists e v, (r.1, e, v) ∈ l.
Proof.
  revert r. induction l as [|[[a e] v] l IH]; intros r H; [by apply elem_of_nil in H|]. cbn [runs] in H.
  destruct (runs l) as [|[a' evs] rs].
  - apply elem_of_list_singleton in H as ->. exists e, v. by left.
  - destruct (decide (a = a')) as [->|Hne].
    + apply elem_of_cons in H as [->|H]; [exists e, v; by left|]. destruct (IH r) as (e' & v' & H'); [by right|]. exists e', v'. by right.
    + apply elem_of_cons in H as [->|H]; [exists e, v; by left|]. destruct (IH r H) as (e' & v' & H'). exists e', v'. by right.
Qed.
Lemma thm_pull_total_store st s l p es : datoms_ok (sc_attribute_map s) st -> (forall l1 l2, l = l1 ++ PuWildcard :: l2 -> l2 = []) ->
  (forall a k, asks s l a k -> readable st a) -> prepare s l = Ok p -> exists m, pull p s st es = Ok m.
Proof.
  intros Hok Hlast Hr Ep. unfold prepare in Ep. apply rbind_Ok in Ep as ([names id] & En & [= <-]).
  destruct (name_attributes_Ok s l Hlast _ _ _ _ En) as (N1 & _).
  unfold pull. cbn [pl_fts pl_non_fts pl_names pl_id].
  set (fts := filter (fun a => is_fulltext s a = true) (sorted_keys names)). set (non_fts := filter (fun a => is_plain s a = true) (sorted_keys names)).
  assert (forall a, a ∈ fts -> exists at_, sc_attribute_map s !! a = Some at_ /\ at_fulltext at_ = true /\ readable st a) as Hf.
  { intros a Ha. apply elem_of_list_filter in Ha as [Ha [k Hk]%sorted_keys_elem]. unfold is_fulltext in Ha.
    destruct (sc_attribute_map s !! a) as [at_|] eqn:E; [|done]. exists at_. split_and!; try done. destruct (N1 a k Hk) as [H|H]; [by rewrite E; eexists| |].
    - by rewrite lookup_empty in H.
    - by apply (Hr a k). }
  assert (forall a, a ∈ non_fts -> exists at_, sc_attribute_map s !! a = Some at_ /\ at_fulltext at_ = false /\ readable st a) as Hn.
  { intros a Ha. apply elem_of_list_filter in Ha as [Ha [k Hk]%sorted_keys_elem]. unfold is_plain in Ha.
    destruct (sc_attribute_map s !! a) as [at_|] eqn:E; [|done]. exists at_. apply negb_true_iff in Ha. split_and!; try done.
    destruct (N1 a k Hk) as [H|H]; [by rewrite E; eexists| |].
    - by rewrite lookup_empty in H.
    - by apply (Hr a k). }
  assert (forall d, d ∈ pull_rows st fts non_fts es -> (exists x, row_to_aev d = Ok x) /\ (d_a d ∈ fts \/ d_a d ∈ non_fts)) as Hrow.
  { intros d Hd. unfold pull_rows in Hd. rewrite merge_sort_Permutation in Hd. apply elem_of_app in Hd as [Hd|Hd]; apply elem_of_list_filter in Hd.
    - destruct Hd as [[_ Ha] Hd]. split; [|by right]. destruct (Hn _ Ha) as (at_ & Hat & Hft & Hrd).
      destruct (Hok d Hd) as (at2 & Hat2 & _ & (_ & _ & F & _)). assert (at2 = at_) as -> by congruence.
      destruct (Hrd (d_e d) (d_v d, d_tag d)) as (v & Hv & Ev).
      { apply facts_elem_view. exists d. split; [done|]. unfold view_fact. rewrite F, Hft. done. }
      unfold row_to_aev. change (d_v d) with (d_v d, d_tag d).1. change (d_tag d) with (d_v d, d_tag d).2 at 2. rewrite Ev.
      rewrite (proj2 (codec_roundtrip_iff v) Hv). by eexists.
    - destruct Hd as [(_ & _ & Ha) Hd]. split; [|by left]. destruct (Hf _ Ha) as (at_ & Hat & Hft & Hrd).
      destruct (Hrd (d_e d) (d_v d, d_tag d)) as (v & Hv & Ev). { unfold facts. apply elem_of_list_fmap. by exists d. }
      unfold row_to_aev. change (d_v d) with (d_v d, d_tag d).1. change (d_tag d) with (d_v d, d_tag d).2 at 2. rewrite Ev.
      rewrite (proj2 (codec_roundtrip_iff v) Hv). by eexists. }
  assert (exists c, cache_for st s fts non_fts es = Ok c) as [c ->]; [|by eexists]. unfold cache_for.
  destruct (rmapM_total row_to_aev (pull_rows st fts non_fts es)) as [rows Erows]; [intros d Hd; by apply Hrow|].
  destruct (accumulate_total s (runs rows) (Caches ∅ (list_to_set non_fts ∪ list_to_set fts) ∅ ∅ ∅ ∅)) as [c Ec].
  { intros r [e [v Hin]]%runs_from. apply rmapM_Ok in Erows. apply elem_of_list_lookup in Hin as (i & Hi).
    destruct (Forall2_lookup_r _ _ _ _ _ Erows Hi) as (d & Hd & Ed). unfold row_to_aev in Ed. destruct (from_sql_value_pair _ _); try done.
    injection Ed as Ha _ _. rewrite <- Ha. destruct (Hrow d) as [_ Hin]; [by eapply elem_of_list_lookup_2|]. cbn [ca_fwd]. split.
    - rewrite elem_of_union, !elem_of_list_to_set. tauto.
    - destruct Hin as [Hin|Hin]; [destruct (Hf _ Hin) as (? & -> & _)|destruct (Hn _ Hin) as (? & -> & _)]; by eexists. }
  rewrite Erows. destruct fts; [destruct non_fts|]; cbn [rbind]; first [by eexists|by exists c].
Qed.
Lemma thm_pull_total mv c l p es : clean mv c -> unambiguous (schema_of c) l ->
  (forall a k, asks (schema_of c) l a k -> readable (disk c) a) -> prepare (schema_of c) l = Ok p -> exists m, pull p (schema_of c) (disk c) es = Ok m.
Proof.
  intros Hc Hu Hr Ep. eapply thm_pull_total_store; [exact (db_ok_datoms _ _ _ (clean_ok mv c Hc))|exact (un_last _ _ Hu)|exact Hr|exact Ep].
Qed.

(* ---------------------------------------------------------------- by entid *)

Definition by_entid (attrs : list Z) : list pull_spec := map (fun a => PuAttr (PuEntid a) None) attrs.
Lemma by_entid_elem attrs x : x ∈ by_entid attrs <-> exists a, x = PuAttr (PuEntid a) None /\ a ∈ attrs.
Proof. unfold by_entid. rewrite elem_of_list_fmap. done. Qed.
Lemma asks_by_entid s attrs a k : asks s (by_entid attrs) a k <-> is_Some (sc_attribute_map s !! a) /\ a ∈ attrs /\ sc_entid_map s !! a = Some k.
Proof.
  unfold asks. setoid_rewrite by_entid_elem. split.
  - intros [Ha H]. split; [done|]. destruct H as [[(a' & H & _) _]|[(i & al & (a' & H & _) & _)|(al & (a' & H & Hin) & H2)]]; [done|done|].
    injection H as -> ->. destruct H2 as [H2|[_ H2]]; [done|]. done.
  - intros (Ha & Hin & Hk). split; [done|]. right. right. exists None. split; [by exists a|]. by right.
Qed.
Lemma asks_id_by_entid attrs k : ~ asks_id (by_entid attrs) k.
Proof. intros (al & (a & H & _)%by_entid_elem & _). done. Qed.
Lemma by_entid_unambiguous s attrs : (forall a a' k, sc_entid_map s !! a = Some k -> sc_entid_map s !! a' = Some k -> a = a') -> unambiguous s (by_entid attrs).
Proof.
  intros Hinj. split.
  - intros a k k' (_ & _ & H1)%asks_by_entid (_ & _ & H2)%asks_by_entid. congruence.
  - intros a a' k (_ & _ & H1)%asks_by_entid (_ & _ & H2)%asks_by_entid. by apply (Hinj a a' k).
  - intros a k H. by apply asks_id_by_entid in H.
  - intros l1 l2 H. assert (PuWildcard ∈ by_entid attrs) as (a & Ha & _)%by_entid_elem; [|done]. rewrite H. apply elem_of_app. right. by left.
Qed.
Lemma pulls_iff st s es A A' I I' m : (forall a k, A a k <-> A' a k) -> (forall k, I k <-> I' k) -> pulls st s es A I m -> pulls st s es A' I' m.
Proof.
  intros HA HI (P1 & P2 & P3 & P4). split; [|split; [|split]].
  - intros e k b H. destruct (P1 e k b H) as [He [[Hi Hb]|(a & at_ & Ha & Hat & Hs)]]; (split; [done|]).
    + left. split; [by apply HI|done].
    + right. exists a, at_. split; [by apply HA|done].
  - intros e k He Hi. apply P2; [done|by apply HI].
  - intros e a k He Ha. apply P3; [done|by apply HA].
  - exact P4.
Qed.
Lemma thm_pull_attributes mv c es attrs m : orderly mv c -> pull_attributes_for_entities (schema_of c) (disk c) es attrs = Ok m ->
  pulls (disk c) (schema_of c) es (fun a k => is_Some (sc_attribute_map (schema_of c) !! a) /\ a ∈ attrs /\ sc_entid_map (schema_of c) !! a = Some k)
    (fun _ => False) m.
Proof.
  intros Ho E. unfold pull_attributes_for_entities in E. apply rbind_Ok in E as (p & Ep & E).
  destruct (proj2 (thm_agrees mv c Ho)) as [H1 H2].
  assert (unambiguous (schema_of c) (by_entid attrs)) as Hu.
  { apply by_entid_unambiguous. intros a a' k Ha Ha'. apply H1, H2 in Ha. apply H1, H2 in Ha'. congruence. }
  eapply pulls_iff; [| |exact (thm_pull mv c _ p es m (proj2 (orderly_whole _ _ Ho)) Hu Ep E)].
  - intros a k. apply asks_by_entid.
  - intros k. split; [intros H; by apply asks_id_by_entid in H|done].
Qed.
Lemma pull_keys p s st es m e : pull p s st es = Ok m -> is_Some (m !! e) -> e ∈ es.
Proof.
  intros E. unfold pull in E. apply rbind_Ok in E as (c & _ & E). injection E as <-.
  assert (forall g k l maps, (forall e, is_Some (maps !! e) -> e ∈ es) -> (forall x, x ∈ l -> x ∈ es) -> forall e, is_Some (put_all g k l maps !! e) -> e ∈ es) as Hput.
  { unfold put_all. intros g k. induction l as [|x l IH]; intros maps Hm Hl e'; cbn [fold_left]; [apply Hm|]. apply IH; [|intros y Hy; apply Hl; by right].
    intros e2. destruct (g x); [|apply Hm]. unfold put. destruct (decide (e2 = x)) as [->|Hne]; [intros _; apply Hl; by left|]. rewrite lookup_insert_ne by done. apply Hm. }
  revert e. set (maps0 := match pl_id p with Some k => _ | None => _ end).
  assert (forall e, is_Some (maps0 !! e) -> e ∈ es) as H0.
  { unfold maps0. destruct (pl_id p) as [k|]; [|intros e; rewrite lookup_empty; by intros [??]].
    change (forall e, is_Some (put_all (fun e => Some (BScalar (TVRef e))) k es ∅ !! e) -> e ∈ es). apply Hput; [|done].
    intros e; rewrite lookup_empty; by intros [??]. }
  revert H0. generalize maps0. clear maps0. induction (sorted_keys (pl_names p)) as [|a l IH]; intros maps Hm e; cbn [fold_left]; [apply Hm|].
  apply IH. destruct (pl_names p !! a) as [k|]; [|done]. apply Hput; done.
Qed.
Lemma thm_pull_entity s st e attrs : pull_attributes_for_entity s st e attrs =
  let! m := pull_attributes_for_entities s st [e] attrs in Ok (default ∅ (m !! e)).
Proof.
  unfold pull_attributes_for_entity, pull_attributes_for_entities. destruct (prepare _ _) as [p| |]; cbn [rbind]; try done.
  destruct (pull p s st [e]) as [m| |] eqn:E; cbn [rbind]; try done.
  assert (forall k, k ∈ sorted_keys m -> k = e) as Hk.
  { intros k Hk%sorted_keys_elem. apply (pull_keys _ _ _ _ _ _ E) in Hk. by apply elem_of_list_singleton in Hk. }
  destruct (sorted_keys m) as [|k l] eqn:El.
  - destruct (m !! e) as [sm|] eqn:Em; [|done]. assert (e ∈ sorted_keys m) as H by (apply sorted_keys_elem; by eexists). rewrite El in H. by apply elem_of_nil in H.
  - rewrite (Hk k) by (by left). by rewrite decide_True.
Qed.

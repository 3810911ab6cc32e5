(** The search tables that a trie gives rise to. *)
From Verif Require Import M_Store M_Tx P_Base P_Store.

(* ---------------------------------------------------------------- fulltext values *)

Definition extends (f g : list string) : Prop := exists ext, g = f ++ ext.
Lemma extends_refl f : extends f f.
Proof. exists []. by rewrite app_nil_r. Qed.
Lemma extends_trans f g h : extends f g -> extends g h -> extends f h.
Proof. intros [x ->] [y ->]. exists (x ++ y). by rewrite app_assoc. Qed.

Lemma fts_intern_extends f t : extends f (fts_intern f t).
Proof. unfold fts_intern. case_decide; [apply extends_refl|by exists [t]]. Qed.
Lemma fts_intern_elem f t : t ∈ fts_intern f t.
Proof. unfold fts_intern. case_decide; set_solver. Qed.
Lemma fts_intern_nodup f t : NoDup f -> NoDup (fts_intern f t).
Proof.
  unfold fts_intern. intros Hn. case_decide; [done|]. apply NoDup_app. split_and!; [done| |apply NoDup_singleton].
  set_solver.
Qed.
Lemma fold_intern_extends ss : forall f, extends f (fold_left fts_intern ss f).
Proof.
  induction ss as [|s ss IH]; intros f; simpl; [apply extends_refl|].
  eapply extends_trans; [apply fts_intern_extends|apply IH].
Qed.
Lemma extends_elem f g t : extends f g -> t ∈ f -> t ∈ g.
Proof. intros [x ->]. set_solver. Qed.
Lemma fold_intern_elem ss : forall f t, t ∈ ss -> t ∈ fold_left fts_intern ss f.
Proof.
  induction ss as [|s ss IH]; intros f t Ht; simpl; [by apply elem_of_nil in Ht|].
  apply elem_of_cons in Ht as [->|Ht]; [|by apply IH].
  eapply extends_elem; [apply fold_intern_extends|apply fts_intern_elem].
Qed.
Lemma fold_intern_nodup ss : forall f, NoDup f -> NoDup (fold_left fts_intern ss f).
Proof. induction ss as [|s ss IH]; intros f Hn; simpl; [done|]. by apply IH, fts_intern_nodup. Qed.

Lemma list_find_app_l {A} (P : A -> Prop) `{forall x, Decision (P x)} l1 l2 i x :
  list_find P l1 = Some (i, x) -> list_find P (l1 ++ l2) = Some (i, x).
Proof.
  revert i. induction l1 as [|y l1 IH]; intros i; simpl; [done|]. case_decide; [done|].
  intros (p & Hp & E)%fmap_Some. destruct p as [j z]. rewrite (IH j).
  - simpl. simpl in E. congruence.
  - simpl in E. injection E as -> ->. done.
Qed.

Lemma fts_rowid_extends f g t i : extends f g -> fts_rowid f t = Some i -> fts_rowid g t = Some i.
Proof.
  intros [x ->]. unfold fts_rowid. destruct (list_find _ f) as [[j y]|] eqn:E; [|done].
  by rewrite (list_find_app_l _ _ _ _ _ E).
Qed.
Lemma fts_rowid_Some f t : t ∈ f -> exists i, fts_rowid f t = Some i.
Proof.
  intros Ht. unfold fts_rowid. destruct (list_find (fun x => x = t) f) as [[j y]|] eqn:E; [eauto|].
  apply list_find_None in E. rewrite Forall_forall in E. by destruct (E t).
Qed.
Lemma fts_rowid_text f t i : fts_rowid f t = Some i -> fts_text f (SInt i) = Some t.
Proof.
  unfold fts_rowid. destruct (list_find _ f) as [[j y]|] eqn:E; [|done]. intros [= <-].
  apply list_find_Some in E as (Hj & -> & _). simpl. rewrite decide_True by lia.
  replace (Z.to_nat (Z.of_nat j + 1 - 1)) with j by lia. done.
Qed.
Lemma fts_text_rowid f t v : NoDup f -> fts_text f v = Some t -> exists i, v = SInt i /\ fts_rowid f t = Some i.
Proof.
  intros Hn. destruct v as [|z| | |]; simpl; try done. case_decide as Hz; [|done]. intros Ht.
  exists z. split; [done|]. destruct (fts_rowid_Some f t) as [i Hi]; [by eapply elem_of_list_lookup_2|].
  rewrite Hi. f_equal. apply fts_rowid_text in Hi. simpl in Hi. case_decide as Hi1; [|done].
  assert (Z.to_nat (i - 1) = Z.to_nat (z - 1)) by (by eapply NoDup_lookup). lia.
Qed.
Lemma fts_text_extends f g v t : extends f g -> fts_text f v = Some t -> fts_text g v = Some t.
Proof.
  intros [x ->]. destruct v; simpl; try done. case_decide; [|done]. intros H1. by apply lookup_app_l_Some.
Qed.

(* ---------------------------------------------------------------- the rows *)

(** What is stored for a value. *)
Definition enc (f : list string) (at_ : attribute) (v : typed_value) : sqlval * Z :=
  if at_fulltext at_ then
    (match v with
     | TVString s => match fts_rowid f s with Some i => SInt i | None => SNull end
     | _ => SNull end, vt_tag VTString)
  else to_sql_value_pair v.
Definition srow_of (f : list string) (r : reduced) : srow :=
  SRow (r_e r) (r_a r) (enc f (r_attr r) (r_v r)).1 (enc f (r_attr r) (r_v r)).2 (r_added r) (r_attr r).

Lemma insert_non_fts_Ok mv ok tbl es tbl' :
  (forall r, r ∈ es -> at_fulltext (r_attr r) = false) ->
  insert_non_fts_searches mv ok tbl es = Ok tbl' ->
  (forall f, tbl' = tbl ++ map (srow_of f) es) /\ ok tbl' = true.
Proof.
  unfold insert_non_fts_searches. intros Hes. destruct (chunk_ok _ _ _); [|done].
  destruct (ok _) eqn:E; [|done]. intros [= <-]. split; [|done]. intros f. f_equal.
  apply map_ext_in. intros r Hr%elem_of_list_In. unfold non_fts_row, srow_of, enc. rewrite (Hes r Hr).
  by destruct (to_sql_value_pair (r_v r)).
Qed.

Lemma insert_fts_Ok mv ok st tbl es st' tbl' :
  (forall r, r ∈ es -> at_fulltext (r_attr r) = true) ->
  insert_fts_searches mv ok st tbl es = (st', Ok tbl') ->
  exists f, st' = set_fts st f /\ extends (st_fts st) f /\ (NoDup (st_fts st) -> NoDup f)
  /\ (forall r, r ∈ es -> exists s i, r_v r = TVString s /\ fts_rowid f s = Some i)
  /\ tbl' = tbl ++ map (srow_of f) es /\ ok tbl' = true.
Proof.
  unfold insert_fts_searches. intros Hes H. destruct (rmapM r_string es) as [ss| |] eqn:E; try done.
  destruct (chunk_ok _ _ _); [|done]. destruct (fts_chunks_ok _ _); [|done].
  destruct (ok _) eqn:Eo; [|done]. injection H as <- <-. apply rmapM_Ok in E.
  assert (forall r s, r_string r = Ok s -> r_v r = TVString s) as Hstr.
  { intros r s. unfold r_string. destruct (r_v r); try done. by intros [= <-]. }
  eexists. split; [done|]. split_and!.
  - apply fold_intern_extends.
  - apply fold_intern_nodup.
  - intros r Hr. apply elem_of_list_lookup in Hr as [i Hi].
    destruct (Forall2_lookup_l _ _ _ _ _ E Hi) as (s & Hs & Hrs). exists s.
    destruct (fts_rowid_Some (fold_left fts_intern ss (st_fts st)) s) as [j Hj].
    { apply fold_intern_elem. by eapply elem_of_list_lookup_2. }
    exists j. eauto.
  - f_equal. clear Eo. generalize (fold_left fts_intern ss (st_fts st)). intros f.
    revert ss E. induction es as [|r es IH]; intros ss E; inversion E as [|? s ? ss' Hrs Hss]; subst; simpl; [done|].
    f_equal; [|apply IH; [|done]; intros; apply Hes; by right].
    unfold fts_row, srow_of, enc. rewrite Hes by left. rewrite (Hstr _ _ Hrs). simpl. done.
  - done.
Qed.

Lemma srow_of_extends f g r : extends f g ->
  (at_fulltext (r_attr r) = true -> exists s i, r_v r = TVString s /\ fts_rowid f s = Some i) ->
  srow_of g r = srow_of f r.
Proof.
  intros Hx H. unfold srow_of, enc. destruct (at_fulltext (r_attr r)); [|done].
  destruct H as (s & i & -> & Hi); [done|]. rewrite Hi. by rewrite (fts_rowid_extends _ _ _ _ Hx Hi).
Qed.

Lemma queue_elem fts many l r : r ∈ queue fts many l <-> at_fulltext (r_attr r) = fts /\ at_multival (r_attr r) = many /\ r ∈ l.
Proof.
  unfold queue, is_queue. rewrite elem_of_list_filter, andb_true_iff, !Bool.eqb_true_iff. tauto.
Qed.

Record filled (st st' : store) (l : list reduced) (exact inexact : list srow) (f : list string) : Prop := {
  fi_st : st' = set_fts st f;
  fi_ext : extends (st_fts st) f;
  fi_nodup : NoDup (st_fts st) -> NoDup f;
  fi_fts : forall r, r ∈ l -> at_fulltext (r_attr r) = true -> exists s i, r_v r = TVString s /\ fts_rowid f s = Some i;
  fi_exact : forall t, t ∈ exact <-> exists r, r ∈ l /\ at_multival (r_attr r) = true /\ t = srow_of f r;
  fi_inexact : forall t, t ∈ inexact <-> exists r, r ∈ l /\ at_multival (r_attr r) = false /\ t = srow_of f r;
  fi_notnull : forall t, t ∈ exact \/ t ∈ inexact -> s_v t <> SNull;
}.

Lemma exact_ok_elem l t : exact_ok l = true -> t ∈ l -> s_v t <> SNull.
Proof.
  unfold exact_ok. rewrite forallb_forall. intros H Ht%elem_of_list_In. specialize (H _ Ht).
  by apply negb_true_iff, bool_decide_eq_false in H.
Qed.

Lemma set_fts_id st : set_fts st (st_fts st) = st.
Proof. by destruct st. Qed.

Lemma fill_searches_Ok mv st l st' exact inexact :
  fill_searches mv st l = (st', Ok (exact, inexact)) -> exists f, filled st st' l exact inexact f.
Proof.
  unfold fill_searches. intros H.
  apply with_st_Ok in H as (st1 & in1 & H1 & H). injection H1 as <- H1.
  apply with_st_Ok in H as (st2 & ex1 & H2 & H). injection H2 as <- H2.
  apply with_st_Ok in H as (st3 & in2 & H3 & H).
  apply with_st_Ok in H as (st4 & ex2 & H4 & H). injection H as <- <- <-.
  assert ((forall f, in1 = map (srow_of f) (queue false false l)) /\ exact_ok in1 = true) as [Hin1 Hok1].
  { destruct (is_nil (queue false false l)) eqn:E.
    - injection H1 as <-. apply is_nil_true in E. rewrite E. done.
    - apply insert_non_fts_Ok in H1 as [Hin Hok].
      + split; [done|]. unfold inexact_ok in Hok. by apply andb_true_iff in Hok as [? _].
      + intros r Hr. by apply queue_elem in Hr as (? & _). }
  assert ((forall f, ex1 = map (srow_of f) (queue false true l)) /\ exact_ok ex1 = true) as [Hex1 Hok2].
  { destruct (is_nil (queue false true l)) eqn:E.
    - injection H2 as <-. apply is_nil_true in E. rewrite E. done.
    - apply insert_non_fts_Ok in H2 as [Hin Hok]; [done|].
      intros r Hr. by apply queue_elem in Hr as (? & _). }
  clear H1 H2.
  assert (exists f, st3 = set_fts st f /\ extends (st_fts st) f /\ (NoDup (st_fts st) -> NoDup f)
    /\ (forall r, r ∈ queue true false l -> exists s i, r_v r = TVString s /\ fts_rowid f s = Some i)
    /\ in2 = in1 ++ map (srow_of f) (queue true false l) /\ exact_ok in2 = true) as (f1 & Hs3 & Hx1 & Hn1 & Hf1 & Hin2 & Hok3).
  { destruct (is_nil (queue true false l)) eqn:E.
    - injection H3 as <- <-. apply is_nil_true in E. rewrite E. exists (st_fts st). rewrite set_fts_id. simpl. rewrite app_nil_r.
      split_and!; try done; try apply extends_refl; intros r Hr; by apply elem_of_nil in Hr.
    - apply insert_fts_Ok in H3 as (f & ? & ? & ? & ? & ? & Hok).
      + exists f. split_and!; try done. unfold inexact_ok in Hok. by apply andb_true_iff in Hok as [? _].
      + intros r Hr. by apply queue_elem in Hr as (? & _). }
  clear H3.
  assert (exists f, st4 = set_fts st3 f /\ extends (st_fts st3) f /\ (NoDup (st_fts st3) -> NoDup f)
    /\ (forall r, r ∈ queue true true l -> exists s i, r_v r = TVString s /\ fts_rowid f s = Some i)
    /\ ex2 = ex1 ++ map (srow_of f) (queue true true l) /\ exact_ok ex2 = true) as (f2 & Hs4 & Hx2 & Hn2 & Hf2 & Hex2 & Hok4).
  { destruct (is_nil (queue true true l)) eqn:E.
    - injection H4 as <- <-. apply is_nil_true in E. rewrite E. exists (st_fts st3). rewrite set_fts_id. simpl. rewrite app_nil_r.
      split_and!; try done; try apply extends_refl; intros r Hr; by apply elem_of_nil in Hr.
    - apply insert_fts_Ok in H4 as (f & ? & ? & ? & ? & ? & Hok).
      + exists f. split_and!; done.
      + intros r Hr. by apply queue_elem in Hr as (? & _). }
  clear H4. subst st3. simpl in Hx2, Hn2, Hs4.
  exists f2. split.
  - by rewrite Hs4.
  - by eapply extends_trans.
  - intros Hn. by apply Hn2, Hn1.
  - intros r Hr Hft. destruct (at_multival (r_attr r)) eqn:Em.
    + apply Hf2. by apply queue_elem.
    + destruct (Hf1 r) as (s & i & Hs & Hi); [by apply queue_elem|]. exists s, i. split; [done|].
      by eapply fts_rowid_extends.
  - intros t. rewrite Hex2, (Hex1 f2), <- map_app, elem_of_list_fmap. setoid_rewrite elem_of_app. setoid_rewrite queue_elem.
    split.
    + intros (r & -> & H). exists r. naive_solver.
    + intros (r & Hr & Hm & ->). exists r. split; [done|]. destruct (at_fulltext (r_attr r)); naive_solver.
  - intros t. rewrite Hin2, (Hin1 f2), elem_of_app, !elem_of_list_fmap. setoid_rewrite queue_elem. split.
    + intros [(r & -> & H)|(r & -> & H)].
      * exists r. naive_solver.
      * exists r. destruct H as (Hft & Hm & Hr). split_and!; [done|done|]. symmetry. apply srow_of_extends; [done|]. intros _. apply Hf1. by apply queue_elem.
    + intros (r & Hr & Hm & ->). destruct (at_fulltext (r_attr r)) eqn:Hft; [right|left]; exists r; split; try done.
      apply srow_of_extends; [done|]. intros _. apply Hf1. by apply queue_elem.
  - intros t [Ht|Ht]; eapply exact_ok_elem; [| |exact Hok3|]; eauto.
Qed.

(* ---------------------------------------------------------------- tries *)

Lemma trie_reduced_elem tr r : r ∈ trie_reduced tr <->
  exists en, tr !! (r_a r, r_e r) = Some en /\ r_attr r = te_attr en
             /\ r_v r ∈ (if r_added r then te_add en else te_retract en).
Proof.
  unfold trie_reduced. rewrite elem_of_list_In, in_flat_map. setoid_rewrite <- elem_of_list_In. split.
  - intros ([[a e] en] & Hp & Hr). apply elem_of_map_to_list in Hp. simpl in Hr. unfold entry_reduced in Hr.
    apply elem_of_app in Hr as [(v & -> & Hv)%elem_of_list_fmap|(v & -> & Hv)%elem_of_list_fmap];
      apply elem_of_elements in Hv; exists en; done.
  - destruct r as [e a at_ v b]; simpl. intros (en & Hen & -> & Hv). exists ((a, e), en).
    split; [by apply elem_of_map_to_list|]. unfold entry_reduced. simpl. apply elem_of_app.
    destruct b; [left|right]; apply elem_of_list_fmap; exists v; split; try done; by apply elem_of_elements.
Qed.

(** The attribute of an entry is the schema's. *)
Definition trie_wf (s : schema) (tr : trie) : Prop :=
  forall a e en, tr !! (a, e) = Some en -> sc_attribute_map s !! a = Some (te_attr en).
(** What the trie asks for. *)
Definition req (tr : trie) (o : op) (e a : Z) (v : typed_value) : Prop :=
  exists en, tr !! (a, e) = Some en /\ v ∈ match o with OAdd => te_add en | ORetract => te_retract en end.

Lemma extend_trie_Ok s tr t tr' : trie_wf s tr -> extend_trie s tr t = Ok tr' ->
  trie_wf s tr' /\ is_Some (sc_attribute_map s !! tm_a t)
  /\ (forall o e a v, req tr' o e a v <-> req tr o e a v \/ t = Term o e a v).
Proof.
  intros Hwf H. apply rbind_Ok in H as (at_ & Hat & [= <-]). apply ok_or_Ok in Hat.
  destruct t as [o1 e1 a1 v1]. simpl in *.
  assert (sc_attribute_map s !! a1 = Some (te_attr (default (Entry at_ ∅ ∅) (tr !! (a1, e1))))) as Hen.
  { destruct (tr !! (a1, e1)) as [en|] eqn:E; simpl; [by eapply Hwf|done]. }
  split_and!.
  - intros a e en. destruct (decide ((a1, e1) = (a, e))) as [[= <- <-]|Hne].
    + rewrite lookup_insert. intros [= <-]. by destruct o1.
    + rewrite lookup_insert_ne by done. apply Hwf.
  - by eexists.
  - intros o e a v. unfold req. destruct (decide ((a1, e1) = (a, e))) as [[= <- <-]|Hne].
    + rewrite lookup_insert. split.
      * intros (en & [= <-] & Hv). destruct (tr !! (a1, e1)) as [en|] eqn:E; simpl in *.
        -- destruct o, o1; simpl in *; set_unfold; naive_solver.
        -- destruct o, o1; simpl in *; set_unfold; naive_solver.
      * intros [(en & Hen' & Hv)|[= -> ->]].
        -- rewrite Hen'. eexists. split; [done|]. simpl. destruct o, o1; simpl; set_solver.
        -- eexists. split; [done|]. destruct o; simpl; set_solver.
    + rewrite lookup_insert_ne by done. split; [by left|]. intros [?|[= -> -> -> ->]]; [done|]. by destruct Hne.
Qed.

Lemma rfold_extend_Ok s ts : forall tr tr', trie_wf s tr -> rfold (extend_trie s) tr ts = Ok tr' ->
  trie_wf s tr' /\ (forall t, t ∈ ts -> is_Some (sc_attribute_map s !! tm_a t))
  /\ (forall o e a v, req tr' o e a v <-> req tr o e a v \/ Term o e a v ∈ ts).
Proof.
  induction ts as [|t ts IH]; intros tr tr' Hwf H; simpl in H.
  - injection H as <-. split_and!; [done| |].
    + intros t Ht. by apply elem_of_nil in Ht.
    + intros o e a v. split; [by left|]. intros [?|Ht]; [done|by apply elem_of_nil in Ht].
  - apply rbind_Ok in H as (tr1 & H1 & H). destruct (extend_trie_Ok _ _ _ _ Hwf H1) as (Hwf1 & Ha & Hreq1).
    destruct (IH _ _ Hwf1 H) as (Hwf2 & Has & Hreq2). split_and!; [done| |].
    + intros u [->|Hu]%elem_of_cons; auto.
    + intros o e a v. rewrite Hreq2, Hreq1, elem_of_cons. naive_solver.
Qed.

Lemma trie_wf_empty s : trie_wf s ∅.
Proof. intros a e en. by rewrite lookup_empty. Qed.
Lemma req_empty o e a v : ~ req ∅ o e a v.
Proof. intros (en & H & _). by rewrite lookup_empty in H. Qed.

Definition inert_term (t : term_s) : term_t := Term (tm_op t) (inl (tm_e t)) (tm_a t) (inl (tm_v t)).
Lemma unwrap_term_Ok t t' : unwrap_term t = Ok t' <-> t = inert_term t'.
Proof.
  destruct t as [o [e|] a [v|]]; unfold unwrap_term, inert_term; simpl; split; intros H; try done.
  - by injection H as <-.
  - destruct t'; simpl in *. by injection H as -> -> -> ->.
Qed.

Lemma into_aev_trie_Ok s resolved allocated inert tr : into_aev_trie s resolved allocated inert = Ok tr ->
  trie_wf s tr
  /\ (forall t, t ∈ resolved \/ t ∈ allocated \/ inert_term t ∈ inert -> is_Some (sc_attribute_map s !! tm_a t))
  /\ (forall o e a v, req tr o e a v <->
       Term o e a v ∈ resolved \/ Term o e a v ∈ allocated \/ inert_term (Term o e a v) ∈ inert).
Proof.
  unfold into_aev_trie. intros H.
  apply rbind_Ok in H as (tr1 & H1 & H). apply rbind_Ok in H as (tr2 & H2 & H). apply rbind_Ok in H as (ts & H3 & H).
  apply rmapM_Ok in H3.
  assert (forall t, t ∈ ts <-> inert_term t ∈ inert) as Hts.
  { intros t. split.
    - intros [i Hi]%elem_of_list_lookup. destruct (Forall2_lookup_r _ _ _ _ _ H3 Hi) as (u & Hu & E).
      apply unwrap_term_Ok in E. subst. by eapply elem_of_list_lookup_2.
    - intros [i Hi]%elem_of_list_lookup. destruct (Forall2_lookup_l _ _ _ _ _ H3 Hi) as (u & Hu & E).
      apply unwrap_term_Ok in E. destruct t, u. unfold inert_term in E. simpl in E. injection E as -> -> -> ->.
      by eapply elem_of_list_lookup_2. }
  destruct (rfold_extend_Ok _ _ _ _ (trie_wf_empty s) H1) as (W1 & A1 & R1).
  destruct (rfold_extend_Ok _ _ _ _ W1 H2) as (W2 & A2 & R2).
  destruct (rfold_extend_Ok _ _ _ _ W2 H) as (W3 & A3 & R3).
  split_and!; [done| |].
  - intros t [?|[?|?%Hts]]; eauto.
  - intros o e a v. rewrite R3, R2, R1, Hts. pose proof (req_empty o e a v). tauto.
Qed.

Lemma trie_all_elem f tr : trie_all f tr = true <-> forall k en, tr !! k = Some en -> f en = true.
Proof. unfold trie_all. rewrite bool_decide_eq_true. done. Qed.
Lemma entry_typed_req tr o e a v : trie_all entry_typed tr = true -> req tr o e a v ->
  exists en, tr !! (a, e) = Some en /\ tv_type v = at_type (te_attr en).
Proof.
  intros H (en & Hen & Hv). exists en. split; [done|]. apply (proj1 (trie_all_elem _ _) H) in Hen.
  unfold entry_typed in Hen. apply bool_decide_eq_true in Hen. apply Hen. destruct o; set_solver.
Qed.
Lemma entry_no_conflict_req tr e a : trie_all entry_no_conflict tr = true ->
  (forall v, req tr OAdd e a v -> req tr ORetract e a v -> False)
  /\ (forall v w en, req tr OAdd e a v -> req tr OAdd e a w -> tr !! (a, e) = Some en ->
      at_multival (te_attr en) = false -> v = w).
Proof.
  intros H. split.
  - intros v (en & Hen & Hv) (en' & Hen' & Hv'). rewrite Hen' in Hen. injection Hen as ->.
    apply (proj1 (trie_all_elem _ _) H) in Hen'. unfold entry_no_conflict in Hen'.
    apply andb_true_iff in Hen' as [_ Hd]. apply bool_decide_eq_true in Hd. set_solver.
  - intros v w en (en1 & E1 & Hv) (en2 & E2 & Hw) E Hm.
    assert (en1 = en) as -> by congruence. assert (en2 = en) as -> by congruence.
    apply (proj1 (trie_all_elem _ _) H) in E. unfold entry_no_conflict in E.
    apply andb_true_iff in E as [Hs _]. rewrite Hm in Hs. simpl in Hs. apply bool_decide_eq_true in Hs.
    assert (forall X : gset typed_value, (size X <= 1)%nat -> v ∈ X -> w ∈ X -> v = w) as K.
    { intros X HX Hv' Hw'. destruct (decide (v = w)); [done|]. exfalso.
      assert (({[v; w]} : gset typed_value) ⊆ X) as Hsub by set_solver.
      apply subseteq_size in Hsub. rewrite size_union in Hsub by set_solver. rewrite !size_singleton in Hsub. lia. }
    eauto.
Qed.

(** At most one value is asserted per entity and cardinality-one attribute. *)
Definition one_add (s : schema) (tr : trie) : Prop := forall e a at_ v w,
  sc_attribute_map s !! a = Some at_ -> at_multival at_ = false -> req tr OAdd e a v -> req tr OAdd e a w -> v = w.
Lemma no_conflict_one_add s tr : trie_wf s tr -> trie_all entry_no_conflict tr = true -> one_add s tr.
Proof.
  intros Hwf Hnc e a at_ v w Ha Hm Hv Hw. pose proof Hv as (en & Hen & _).
  apply (proj2 (entry_no_conflict_req tr e a Hnc) v w en); try done. apply Hwf in Hen. congruence.
Qed.

(** tx.rs:1127-1157 *)
Lemma tx_instant_Ok s now tx tr i tr' : trie_wf s tr ->
  get_or_insert_tx_instant s now tx tr = Ok (i, tr') ->
  trie_wf s tr' /\ is_Some (sc_attribute_map s !! DB_TX_INSTANT)
  /\ (forall o e a v, req tr' o e a v <-> req tr o e a v \/ (o = OAdd /\ e = tx /\ a = DB_TX_INSTANT /\ v = TVInstant i))
  /\ ((i = now /\ forall v, ~ req tr OAdd tx DB_TX_INSTANT v) \/ req tr OAdd tx DB_TX_INSTANT (TVInstant i))
  /\ (forall v, req tr' OAdd tx DB_TX_INSTANT v <-> v = TVInstant i).
Proof.
  intros Hwf H. unfold get_or_insert_tx_instant in H. apply rbind_Ok in H as (at_ & Hat & H). apply ok_or_Ok in Hat.
  set (en := default (Entry at_ ∅ ∅) (tr !! (DB_TX_INSTANT, tx))) in *.
  assert (sc_attribute_map s !! DB_TX_INSTANT = Some (te_attr en)) as Hen.
  { unfold en. destruct (tr !! (DB_TX_INSTANT, tx)) as [en'|] eqn:E; simpl; [by eapply Hwf|done]. }
  assert (forall o v, req tr o tx DB_TX_INSTANT v <-> v ∈ match o with OAdd => te_add en | ORetract => te_retract en end) as Hreq.
  { intros o v. unfold req, en. destruct (tr !! (DB_TX_INSTANT, tx)) as [en'|] eqn:E; simpl.
    - split; [by intros (? & [= <-] & ?)|]. intros Hv. by exists en'.
    - split; [by intros (? & ? & ?)|]. destruct o; set_solver. }
  destruct (elements (te_add en)) as [|v0 [|]] eqn:El.
  - injection H as <- <-. apply elements_empty_inv in El.
    assert (te_add en = ∅) as El' by (by apply leibniz_equiv). clear El.
    split_and!.
    + intros a e en'. destruct (decide ((DB_TX_INSTANT, tx) = (a, e))) as [[= <- <-]|Hne].
      * rewrite lookup_insert. intros [= <-]. done.
      * rewrite lookup_insert_ne by done. apply Hwf.
    + by eexists.
    + intros o e a v. destruct (decide ((DB_TX_INSTANT, tx) = (a, e))) as [E|Hne].
      * injection E as <- <-. rewrite Hreq. unfold req at 1. rewrite lookup_insert. split.
        -- intros (? & [= <-] & Hv). destruct o; simpl in Hv; set_unfold; naive_solver.
        -- intros [Hv|(-> & _ & _ & ->)]; eexists; (split; [done|]); [destruct o|]; simpl; set_solver.
      * unfold req at 1. rewrite lookup_insert_ne by done. unfold req. naive_solver.
    + left. split; [done|]. intros v. rewrite Hreq, El'. set_solver.
    + intros v. unfold req. rewrite lookup_insert. split.
      * intros (? & [= <-] & Hv). simpl in Hv. rewrite El' in Hv. set_solver.
      * intros ->. eexists. split; [done|]. simpl. set_solver.
  - destruct v0; try done. injection H as <- <-.
    assert (forall v, v ∈ te_add en <-> v = TVInstant ns) as Hadd.
    { intros v. rewrite <- elem_of_elements, El, elem_of_list_singleton. done. }
    assert (forall o e a v, req (<[(DB_TX_INSTANT, tx):=en]> tr) o e a v <-> req tr o e a v) as Hsame.
    { intros o e a v. destruct (decide ((DB_TX_INSTANT, tx) = (a, e))) as [E|Hne].
      - injection E as <- <-. rewrite Hreq. unfold req. rewrite lookup_insert.
        split; [by intros (? & [= <-] & ?)|]. intros Hv. by exists en.
      - unfold req. by rewrite lookup_insert_ne by done. }
    split_and!.
    + intros a e en'. destruct (decide ((DB_TX_INSTANT, tx) = (a, e))) as [[= <- <-]|Hne].
      * rewrite lookup_insert. intros [= <-]. done.
      * rewrite lookup_insert_ne by done. apply Hwf.
    + by eexists.
    + intros o e a v. rewrite Hsame. split; [by left|]. intros [?|(-> & -> & -> & ->)]; [done|].
      apply Hreq. by apply Hadd.
    + right. apply Hreq. by apply Hadd.
    + intros v. rewrite Hsame, Hreq. apply Hadd.
  - destruct v0; done.
Qed.

(** The instant is added after the checks, but does not invalidate them. *)
Lemma tx_instant_checks s now tx tr i tr' : trie_wf s tr ->
  (forall at_, sc_attribute_map s !! DB_TX_INSTANT = Some at_ -> at_type at_ = VTInstant) ->
  trie_all entry_typed tr = true -> one_add s tr ->
  get_or_insert_tx_instant s now tx tr = Ok (i, tr') ->
  trie_all entry_typed tr' = true /\ one_add s tr'.
Proof.
  intros Hwf Hat Hty Hone H. destruct (tx_instant_Ok _ _ _ _ _ _ Hwf H) as (Hwf' & _ & Hreq & _ & Huq). split.
  - apply trie_all_elem. intros [a e] en Hen. unfold entry_typed. apply bool_decide_eq_true. intros v Hv.
    assert (exists o, req tr' o e a v) as (o & Ho).
    { apply elem_of_union in Hv as [Hv|Hv]; [exists OAdd|exists ORetract]; by exists en. }
    pose proof (Hwf' _ _ _ Hen) as Hen'. apply Hreq in Ho as [Ho|(-> & -> & -> & ->)].
    + destruct (entry_typed_req _ _ _ _ _ Hty Ho) as (en2 & Hen2 & ->). apply Hwf in Hen2. congruence.
    + simpl. symmetry. by apply Hat.
  - intros e a at_ v w Ha Hm Hv Hw. destruct (decide (e = tx /\ a = DB_TX_INSTANT)) as [[-> ->]|Hne].
    + apply Huq in Hv, Hw. congruence.
    + apply Hreq in Hv as [Hv|?]; [|naive_solver]. apply Hreq in Hw as [Hw|?]; [|naive_solver]. by eapply Hone.
Qed.

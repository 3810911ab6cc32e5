(** A comparison picks from the rows of the query without it. *)
From Verif Require Import M_Query M_Conn Spec_Query Spec_Value Spec_Tx Spec_Conn Spec_Transact Spec_Cache P_QueryStep P_QueryOr P_QueryConn.

Section laws.
  Context (st : store) (s : schema).
  Lemma meets_iff c σ σ' : agree_on (clause_vars c) σ σ' -> meets st s σ c <-> meets st s σ' c.
  Proof. intros H. split; apply meets_agree; [done|]. by apply agree_sym. Qed.
  (** The values of a row are those of the solution it comes from. *)
  Lemma of_row_agree q vals σ : (forall x, x ∈ q_in q -> is_Some (vals !! x)) -> solution st s q vals σ ->
    forall vs, (forall x, x ∈ vs -> x ∈ find_vars (q_find q) \/ x ∈ q_in q) -> agree_on vs σ (of_row q vals (map σ (find_vars (q_find q)))).
  Proof.
    intros Hb [Hi _] vs Hv x Hx. unfold of_row. destruct (list_find (eq x) _) as [[i y]|] eqn:E.
    - apply list_find_Some in E as (E & <- & _). change (map σ ?l) with (σ <$> l). by rewrite list_lookup_fmap, E.
    - destruct (Hv x Hx) as [Hf|Hin]; [|destruct (Hb x Hin) as [v Ev]; rewrite Ev; symmetry; by apply Hi].
      apply list_find_None in E. rewrite Forall_forall in E. by destruct (E x Hf).
  Qed.
  Lemma adding_solution q c vals σ : solution st s (adding q c) vals σ <-> solution st s q vals σ /\ meets st s σ c.
  Proof. unfold solution. cbn [adding q_in q_where]. rewrite Forall_app, Forall_singleton. tauto. Qed.
  Lemma adding_answer q c vals row : (forall x, x ∈ q_in q -> is_Some (vals !! x)) ->
    (forall x, x ∈ clause_vars c -> x ∈ find_vars (q_find q) \/ x ∈ q_in q) ->
    answer st s (adding q c) vals row <-> answer st s q vals row /\ meets st s (of_row q vals row) c.
  Proof.
    intros Hb Hv. unfold answer. cbn [adding q_find]. split.
    - intros (σ & [Hs Hc]%adding_solution & ->). split; [by exists σ|]. eapply (meets_iff c σ); [by apply of_row_agree|done].
    - intros [(σ & Hs & ->) Hc]. exists σ. split; [|done]. apply adding_solution. split; [done|].
      apply (meets_iff c σ) in Hc; [done|by apply of_row_agree].
  Qed.
End laws.

Lemma adding_patterns q k : clause_patterns k = [] -> query_patterns (adding q k) = query_patterns q.
Proof. intros E. unfold query_patterns. cbn [adding q_where]. rewrite flat_map_app. cbn [flat_map]. by rewrite E, !app_nil_r. Qed.
Lemma adding_safe q nm args vals : safe (adding q (CPred nm args)) vals -> safe q vals.
Proof.
  intros [H1 H2 H3]. rewrite adding_patterns in H2, H3 by done. cbn [adding q_in q_where] in *. split; [done|done|].
  rewrite flat_map_app in H3. by apply Forall_app in H3 as [H3 _].
Qed.
Lemma negated_safe q nm args vals : safe (adding q (CPred nm args)) vals -> safe (adding q (CNot UImplicit [CPred nm args])) vals.
Proof.
  intros [H1 H2 H3]. rewrite adding_patterns in H2, H3 by done. split; rewrite ?adding_patterns by done; [done|done|].
  cbn [adding q_in q_where] in *. rewrite flat_map_app in *. cbn [flat_map clause_compared] in *. by rewrite !app_nil_r in *.
Qed.

Section picks.
  Context mv c sq (q : query) (nm : string) (args : list farg) (vals : gmap var typed_value) (Hc : clean mv c) (Hsq : sqlite_ok sq) (Hr : all_readable (disk c)).
  Context (Hs : safe (adding q (CPred nm args)) vals) (Hreg : Forall (regular (schema_of c) (q_in q) vals) (q_where q)).
  Context (Ho : well_ordered q) (Hl : q_limit q = LNone) (Ht : twinless (disk c) \/ closed_find q).
  Context (Hv : forall x, x ∈ flat_map farg_vars args -> x ∈ find_vars (q_find q) \/ x ∈ q_in q).
  Lemma bound x : x ∈ q_in q -> is_Some (vals !! x).
  Proof using Hs. intros Hx. destruct (sa_bound _ _ Hs x Hx) as (v & Hv' & _). by exists v. Qed.
  Lemma closed_adding k : clause_patterns k = [] -> closed_find q -> closed_find (adding q k).
  Proof using. intros E H p x. rewrite adding_patterns by done. apply H. Qed.
  Lemma base_gives r : q_uncached sq c q vals = Ok r -> gives r (answer (disk c) (schema_of c) q vals).
  Proof using All. apply (uncached_gives mv); try done. by eapply adding_safe. Qed.
  Lemma pred_gives r : q_uncached sq c (adding q (CPred nm args)) vals = Ok r -> gives r (answer (disk c) (schema_of c) (adding q (CPred nm args)) vals).
  Proof using All.
    apply (uncached_gives mv); try done.
    - apply Forall_app. split; [done|]. by constructor.
    - destruct Ht; [by left|right]. by apply closed_adding.
  Qed.
  Lemma not_gives r : q_uncached sq c (adding q (CNot UImplicit [CPred nm args])) vals = Ok r ->
    gives r (answer (disk c) (schema_of c) (adding q (CNot UImplicit [CPred nm args])) vals).
  Proof using All.
    apply (uncached_gives mv); try done.
    - by apply negated_safe.
    - apply Forall_app. split; [done|]. constructor; [|done]. split; [right; eexists _, _; by left|]. split; [by intros x _|done].
    - destruct Ht; [by left|right]. by apply closed_adding.
  Qed.
  Lemma comparison_picks rows rows' : q_uncached sq c q vals = Ok (RRel rows) -> q_uncached sq c (adding q (CPred nm args)) vals = Ok (RRel rows') ->
    forall row, row ∈ rows' <-> row ∈ rows /\ compares (schema_of c) (of_row q vals row) nm args.
  Proof using All.
    intros [_ H]%base_gives [_ H']%pred_gives row. rewrite H, H'. apply (adding_answer _ _ q (CPred nm args)); [apply bound|done].
  Qed.
  Lemma negation_picks rows rows' : q_uncached sq c q vals = Ok (RRel rows) -> q_uncached sq c (adding q (CNot UImplicit [CPred nm args])) vals = Ok (RRel rows') ->
    forall row, row ∈ rows' <-> row ∈ rows /\ ~ compares (schema_of c) (of_row q vals row) nm args.
  Proof using All.
    intros [_ H]%base_gives [_ H']%not_gives row. rewrite H, H'.
    rewrite (adding_answer _ _ q); [|apply bound|cbn [clause_vars flat_map]; by rewrite app_nil_r]. f_equiv. rewrite meets_not. f_equiv.
    cbn [unified flat_map]. rewrite app_nil_r. split.
    - intros (τ & Ha & Hm). apply Forall_cons_1 in Hm as [Hm _]. by apply (meets_iff (disk c) _ (CPred nm args) _ τ).
    - intros Hm. exists (of_row q vals row). split; [by intros x _|]. by constructor.
  Qed.
End picks.

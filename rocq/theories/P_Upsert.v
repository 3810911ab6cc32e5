(** Upsert resolution. *)
From Verif Require Import M_Upsert M_Tx Spec_Upsert P_Base P_Partition P_Fill.

Lemma elem_of_flat_map {A B} (f : A -> list B) l y : y ∈ flat_map f l <-> exists x, x ∈ l /\ y ∈ f x.
Proof. rewrite elem_of_list_In, in_flat_map. setoid_rewrite elem_of_list_In. done. Qed.

(* ---------------------------------------------------------------- substitution *)

Lemma subst_Some σ t t' : subst σ t = Some t' <->
  tm_op t' = tm_op t /\ tm_a t' = tm_a t /\ subst_e σ (tm_e t) = Some (tm_e t') /\ subst_v σ (tm_v t) = Some (tm_v t').
Proof.
  unfold subst. destruct t' as [o e a v]. simpl. destruct (subst_e _ _), (subst_v _ _); naive_solver.
Qed.
Lemma subst_e_mono σ τ x e : σ ⊆ τ -> subst_e σ x = Some e -> subst_e τ x = Some e.
Proof. intros H. destruct x; [done|]. simpl. intros. by eapply lookup_weaken. Qed.
Lemma subst_v_mono σ τ x e : σ ⊆ τ -> subst_v σ x = Some e -> subst_v τ x = Some e.
Proof. intros H. destruct x; [done|]. simpl. rewrite !fmap_Some. intros (y & Hy & ->). exists y. split; [|done]. by eapply lookup_weaken. Qed.

Definition pe (u : tempid * Z * typed_value) : term_t := Term OAdd (inr u.1.1) u.1.2 (inl u.2).
Definition pev (u : tempid * Z * tempid) : term_t := Term OAdd (inr u.1.1) u.1.2 (inr u.2).

(** [t1] is what is left of [t] once the tempids of [τ] are known. *)
Definition rf_e (τ : gmap tempid Z) (x y : Z + tempid) : Prop :=
  y = x \/ exists z n, x = inr z /\ τ !! z = Some n /\ y = inl n.
Definition rf_v (τ : gmap tempid Z) (x y : typed_value + tempid) : Prop :=
  y = x \/ exists z n, x = inr z /\ τ !! z = Some n /\ y = inl (TVRef n).
Definition refines (τ : gmap tempid Z) (t t1 : term_t) : Prop :=
  tm_op t1 = tm_op t /\ tm_a t1 = tm_a t /\ rf_e τ (tm_e t) (tm_e t1) /\ rf_v τ (tm_v t) (tm_v t1).
Lemma refines_refl τ t : refines τ t t.
Proof. split_and!; try done; by left. Qed.
Lemma refines_mono τ τ' t t1 : τ ⊆ τ' -> refines τ t t1 -> refines τ' t t1.
Proof.
  intros Hsub (O1 & A1 & E1 & V1). split_and!; try done.
  - destruct E1 as [?|(z & n & ? & ? & ?)]; [by left|]. right. exists z, n. split_and!; try done. by eapply lookup_weaken.
  - destruct V1 as [?|(z & n & ? & ? & ?)]; [by left|]. right. exists z, n. split_and!; try done. by eapply lookup_weaken.
Qed.
Lemma refines_trans τ t t1 t2 : refines τ t t1 -> refines τ t1 t2 -> refines τ t t2.
Proof.
  intros (O1 & A1 & E1 & V1) (O2 & A2 & E2 & V2). split_and!; try congruence.
  - destruct E2 as [->|(z & n & Ez & Hz & ->)]; [done|]. right. exists z, n.
    destruct E1 as [E1|(z' & n' & E1 & ? & E1')]; [split_and!; congruence|]. congruence.
  - destruct V2 as [->|(z & n & Ez & Hz & ->)]; [done|]. right. exists z, n.
    destruct V1 as [V1|(z' & n' & V1 & ? & V1')]; [split_and!; congruence|]. congruence.
Qed.
Lemma rf_v_subst τ σ x y : rf_v τ x y -> τ ⊆ σ -> subst_v σ x = subst_v σ y.
Proof.
  intros [->|(z & n & -> & Hz & ->)] H; [done|]. simpl. by rewrite (lookup_weaken _ _ _ _ Hz H).
Qed.
Lemma refines_subst τ σ t t1 : refines τ t t1 -> τ ⊆ σ -> subst σ t = subst σ t1.
Proof.
  intros (O & A & E & V) H. unfold subst. rewrite (rf_v_subst _ _ _ _ V H), O, A.
  assert (subst_e σ (tm_e t) = subst_e σ (tm_e t1)) as ->; [|done].
  destruct E as [->|(z & n & -> & Hz & ->)]; [done|]. simpl. by eapply lookup_weaken.
Qed.
Lemma refines_identity τ s t t1 x : refines τ t t1 -> identity_add s t1 x -> identity_add s t x.
Proof. intros (O & A & E & V) (H1 & H2 & H3). split_and!; [congruence| |by rewrite <- A]. destruct E as [?|(?&?&?&?&?)]; congruence. Qed.

(* ---------------------------------------------------------------- generations *)

Definition pend (g : generation) : list term_t :=
  map pe (g_upserts_e g) ++ map pev (g_upserts_ev g) ++ g_allocations g ++ map inert_term (g_resolved g).
Lemma pend_elem g t : t ∈ pend g <->
  (exists u, u ∈ g_upserts_e g /\ t = pe u) \/ (exists u, u ∈ g_upserts_ev g /\ t = pev u) \/ t ∈ g_allocations g
  \/ (exists u, u ∈ g_resolved g /\ t = inert_term u).
Proof. unfold pend. rewrite !elem_of_app, !elem_of_list_fmap. naive_solver. Qed.

Lemma is_identity_Ok s a b : is_identity s a = Ok b ->
  exists at_, sc_attribute_map s !! a = Some at_ /\ (b = true <-> at_unique at_ = Some UIdentity).
Proof.
  unfold is_identity. intros H. apply rbind_Ok in H as (at_ & Hat & [= <-]). apply ok_or_Ok in Hat. exists at_. split; [done|].
  by rewrite bool_decide_eq_true.
Qed.

(** What holds of every generation of a transaction. *)
Record gen_wf (s : schema) (g : generation) : Prop := {
  gw_e : forall u, u ∈ g_upserts_e g -> identity_add s (pe u) u.1.1;
  gw_ev : forall u, u ∈ g_upserts_ev g -> identity_add s (pev u) u.1.1;
  gw_alloc : forall t, t ∈ g_allocations g -> tempids_of t <> [] }.

Lemma gen_from_Ok s ts g inert : gen_from s ts = Ok (g, inert) ->
  gen_wf s g /\ g_resolved g = [] /\ g_upserted g = []
  /\ (forall t, t ∈ ts <-> t ∈ pend g \/ t ∈ inert)
  /\ (forall t, t ∈ inert -> tempids_of t = [])
  /\ (forall t, t ∈ g_allocations g -> forall x, ~ identity_add s t x).
Proof.
  unfold gen_from. intros H.
  assert (forall ts acc acc', rfold (gen_from_one s) acc ts = Ok acc' ->
     gen_wf s acc.1 -> g_resolved acc.1 = [] -> g_upserted acc.1 = [] -> (forall t, t ∈ acc.2 -> tempids_of t = []) ->
     (forall t, t ∈ g_allocations acc.1 -> forall x, ~ identity_add s t x) ->
     gen_wf s acc'.1 /\ g_resolved acc'.1 = [] /\ g_upserted acc'.1 = []
     /\ (forall t, (t ∈ pend acc.1 \/ t ∈ acc.2) \/ t ∈ ts <-> t ∈ pend acc'.1 \/ t ∈ acc'.2)
     /\ (forall t, t ∈ acc'.2 -> tempids_of t = [])
     /\ (forall t, t ∈ g_allocations acc'.1 -> forall x, ~ identity_add s t x)) as K.
  { clear. induction ts as [|t ts IH]; intros acc acc' H W R U I N; cbn [rfold] in H.
    - injection H as <-. split_and!; try done. intros t. rewrite elem_of_nil. tauto.
    - apply rbind_Ok in H as (acc1 & H1 & H). destruct acc as [g inert]. simpl in *.
      assert (gen_wf s acc1.1 /\ g_resolved acc1.1 = [] /\ g_upserted acc1.1 = [] /\
        (forall t', (t' ∈ pend g \/ t' ∈ inert) \/ t' = t <-> t' ∈ pend acc1.1 \/ t' ∈ acc1.2)
        /\ (forall t, t ∈ acc1.2 -> tempids_of t = [])
        /\ (forall t, t ∈ g_allocations acc1.1 -> forall x, ~ identity_add s t x)) as (W1 & R1 & U1 & E1 & I1 & N1).
      { assert (forall t0, tempids_of t0 <> [] -> gen_wf s (g_add_alloc g t0)) as Walloc.
        { intros t0 Ht0. destruct W as [W1 W2 W3]. split; simpl; try done. intros t' [?| ->%elem_of_list_singleton]%elem_of_app; auto. }
        assert (forall t0 t', t' ∈ pend (g_add_alloc g t0) <-> t' ∈ pend g \/ t' = t0) as Palloc.
        { intros t0 t'. rewrite !pend_elem. simpl. rewrite elem_of_app, elem_of_list_singleton. tauto. }
        assert (forall t0, (forall x, ~ identity_add s t0 x) -> forall t, t ∈ g_allocations (g_add_alloc g t0) -> forall x, ~ identity_add s t x) as Nalloc.
        { intros t0 Ht0 t' Ht'. simpl in Ht'. apply elem_of_app in Ht' as [Ht'| ->%elem_of_list_singleton]; [by apply N|done]. }
        unfold gen_from_one in H1. destruct t as [o [e|x] a [v|y]]; simpl in H1.
        - injection H1 as <-. simpl. split_and!; try done.
          + intros t'. rewrite elem_of_app, elem_of_list_singleton. tauto.
          + intros t' [?| ->%elem_of_list_singleton]%elem_of_app; [auto|done].
        - injection H1 as <-. simpl. split_and!; try done.
          + by apply Walloc.
          + intros t'. rewrite Palloc. tauto.
          + apply Nalloc. by intros x (_ & ? & _).
        - destruct o.
          + apply rbind_Ok in H1 as (b & (at_ & Hat & Hid)%is_identity_Ok & [= <-]). destruct b; simpl.
            * split_and!; try done.
              -- destruct W as [W1 W2 W3]. split; simpl; try done. intros u [?| ->%elem_of_list_singleton]%elem_of_app; [auto|].
                 split_and!; try done. exists at_. split; [done|]. by apply Hid.
              -- intros t'. rewrite !pend_elem. simpl. setoid_rewrite elem_of_app. setoid_rewrite elem_of_list_singleton. unfold pe. naive_solver.
            * split_and!; try done.
              -- by apply Walloc.
              -- intros t'. rewrite Palloc. tauto.
              -- apply Nalloc. intros z (_ & _ & at2 & Hat2 & Hu). simpl in Hat2. assert (at2 = at_) as -> by congruence. apply Hid in Hu. done.
          + injection H1 as <-. simpl. split_and!; try done.
            * by apply Walloc.
            * intros t'. rewrite Palloc. tauto.
            * apply Nalloc. by intros z (? & _ & _).
        - destruct o.
          + apply rbind_Ok in H1 as (b & (at_ & Hat & Hid)%is_identity_Ok & [= <-]). destruct b; simpl.
            * split_and!; try done.
              -- destruct W as [W1 W2 W3]. split; simpl; try done. intros u [?| ->%elem_of_list_singleton]%elem_of_app; [auto|].
                 split_and!; try done. exists at_. split; [done|]. by apply Hid.
              -- intros t'. rewrite !pend_elem. simpl. setoid_rewrite elem_of_app. setoid_rewrite elem_of_list_singleton. unfold pev. naive_solver.
            * split_and!; try done.
              -- by apply Walloc.
              -- intros t'. rewrite Palloc. tauto.
              -- apply Nalloc. intros z (_ & _ & at2 & Hat2 & Hu). simpl in Hat2. assert (at2 = at_) as -> by congruence. apply Hid in Hu. done.
          + injection H1 as <-. simpl. split_and!; try done.
            * by apply Walloc.
            * intros t'. rewrite Palloc. tauto.
            * apply Nalloc. by intros z (? & _ & _). }
      destruct (IH acc1 acc' H W1 R1 U1 I1 N1) as (W2 & R2 & U2 & E2 & I2 & N2). split_and!; try done.
      intros t'. rewrite elem_of_cons, <- E2, <- E1. tauto. }
  destruct (K ts (gen_empty, []) (g, inert) H) as (W & R & U & E & I & N); simpl; try done.
  - split; simpl; by intros ? ?%elem_of_nil.
  - by intros ? ?%elem_of_nil.
  - by intros ? ?%elem_of_nil.
  - split_and!; try done. intros t. rewrite <- E. simpl. unfold pend. simpl. rewrite elem_of_nil. tauto.
Qed.

(* ---------------------------------------------------------------- one step *)

Definition st_e_alloc (m : tempid_map) (u : tempid * Z * typed_value) : list term_t :=
  match m !! u.1.1 with None => [pe u] | Some _ => [] end.
Definition st_ev_e (m : tempid_map) (u : tempid * Z * tempid) : list (tempid * Z * typed_value) :=
  match m !! u.2 with Some n => [(u.1.1, u.1.2, TVRef n)] | None => [] end.
Definition st_ev_ev (m : tempid_map) (u : tempid * Z * tempid) : list (tempid * Z * tempid) :=
  match m !! u.1.1, m !! u.2 with None, None => [u] | _, _ => [] end.
Definition st_ev_alloc (m : tempid_map) (u : tempid * Z * tempid) : list term_t :=
  match m !! u.1.1, m !! u.2 with Some n, None => [Term OAdd (inl n) u.1.2 (inr u.2)] | _, _ => [] end.

Lemma fold_evolve_e m l : forall g, exists up,
  fold_left (evolve_e m) l g = Gen (g_upserts_e g) (g_upserts_ev g) (g_allocations g ++ flat_map (st_e_alloc m) l) up (g_resolved g).
Proof.
  induction l as [|[[t a] v] l IH]; intros g; cbn [fold_left flat_map].
  - exists (g_upserted g). rewrite app_nil_r. by destruct g.
  - destruct (IH (evolve_e m g (t, a, v))) as (up & ->). exists up. unfold evolve_e, st_e_alloc. simpl.
    destruct (m !! t); simpl; [done|]. by rewrite <- app_assoc.
Qed.
Lemma fold_evolve_ev m l : forall g,
  fold_left (evolve_ev m) l g = Gen (g_upserts_e g ++ flat_map (st_ev_e m) l) (g_upserts_ev g ++ flat_map (st_ev_ev m) l)
    (g_allocations g ++ flat_map (st_ev_alloc m) l) (g_upserted g) (g_resolved g).
Proof.
  induction l as [|[[t1 a] t2] l IH]; intros g; cbn [fold_left flat_map].
  - rewrite !app_nil_r. by destruct g.
  - rewrite IH. unfold evolve_ev, st_ev_e, st_ev_ev, st_ev_alloc. simpl.
    destruct (m !! t1), (m !! t2); simpl; rewrite <- ?app_assoc; done.
Qed.

(** Replacing what is known *)
Definition psub_e (m : tempid_map) (x : Z + tempid) : Z + tempid :=
  match x with inl e => inl e | inr t => match m !! t with Some n => inl n | None => inr t end end.
Definition psub_v (m : tempid_map) (x : typed_value + tempid) : typed_value + tempid :=
  match x with inl e => inl e | inr t => match m !! t with Some n => inl (TVRef n) | None => inr t end end.
Definition psub (m : tempid_map) (t : term_t) : term_t := Term (tm_op t) (psub_e m (tm_e t)) (tm_a t) (psub_v m (tm_v t)).
Lemma psub_refines m τ t : m ⊆ τ -> refines τ t (psub m t).
Proof.
  intros H. split_and!; try done.
  - simpl. destruct (tm_e t) as [e|x]; [by left|]. simpl. destruct (m !! x) as [n|] eqn:E; [|by left].
    right. exists x, n. split_and!; try done. by eapply lookup_weaken.
  - simpl. destruct (tm_v t) as [e|x]; [by left|]. simpl. destruct (m !! x) as [n|] eqn:E; [|by left].
    right. exists x, n. split_and!; try done. by eapply lookup_weaken.
Qed.
Definition st_al_alloc (m : tempid_map) (t : term_t) : list term_t :=
  match tempids_of (psub m t) with [] => [] | _ => [psub m t] end.
Definition st_al_res (m : tempid_map) (t : term_t) : list term_s :=
  match psub_e m (tm_e t), psub_v m (tm_v t) with inl e, inl v => [Term (tm_op t) e (tm_a t) v] | _, _ => [] end.

Lemma evolve_alloc_Ok m g t : tempids_of t <> [] ->
  evolve_alloc m g t = Ok (Gen (g_upserts_e g) (g_upserts_ev g) (g_allocations g ++ st_al_alloc m t) (g_upserted g) (g_resolved g ++ st_al_res m t)).
Proof.
  intros Ht. unfold evolve_alloc, st_al_alloc, st_al_res, psub.
  destruct t as [o [e|x] a [v|y]]; simpl in *; [done|..].
  - destruct (m !! y); simpl; rewrite ?app_nil_r; done.
  - destruct (m !! x); simpl; rewrite ?app_nil_r; done.
  - destruct (m !! x), (m !! y); simpl; rewrite ?app_nil_r; done.
Qed.
Lemma rfold_evolve_alloc m l : forall g, (forall t, t ∈ l -> tempids_of t <> []) ->
  rfold (evolve_alloc m) g l = Ok (Gen (g_upserts_e g) (g_upserts_ev g) (g_allocations g ++ flat_map (st_al_alloc m) l) (g_upserted g)
    (g_resolved g ++ flat_map (st_al_res m) l)).
Proof.
  induction l as [|t l IH]; intros g Hl; cbn [rfold flat_map].
  - rewrite !app_nil_r. by destruct g.
  - rewrite evolve_alloc_Ok by (apply Hl; by left). simpl. rewrite IH by (intros; apply Hl; by right). simpl.
    by rewrite <- !app_assoc.
Qed.

Lemma evolve_one_step_Ok s g m : gen_wf s g -> exists up,
  evolve_one_step g m = Ok (Gen (flat_map (st_ev_e m) (g_upserts_ev g)) (flat_map (st_ev_ev m) (g_upserts_ev g))
    (flat_map (st_e_alloc m) (g_upserts_e g) ++ flat_map (st_ev_alloc m) (g_upserts_ev g) ++ flat_map (st_al_alloc m) (g_allocations g))
    up (g_resolved g ++ flat_map (st_al_res m) (g_allocations g))).
Proof.
  intros W. unfold evolve_one_step. destruct (fold_evolve_e m (g_upserts_e g) (Gen [] [] [] [] (g_resolved g))) as (up & ->).
  rewrite fold_evolve_ev. rewrite rfold_evolve_alloc by apply W. simpl. exists up. by rewrite <- app_assoc.
Qed.

Lemma evolve_step_spec s g m τ g' : gen_wf s g -> m ⊆ τ -> evolve_one_step g m = Ok g' ->
  gen_wf s g'
  /\ (forall t1, t1 ∈ pend g' -> exists t, t ∈ pend g /\ refines τ t t1)
  /\ (forall t, t ∈ pend g -> (exists t1, t1 ∈ pend g' /\ refines τ t t1)
        \/ exists u e, u ∈ g_upserts_e g /\ t = pe u /\ m !! u.1.1 = Some e)
  /\ (length (g_upserts_e g') + length (g_upserts_ev g') <= length (g_upserts_ev g))%nat.
Proof.
  intros W Hm H. destruct (evolve_one_step_Ok s g m W) as (up & H'). rewrite H' in H. injection H as <-.
  assert (forall u n, m !! u.2 = Some n -> refines τ (pev u) (pe (u.1.1, u.1.2, TVRef n))) as Rev.
  { intros [[x a] y] n Hn. split_and!; try done; [by left|]. right. exists y, n. split_and!; try done. by eapply lookup_weaken. }
  assert (forall u n, m !! u.1.1 = Some n -> refines τ (pev u) (Term OAdd (inl n) u.1.2 (inr u.2))) as Rev2.
  { intros [[x a] y] n Hn. split_and!; try done; [|by left]. right. exists x, n. split_and!; try done. by eapply lookup_weaken. }
  assert (forall t t1, t1 ∈ st_al_res m t -> refines τ t (inert_term t1)) as Rres.
  { intros t t1 Ht1. unfold st_al_res in Ht1. pose proof (psub_refines m τ t Hm) as Hr. unfold psub in Hr.
    destruct (psub_e m (tm_e t)) as [e|], (psub_v m (tm_v t)) as [v|]; try by apply elem_of_nil in Ht1.
    apply elem_of_list_singleton in Ht1 as ->. done. }
  split; [split; simpl|split; [|split]].
  - intros u1 (u & Hu & Hu1)%elem_of_flat_map. unfold st_ev_e in Hu1. destruct (m !! u.2) as [n|]; [|by apply elem_of_nil in Hu1].
    apply elem_of_list_singleton in Hu1 as ->. apply (gw_ev _ _ W) in Hu as (_ & _ & Hid). done.
  - intros u1 (u & Hu & Hu1)%elem_of_flat_map. unfold st_ev_ev in Hu1.
    destruct (m !! u.1.1), (m !! u.2); try by apply elem_of_nil in Hu1. apply elem_of_list_singleton in Hu1 as ->. by apply W.
  - intros t [Ht|[Ht|Ht]%elem_of_app]%elem_of_app.
    + apply elem_of_flat_map in Ht as (u & Hu & Ht). unfold st_e_alloc in Ht. destruct (m !! u.1.1); [by apply elem_of_nil in Ht|].
      by apply elem_of_list_singleton in Ht as ->.
    + apply elem_of_flat_map in Ht as (u & Hu & Ht). unfold st_ev_alloc in Ht.
      destruct (m !! u.1.1), (m !! u.2); try by apply elem_of_nil in Ht. by apply elem_of_list_singleton in Ht as ->.
    + apply elem_of_flat_map in Ht as (u & Hu & Ht). unfold st_al_alloc in Ht.
      destruct (tempids_of (psub m u)) eqn:E; [by apply elem_of_nil in Ht|]. apply elem_of_list_singleton in Ht as ->. by rewrite E.
  - intros t1. rewrite pend_elem. simpl. intros [(u1 & Hu1 & ->)|[(u1 & Hu1 & ->)|[Ht|(u1 & Hu1 & ->)]]].
    + apply elem_of_flat_map in Hu1 as (u & Hu & Hu1). exists (pev u). split; [apply pend_elem; naive_solver|].
      unfold st_ev_e in Hu1. destruct (m !! u.2) as [n|] eqn:En; [|by apply elem_of_nil in Hu1]. apply elem_of_list_singleton in Hu1 as ->. by apply Rev.
    + apply elem_of_flat_map in Hu1 as (u & Hu & Hu1). exists (pev u). split; [apply pend_elem; naive_solver|].
      unfold st_ev_ev in Hu1. destruct (m !! u.1.1), (m !! u.2); try by apply elem_of_nil in Hu1. apply elem_of_list_singleton in Hu1 as ->. apply refines_refl.
    + apply elem_of_app in Ht as [Ht|[Ht|Ht]%elem_of_app].
      * apply elem_of_flat_map in Ht as (u & Hu & Ht). exists (pe u). split; [apply pend_elem; naive_solver|].
        unfold st_e_alloc in Ht. destruct (m !! u.1.1); [by apply elem_of_nil in Ht|]. apply elem_of_list_singleton in Ht as ->. apply refines_refl.
      * apply elem_of_flat_map in Ht as (u & Hu & Ht). exists (pev u). split; [apply pend_elem; naive_solver|].
        unfold st_ev_alloc in Ht. destruct (m !! u.1.1) as [n|] eqn:E, (m !! u.2); try by apply elem_of_nil in Ht.
        apply elem_of_list_singleton in Ht as ->. by apply Rev2.
      * apply elem_of_flat_map in Ht as (u & Hu & Ht). exists u. split; [apply pend_elem; naive_solver|].
        unfold st_al_alloc in Ht. destruct (tempids_of (psub m u)); [by apply elem_of_nil in Ht|]. apply elem_of_list_singleton in Ht as ->.
        by apply psub_refines.
    + apply elem_of_app in Hu1 as [Hu1|Hu1].
      * exists (inert_term u1). split; [apply pend_elem; naive_solver|apply refines_refl].
      * apply elem_of_flat_map in Hu1 as (u & Hu & Hu1). exists u. split; [apply pend_elem; naive_solver|]. by apply Rres.
  - intros t. rewrite pend_elem. intros [(u & Hu & ->)|[(u & Hu & ->)|[Ht|(u & Hu & ->)]]].
    + destruct (m !! u.1.1) as [e|] eqn:E; [right; eauto|]. left. exists (pe u). split; [|apply refines_refl]. apply pend_elem. right. right. left. simpl.
      apply elem_of_app. left. apply elem_of_flat_map. exists u. split; [done|]. unfold st_e_alloc. rewrite E. by left.
    + left. destruct (m !! u.2) as [n|] eqn:E2.
      * eexists. split; [|by apply (Rev u n)]. apply pend_elem. left. eexists. split; [|done]. simpl. apply elem_of_flat_map. exists u.
        split; [done|]. unfold st_ev_e. rewrite E2. by left.
      * destruct (m !! u.1.1) as [n|] eqn:E1.
        -- eexists. split; [|by apply (Rev2 u n)]. apply pend_elem. right. right. left. simpl. rewrite !elem_of_app. right. left.
           apply elem_of_flat_map. exists u. split; [done|]. unfold st_ev_alloc. rewrite E1, E2. by left.
        -- exists (pev u). split; [|apply refines_refl]. apply pend_elem. right. left. exists u. split; [|done]. simpl. apply elem_of_flat_map. exists u.
           split; [done|]. unfold st_ev_ev. rewrite E1, E2. by left.
    + left. destruct (tempids_of (psub m t)) eqn:E.
      * assert (exists e v, psub_e m (tm_e t) = inl e /\ psub_v m (tm_v t) = inl v) as (e & v & He & Hv).
        { unfold tempids_of in E. simpl in E. destruct (psub_e m (tm_e t)), (psub_v m (tm_v t)); try done. eauto. }
        exists (inert_term (Term (tm_op t) e (tm_a t) v)).
        assert (Term (tm_op t) e (tm_a t) v ∈ st_al_res m t) as K by (unfold st_al_res; rewrite He, Hv; by left).
        split; [|by apply Rres]. apply pend_elem. right. right. right. eexists. split; [|done]. simpl. apply elem_of_app. right.
        apply elem_of_flat_map. eauto.
      * exists (psub m t). split; [|by apply psub_refines]. apply pend_elem. right. right. left. simpl. rewrite !elem_of_app. right. right.
        apply elem_of_flat_map. exists t. split; [done|]. unfold st_al_alloc. rewrite E. by left.
    + left. exists (inert_term u). split; [|apply refines_refl]. apply pend_elem. right. right. right. exists u. split; [|done]. simpl. apply elem_of_app. by left.
  - simpl. clear. induction (g_upserts_ev g) as [|u l IH]; simpl; [lia|]. rewrite !app_length.
    assert (length (st_ev_e m u) + length (st_ev_ev m u) <= 1)%nat; [|lia].
    unfold st_ev_e, st_ev_ev. destruct (m !! u.1.1), (m !! u.2); simpl; lia.
Qed.


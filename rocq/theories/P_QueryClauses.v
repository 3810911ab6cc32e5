(** Evolving patterns, and a run of them. *)
From Verif Require Import M_Query Spec_Query Spec_Value Spec_Sets Spec_Cache P_Value P_Sets P_QuerySql P_QuerySat P_QueryPat P_QueryInv P_QueryApply.

Lemma empty_grows c c' : grows c c' -> c_empty c = true -> c_empty c' = true.
Proof. intros Hg Hc. destruct (c_empty c') eqn:E; [done|]. apply (g_ne _ _ Hg) in E. congruence. Qed.
Lemma empty_bind_value v x c : c_empty c = true -> c_empty (bind_value v x c) = true.
Proof.
  intros Hc. unfold bind_value. pose proof (empty_grows _ _ (grows_constrain_var v (tv_type x) c) Hc) as H1. set (c1 := constrain_var v (tv_type x) c) in *. clearbody c1.
  destruct c1 as [[] l w]. cbn in *. repeat case_match; done.
Qed.

(** At the places for an entity, an attribute and a transaction are variables for entities. *)
Definition place_vars (p : pattern) : list string := nplace_vars (p_e p) ++ nplace_vars (p_a p) ++ nplace_vars (p_tx p).
Definition refs (σ : string -> typed_value) (p : pattern) : Prop := forall x, x ∈ place_vars p -> tv_type (σ x) = VTRef.
Definition pvars (cs : list clause) : list string := flat_map pattern_vars (flat_map clause_patterns cs).
Definition once (L : string -> Prop) (vs : list string) : Prop := forall x l1 l2, vs = l1 ++ x :: l2 -> L x -> x ∉ l1 /\ x ∉ l2.
Lemma once_app L vs ws : once L (vs ++ ws) -> once L vs /\ once L ws /\ forall x, L x -> x ∈ vs -> x ∉ ws.
Proof.
  intros H. split_and!.
  - intros x l1 l2 -> Hx. destruct (H x l1 (l2 ++ ws)) as [H1 H2]; [by rewrite <- app_assoc|done|]. split; [done|]. intros Hin. apply H2, elem_of_app. by left.
  - intros x l1 l2 -> Hx. destruct (H x (vs ++ l1) l2) as [H1 H2]; [by rewrite <- app_assoc|done|]. split; [|done]. intros Hin. apply H1, elem_of_app. by right.
  - intros x HL Hx Hx'. apply elem_of_list_split in Hx as (l1 & l2 & ->). destruct (H x l1 (l2 ++ ws)) as [_ H2]; [by rewrite <- app_assoc|done|].
    apply H2, elem_of_app. by right.
Qed.
Lemma place_vars_pattern p x : x ∈ place_vars p -> x ∈ pattern_vars p.
Proof. unfold place_vars, pattern_vars. rewrite !elem_of_app. tauto. Qed.

Section clauses.
  Context (sq : sqlite) (k : known) (st : store) (G : store_good (sc_attribute_map (kn_schema k)) st) (CO : cache_ok k st).
  Context (M : option nat) (L : string -> Prop) (ins : list string) (V : gmap string typed_value) (HLI : forall x, L x -> x ∉ ins).
  Notation sat := (sat sq st).
  Notation inv := (inv sq k st M L ins V).
  Notation Sat := (Sat sq st).
  Notation matches := (matches st (kn_schema k)).

  Definition good (O : env -> Prop) (rest : list string) (c : cc) : Prop := c_empty c = true \/ inv O rest (c_from c) c.
  Lemma Sat_ne c E0 σ : Sat c E0 σ -> c_empty c = false.
  Proof using Type. by intros (E & _ & []). Qed.
  Lemma good_inv O rest c : good O rest c -> c_empty c = false -> inv O rest (c_from c) c.
  Proof using Type. intros [H|H]; [congruence|done]. Qed.
  Lemma good_weaken O rest rest' c : (forall x, x ∈ rest' -> x ∈ rest) -> good O rest c -> good O rest' c.
  Proof using Type. intros Hr [H|H]; [by left|right]. by eapply inv_weaken. Qed.

  Record psafe (p : pattern) : Prop := {
    ps_const : match p_v p with VConst v => storable v | VIdent k => storable (TVKeyword k) | _ => True end;
    ps_open : open_pattern ins p ->
      match p_v p with
      | VPlaceholder => True
      | VVar x => L x \/ exists v, x ∈ ins /\ V !! x = Some v /\ own_tag (tv_type v)
      | VConst v => own_tag (tv_type v)
      | VInteger _ | VIdent _ => False
      end;
    ps_lone : forall x, L x -> x ∉ place_vars p }.

  Definition closed (e : epattern) : Prop := exists a at_, ep_a e = EpEntid a /\ kn_attr k a = Some at_.
  Record evolved (p : pattern) (e : epattern) : Prop := {
    eo_e : forall v, ep_e e = EpVar v -> p_e p = NVar v;
    eo_a : forall v, ep_a e = EpVar v -> p_a p = NVar v;
    eo_tx : forall v, ep_tx e = EpVar v -> p_tx p = NVar v;
    eo_v : match ep_v e with
           | EvPlaceholder => True
           | EvVar v => p_v p = VVar v /\ (closed e \/ L v)
           | EvEntid _ => closed e
           | EvValue x => storable x /\ (closed e \/ own_tag (tv_type x))
           | EvInteger _ | EvIdent _ => False
           end }.

  (** Constants at those places are entities. *)
  Definition rvals (c : cc) (p : pattern) : Prop := forall x v, x ∈ place_vars p -> c_vals c !! x = Some v -> tv_type v = VTRef.
  Lemma refs_rvals c E σ p : sat c E σ -> refs σ p -> rvals c p.
  Proof using Type. intros Hs Hr x v Hx Hv. rewrite <- (sat_vals _ _ _ _ _ Hs _ _ Hv). by apply Hr. Qed.
  Lemma evolve_nplace_spec c p E σ : sat c E σ -> (forall x v, p = NVar x -> c_vals c !! x = Some v -> tv_type v = VTRef) ->
    match evolve_nplace k c p with
    | Some e => (forall i, place_is (kn_schema k) σ p i <-> eplace_is σ e i) /\ (forall v, e = EpVar v -> p = NVar v)
    | None => forall i, ~ place_is (kn_schema k) σ p i
    end.
  Proof using Type.
    intros Hs Hr. destruct p as [|v|e|i]; cbn [evolve_nplace place_is].
    - by split.
    - destruct (c_vals c !! v) as [x|] eqn:Ev; [|split; [done|congruence]].
      pose proof (sat_vals _ _ _ _ _ Hs _ _ Ev) as Hv. specialize (Hr v x eq_refl Ev). destruct x; try done. split; [|done].
      intros i. cbn. rewrite Hv. split; congruence.
    - by split.
    - unfold kn_ident. destruct (sc_ident_map (kn_schema k) !! i) as [e|]; cbn; [|by intros j]. split; [|done]. intros j. split; congruence.
  Qed.
  Lemma make_evolved_spec O rest c p E σ : inv O (pattern_vars p ++ rest) (c_from c) c -> psafe p -> sat c E σ -> rvals c p ->
    match make_evolved k c p with
    | Some e => (matches σ p <-> ematches st σ e) /\ evolved p e
    | None => ~ matches σ p
    end.
  Proof using G HLI.
    intros I P Hs Hr. pose proof (sat_ne _ _ _ _ _ Hs) as Hne. unfold make_evolved.
    assert (forall x v, p_e p = NVar x -> c_vals c !! x = Some v -> tv_type v = VTRef) as He. { intros x v Hx Hv. apply (Hr x v); [|done]. unfold place_vars. rewrite Hx. by left. }
    assert (forall x v, p_a p = NVar x -> c_vals c !! x = Some v -> tv_type v = VTRef) as Ha. { intros x v Hx Hv. apply (Hr x v); [|done]. unfold place_vars. rewrite Hx. apply elem_of_app. right. by left. }
    assert (forall x v, p_tx p = NVar x -> c_vals c !! x = Some v -> tv_type v = VTRef) as Htx.
    { intros x v Hx Hv. apply (Hr x v); [|done]. unfold place_vars. rewrite Hx. apply elem_of_app. right. apply elem_of_app. right. by left. }
    assert (matches σ p <-> exists d v, d ∈ all_datoms st /\ row_value d v /\ place_is (kn_schema k) σ (p_e p) (d_e d) /\ place_is (kn_schema k) σ (p_a p) (d_a d)
      /\ value_is (kn_schema k) σ (p_v p) v /\ place_is (kn_schema k) σ (p_tx p) (d_tx d)) as Hm.
    { unfold Spec_Query.matches. setoid_rewrite (datom_at_row _ _ G). split.
      - intros (e & a & v & tx & (d & Hd & <- & <- & <- & Hv) & H). by exists d, v.
      - intros (d & v & Hd & Hv & H). exists (d_e d), (d_a d), v, (d_tx d). split; [by exists d|done]. }
    pose proof (evolve_nplace_spec c (p_e p) E σ Hs He) as Ee. destruct (evolve_nplace k c (p_e p)) as [e|]; [cbn|cbn; rewrite Hm; naive_solver].
    unfold evolve_attribute. pose proof (evolve_nplace_spec c (p_a p) E σ Hs Ha) as Ea. destruct (evolve_nplace k c (p_a p)) as [a|] eqn:Epa; [cbn|cbn; rewrite Hm; naive_solver].
    pose proof (evolve_nplace_spec c (p_tx p) E σ Hs Htx) as Etx.
    assert (forall d v a' at_, d ∈ all_datoms st -> row_value d v -> a = EpEntid a' -> kn_attr k a' = Some at_ -> place_is (kn_schema k) σ (p_a p) (d_a d) -> tv_type v = at_type at_) as Hty.
    { intros d v a' at_ Hd Hv -> Hat Hpl. apply Ea in Hpl. cbn in Hpl. subst a'. eapply row_value_type; [exact G|by left|done|done]. }
    (* which attributes are closed *)
    assert (match a with EpEntid a' => True | _ => open_pattern ins p end) as Hopen.
    { destruct a as [|x|a']; [| |done].
      - unfold open_pattern. destruct (p_a p) as [|v|?|?]; cbn in Epa; try done; [destruct (c_vals c !! v) as [[]|]; try done; by destruct (kn_ident k k0)|by destruct (kn_ident k k0)].
      - destruct Ea as [_ Ea]. specialize (Ea x eq_refl). unfold open_pattern. rewrite Ea in *. cbn in Epa. intros Hin.
        destruct (i_given I Hne x) as (v & _ & Hv); [|done|rewrite Hv in Epa].
        + unfold pattern_vars. rewrite Ea, !elem_of_app. left. right. left. by left.
        + destruct v; try done. by destruct (kn_ident k k0). }
    set (r := match a with EpEntid e0 => _ | _ => _ end).
    assert ((exists a' at_, a = EpEntid a' /\ kn_attr k a' = Some at_ /\ r = Some (a, Some (at_type at_))) \/ (r = None /\ exists a', a = EpEntid a' /\ kn_attr k a' = None)
      \/ (r = Some (a, None) /\ open_pattern ins p)) as Hr'.
    { unfold r. destruct a as [|x|a']; [by right; right|by right; right|]. destruct (kn_attr k a') as [at_|] eqn:Eat; cbn; [left; by exists a', at_|]. right. left. split; [done|by exists a']. }
    clearbody r.
    destruct Hr' as [(a' & at_ & -> & Hat & ->)|[(-> & a' & -> & Hat)|[-> Hop]]].
    2:{ cbn. rewrite Hm. intros (d & v & Hd & _ & _ & Hpl & _). apply Ea in Hpl. cbn in Hpl. destruct (sg_view _ _ G d Hd) as (at_ & _ & Hat' & _). unfold kn_attr in Hat. congruence. }
    - (* a known attribute *)
      cbn [mbind option_bind fst snd].
      assert (forall (ev : evplace), evolve_value k c (Some (at_type at_)) (p_v p) = Some ev ->
        (forall d v, d ∈ all_datoms st -> row_value d v -> tv_type v = at_type at_ -> value_is (kn_schema k) σ (p_v p) v <-> evalue_row σ ev d) ->
        match ev with EvVar v => p_v p = VVar v | EvInteger _ | EvIdent _ => False | EvValue x => storable x | _ => True end ->
        match evolve_nplace k c (p_tx p) with
        | Some tx => (matches σ p <-> ematches st σ (EPattern e (EpEntid a') ev tx)) /\ evolved p (EPattern e (EpEntid a') ev tx)
        | None => ~ matches σ p
        end) as Hdone.
      { intros ev _ Hev Hsafe. destruct (evolve_nplace k c (p_tx p)) as [tx|]; [|rewrite Hm; naive_solver].
        assert (closed (EPattern e (EpEntid a') ev tx)) as Hcl by (by exists a', at_).
        split.
        - rewrite Hm. unfold ematches. cbn [ep_e ep_a ep_v ep_tx]. destruct Ee as [Ee _], Ea as [Ea _], Etx as [Etx _]. split.
          + intros (d & v & Hd & Hv & H1 & H2 & H3 & H4). exists d. split_and!; [done|by apply Ee|by apply Ea| |by apply Etx]. apply (Hev d v); try done. by eapply Hty.
          + intros (d & Hd & H1 & H2 & H3 & H4). destruct (view_value _ _ G d Hd) as [v Hv]. exists d, v. apply Ee in H1. apply Ea in H2. apply Etx in H4. split_and!; try done.
            apply (Hev d v); try done. by eapply Hty.
        - split; cbn [ep_e ep_a ep_v ep_tx]; [apply Ee|done|apply Etx|]. destruct ev; auto. }
      destruct (evolve_value k c (Some (at_type at_)) (p_v p)) as [ev|] eqn:Ev; cbn [mbind option_bind].
      + specialize (Hdone ev eq_refl).
        assert ((forall d v, d ∈ all_datoms st -> row_value d v -> tv_type v = at_type at_ -> value_is (kn_schema k) σ (p_v p) v <-> evalue_row σ ev d) /\
          match ev with EvVar v => p_v p = VVar v | EvInteger _ | EvIdent _ => False | EvValue x => storable x | _ => True end) as [H1 H2].
        2:{ specialize (Hdone H1 H2). destruct (evolve_nplace k c (p_tx p)) as [tx|]; cbn [mbind option_bind]; exact Hdone. }
        assert (forall d v w, row_value d v -> storable w -> v = w <-> row_value d w) as Heq.
        { intros d v w Hv Hw. split; [by intros <-|]. intros H. by eapply row_value_inj. }
        destruct (p_v p) as [|x|z|i|w] eqn:Epv; cbn [evolve_value] in Ev.
        * injection Ev as <-. split; [done|done].
        * destruct (c_vals c !! x) as [w|] eqn:Ew.
          -- pose proof (sat_vals _ _ _ _ _ Hs _ _ Ew) as Hw. pose proof (i_vals I x w Ew) as Hst.
             assert ((forall d v, row_value d v -> value_is (kn_schema k) σ (VVar x) v <-> row_value d w)) as Hvw.
             { intros d v Hv. cbn. rewrite Hw. rewrite <- (Heq d v w) by done. naive_solver. }
             destruct w; (destruct (can_constrain c x _); [|done]); injection Ev as <-; (split; [|done]); intros dd vv Hd Hv _; by apply Hvw.
          -- injection Ev as <-. split; [|done]. intros d v Hd Hv _. cbn. split; [by intros ->|]. intros H. by eapply row_value_inj.
        * destruct (at_type at_) eqn:Et; try done; injection Ev as <-; (split; [|done]); intros dd vv Hd Hv Ht; cbn [value_is evalue_row];
            (rewrite <- (Heq dd vv) by done); destruct vv; try done; naive_solver.
        * destruct (at_type at_) eqn:Et; try done.
          -- unfold kn_ident in Ev. destruct (sc_ident_map (kn_schema k) !! i) as [e'|] eqn:Ei; [|done]. injection Ev as <-. split; [|done].
             intros d v Hd Hv Ht. cbn [value_is evalue_row]. rewrite <- (Heq d v) by done. rewrite Ei. destruct v; try done. naive_solver.
          -- injection Ev as <-. pose proof (ps_const _ P) as Hc. rewrite Epv in Hc. split; [|done].
             intros d v Hd Hv Ht. cbn [value_is evalue_row]. rewrite <- (Heq d v) by done. destruct v; try done. naive_solver.
        * injection Ev as <-. pose proof (ps_const _ P) as Hc. rewrite Epv in Hc. split; [|done]. intros d v Hd Hv Ht. cbn. by apply Heq.
      + rewrite Hm. intros (d & v & Hd & Hv & H1 & H2 & H3 & H4). pose proof (Hty d v a' at_ Hd Hv eq_refl Hat H2) as Ht.
        destruct (p_v p) as [|x|z|i|w] eqn:Epv; cbn [evolve_value value_is] in *; try done.
        * destruct (c_vals c !! x) as [w|] eqn:Ew; [|done]. pose proof (sat_vals _ _ _ _ _ Hs _ _ Ew) as Hw.
          assert (can_constrain c x (tv_type w) = true) as Hcan.
          { unfold can_constrain. destruct (c_known c !! x) as [ts|] eqn:Ek; [|done]. pose proof (sat_known _ _ _ _ _ Hs _ _ Ek) as Hk. rewrite Hw in Hk.
            destruct (vts_is_empty (vts_intersection ts (vts_of_one (tv_type w)))) eqn:Ei; [|done].
            pose proof (empty_contains _ (tv_type w) Ei) as H. rewrite vts_inter_contains, Hk in H. assert (vts_contains (vts_of_one (tv_type w)) (tv_type w) = true) as H' by (by apply one_contains_iff). by rewrite H' in H. }
          destruct w; cbn [tv_type] in Hcan, Ev; rewrite Hcan in Ev; done.
        * destruct (at_type at_); try done; destruct H3 as [-> |[-> | ->]]; done.
        * destruct (at_type at_); try done; try (by destruct H3 as [-> |(e' & He' & ->)]). unfold kn_ident in Ev. destruct H3 as [-> |(e' & He' & ->)]; [done|]. by rewrite He' in Ev.
    - (* any attribute *)
      cbn [mbind option_bind fst snd]. pose proof (ps_open _ P Hop) as Hpo.
      destruct (p_v p) as [|x|z|i|w] eqn:Epv; try done; cbn [evolve_value].
      + cbn [mbind option_bind]. destruct (evolve_nplace k c (p_tx p)) as [tx|]; cbn [mbind option_bind]; [|rewrite Hm; naive_solver]. split.
        * rewrite Hm. unfold ematches. cbn [ep_e ep_a ep_v ep_tx evalue_row value_is]. destruct Ee as [Ee _], Ea as [Ea _], Etx as [Etx _]. split.
          -- intros (d & v & Hd & Hv & H1 & H2 & H3 & H4). exists d. apply Ee in H1. apply Ea in H2. apply Etx in H4. done.
          -- intros (d & Hd & H1 & H2 & H3 & H4). destruct (view_value _ _ G d Hd) as [v Hv]. exists d, v. apply Ee in H1. apply Ea in H2. apply Etx in H4. done.
        * split; cbn [ep_e ep_a ep_v ep_tx]; [apply Ee|apply Ea|apply Etx|done].
      + assert (exists ev, match c_vals c !! x with
                  | Some (TVRef e) => if can_constrain c x VTRef then Some (EvEntid e) else None
                  | Some y => if can_constrain c x (tv_type y) then Some (EvValue y) else None
                  | None => Some (EvVar x) end = ev /\
                  match ev with
                  | Some ev => (forall d v, row_value d v -> σ x = v <-> evalue_row σ ev d) /\
                      match ev with EvVar v => v = x /\ L v | EvValue y => storable y /\ own_tag (tv_type y) | _ => False end
                  | None => False
                  end) as (ev & -> & Hev).
        { eexists. split; [reflexivity|]. destruct Hpo as [HL|(v & Hin & HV & Hown)].
          - destruct (i_fresh I Hne x HL) as (_ & _ & ->).
            { unfold pattern_vars. rewrite Epv, !elem_of_app. left. right. right. left. by left. }
            split; [|done]. intros d v Hv. cbn. split; [by intros ->|]. intros H. by eapply row_value_inj.
          - destruct (i_given I Hne x) as (v' & HV' & Hv'); [|done|].
            { unfold pattern_vars. rewrite Epv, !elem_of_app. left. right. right. left. by left. }
            assert (v' = v) as -> by congruence. rewrite Hv'. pose proof (i_vals_known I Hne _ _ Hv') as Hk. pose proof (i_vals I _ _ Hv') as Hst.
            pose proof (sat_vals _ _ _ _ _ Hs _ _ Hv') as Hw.
            assert (can_constrain c x (tv_type v) = true) as Hcan.
            { unfold can_constrain. rewrite Hk. destruct (vts_is_empty (vts_intersection (vts_of_one (tv_type v)) (vts_of_one (tv_type v)))) eqn:Ei; [|done].
              pose proof (empty_contains _ (tv_type v) Ei) as H. rewrite vts_inter_contains in H. assert (vts_contains (vts_of_one (tv_type v)) (tv_type v) = true) as H' by (by apply one_contains_iff).
              by rewrite H' in H. }
            assert ((forall d w, row_value d w -> σ x = w <-> row_value d v)) as Hvw. { intros d w Hd. rewrite Hw. split; [by intros ->|]. intros H. by eapply row_value_inj. }
            destruct v; cbn [tv_type] in Hcan |- *; try rewrite Hcan; try done. by destruct Hown. }
        destruct ev as [ev|]; [|done]. destruct Hev as [Hev Hsafe]. cbn [mbind option_bind].
        destruct (evolve_nplace k c (p_tx p)) as [tx|]; cbn [mbind option_bind]; [|rewrite Hm; naive_solver]. split.
        * rewrite Hm. unfold ematches. cbn [ep_e ep_a ep_v ep_tx value_is]. destruct Ee as [Ee _], Ea as [Ea _], Etx as [Etx _]. split.
          -- intros (d & v & Hd & Hv & H1 & H2 & H3 & H4). exists d. apply Ee in H1. apply Ea in H2. apply Etx in H4. apply (Hev d v Hv) in H3. done.
          -- intros (d & Hd & H1 & H2 & H3 & H4). destruct (view_value _ _ G d Hd) as [v Hv]. exists d, v. apply Ee in H1. apply Ea in H2. apply Etx in H4. apply (Hev d v Hv) in H3. done.
        * split; cbn [ep_e ep_a ep_v ep_tx]; [apply Ee|apply Ea|apply Etx|]. destruct ev; try done; destruct Hsafe as [-> Hsafe] || destruct Hsafe; auto.
      + cbn [mbind option_bind]. pose proof (ps_const _ P) as Hc. rewrite Epv in Hc.
        destruct (evolve_nplace k c (p_tx p)) as [tx|]; cbn [mbind option_bind]; [|rewrite Hm; naive_solver]. split.
        * rewrite Hm. unfold ematches. cbn [ep_e ep_a ep_v ep_tx evalue_row value_is]. destruct Ee as [Ee _], Ea as [Ea _], Etx as [Etx _]. split.
          -- intros (d & v & Hd & Hv & H1 & H2 & H3 & H4). exists d. apply Ee in H1. apply Ea in H2. apply Etx in H4. by subst.
          -- intros (d & Hd & H1 & H2 & H3 & H4). exists d, w. apply Ee in H1. apply Ea in H2. apply Etx in H4. done.
        * split; cbn [ep_e ep_a ep_v ep_tx]; [apply Ee|apply Ea|apply Etx|auto].
  Qed.

  Lemma make_evolved_shape O rest c p e : inv O (pattern_vars p ++ rest) (c_from c) c -> c_empty c = false -> psafe p -> make_evolved k c p = Some e -> evolved p e.
  Proof using HLI.
    intros I Hne P He. unfold make_evolved in He.
    apply bind_Some in He as (e' & He1 & He). apply bind_Some in He as ([a t] & Ha & He). apply bind_Some in He as (ev & Hv & He). apply bind_Some in He as (tx & Htx & [= <-]). cbn [fst snd] in *.
    assert (forall q r, evolve_nplace k c q = Some r -> forall v, r = EpVar v -> q = NVar v) as Hpl.
    { intros q r Hq v ->. destruct q as [|x|?|?]; cbn in Hq; try done; [|unfold kn_ident in Hq; by destruct (sc_ident_map _ !! _)].
      destruct (c_vals c !! x) as [[]|]; try done; [|congruence]. unfold kn_ident in Hq. by destruct (sc_ident_map _ !! _). }
    unfold evolve_attribute in Ha. apply bind_Some in Ha as (a0 & Ha0 & Ha).
    assert ((exists a' at_, a = EpEntid a' /\ kn_attr k a' = Some at_ /\ t = Some (at_type at_)) \/ (t = None /\ open_pattern ins p /\ a0 = a)) as Hc.
    { destruct a0 as [|x|a'].
      - injection Ha as <- <-. right. split_and!; try done. unfold open_pattern. destruct (p_a p) as [|v|?|?]; cbn in Ha0; try done.
        + destruct (c_vals c !! v) as [[]|]; try done. unfold kn_ident in Ha0. by destruct (sc_ident_map _ !! _).
        + unfold kn_ident in Ha0. by destruct (sc_ident_map _ !! _).
      - injection Ha as <- <-. right. split_and!; try done. pose proof (Hpl _ _ Ha0 x eq_refl) as Ea. unfold open_pattern. rewrite Ea in *. cbn in Ha0. intros Hin.
        destruct (i_given I Hne x) as (v & _ & Hgv); [|done|rewrite Hgv in Ha0].
        + unfold pattern_vars. rewrite Ea, !elem_of_app. left. right. left. by left.
        + destruct v; try done. unfold kn_ident in Ha0. by destruct (sc_ident_map _ !! _).
      - apply bind_Some in Ha as (at_ & Hat & [= <- <-]). left. by exists a', at_. }
    split; cbn [ep_e ep_a ep_v ep_tx]; [by apply (Hpl _ _ He1)| |by apply (Hpl _ _ Htx)|].
    - destruct Hc as [(a' & _ & -> & _)|(_ & _ & ->)]; [done|]. by apply (Hpl _ _ Ha0).
    - pose proof (ps_const _ P) as Hconst. destruct Hc as [(a' & at_ & -> & Hat & ->)|(-> & Hop & ->)].
      + assert (closed (EPattern e' (EpEntid a') ev tx)) as Hcl by (by exists a', at_).
        destruct (p_v p) as [|x|z|i|w]; cbn [evolve_value] in Hv.
        * by injection Hv as <-.
        * destruct (c_vals c !! x) as [w|] eqn:Ew; [|injection Hv as <-; auto].
          pose proof (i_vals I x w Ew) as Hst. destruct w; (destruct (can_constrain c x _); [|done]); injection Hv as <-; auto.
        * destruct (at_type at_); try done; injection Hv as <-; first [exact Hcl|split; [done|by left]].
        * destruct (at_type at_); try done; [|injection Hv as <-; auto]. unfold kn_ident in Hv. destruct (sc_ident_map _ !! _); [|done]. by injection Hv as <-.
        * injection Hv as <-. auto.
      + pose proof (ps_open _ P Hop) as Hpo. destruct (p_v p) as [|x|z|i|w] eqn:Epv; try done; cbn [evolve_value] in Hv.
        * by injection Hv as <-.
        * assert (x ∈ pattern_vars p ++ rest) as Hin. { unfold pattern_vars. rewrite Epv, !elem_of_app. left. right. right. left. by left. }
          destruct Hpo as [HL|(v & Hi & HV & Hown)].
          -- destruct (i_fresh I Hne x HL Hin) as (_ & _ & Hx). rewrite Hx in Hv. injection Hv as <-. auto.
          -- destruct (i_given I Hne x Hin Hi) as (v' & HV' & Hv'). assert (v' = v) as -> by congruence. rewrite Hv' in Hv.
             pose proof (i_vals I _ _ Hv') as Hst.
             destruct v; (destruct (can_constrain c x _); [|done]); injection Hv as <-; auto. by destruct Hown.
        * injection Hv as <-. auto.
  Qed.
  Lemma evolve_pattern_spec c e E σ : sat c E σ ->
    ematches st σ e <-> match evolve_pattern c e with Some e' => ematches st σ e' | None => False end.
  Proof using Type.
    intros Hs. pose proof (sat_vals _ _ _ _ _ Hs) as Hv. unfold evolve_pattern.
    assert (forall d, evalue_row σ (ep_v e) d <-> evalue_row σ match ep_v e with EvVar v => match c_vals c !! v with None => EvVar v | Some x => EvValue x end | v => v end d) as Hval.
    { intros d. destruct (ep_v e) as [|v| | | |]; try done. destruct (c_vals c !! v) as [x|] eqn:Ex; [|done]. cbn. by rewrite (Hv _ _ Ex). }
    set (ev := match ep_v e with EvVar v => _ | _ => _ end) in *. clearbody ev.
    destruct (ep_e e) as [|v|i] eqn:Ee; cbn [mbind option_bind].
    - unfold ematches. cbn [ep_e ep_a ep_v ep_tx]. rewrite Ee. setoid_rewrite Hval. reflexivity.
    - destruct (c_vals c !! v) as [x|] eqn:Ex; [|cbn [mbind option_bind]; unfold ematches; cbn [ep_e ep_a ep_v ep_tx]; rewrite Ee; setoid_rewrite Hval; reflexivity].
      pose proof (Hv _ _ Ex) as Hx.
      destruct x as [i| | | | | | |]; cbn [mbind option_bind]; try (split; [|done]; intros (? & _ & He & _); rewrite Ee in He; cbn in He; congruence).
      unfold ematches. cbn [ep_e ep_a ep_v ep_tx]. rewrite Ee. setoid_rewrite Hval. cbn [eplace_is]. rewrite Hx. split; intros (d & H1 & H2 & H3); exists d; (split; [done|split; [congruence|done]]).
    - unfold ematches. cbn [ep_e ep_a ep_v ep_tx]. rewrite Ee. setoid_rewrite Hval. reflexivity.
  Qed.
  Lemma evolve_pattern_ok O rest c p e e' : inv O (pattern_vars p ++ rest) (c_from c) c -> c_empty c = false -> psafe p -> evolved p e ->
    once L (pattern_vars p ++ rest) -> evolve_pattern c e = Some e' -> pat_ok k L rest c e'.
  Proof using HLI.
    intros I Hne P [Ee Ea Etx Ev] Ho He. apply once_app in Ho as (_ & _ & Ho). unfold evolve_pattern in He. apply bind_Some in He as (ee & Hee & [= <-]).
    assert (forall v, ee = EpVar v -> p_e p = NVar v /\ c_vals c !! v = None) as Hpe.
    { intros v ->. destruct (ep_e e) as [|x|i]; try done. destruct (c_vals c !! x) as [[]|] eqn:Ex; try done. injection Hee as ->. auto. }
    assert (forall v, ee = EpVar v \/ ep_a e = EpVar v \/ ep_tx e = EpVar v -> v ∈ place_vars p) as Hplace.
    { unfold place_vars. intros v Hv. rewrite !elem_of_app. destruct Hv as [Hv|[Hv|Hv]].
      - left. destruct (Hpe v Hv) as [-> _]. by left.
      - right. left. rewrite (Ea v Hv). by left.
      - right. right. rewrite (Etx v Hv). by left. }
    assert (forall v, v ∈ pattern_vars p -> c_extracted c !! v = None) as Hex.
    { intros v Hv. destruct (c_extracted c !! v) as [q|] eqn:Eq; [|done]. destruct (i_extracted I Hne v q Eq) as (_ & Hn & _).
      exfalso. apply Hn, elem_of_app. by left. }
    assert (forall v, p_v p = VVar v -> v ∈ pattern_vars p) as Hvar. { intros v Hv. unfold pattern_vars. rewrite Hv, !elem_of_app. right. right. left. by left. }
    assert (closed e -> is_Some (value_type_for k c (ep_a e))) as Hcl. { intros (a & at_ & Ha & Hat). unfold value_type_for. rewrite Ha, Hat. by eexists. }
    split; cbn [ep_e ep_a ep_v ep_tx].
    - intros v Hv. pose proof (Hplace v Hv) as Hin. split; [intros HL; by apply (ps_lone _ P v HL) in Hin|]. intros _. by apply Hex, place_vars_pattern.
    - intros v Hv. by apply Hpe.
    - unfold evalue_safe. destruct (ep_v e) as [|v|i|x|z|w]; try done; try (by apply Hcl).
      + destruct (c_vals c !! v) as [x|] eqn:Ex; [|done]. split; [by apply (i_vals I v)|]. intros Hnone. exfalso. destruct Ev as [Hv [Hc|HL]].
        * destruct (Hcl Hc) as [? ?]. congruence.
        * destruct (i_fresh I Hne v HL) as (_ & _ & ?); [apply elem_of_app; left; by apply Hvar|congruence].
      + destruct Ev as [Hst Hc]. split; [done|]. intros Hnone. destruct Hc as [Hc|(_ & ? & ?)]; [|done]. exfalso. destruct (Hcl Hc) as [? ?]. congruence.
    - intros v Hv. assert (ep_v e = EvVar v) as Hv'. { destruct (ep_v e) as [|x| | | |]; try done. destruct (c_vals c !! x); congruence. }
      rewrite Hv' in Ev. destruct Ev as [Hpv Hcv]. pose proof (Hvar v Hpv) as Hin. split; [intros HL; by apply Ho|]. split; [intros _; by apply Hex|].
      intros Hnone. destruct Hcv as [Hc|HL]; [exfalso; destruct (Hcl Hc) as [? ?]; congruence|]. split_and!; [done| | |].
      + intros Hi. by apply (HLI v HL), (i_inputs I).
      + intros w Hw ->. by apply (ps_lone _ P v HL), Hplace.
      + intros _. destruct (i_fresh I Hne v HL) as (? & ? & ?); [apply elem_of_app; by left|done].
  Qed.

  Lemma apply_pattern_empty p c : c_empty c = true -> c_empty (apply_pattern k p c) = true /\ (c_next c <= c_next (apply_pattern k p c))%nat.
  Proof using Type.
    intros Hc. unfold apply_pattern. destruct (attempt_cache k p c) as [c' done_] eqn:Ea.
    assert (c_empty c' = true /\ c_next c' = c_next c) as [H1 H2].
    { unfold attempt_cache, reverse_lookup in Ea. repeat (case_match; simplify_eq; try done);
        first [split; [by apply empty_bind_value|by destruct (from_bind_value v x c) as (? & ? & ?)]
              |split; [by apply empty_bind_value|match goal with |- context [bind_value ?v ?x c] => by destruct (from_bind_value v x c) as (? & ? & ?) end]
              |by destruct c as [[]]]. }
    destruct done_; [rewrite H2; auto|]. unfold alias_table. destruct (table_for_places k c' (ep_a p) (ep_v p)) as [t|].
    - set (al := ADatoms _). pose proof (grows_apply_for_alias k p al (with_next (S (c_next c')) c')) as Hg. pose proof (empty_grows _ _ Hg) as He.
      pose proof (g_next _ _ Hg) as Hn. set (c1 := apply_for_alias k p al (with_next (S (c_next c')) c')) in *. clearbody c1.
      assert (c_empty c1 = true) as He1. { apply He. by destruct c' as [[]]. } rewrite <- H2. destruct c1 as [[]], c' as [[]]. cbn in *. split; [done|lia].
    - destruct c' as [[]]. cbn in *. split; [done|lia].
  Qed.

  Lemma apply_evolved_empty es c : c_empty c = true -> c_empty (apply_evolved k es c) = true /\ (c_next c <= c_next (apply_evolved k es c))%nat.
  Proof using Type.
    revert c. induction es as [|e es IH]; intros c Hc; cbn [apply_evolved]; [auto|]. destruct (evolve_pattern c e) as [e'|].
    - destruct (apply_pattern_empty e' c Hc) as [H1 H2]. destruct (IH _ H1) as [H3 H4]. split; [done|lia].
    - by destruct c as [[]].
  Qed.
  Lemma apply_evolved_ok O rest pend c :
    good O (flat_map (fun x => pattern_vars x.1) pend ++ rest) c -> Forall (fun x => psafe x.1 /\ evolved x.1 x.2) pend ->
    once L (flat_map (fun x => pattern_vars x.1) pend ++ rest) ->
    let c' := apply_evolved k (map snd pend) c in
    good O rest c' /\ (c_next c <= c_next c')%nat /\ forall E0 σ, Sat c' E0 σ <-> Sat c E0 σ /\ Forall (ematches st σ) (map snd pend).
  Proof using G CO HLI.
    revert c. induction pend as [|[p e] pend IH]; intros c Hg Hp Ho; cbn [apply_evolved map flat_map fst snd app].
    { split_and!; [done|lia|]. intros E0 σ. split; [|by intros []]. auto. }
    cbn [flat_map fst] in Hg, Ho. rewrite <- app_assoc in Hg, Ho. apply Forall_cons_1 in Hp as [[P Hev] Hp]. cbn [fst snd] in P, Hev.
    destruct (c_empty c) eqn:Hne.
    { pose proof (apply_evolved_empty (e :: map snd pend) c Hne) as [H1 H2]. cbn [apply_evolved] in H1, H2. split_and!; [by left|done|].
      intros E0 σ. split; [intros Hs%Sat_ne; congruence|intros [Hs%Sat_ne _]; congruence]. }
    pose proof (good_inv _ _ _ Hg Hne) as I.
    destruct (evolve_pattern c e) as [e'|] eqn:Ee.
    - pose proof (evolve_pattern_ok _ _ _ _ _ _ I Hne P Hev Ho Ee) as Hok.
      destruct (apply_pattern_ok sq k st G CO M L ins V O _ e' c (inv_weaken sq k st M L ins V _ _ _ _ _ ltac:(intros x Hx; apply elem_of_app; right; exact Hx) I) Hok) as (I' & Hn & _ & Hs).
      apply once_app in Ho as (_ & Ho & _). destruct (IH (apply_pattern k e' c) (or_intror I') Hp Ho) as (G2 & Hn2 & Hs2). split_and!; [done|lia|].
      intros E0 σ. rewrite Hs2, Hs, Forall_cons. split.
      + intros [[Hs' Hm] Hr]. split_and!; try done. destruct Hs' as (E & HE & Hs'). apply (evolve_pattern_spec _ _ _ _ Hs'). by rewrite Ee.
      + intros (Hs' & Hm & Hr). split_and!; try done. destruct Hs' as (E & HE & Hs'). apply (evolve_pattern_spec _ _ _ _ Hs') in Hm. by rewrite Ee in Hm.
    - split_and!; [left; by destruct c as [[]]|by destruct c as [[]]|]. intros E0 σ. split.
      + intros Hs%Sat_ne. by destruct c as [[]].
      + intros [(E & HE & Hs) [Hm _]%Forall_cons_1]. apply (evolve_pattern_spec _ _ _ _ Hs) in Hm. by rewrite Ee in Hm.
  Qed.

  (* ---------------------------------------------------------------- the first pass *)

  Lemma good_sat_ext O rest c c' : good O rest c -> (c_empty c = false -> inv O rest (c_from c') c') -> (c_empty c = true -> c_empty c' = true) -> good O rest c'.
  Proof using Type. intros Hg H1 H2. destruct (c_empty c); [left; auto|right; auto]. Qed.
  Lemma inv_add_requirement O rest F v ts c : inv O rest F c -> inv O rest F (add_type_requirement v ts c).
  Proof using Type.
    intros I. unfold add_type_requirement. destruct (vts_is_empty ts); [by apply inv_mark_empty|].
    assert (forall i, (forall ts', c_required c !! v = Some ts' -> vts_contains ts' VTString = false -> vts_contains i VTString = false) -> inv O rest F (put_required v i c)) as H.
    { intros i Hi. assert (forall x al, lonely sq st O F c x al -> lonely sq st O F (put_required v i c) x al) as Hlon.
      { intros x al (H1 & H2 & H3 & H4 & H5). unfold lonely. destruct c as [[] l w]. split_and!; try done. intros E HE. destruct (H5 E HE) as (d & Hd & Hr). exists d. split; [done|].
        destruct Hr as [Hr|(Hr & ts' & Ht & Hs)]; [by left|right]. split; [done|]. cbn. destruct (decide (x = v)) as [->|Hx].
        - exists i. rewrite lookup_insert. split; [done|]. by apply (Hi ts').
        - exists ts'. by rewrite lookup_insert_ne. }
      destruct I as [I1 I2 I3 I4 I5 I6 I7 I8 IX I9 I10 I11 I12 IV]. split; try (by destruct c as [[] l w]).
      - intros Hne x qs Hx. destruct (I9 ltac:(by destruct c as [[]]) x qs ltac:(by destruct c as [[]])) as [Hq H]. split; [done|].
        destruct H as [Ht|[al Ha]]; [left|right; exists al; auto]. destruct c as [[] l w]. exact Ht.
      - intros Hne x q Hx. destruct (I10 ltac:(by destruct c as [[]]) x q ltac:(by destruct c as [[]])) as (H1 & H2 & H3). auto. }
    destruct (c_required c !! v) as [ts'|] eqn:Er; [|apply H; congruence].
    assert (inv O rest F (put_required v (vts_intersection ts ts') c)) as H'.
    { apply H. intros ? [= <-] Hs. rewrite vts_inter_contains, Hs. by destruct (vts_contains ts VTString). }
    destruct (vts_is_empty _); [by apply inv_mark_empty|done].
  Qed.
  Lemma inv_mark_as_ref O rest F c p q : inv O rest F c -> psafe p -> (forall v, q = NVar v -> v ∈ place_vars p) -> inv O rest F (mark_as_ref q c).
  Proof using Type.
    intros I P Hq. destruct q as [|v| |]; try done. specialize (Hq v eq_refl). cbn. apply inv_constrain_var; [done| |].
    - intros Hne. destruct (c_extracted c !! v) as [x|] eqn:Ex; [|done]. destruct (i_extracted I Hne v x Ex) as (HL & _). by apply (ps_lone _ P v HL) in Hq.
    - intros HL. by apply (ps_lone _ P v HL) in Hq.
  Qed.
  Lemma sat_mark_as_ref q c E σ : sat (mark_as_ref q c) E σ <-> sat c E σ /\ forall v, q = NVar v -> tv_type (σ v) = VTRef.
  Proof using Type. destruct q as [|v| |]; try naive_solver. cbn. rewrite sat_constrain_var. naive_solver. Qed.
  Definition fore (σ : string -> typed_value) (cl : clause) : Prop :=
    match cl with CPattern p => refs σ p | CType x t => tv_type (σ x) = t | _ => True end.
  Definition top_safe (cl : clause) : Prop := match cl with CPattern p => psafe p | _ => True end.
  Lemma same_mark_as_ref q c : c_from (mark_as_ref q c) = c_from c /\ c_next (mark_as_ref q c) = c_next c /\ c_wheres (mark_as_ref q c) = c_wheres c
    /\ c_computed (mark_as_ref q c) = c_computed c /\ (c_empty c = true -> c_empty (mark_as_ref q c) = true).
  Proof using Type. destruct q as [|v| |]; try done. cbn. unfold constrain_var. destruct c as [[] l w]. repeat case_match; done. Qed.
  Lemma same_requirement v ts c : c_from (add_type_requirement v ts c) = c_from c /\ c_next (add_type_requirement v ts c) = c_next c
    /\ c_wheres (add_type_requirement v ts c) = c_wheres c /\ c_computed (add_type_requirement v ts c) = c_computed c /\ (c_empty c = true -> c_empty (add_type_requirement v ts c) = true).
  Proof using Type. unfold add_type_requirement. destruct c as [[] l w]. repeat case_match; done. Qed.
  Lemma first_pass_ok O rest cl c : good O rest c -> top_safe cl ->
    let c' := first_pass c cl in
    good O rest c' /\ c_from c' = c_from c /\ c_next c' = c_next c /\ c_wheres c' = c_wheres c /\ c_computed c' = c_computed c /\ (c_empty c = true -> c_empty c' = true)
    /\ forall E σ, sat c' E σ <-> sat c E σ /\ fore σ cl.
  Proof using Type.
    intros Hg Hsafe c'. subst c'. destruct cl as [p|v t|nm ar|u cs|u arms]; cbn [first_pass fore].
    - destruct (same_mark_as_ref (p_e p) c) as (A1 & A2 & A3 & AC & A4). set (c1 := mark_as_ref (p_e p) c) in *.
      destruct (same_mark_as_ref (p_a p) c1) as (B1 & B2 & B3 & BC & B4). set (c2 := mark_as_ref (p_a p) c1) in *.
      destruct (same_mark_as_ref (p_tx p) c2) as (C1 & C2 & C3 & CC & C4). set (c3 := mark_as_ref (p_tx p) c2) in *.
      assert (c_from c3 = c_from c) as Hf by congruence.
      split_and!; [|congruence|congruence|congruence|congruence|auto|].
      + apply (good_sat_ext O rest c); [done| |auto]. intros Hne. pose proof (good_inv _ _ _ Hg Hne) as I. rewrite Hf. unfold c3, c2, c1.
        apply (inv_mark_as_ref _ _ _ _ p); [|done|intros v Hv; unfold place_vars; rewrite Hv, !elem_of_app; right; right; by left].
        apply (inv_mark_as_ref _ _ _ _ p); [|done|intros v Hv; unfold place_vars; rewrite Hv, !elem_of_app; right; left; by left].
        apply (inv_mark_as_ref _ _ _ _ p); [done|done|intros v Hv; unfold place_vars; rewrite Hv, !elem_of_app; left; by left].
      + intros E σ. unfold c3, c2, c1. rewrite !sat_mark_as_ref. split.
        * intros [[[Hs H1] H2] H3]. split; [done|]. intros x Hx. unfold place_vars in Hx. rewrite !elem_of_app in Hx.
          destruct Hx as [Hx|[Hx|Hx]]; [destruct (p_e p)|destruct (p_a p)|destruct (p_tx p)]; cbn in Hx; try (by apply elem_of_nil in Hx); apply elem_of_list_singleton in Hx as ->; auto.
        * intros [Hs Hr]. split_and!; [done|..]; intros v Hv; apply Hr; unfold place_vars; rewrite Hv, !elem_of_app; [left|right; left|right; right]; by left.
    - destruct (same_requirement v (vts_of_one t) c) as (A1 & A2 & A3 & AC & A4). split_and!; try done.
      + apply (good_sat_ext O rest c); [done| |auto]. intros Hne. rewrite A1. by apply inv_add_requirement, good_inv.
      + intros E σ. rewrite sat_add_requirement, one_contains_iff. done.
    - split_and!; try done. naive_solver.
    - split_and!; try done. naive_solver.
    - split_and!; try done. naive_solver.
  Qed.
  Lemma first_pass_all O rest cs c : good O rest c -> Forall top_safe cs ->
    let c' := fold_left first_pass cs c in
    good O rest c' /\ c_from c' = c_from c /\ c_next c' = c_next c /\ c_wheres c' = c_wheres c /\ c_computed c' = c_computed c /\ (c_empty c = true -> c_empty c' = true)
    /\ forall E σ, sat c' E σ <-> sat c E σ /\ Forall (fore σ) cs.
  Proof using Type.
    revert c. induction cs as [|cl cs IH]; intros c Hg Hs; cbn [fold_left]; [naive_solver|].
    apply Forall_cons_1 in Hs as [H1 H2]. destruct (first_pass_ok O rest cl c Hg H1) as (A1 & A2 & A3 & A4 & AC & A5 & A6).
    destruct (IH _ A1 H2) as (B1 & B2 & B3 & B4 & BC & B5 & B6). split_and!; try done; try congruence; [auto|].
    intros E σ. rewrite B6, A6, Forall_cons. tauto.
  Qed.

  (* ---------------------------------------------------------------- the second pass *)

  Definition fspec (f : clause -> cc -> res cc) (cl : clause) : Prop :=
    (forall c c', f cl c = Ok c' -> (c_next c <= c_next c')%nat /\ (c_empty c = true -> c_empty c' = true)) /\
    forall O rest c c', good O (pvars [cl] ++ rest) c -> once L (pvars [cl] ++ rest) -> f cl c = Ok c' ->
    good O rest c' /\ forall E0 σ, O E0 -> Sat c' E0 σ <-> Sat c E0 σ /\ meets st (kn_schema k) σ cl.
  Definition okclause f (cl : clause) : Prop := match cl with CPattern p => psafe p | CType _ _ => True | cl => fspec f cl end.
  Lemma meets_fore σ cl : meets st (kn_schema k) σ cl -> fore σ cl.
  Proof using Type.
    destruct cl as [p|x t|nm ar|u cs|u arms]; try done. intros (e & a & v & tx & _ & He & Ha & _ & Htx) x Hx. unfold place_vars in Hx. rewrite !elem_of_app in Hx.
    destruct Hx as [Hx|[Hx|Hx]]; [destruct (p_e p)|destruct (p_a p)|destruct (p_tx p)]; cbn in Hx; try (by apply elem_of_nil in Hx); apply elem_of_list_singleton in Hx as ->; cbn in *.
    - by rewrite He.
    - by rewrite Ha.
    - by rewrite Htx.
  Qed.
  Lemma pvars_cons cl cs : pvars (cl :: cs) = pvars [cl] ++ pvars cs.
  Proof using Type. unfold pvars. cbn. by rewrite app_nil_r, flat_map_app. Qed.
  Lemma apply_pattern_next p c : (c_next c <= c_next (apply_pattern k p c))%nat.
  Proof using Type.
    unfold apply_pattern. destruct (attempt_cache k p c) as [c' done_] eqn:Ea.
    assert (c_next c' = c_next c) as H2.
    { unfold attempt_cache, reverse_lookup in Ea. repeat (case_match; simplify_eq; try done);
        first [match goal with |- context [bind_value ?v ?x c] => by destruct (from_bind_value v x c) as (? & ? & ?) end|by destruct c as [[]]]. }
    destruct done_; [lia|]. unfold alias_table. destruct (table_for_places k c' (ep_a p) (ep_v p)) as [t|].
    - set (al := ADatoms _). pose proof (grows_apply_for_alias k p al (with_next (S (c_next c')) c')) as Hg.
      pose proof (g_next _ _ Hg) as Hn. set (c1 := apply_for_alias k p al (with_next (S (c_next c')) c')) in *. clearbody c1.
      rewrite <- H2. destruct c1 as [[]], c' as [[]]. cbn in *. lia.
    - destruct c' as [[]]. cbn in *. lia.
  Qed.
  Lemma apply_evolved_next es c : (c_next c <= c_next (apply_evolved k es c))%nat.
  Proof using Type.
    revert c. induction es as [|e es IH]; intros c; cbn [apply_evolved]; [lia|]. destruct (evolve_pattern c e) as [e'|].
    - pose proof (apply_pattern_next e' c). pose proof (IH (apply_pattern k e' c)). lia.
    - by destruct c as [[]].
  Qed.
  Lemma second_pass_step f cs : Forall (fun cl => okclause f cl) cs -> forall es c c', second_pass k f es cs c = Ok c' ->
    (c_next c <= c_next c')%nat /\ (c_empty c = true -> c_empty c' = true).
  Proof using Type.
    induction 1 as [|cl cs Hcl Hcs IH]; intros es c c' Hr; [injection Hr as <-; split; [apply apply_evolved_next|intros; by apply apply_evolved_empty]|].
    destruct cl as [p|x t|nm ar|u l|u l]; cbn [second_pass] in Hr.
    - destruct (make_evolved k c p); [by apply IH in Hr|]. injection Hr as <-. by destruct c as [[]].
    - by apply IH in Hr.
    - destruct (f (CPred nm ar) (apply_evolved k es c)) as [c1| |] eqn:E1; cbn in Hr; try done. pose proof (apply_evolved_next es c) as Hn. pose proof (apply_evolved_empty es c) as He.
      destruct Hcl as [Hcl _]. destruct (Hcl _ _ E1). destruct (IH _ _ _ Hr). split; [lia|]. intros Hc. destruct (He Hc). auto.
    - destruct (f (CNot u l) (apply_evolved k es c)) as [c1| |] eqn:E1; cbn in Hr; try done. pose proof (apply_evolved_next es c) as Hn. pose proof (apply_evolved_empty es c) as He.
      destruct Hcl as [Hcl _]. destruct (Hcl _ _ E1). destruct (IH _ _ _ Hr). split; [lia|]. intros Hc. destruct (He Hc). auto.
    - destruct (f (COr u l) (apply_evolved k es c)) as [c1| |] eqn:E1; cbn in Hr; try done. pose proof (apply_evolved_next es c) as Hn. pose proof (apply_evolved_empty es c) as He.
      destruct Hcl as [Hcl _]. destruct (Hcl _ _ E1). destruct (IH _ _ _ Hr). split; [lia|]. intros Hc. destruct (He Hc). auto.
  Qed.
  Lemma second_pass_ok f cs : Forall (fun cl => okclause f cl) cs -> forall O rest pend c c',
    let pv := flat_map (fun x => pattern_vars x.1) pend in
    good O (pv ++ pvars cs ++ rest) c -> Forall (fun x => psafe x.1 /\ evolved x.1 x.2) pend -> once L (pv ++ pvars cs ++ rest) ->
    (forall E0 σ, O E0 -> Sat c E0 σ -> Forall (fore σ) cs) ->
    second_pass k f (map snd pend) cs c = Ok c' ->
    good O rest c' /\
    forall E0 σ, O E0 -> Sat c' E0 σ <-> Sat c E0 σ /\ Forall (ematches st σ) (map snd pend) /\ Forall (meets st (kn_schema k) σ) cs.
  Proof using G CO HLI.
    induction 1 as [|cl cs Hcl Hcs IH]; intros O rest pend c c' pv Hg Hp Ho Hf Hr.
    { cbn in Hr. injection Hr as <-. change (pvars [] ++ rest) with rest in *. destruct (apply_evolved_ok O rest pend c Hg Hp Ho) as (A1 & A2 & A3). split; [done|].
      intros E0 σ _. rewrite A3. split; [intros []; split_and!; auto|by intros (? & ? & _)]. }
    destruct (c_empty c) eqn:Hne.
    { destruct (second_pass_step f (cl :: cs) ltac:(by constructor) _ _ _ Hr) as [_ He]. specialize (He Hne). split; [by left|].
      intros E0 σ _. split; [intros Hs%Sat_ne; congruence|intros [Hs%Sat_ne _]; congruence]. }
    rewrite pvars_cons, <- app_assoc in Hg, Ho.
    assert (forall E0 σ, O E0 -> Sat c E0 σ -> fore σ cl /\ Forall (fore σ) cs) as Hf'. { intros E0 σ HO Hs. by apply Forall_cons_1, (Hf E0). }
    assert ((forall es, second_pass k f es (cl :: cs) c = rbind (f cl (apply_evolved k es c)) (fun c => second_pass k f [] cs c)) -> fspec f cl ->
      good O rest c' /\ forall E0 σ, O E0 -> Sat c' E0 σ <-> Sat c E0 σ /\ Forall (ematches st σ) (map snd pend) /\ Forall (meets st (kn_schema k) σ) (cl :: cs)) as Hother.
    { intros Heq [_ Hspec]. rewrite Heq in Hr. destruct (f cl (apply_evolved k (map snd pend) c)) as [c1| |] eqn:E1; cbn [rbind] in Hr; try done.
      destruct (apply_evolved_ok O (pvars [cl] ++ pvars cs ++ rest) pend c Hg Hp Ho) as (A1 & A2 & A3).
      apply once_app in Ho as (_ & Ho & _). destruct (Hspec O _ _ _ A1 Ho E1) as (B1 & B2).
      apply once_app in Ho as (_ & Ho & _).
      assert (forall E0 σ, O E0 -> Sat c1 E0 σ -> Forall (fore σ) cs) as Hf1. { intros E0 σ HO Hs. apply (B2 E0 σ HO) in Hs as [Hs _]. apply A3 in Hs as [Hs _]. by apply (Hf' _ _ HO) in Hs as [_ ?]. }
      destruct (IH O rest [] c1 c' B1 ltac:(constructor) Ho Hf1 Hr) as (C1 & C2). split; [done|]. intros E0 σ HO. rewrite (C2 E0 σ HO), (B2 E0 σ HO), A3, Forall_cons. cbn [map]. naive_solver. }
    destruct cl as [p|x t|nm ar|u l|u l].
    - change (pvars [CPattern p]) with (pattern_vars p ++ []) in Hg, Ho. rewrite app_nil_r in Hg, Ho. cbn [okclause] in Hcl. change (second_pass k f (map snd pend) (CPattern p :: cs) c) with
        (match make_evolved k c p with Some e => second_pass k f (map snd pend ++ [e]) cs c | None => Ok (mark_empty c) end) in Hr.
      pose proof (good_inv _ _ _ Hg Hne) as I.
      assert (inv O (pattern_vars p ++ []) (c_from c) c) as I'.
      { eapply inv_weaken; [|exact I]. intros x Hx. rewrite app_nil_r in Hx. rewrite !elem_of_app. tauto. }
      assert (forall E σ, sat c E σ -> refs σ p -> match make_evolved k c p with Some e => (matches σ p <-> ematches st σ e) /\ evolved p e | None => ~ matches σ p end) as Hev.
      { intros E σ Hs Hrf. apply (make_evolved_spec O [] c p E σ); try done. by eapply refs_rvals. }
      destruct (make_evolved k c p) as [e|] eqn:Ee.
      + pose proof (make_evolved_shape _ _ _ _ _ I' Hne Hcl Ee) as Hshape.
        assert (flat_map (fun x : pattern * epattern => pattern_vars x.1) (pend ++ [(p, e)]) = pv ++ pattern_vars p) as Hpv. { rewrite flat_map_app. cbn. by rewrite app_nil_r. }
        replace (map snd pend ++ [e]) with (map snd (pend ++ [(p, e)])) in Hr by (by rewrite map_app).
        destruct (IH O rest (pend ++ [(p, e)]) c c') as (A1 & A2); [rewrite Hpv, <- app_assoc; exact Hg|apply Forall_app; split; [done|apply Forall_singleton; split; [exact Hcl|exact Hshape]]
          |rewrite Hpv, <- app_assoc; exact Ho|intros E0 σ HO Hs; by apply (Hf' E0 σ HO)|exact Hr|].
        split; [done|]. intros E0 σ HO. rewrite (A2 E0 σ HO). rewrite map_app, Forall_app. cbn [map snd]. rewrite Forall_singleton, Forall_cons. cbn [meets].
        split.
        * intros (Hs & [H1 H2] & H3). split_and!; try done. destruct (Hf' E0 σ HO Hs) as [Hr' _]. destruct Hs as (E & HE & Hs). by apply (Hev E σ Hs Hr').
        * intros (Hs & H1 & H2 & H3). split_and!; try done. destruct (Hf' E0 σ HO Hs) as [Hr' _]. destruct Hs as (E & HE & Hs). by apply (Hev E σ Hs Hr').
      + injection Hr as <-. split; [left; by destruct c as [[]]|]. intros E0 σ HO. split.
        * intros Hs%Sat_ne. by destruct c as [[]].
        * intros (Hs & _ & [Hm _]%Forall_cons_1). destruct (Hf' E0 σ HO Hs) as [Hr' _]. destruct Hs as (E & HE & Hs). by apply (Hev E σ Hs Hr') in Hm.
    - change (second_pass k f (map snd pend) (CType x t :: cs) c) with (second_pass k f (map snd pend) cs c) in Hr. change (pvars [CType x t]) with (@nil string) in Hg, Ho. cbn [app] in Hg, Ho.
      destruct (IH O rest pend c c' Hg Hp Ho) as (A1 & A2); [intros E0 σ HO Hs; by apply (Hf' E0 σ HO)|exact Hr|]. split; [done|]. intros E0 σ HO. rewrite (A2 E0 σ HO), Forall_cons.
      split; [|tauto]. intros (Hs & H1 & H2). split_and!; try done. by destruct (Hf' E0 σ HO Hs).
    - apply Hother; [done|exact Hcl].
    - apply Hother; [done|exact Hcl].
    - apply Hother; [done|exact Hcl].
  Qed.

  (** All the clauses *)
  Lemma clauses_ok f cs O rest c c' : Forall (fun cl => okclause f cl) cs -> good O (pvars cs ++ rest) c -> once L (pvars cs ++ rest) -> apply_clauses_with k f cs c = Ok c' ->
    good O rest c' /\ forall E0 σ, O E0 -> Sat c' E0 σ <-> Sat c E0 σ /\ Forall (meets st (kn_schema k) σ) cs.
  Proof using G CO HLI.
    intros Hcs Hg Ho Hr. assert (Forall top_safe cs) as Htop. { eapply Forall_impl; [exact Hcs|]. by intros []. }
    destruct (first_pass_all O _ cs c Hg Htop) as (A1 & A2 & A3 & A4 & AC & A5 & A6).
    assert (forall E0 σ, Sat (fold_left first_pass cs c) E0 σ <-> Sat c E0 σ /\ Forall (fore σ) cs) as Hs1.
    { intros E0 σ. unfold P_QueryApply.Sat, comp. rewrite A2, AC. setoid_rewrite A6. naive_solver. }
    destruct (second_pass_ok f cs Hcs O rest [] (fold_left first_pass cs c) c' A1 ltac:(constructor) Ho) as (B1 & B2); [|exact Hr|].
    { intros E0 σ _ Hs. by apply (Hs1 E0 σ) in Hs as [_ ?]. }
    split; [done|]. intros E0 σ HO. rewrite (B2 E0 σ HO), Hs1. split; [naive_solver|]. intros [Hs Hm]. split_and!; try done; [|constructor].
    eapply Forall_impl; [exact Hm|]. apply meets_fore.
  Qed.
  Lemma clauses_step f cs c c' : Forall (fun cl => okclause f cl) cs -> apply_clauses_with k f cs c = Ok c' ->
    (c_next c <= c_next c')%nat /\ (c_empty c = true -> c_empty c' = true).
  Proof using Type.
    intros Hcs Hr. destruct (second_pass_step f cs Hcs _ _ _ Hr) as [H1 H2].
    assert (c_next (fold_left first_pass cs c) = c_next c /\ (c_empty c = true -> c_empty (fold_left first_pass cs c) = true)) as [H3 H4].
    { clear. revert c. induction cs as [|cl cs IH]; intros c; [done|]. cbn [fold_left]. destruct (IH (first_pass c cl)) as [-> H]. clear IH.
      assert (c_next (first_pass c cl) = c_next c /\ (c_empty c = true -> c_empty (first_pass c cl) = true)) as [H1 H2]; [|split; auto].
      destruct cl as [p|v t| | |]; try done; cbn [first_pass].
      - destruct (same_mark_as_ref (p_e p) c) as (A1 & A2 & A3 & AC & A4). destruct (same_mark_as_ref (p_a p) (mark_as_ref (p_e p) c)) as (B1 & B2 & B3 & BC & B4).
        destruct (same_mark_as_ref (p_tx p) (mark_as_ref (p_a p) (mark_as_ref (p_e p) c))) as (C1 & C2 & C3 & CC & C4). split; [congruence|auto].
      - destruct (same_requirement v (vts_of_one t) c) as (A1 & A2 & A3 & AC & A4). auto. }
    rewrite H3 in H1. auto.
  Qed.
End clauses.

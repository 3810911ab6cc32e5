(** Deciding the conditions of the theorems about queries, and example queries. *)
From Verif Require Import M_Query Spec_Value Spec_Tx Spec_Conn Spec_Transact Spec_Cache Spec_Query P_Value P_TxThms P_QueryStep Cases Cases_Cache.

(* ---------------------------------------------------------------- conditions *)

Definition loneb (ps : list pattern) (ins : list var) (x : var) : bool :=
  negb (bool_decide (x ∈ ins)) && match filter (fun y => y = x) (flat_map pattern_vars ps) with [_] => true | _ => false end.
Lemma loneb_sound ps ins x : loneb ps ins x = true -> lone ps ins x.
Proof.
  unfold loneb, lone. intros [H1%negb_true_iff%bool_decide_eq_false H2]%andb_true_iff. split; [done|]. set (l := flat_map pattern_vars ps) in *. clearbody l.
  destruct (filter (fun y => y = x) l) as [|y [|]] eqn:E; try done. assert (y ∈ filter (fun y => y = x) l) as Hy by (rewrite E; by left).
  apply elem_of_list_filter in Hy as [-> Hy]. apply elem_of_list_split in Hy as (l1 & l2 & ->). exists l1, l2. split; [done|].
  rewrite filter_app, filter_cons, decide_True in E by done. assert (filter (fun y => y = x) l1 = [] /\ filter (fun y => y = x) l2 = []) as [E1 E2].
  { destruct (filter (fun y => y = x) l1) as [|z [|]]; cbn in E; [|done..]. split; [done|]. congruence. }
  split; intros Hin; [rename E1 into E0|rename E2 into E0]; assert (x ∈ ([] : list var)) as K by (rewrite <- E0; by apply elem_of_list_filter); by apply elem_of_nil in K.
Qed.
Definition open_patternb (ins : list var) (p : pattern) : bool :=
  match p_a p with NPlaceholder => true | NVar a => negb (bool_decide (a ∈ ins)) | _ => false end.
Lemma open_patternb_iff ins p : open_patternb ins p = true <-> open_pattern ins p.
Proof. unfold open_patternb, open_pattern. destruct (p_a p); try done. rewrite negb_true_iff. apply bool_decide_eq_false. Qed.
Definition own_tagb (t : value_type) : bool := match t with VTRef | VTLong | VTDouble => false | _ => true end.
Lemma own_tagb_sound t : own_tagb t = true -> own_tag t.
Proof. unfold own_tag. by destruct t. Qed.
Definition safe_patternb (ps : list pattern) (ins : list var) (vals : gmap var typed_value) (p : pattern) : bool :=
  match p_v p with VConst v => storableb v | VIdent k => storableb (TVKeyword k) | _ => true end
  && (negb (open_patternb ins p)
      || match p_v p with
         | VPlaceholder => true
         | VVar x => loneb ps ins x || (bool_decide (x ∈ ins) && match vals !! x with Some v => own_tagb (tv_type v) | None => false end)
         | VConst v => own_tagb (tv_type v)
         | VInteger _ | VIdent _ => false
         end).
Lemma safe_patternb_sound ps ins vals p : safe_patternb ps ins vals p = true -> safe_pattern ps ins vals p.
Proof.
  unfold safe_patternb, safe_pattern. intros [H1 H2]%andb_true_iff. split.
  - destruct (p_v p); try done; by apply storableb_sound.
  - intros Ho. apply open_patternb_iff in Ho. rewrite Ho in H2. cbn [negb orb] in H2. destruct (p_v p) as [|x| | |]; try done.
    + apply orb_true_iff in H2 as [H|[Hi%bool_decide_eq_true H]%andb_true_iff]; [left; by apply loneb_sound|right].
      destruct (vals !! x) as [v|]; [|done]. exists v. split; [done|]. split; [done|]. by apply own_tagb_sound.
    + by apply own_tagb_sound.
Qed.
Definition safe_argb (ps : list pattern) (ins : list var) (a : farg) : bool :=
  match a with
  | FVar x => bool_decide (x ∈ ins) || forallb (fun p => negb (open_patternb ins p && match p_v p with VVar y => bool_decide (x = y) | _ => false end)) ps
  | FConst c => storableb c
  | _ => true
  end.
Lemma safe_argb_sound ps ins a : safe_argb ps ins a = true -> safe_arg ps ins a.
Proof.
  destruct a as [x| | |c|]; cbn [safe_argb safe_arg]; try done; [|apply storableb_sound]. intros [H%bool_decide_eq_true|H]%orb_true_iff p Hp Ho Hv; [done|exfalso].
  rewrite forallb_forall in H. specialize (H p (proj1 (elem_of_list_In _ _) Hp)). apply open_patternb_iff in Ho. rewrite Ho, Hv, bool_decide_eq_true_2 in H by done. done.
Qed.
Definition safeb (q : query) (vals : gmap var typed_value) : bool :=
  forallb (fun x => match vals !! x with Some v => storableb v | None => false end) (q_in q)
  && forallb (safe_patternb (query_patterns q) (q_in q) vals) (query_patterns q)
  && forallb (safe_argb (query_patterns q) (q_in q)) (flat_map clause_compared (q_where q)).
Lemma safeb_sound q vals : safeb q vals = true -> safe q vals.
Proof.
  unfold safeb. intros [[H1 H2]%andb_true_iff H3]%andb_true_iff. rewrite forallb_forall in H1, H2, H3. split.
  - intros x Hx. specialize (H1 x (proj1 (elem_of_list_In _ _) Hx)). cbn beta in H1. destruct (vals !! x) as [v|]; [|done]. exists v. split; [done|]. by apply storableb_sound.
  - apply Forall_forall. intros p Hp. apply safe_patternb_sound, H2. by apply elem_of_list_In.
  - apply Forall_forall. intros a Ha. apply safe_argb_sound, H3. by apply elem_of_list_In.
Qed.
Definition same_placeb (p p' : nplace) : bool :=
  match p, p' with
  | NPlaceholder, NPlaceholder => true
  | NVar x, NVar y => bool_decide (x = y)
  | (NEntid _ | NIdent _), (NEntid _ | NIdent _) => true
  | _, _ => false
  end.
Lemma same_placeb_sound p p' : same_placeb p p' = true -> same_place p p'.
Proof. destruct p, p'; try done. apply bool_decide_eq_true. Qed.
Definition same_valueb (p p' : vplace) : bool :=
  match p, p' with
  | VPlaceholder, VPlaceholder => true
  | VVar x, VVar y => bool_decide (x = y)
  | (VInteger _ | VIdent _ | VConst _), (VInteger _ | VIdent _ | VConst _) => true
  | _, _ => false
  end.
Lemma same_valueb_sound p p' : same_valueb p p' = true -> same_value p p'.
Proof. destruct p, p'; try done. apply bool_decide_eq_true. Qed.
Definition namedb (p : pattern) : bool := match p_a p with NEntid _ | NIdent _ => true | _ => false end.
Lemma namedb_sound p : namedb p = true -> named p.
Proof. unfold namedb, named. by destruct (p_a p). Qed.
Definition alikeb (s : schema) (ins : list var) (p p' : pattern) : bool :=
  same_placeb (p_e p) (p_e p') && same_valueb (p_v p) (p_v p') && same_placeb (p_tx p) (p_tx p')
  && match attribute_of s p, attribute_of s p' with
     | Some a, Some a' => Bool.eqb (at_fulltext a) (at_fulltext a')
         && match p_v p with VVar x => bool_decide (x ∈ ins) || bool_decide (at_type a = at_type a') | _ => true end
     | _, _ => true
     end.
Lemma alikeb_sound s ins p p' : alikeb s ins p p' = true -> alike s ins p p'.
Proof.
  unfold alikeb, alike. intros [[[H1 H2]%andb_true_iff H3]%andb_true_iff H4]%andb_true_iff. split_and!; [by apply same_placeb_sound|by apply same_valueb_sound|by apply same_placeb_sound|].
  intros a a' Ha Ha'. rewrite Ha, Ha' in H4. apply andb_true_iff in H4 as [H4 H5]. split; [by apply eqb_prop|]. intros x Hx Hi. rewrite Hx in H5.
  apply orb_true_iff in H5 as [H5|H5]; apply bool_decide_eq_true in H5; done.
Qed.
Definition ref_inputsb (ins : list var) (vals : gmap var typed_value) (p : pattern) : bool :=
  forallb (fun x => negb (bool_decide (x ∈ ins)) || match vals !! x with Some v => bool_decide (tv_type v = VTRef) | None => true end)
    (nplace_vars (p_e p) ++ nplace_vars (p_a p) ++ nplace_vars (p_tx p)).
Lemma ref_inputsb_sound ins vals p : ref_inputsb ins vals p = true -> ref_inputs ins vals p.
Proof.
  unfold ref_inputsb. rewrite forallb_forall. intros H x v Hx Hi Hv. specialize (H x (proj1 (elem_of_list_In _ _) Hx)). cbn beta in H. rewrite Hv, (bool_decide_eq_true_2 _ Hi) in H.
  by apply bool_decide_eq_true in H.
Qed.
Definition alternativesb (s : schema) (ins : list var) (vals : gmap var typed_value) (arms : list arm) : bool :=
  match mapM (fun a => match a with AClause (CPattern p) => Some p | _ => None end) arms with
  | Some ((_ :: _) as ps) => forallb (fun p => namedb p && ref_inputsb ins vals p && forallb (alikeb s ins p) ps) ps
  | _ => false
  end.
Lemma alternativesb_sound s ins vals arms : alternativesb s ins vals arms = true -> alternatives s ins vals arms.
Proof.
  unfold alternativesb. destruct (mapM _ arms) as [ps|] eqn:E; [|done]. intros H.
  assert (arms = map (fun p => AClause (CPattern p)) ps) as Harms.
  { clear H. revert ps E. induction arms as [|a arms IH]; intros ps E; cbn in E; [by injection E as <-|]. destruct a as [[p| | | |]|]; try done.
    apply bind_Some in E as (x & [= <-] & E). apply bind_Some in E as (ps' & E & [= <-]). cbn. by rewrite <- (IH ps' E). }
  destruct ps as [|p0 ps0] eqn:Eps; [done|]. rewrite <- Eps in *. exists ps. rewrite forallb_forall in H. split_and!; [by rewrite Eps|done| |].
  - intros p Hp. specialize (H p (proj1 (elem_of_list_In _ _) Hp)). apply andb_true_iff in H as [[H1 H2]%andb_true_iff _]. split; [by apply namedb_sound|by apply ref_inputsb_sound].
  - intros p p' Hp Hp'. specialize (H p (proj1 (elem_of_list_In _ _) Hp)). apply andb_true_iff in H as [_ H]. rewrite forallb_forall in H. apply alikeb_sound, H. by apply elem_of_list_In.
Qed.
Fixpoint regularb (s : schema) (ins : list var) (vals : gmap var typed_value) (c : clause) : bool :=
  match c with
  | CPattern _ | CType _ _ | CPred _ _ => true
  | CNot u cs => existsb (fun c => match c with CPattern p => namedb p | CPred _ _ => true | _ => false end) cs
      && forallb (fun x => negb (bool_decide (x ∈ flat_map clause_vars cs)) || bool_decide (x ∈ unified u (flat_map clause_vars cs))) ins
      && forallb (regularb s ins vals) cs
  | COr u arms => forallb (fun x => bool_decide (x ∈ unified u (flat_map arm_vars arms))) (flat_map arm_vars arms)
      && match arms with [a] => regular_armb s ins vals a | _ => alternativesb s ins vals arms end
  end
with regular_armb (s : schema) (ins : list var) (vals : gmap var typed_value) (a : arm) : bool :=
  match a with
  | AClause c => match c with CPattern p => ref_inputsb ins vals p | _ => true end && regularb s ins vals c
  | AAnd cs => forallb (regularb s ins vals) cs
  end.
Lemma regularb_sound s ins vals : forall c, regularb s ins vals c = true -> regular s ins vals c.
Proof.
  assert (forall cs, Forall (fun c => regularb s ins vals c = true -> regular s ins vals c) cs -> forallb (regularb s ins vals) cs = true ->
    (fix all cs := match cs with [] => True | c :: cs => regular s ins vals c /\ all cs end) cs) as Hall.
  { induction 1 as [|c cs Hc Hcs IH]; intros H; [done|]. cbn [forallb] in H. apply andb_true_iff in H as [H1 H2]. split; [by apply Hc|by apply IH]. }
  induction c as [p|x t|nm ar|u cs IH|u arms IH] using clause_induction; [done|done|done| |]; intros H.
  - cbn [regularb regular] in *. apply andb_true_iff in H as [[H1 H2]%andb_true_iff H3]. split_and!.
    + apply existsb_exists in H1 as (c & Hc & H1). destruct c as [p| |nm ar| |]; try done; [left; exists p; split; [by apply elem_of_list_In|by apply namedb_sound]|right; exists nm, ar; by apply elem_of_list_In].
    + intros x Hx Hv. rewrite forallb_forall in H2. specialize (H2 x (proj1 (elem_of_list_In _ _) Hx)). cbn beta in H2. rewrite (bool_decide_eq_true_2 _ Hv) in H2. by apply bool_decide_eq_true in H2.
    + by apply Hall.
  - cbn [regularb regular] in *. apply andb_true_iff in H as [H1 H2]. split.
    + intros x Hx. rewrite forallb_forall in H1. specialize (H1 x (proj1 (elem_of_list_In _ _) Hx)). by apply bool_decide_eq_true in H1.
    + destruct arms as [|a [|b arms]]; [by apply alternativesb_sound| |by apply alternativesb_sound]. apply Forall_cons_1 in IH as [IH _].
      destruct a as [c|cs]; cbn [regular_arm regular_armb arm_clauses] in *; [|by apply Hall]. apply andb_true_iff in H2 as [H2 H3]. apply Forall_cons_1 in IH as [IH _]. split; [|by apply IH].
      destruct c; try done. by apply ref_inputsb_sound.
Qed.
Lemma all_regularb_sound s q vals : forallb (regularb s (q_in q) vals) (q_where q) = true -> Forall (regular s (q_in q) vals) (q_where q).
Proof. rewrite forallb_forall. intros H. apply Forall_forall. intros c Hc. apply regularb_sound, H. by apply elem_of_list_In. Qed.
Definition all_readableb (st : store) : bool :=
  forallb (fun x : fact => match from_sql_value_pair x.2.1 x.2.2 with Ok v => storableb v && bool_decide (to_sql_value_pair v = x.2) | _ => false end) (facts st).
Lemma all_readableb_sound st : all_readableb st = true -> all_readable st.
Proof.
  unfold all_readableb. rewrite forallb_forall. intros H a e p Hp. specialize (H _ (proj1 (elem_of_list_In _ _) Hp)). cbn [fst snd] in H.
  destruct (from_sql_value_pair _ _) as [v| |]; try done. apply andb_true_iff in H as [H1 H2]. exists v. split; [by apply storableb_sound|]. by apply bool_decide_eq_true in H2.
Qed.
(** No doubles at all *)
Definition no_doubles (st : store) : bool :=
  forallb (fun d => match from_sql_value_pair (d_v d) (d_tag d) with Ok (TVDouble _) => false | _ => true end) (all_datoms st).
Lemma no_doubles_twinless st : no_doubles st = true -> twinless st.
Proof.
  unfold no_doubles. rewrite forallb_forall. intros H e a z tx e' a' k tx' _ (d & Hd & _ & _ & _ & Hv). specialize (H _ (proj1 (elem_of_list_In _ _) Hd)). by rewrite Hv in H.
Qed.
Definition singly_cachedb (c : cconn) : bool :=
  forallb (fun a => match sc_attribute_map (schema_of (cc_conn c)) !! a with Some at_ => negb (at_multival at_) | None => true end) (elements (ca_fwd (cc_cache c))).
Lemma singly_cachedb_sound c : singly_cachedb c = true -> singly_cached c.
Proof.
  unfold singly_cachedb. rewrite forallb_forall. intros H a at_ Ha Hc. unfold is_cached_forward in Hc. apply bool_decide_eq_true in Hc.
  specialize (H a (proj1 (elem_of_list_In _ _) (proj2 (elem_of_elements _ _) Hc))). cbn beta in H. rewrite Ha in H. by apply negb_true_iff.
Qed.

(* ---------------------------------------------------------------- matching *)

Section matching.
  Context (st : store) (s : schema) (σ : assignment).
  Definition place_isb (p : nplace) (e : Z) : bool :=
    match p with
    | NPlaceholder => true
    | NVar x => bool_decide (σ x = TVRef e)
    | NEntid i => bool_decide (e = i)
    | NIdent k => bool_decide (sc_ident_map s !! k = Some e)
    end.
  Definition value_isb (p : vplace) (v : typed_value) : bool :=
    match p with
    | VPlaceholder => true
    | VVar x => bool_decide (σ x = v)
    | VInteger z => bool_decide (v = TVRef z) || bool_decide (v = TVLong z) || bool_decide (v = TVDouble (long_to_double z))
    | VIdent k => bool_decide (v = TVKeyword k) || match sc_ident_map s !! k with Some e => bool_decide (v = TVRef e) | None => false end
    | VConst c => bool_decide (v = c)
    end.
  Definition matchesb (p : pattern) : bool :=
    existsb (fun d => place_isb (p_e p) (d_e d) && place_isb (p_a p) (d_a d) && place_isb (p_tx p) (d_tx d)
      && match from_sql_value_pair (d_v d) (d_tag d) with Ok v => value_isb (p_v p) v | _ => false end) (all_datoms st).
  Lemma place_isb_iff p e : place_isb p e = true <-> place_is s σ p e.
  Proof using Type. destruct p; cbn; rewrite ?bool_decide_eq_true; done. Qed.
  Lemma value_isb_iff p v : value_isb p v = true <-> value_is s σ p v.
  Proof using Type.
    destruct p as [|x|z|k|c]; cbn; rewrite ?orb_true_iff, ?bool_decide_eq_true; try done; [tauto|]. destruct (sc_ident_map s !! k) as [e|].
    - rewrite bool_decide_eq_true. split; [intros [?|?]; [by left|right; by exists e]|intros [?|(e' & [= <-] & ?)]; [by left|by right]].
    - split; [intros [?|?]; [by left|done]|intros [?|(e' & ? & _)]; [by left|done]].
  Qed.
  Lemma matchesb_iff p : matchesb p = true <-> matches st s σ p.
  Proof using Type.
    unfold matchesb. rewrite existsb_exists. split.
    - intros (d & Hd & [[[H1 H2]%andb_true_iff H3]%andb_true_iff H4]%andb_true_iff). destruct (from_sql_value_pair _ _) as [v| |] eqn:E; try done.
      exists (d_e d), (d_a d), v, (d_tx d). rewrite <- !place_isb_iff, <- value_isb_iff. split_and!; try done. exists d. split; [by apply elem_of_list_In|]. done.
    - intros (e & a & v & tx & (d & Hd & <- & <- & <- & Hv) & H1 & H2 & H3 & H4). exists d. split; [by apply elem_of_list_In|]. rewrite Hv.
      apply place_isb_iff in H1, H2, H4. apply value_isb_iff in H3. by rewrite H1, H2, H3, H4.
  Qed.
End matching.
Lemma place_agree s σ σ' p e : agree_on (nplace_vars p) σ σ' -> place_is s σ p e -> place_is s σ' p e.
Proof. destruct p; cbn; try done. intros H <-. apply H. by left. Qed.
Lemma matches_agree st s σ σ' p : agree_on (pattern_vars p) σ σ' -> matches st s σ p -> matches st s σ' p.
Proof.
  intros H (e & a & v & tx & Hd & H1 & H2 & H3 & H4). unfold pattern_vars in H. exists e, a, v, tx. split; [done|].
  split_and!; try (eapply place_agree; [|done]; intros x Hx; apply H; rewrite !elem_of_app; tauto).
  destruct (p_v p); cbn in *; try done. rewrite <- H3. apply H. set_solver.
Qed.

(** An assignment *)
Definition given (l : list (var * typed_value)) : assignment := fun x => default (TVRef 0) (snd <$> (list_find (fun y => y.1 = x) l ≫= fun y => Some y.2)).

(* ---------------------------------------------------------------- queries *)

Definition sq0 : sqlite := Sqlite (fun l => l) (fun _ _ => false) (fun _ _ => Eq).
Lemma sq0_ok : sqlite_ok sq0.
Proof. intros rows. reflexivity. Qed.
Definition pat (e a : nplace) (v : vplace) : clause := CPattern (Pattern e a v NPlaceholder).
Definition a_ (n : string) : nplace := NIdent (person n).
Definition ask (f : find_spec) (cs : list clause) : query := Query f [] cs [] LNone.

(** Names and ages *)
Definition q_names : query := ask (FRel ["?n"; "?a"]) [pat (NVar "?x") (a_ "name") (VVar "?n"); pat (NVar "?x") (a_ "age") (VVar "?a")].
(** Three of the facts about an input, by attribute *)
Definition q_about : query := Query (FRel ["?a"; "?v"]) ["?x"] [pat (NVar "?x") (NVar "?a") (VVar "?v")] [(Desc, "?a")] (LFixed 3).
Definition v_about : gmap var typed_value := {["?x" := TVRef 65543]}.
Definition q_not : query := ask (FColl "?n") [pat (NVar "?x") (a_ "name") (VVar "?n"); CNot UImplicit [pat (NVar "?x") (a_ "age") (VInteger 30)]].
(** Those who are thirty or Ivan's friends, but are not forty *)
Definition q_or : query := ask (FColl "?x")
  [ COr (UExplicit ["?x"]) [AAnd [
      COr UImplicit [AClause (pat (NVar "?x") (a_ "age") (VInteger 30)); AClause (pat (NVar "?x") (a_ "friend") (VInteger 65543)); AClause (pat (NVar "?x") (a_ "nothing") (VInteger 1))];
      CNot UImplicit [pat (NVar "?x") (a_ "age") (VInteger 40)] ]] ].
Definition q_or_only : query := ask (FColl "?x")
  [ COr UImplicit [AClause (pat (NVar "?x") (a_ "age") (VInteger 30)); AClause (pat (NVar "?x") (a_ "friend") (VInteger 65543))] ].
(** A value of a different type than the attribute has: proved empty *)
Definition q_wrong_type : query := ask (FColl "?x") [pat (NVar "?x") (a_ "name") (VVar "?n"); pat (NVar "?x") (a_ "age") (VVar "?n")].

Definition open_for_queries (c : conn) : bool := all_readableb (disk c) && no_doubles (disk c).
Lemma open_sound c : open_for_queries c = true -> all_readable (disk c) /\ twinless (disk c).
Proof. intros [H1 H2]%andb_true_iff. split; [by apply all_readableb_sound|by apply no_doubles_twinless]. Qed.

(** A long and a double that are the same number *)
Definition measured : conn := after (after case_conn (install "h" (person "height") "double" "one" []))
  [add (ent 65544) (person "height") (VPAtom (VEdn (EFloat (long_to_double 40))))].
(** Someone whose age is the entid of someone *)
Definition old : conn := after case_conn [add (ent 65543) (person "age") (v_int 65544)].
(** Two of the same age *)
Definition coeval : conn := after case_conn [add (ent 65544) (person "age") (v_int 30)].
Lemma after_clean c es : clean MV c -> is_ok (result c es) && no_uninstall (st_log (cn_disk (after c es))) = true -> clean MV (after c es).
Proof. intros Hc H. eapply accepted_clean. by apply accepts. Qed.

Lemma missing_coll l (A : list typed_value -> Prop) x : A [x] -> bool_decide (x ∈ l) = false -> ~ gives (RColl l) A.
Proof. intros Ha Hx%bool_decide_eq_false [_ H]. by apply Hx, H. Qed.
Lemma extra_coll l (A : list typed_value -> Prop) x : ~ A [x] -> bool_decide (x ∈ l) = true -> ~ gives (RColl l) A.
Proof. intros Ha Hx%bool_decide_eq_true [_ H]. by apply Ha, H. Qed.
(** Patterns and inputs that an assignment meets *)
Lemma answer_by σ st s q vals row : forallb (fun c => match c with CPattern p => matchesb st s σ p | _ => false end) (q_where q) = true ->
  forallb (fun x => match vals !! x with Some v => bool_decide (σ x = v) | None => true end) (q_in q) = true ->
  bool_decide (row = map σ (find_vars (q_find q))) = true -> answer st s q vals row.
Proof.
  intros H1 H2 H3%bool_decide_eq_true. exists σ. split; [|done]. rewrite forallb_forall in H1, H2. split.
  - intros x v Hx Hv. specialize (H2 x (proj1 (elem_of_list_In _ _) Hx)). cbn beta in H2. rewrite Hv in H2. by apply bool_decide_eq_true in H2.
  - apply Forall_forall. intros c Hc. specialize (H1 c (proj1 (elem_of_list_In _ _) Hc)). destruct c; try done. by apply matchesb_iff.
Qed.
(** Nothing matches the only pattern if its variables are as in the row and the inputs. *)
Lemma no_answer σ0 p st s q vals row : q_where q = [CPattern p] ->
  (forall σ, (forall x v, x ∈ q_in q -> vals !! x = Some v -> σ x = v) -> row = map σ (find_vars (q_find q)) -> agree_on (pattern_vars p) σ σ0) ->
  matchesb st s σ0 p = false -> ~ answer st s q vals row.
Proof.
  intros Hw Ha Hm (σ & [Hi H] & Hr). rewrite Hw in H. apply Forall_cons_1 in H as [H _]. cbn [meets] in H.
  assert (matches st s σ0 p) as K; [|apply matchesb_iff in K; congruence]. eapply matches_agree; [|exact H]. by apply Ha.
Qed.

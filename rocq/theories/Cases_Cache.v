(** Deciding whether a history with caches is tame, and examples of such histories. *)
From Verif Require Import M_Cache Spec_Value Spec_Tx Spec_Conn Spec_Transact Spec_Cache P_Value Cases.

Definition forall_in {A} (l : list A) (f : A -> bool) : bool := forallb f l.
Lemma forall_in_sound {A} (l : list A) f : forall_in l f = true -> forall x, x ∈ l -> f x = true.
Proof. unfold forall_in. rewrite forallb_forall. intros H x Hx. by apply H, elem_of_list_In. Qed.

Definition storableb (v : typed_value) : bool :=
  match from_sql_value_pair (to_sql_value_pair v).1 (to_sql_value_pair v).2 with Ok w => bool_decide (w = v) | _ => false end.
Lemma storableb_sound v : storableb v = true -> storable v.
Proof.
  unfold storableb. intros H. apply codec_roundtrip_iff. destruct (from_sql_value_pair _ _); try done. by apply bool_decide_eq_true in H as ->.
Qed.
Definition readableb (st : store) (a : Z) : bool :=
  forall_in (facts st) (fun x => negb (bool_decide (x.1.2 = a)) ||
    match from_sql_value_pair x.2.1 x.2.2 with Ok v => storableb v && bool_decide (to_sql_value_pair v = x.2) | _ => false end).
Lemma readableb_sound st a : readableb st a = true -> readable st a.
Proof.
  intros H e p Hp. pose proof (forall_in_sound _ _ H _ Hp) as Hx. cbn [fst snd] in Hx. rewrite bool_decide_eq_true_2 in Hx by done. cbn [negb orb] in Hx.
  destruct (from_sql_value_pair _ _) as [v| |]; try done. apply andb_true_iff in Hx as [H1 H2]. exists v.
  split; [by apply storableb_sound|]. by apply bool_decide_eq_true in H2.
Qed.
Definition uniquelyb (st : store) (s : schema) (a : Z) : bool :=
  match sc_attribute_map s !! a with
  | Some at_ => match at_unique at_ with
                | Some _ => forall_in (facts st) (fun x => negb (bool_decide (x.1.2 = a)) ||
                    forall_in (facts st) (fun y => negb (bool_decide (y.1.2 = a)) || negb (bool_decide (y.2 = x.2)) || bool_decide (y.1.1 = x.1.1)))
                | None => true
                end
  | None => true
  end.
Lemma uniquelyb_sound st s a : uniquelyb st s a = true -> uniquely st s a.
Proof.
  unfold uniquelyb. intros H at_ e1 e2 p Hat [u Hu] H1 H2. rewrite Hat, Hu in H. pose proof (forall_in_sound _ _ H _ H1) as Hx. cbn [fst snd] in Hx.
  rewrite bool_decide_eq_true_2 in Hx by done. cbn [negb orb] in Hx. pose proof (forall_in_sound _ _ Hx _ H2) as Hy. cbn [fst snd] in Hy.
  rewrite !(bool_decide_eq_true_2 (a = a)), !(bool_decide_eq_true_2 (p = p)) in Hy by done. cbn [negb orb] in Hy. by apply bool_decide_eq_true in Hy.
Qed.

(** [l]: what is cached *)
Definition gentleb (l : list Z) (st : store) (s s' : schema) (evs : list event) : bool :=
  forall_in evs (fun '(_, _, a, v) => negb (bool_decide (a ∈ l)) || storableb v)
  && forall_in evs (fun '(k, e, a, v) => negb (bool_decide (k = OAdd)) || negb (bool_decide (a ∈ l)) ||
       negb (fact_in (e, a, to_sql_value_pair v) st) ||
       forall_in evs (fun '(k', e', a', w) => negb (bool_decide (k' = ORetract)) || negb (bool_decide (e' = e)) || negb (bool_decide (a' = a)) ||
         (negb (bool_decide (w = v)) && match sc_attribute_map s !! a with Some at_ => at_multival at_ | None => true end)))
  && forall_in l (fun a => match sc_attribute_map s !! a, sc_attribute_map s' !! a with
       | Some at_, Some at' => bool_decide (at_multival at' = at_multival at_)
           && bool_decide ((if at_unique at' then true else false) = if at_unique at_ then true else false)
       | None, _ => true
       | _, _ => false
       end).
Lemma gentleb_sound (C : Z -> Prop) l st s s' evs : (forall a, C a -> a ∈ l) -> gentleb l st s s' evs = true -> gentle C st s s' evs.
Proof.
  intros HC [[H1 H2]%andb_true_iff H3]%andb_true_iff. split.
  - intros k e a v Hin Ha. pose proof (forall_in_sound _ _ H1 _ Hin) as Hx. cbn in Hx. rewrite (bool_decide_eq_true_2 _ (HC a Ha)) in Hx. by apply storableb_sound.
  - intros e a v w Hadd Hret Ha Hc Hh. pose proof (forall_in_sound _ _ H2 _ Hadd) as Hx. cbn beta iota in Hx.
    rewrite (bool_decide_eq_true_2 _ (HC a Ha)), (bool_decide_eq_true_2 (OAdd = OAdd)) in Hx by done.
    unfold fact_in in Hx. rewrite (bool_decide_eq_true_2 _ Hh) in Hx. cbn [negb orb] in Hx.
    pose proof (forall_in_sound _ _ Hx _ Hret) as Hy. cbn beta iota in Hy.
    rewrite !(bool_decide_eq_true_2 (ORetract = ORetract)), !(bool_decide_eq_true_2 (e = e)), !(bool_decide_eq_true_2 (a = a)) in Hy by done.
    cbn [negb orb] in Hy. apply andb_true_iff in Hy as [Hy1%negb_true_iff%bool_decide_eq_false Hy2]. destruct Hc as [?|(at_ & Hat & Hm)]; [done|].
    rewrite Hat, Hm in Hy2. done.
  - intros a at_ Ha Hat. pose proof (forall_in_sound _ _ H3 _ (HC a Ha)) as Hx. cbn beta in Hx. rewrite Hat in Hx.
    destruct (sc_attribute_map s' !! a) as [at'|]; [|done]. apply andb_true_iff in Hx as [Hm%bool_decide_eq_true Hu%bool_decide_eq_true].
    exists at'. split; [done|]. split; [done|]. destruct (at_unique at'), (at_unique at_); try done; split; intros [? ?]; done.
Qed.
Definition gentle_reverseb (l : list Z) (st st' : store) (s : schema) (evs : list event) : bool :=
  forall_in evs (fun '(k, e, a, v) => negb (bool_decide (k = ORetract)) || negb (bool_decide (a ∈ l)) || fact_in (e, a, to_sql_value_pair v) st)
  && forall_in evs (fun '(k, e, a, v) => negb (bool_decide (k = OAdd)) || negb (bool_decide (a ∈ l)) ||
       match sc_attribute_map s !! a with
       | Some at_ => at_multival at_ || forall_in (facts st) (fun x => negb (bool_decide (x.1 = (e, a))) ||
           match from_sql_value_pair x.2.1 x.2.2 with Ok w => bool_decide (w = v) || bool_decide ((ORetract, e, a, w) ∈ evs) | _ => true end)
       | None => true
       end)
  && forall_in l (fun a => uniquelyb st s a && uniquelyb st' s a).
Lemma gentle_reverseb_sound (C : Z -> Prop) l st st' s evs : (forall a, C a -> a ∈ l) -> gentle_reverseb l st st' s evs = true ->
  gentle_reverse C st st' s evs.
Proof.
  intros HC [[H1 H2]%andb_true_iff H3]%andb_true_iff. split.
  - intros e a v Hin Ha. pose proof (forall_in_sound _ _ H1 _ Hin) as Hx. cbn beta iota in Hx.
    rewrite (bool_decide_eq_true_2 _ (HC a Ha)), (bool_decide_eq_true_2 (ORetract = ORetract)) in Hx by done. cbn [negb orb] in Hx. by apply fact_is_in.
  - intros e a v w Hin Ha (at_ & Hat & Hm) Hw Hh. pose proof (forall_in_sound _ _ H2 _ Hin) as Hx. cbn beta iota in Hx.
    rewrite (bool_decide_eq_true_2 _ (HC a Ha)), (bool_decide_eq_true_2 (OAdd = OAdd)), Hat, Hm in Hx by done. cbn [negb orb] in Hx.
    pose proof (forall_in_sound _ _ Hx _ Hh) as Hy. cbn [fst snd] in Hy. rewrite (bool_decide_eq_true_2 ((e, a) = (e, a))) in Hy by done. cbn [negb orb] in Hy.
    rewrite (proj2 (codec_roundtrip_iff w) Hw) in Hy. apply orb_true_iff in Hy as [Hy%bool_decide_eq_true|Hy%bool_decide_eq_true]; [by left|by right].
  - intros a at_ e1 e2 p Ha Hat Hu F1 F2. pose proof (forall_in_sound _ _ H3 _ (HC a Ha)) as [Hx _]%andb_true_iff. by apply (uniquelyb_sound _ _ _ Hx at_ e1 e2 p).
  - intros a at_ e1 e2 p Ha Hat Hu F1 F2. pose proof (forall_in_sound _ _ H3 _ (HC a Ha)) as [_ Hx]%andb_true_iff. by apply (uniquelyb_sound _ _ _ Hx at_ e1 e2 p).
Qed.

Definition ov_list (o : overlaid) : list Z :=
  elements (ca_fwd (ov_inner o)) ++ elements (ca_rev (ov_inner o)) ++ elements (ca_fwd (ov_overlay o)) ++ elements (ca_rev (ov_overlay o)).
Lemma ov_list_forward o a : ov_cached_forward o a = true -> a ∈ ov_list o.
Proof.
  unfold ov_cached_forward, is_cached_forward, ov_list. intros [_ [H|H]%orb_true_iff]%andb_true_iff; apply bool_decide_eq_true in H;
    rewrite !elem_of_app, !elem_of_elements; tauto.
Qed.
Lemma ov_list_reverse o a : ov_cached_reverse o a = true -> a ∈ ov_list o.
Proof.
  unfold ov_cached_reverse, is_cached_reverse, ov_list. intros [_ [H|H]%orb_true_iff]%andb_true_iff; apply bool_decide_eq_true in H;
    rewrite !elem_of_app, !elem_of_elements; tauto.
Qed.
Definition ov_rev_list (o : overlaid) : list Z := elements (ca_rev (ov_inner o)) ++ elements (ca_rev (ov_overlay o)).
Lemma ov_rev_list_reverse o a : ov_cached_reverse o a = true -> a ∈ ov_rev_list o.
Proof.
  unfold ov_cached_reverse, is_cached_reverse, ov_rev_list. intros [_ [H|H]%orb_true_iff]%andb_true_iff; apply bool_decide_eq_true in H;
    rewrite !elem_of_app, !elem_of_elements; tauto.
Qed.

Definition done_ok (r : res unit) : bool := is_ok r.
Lemma done_ok_sound r : done_ok r = true -> r = Ok tt.
Proof. by destruct r as [[]| |]. Qed.

Definition tame_callb (reverse : bool) (mv : Z) (c0 : caches) (i : cinprog) (o : cip_op) (x : cinprog * res unit) : bool :=
  let i' := x.1 in
  done_ok x.2
  && match o with
     | CiOp (OpRollbackTo _) => false
     | CiOp o =>
         gentleb (ov_list (ci_cache i)) (ig_store (ci_ig i)) (ig_schema (ci_ig i)) (ig_schema (ci_ig i')) (wa_events (told mv (ci_ig i) o))
         && (negb reverse || gentle_reverseb (ov_rev_list (ci_cache i)) (ig_store (ci_ig i)) (ig_store (ci_ig i')) (ig_schema (ci_ig i)) (wa_events (told mv (ci_ig i) o)))
     | CiCache k _ true =>
         match attribute_for_ident (ig_schema (ci_ig i)) k with
         | Ok a => negb (is_cached_forward c0 a) && negb (is_cached_reverse c0 a) && readableb (ig_store (ci_ig i)) a
                   && (negb reverse || uniquelyb (ig_store (ci_ig i)) (ig_schema (ci_ig i)) a)
         | _ => true
         end
     | CiCache _ _ false => true
     end.
Lemma tame_callb_sound reverse mv c0 i o : tame_callb reverse mv c0 i o (ci_step mv i o) = true -> tame_call reverse mv c0 i o.
Proof.
  unfold tame_callb, tame_call. intros [H1%done_ok_sound H2]%andb_true_iff. split; [done|].
  assert (forall o, o <> OpRollbackTo "" ->
    gentleb (ov_list (ci_cache i)) (ig_store (ci_ig i)) (ig_schema (ci_ig i)) (ig_schema (ci_ig (ci_step mv i (CiOp o)).1)) (wa_events (told mv (ci_ig i) o))
      && (negb reverse || gentle_reverseb (ov_rev_list (ci_cache i)) (ig_store (ci_ig i)) (ig_store (ci_ig (ci_step mv i (CiOp o)).1)) (ig_schema (ci_ig i)) (wa_events (told mv (ci_ig i) o))) = true ->
    gentle (fun a => ov_cached_forward (ci_cache i) a = true \/ ov_cached_reverse (ci_cache i) a = true) (ig_store (ci_ig i)) (ig_schema (ci_ig i))
      (ig_schema (ci_ig (ci_step mv i (CiOp o)).1)) (wa_events (told mv (ci_ig i) o))
    /\ (reverse = true -> gentle_reverse (fun a => ov_cached_reverse (ci_cache i) a = true) (ig_store (ci_ig i))
            (ig_store (ci_ig (ci_step mv i (CiOp o)).1)) (ig_schema (ci_ig i)) (wa_events (told mv (ci_ig i) o)))) as Hop.
  { clear. intros o _ [Ha Hb]%andb_true_iff. split.
    - eapply gentleb_sound; [|exact Ha]. intros a [H|H]; [by apply ov_list_forward|by apply ov_list_reverse].
    - intros ->. eapply gentle_reverseb_sound; [|exact Hb]. intros a. apply ov_rev_list_reverse. }
  destruct o as [[now es|now ts ids|n|n|n]|k d []]; try done.
  - by apply (Hop (OpTransact now es)).
  - by apply (Hop (OpTransactTerms now ts ids)).
  - by apply (Hop (OpSavepoint n)).
  - by apply (Hop (OpRelease n)).
  - intros a Ea. rewrite Ea in H2. apply andb_true_iff in H2 as [[[F%negb_true_iff R%negb_true_iff]%andb_true_iff Hr]%andb_true_iff Hu].
    split; [done|]. split; [done|]. split; [by apply readableb_sound|]. intros ->. by apply uniquelyb_sound.
Qed.
Fixpoint tame_callsb (reverse : bool) (mv : Z) (c0 : caches) (i : cinprog) (l : list cip_op) : bool :=
  match l with
  | [] => true
  | o :: l => let x := ci_step mv i o in tame_callb reverse mv c0 i o x && tame_callsb reverse mv c0 x.1 l
  end.
Lemma tame_callsb_sound reverse mv c0 l : forall i, tame_callsb reverse mv c0 i l = true -> tame_calls reverse mv c0 i l.
Proof.
  induction l as [|o l IH]; intros i H; [done|]. cbn [tame_callsb tame_calls] in *. cbv zeta in H. apply andb_true_iff in H as [H1 H2].
  split; [by apply tame_callb_sound|by apply IH].
Qed.
Definition tameb (reverse : bool) (mv : Z) (c : cconn) (o : cc_op) : bool :=
  match o with
  | CcTransact now es shared => negb shared && tame_callsb reverse mv (cc_cache c) (cc_begin c) [CiOp (OpTransact now es)]
  | CcSession l commit shared => negb commit || (negb shared && tame_callsb reverse mv (cc_cache c) (cc_begin c) l)
  | CcCache k _ true =>
      match attribute_for_ident (schema_of (cc_conn c)) k with
      | Ok a => readableb (disk (cc_conn c)) a && (negb reverse || uniquelyb (disk (cc_conn c)) (schema_of (cc_conn c)) a)
      | _ => true
      end
  | CcCache _ _ false => true
  | CcReopen => bool_decide (sc_attribute_map (schema_of (cc_conn (cc_step mv c o).1)) = sc_attribute_map (schema_of (cc_conn c)))
  end.
Lemma tameb_sound reverse mv c o : tameb reverse mv c o = true -> tame reverse mv c o.
Proof.
  destruct o as [now es shared|l commit shared|k d []|]; unfold tameb, tame.
  - intros [->%negb_true_iff H]%andb_true_iff. split; [done|]. intros _. by apply tame_callsb_sound.
  - intros H ->. cbn [negb orb] in H. apply andb_true_iff in H as [->%negb_true_iff H]. split; [done|]. intros _. by apply tame_callsb_sound.
  - intros H a Ea. rewrite Ea in H. apply andb_true_iff in H as [Hr Hu]. split; [by apply readableb_sound|]. intros ->. by apply uniquelyb_sound.
  - done.
  - apply bool_decide_eq_true_1.
Qed.
Fixpoint tame_runb (reverse : bool) (mv : Z) (c : cconn) (l : list cc_op) : bool :=
  match l with
  | [] => true
  | o :: l => tameb reverse mv c o && (let c' := (cc_step mv c o).1 in no_uninstall (st_log (disk (cc_conn c'))) && tame_runb reverse mv c' l)
  end.
Lemma tame_runb_sound reverse mv l : forall c, caching reverse mv c -> tame_runb reverse mv c l = true -> caching reverse mv (cc_run mv c l).
Proof.
  induction l as [|o l IH]; intros c Hc H; [done|]. cbn [tame_runb] in H. cbv zeta in H. apply andb_true_iff in H as [H1 [H2 H3]%andb_true_iff].
  unfold cc_run. cbn [fold_left]. apply IH; [|done]. apply caching_step; [done|by apply tameb_sound|by apply no_uninstall_sound].
Qed.

(* ---------------------------------------------------------------- an example *)

Definition uncached : cconn := CConn case_conn caches_empty.
Definition session_age : list cip_op :=
  [ CiCache (person "age") DBoth true; CiOp (OpTransact 5000 [retract (ent 65544) (person "age") (v_int 40)]);
    CiCache (person "friend") DForward false;
    CiOp (OpTransact 6000 [add (ent 65544) (person "age") (v_int 41); retract (ent 65543) (person "nick") (v_str "Vanya")]) ].
Definition tame_history : list cc_op :=
  [ CcCache (person "name") DBoth true; CcCache (person "nick") DBoth true; CcCache (person "friend") DForward true;
    CcTransact 4000 [add (ent 65544) (person "nick") (v_str "Petya"); add (tmp "m") (person "name") (v_str "Masha"); add (tmp "m") (person "friend") (v_int 65543)] false;
    CcSession session_age true false ].
Definition the_cached : cconn := cc_run MV uncached tame_history.
Lemma uncached_caching reverse : caching reverse MV uncached.
Proof. apply caching_start. exact case_clean. Qed.

(* ---------------------------------------------------------------- deciding whether a lookup is right *)

Definition storedb (st : store) (e a : Z) (v : typed_value) : bool :=
  existsb (fun x : fact => bool_decide (x.1 = (e, a)) && match from_sql_value_pair x.2.1 x.2.2 with Ok w => bool_decide (w = v) | _ => false end) (facts st).
Lemma storedb_iff st e a v : storedb st e a v = true <-> stored st e a v.
Proof.
  unfold storedb, stored. rewrite existsb_exists. split.
  - intros ([[e' a'] p] & Hin & [H1%bool_decide_eq_true H2]%andb_true_iff). cbn [fst snd] in *. injection H1 as -> ->. exists p.
    split; [by apply elem_of_list_In|]. destruct (from_sql_value_pair _ _); try done. by apply bool_decide_eq_true in H2 as ->.
  - intros (p & Hin & Hv). exists (e, a, p). split; [by apply elem_of_list_In|]. cbn [fst snd]. rewrite bool_decide_eq_true_2 by done. rewrite Hv.
    by rewrite bool_decide_eq_true_2.
Qed.
Definition forward_says (c : caches) (s : schema) (at_ : attribute) (a e : Z) (v : typed_value) : bool :=
  if at_multival at_ then match get_values c s a e with Some vs => bool_decide (v ∈ vs) | None => false end
  else bool_decide (get_value c s a e = Some v).
Definition reverse_says (c : caches) (at_ : attribute) (a e : Z) (v : typed_value) : bool :=
  if at_unique at_ then bool_decide (get_entid c a v = Some e)
  else match get_entids c a v with Some es => bool_decide (e ∈ es) | None => false end.
(** The cache and the store disagree about [e a v]. *)
Definition forward_wrong (c : cconn) (a e : Z) (v : typed_value) : bool :=
  match sc_attribute_map (schema_of (cc_conn c)) !! a with
  | Some at_ => is_cached_forward (cc_cache c) a && xorb (forward_says (cc_cache c) (schema_of (cc_conn c)) at_ a e v) (storedb (disk (cc_conn c)) e a v)
  | None => false
  end.
Definition reverse_wrong (c : cconn) (a e : Z) (v : typed_value) : bool :=
  match sc_attribute_map (schema_of (cc_conn c)) !! a with
  | Some at_ => is_cached_reverse (cc_cache c) a && xorb (reverse_says (cc_cache c) at_ a e v) (storedb (disk (cc_conn c)) e a v)
  | None => false
  end.
Lemma xorb_iff b1 b2 (P Q : Prop) : (b1 = true <-> P) -> (b2 = true <-> Q) -> xorb b1 b2 = true -> (P <-> Q) -> False.
Proof. destruct b1, b2; cbn; intuition congruence. Qed.
Lemma forward_wrong_sound c a e v : forward_wrong c a e v = true -> ~ forward_agrees (disk (cc_conn c)) (schema_of (cc_conn c)) (cc_cache c).
Proof.
  unfold forward_wrong, forward_says. destruct (sc_attribute_map _ !! a) as [at_|] eqn:Ea; [|done]. intros [Hc Hx]%andb_true_iff H.
  specialize (H a at_ Ea Hc). pose proof (storedb_iff (disk (cc_conn c)) e a v) as Hs. destruct (at_multival at_).
  - apply (xorb_iff _ _ _ _ ltac:(reflexivity) Hs Hx). rewrite <- H. destruct (get_values _ _ _ _) as [vs|].
    + rewrite bool_decide_eq_true. split; [intros Hv; by exists vs|intros (? & [= <-] & ?); done].
    + split; [done|]. by intros (? & ? & _).
  - apply (xorb_iff _ _ _ _ ltac:(reflexivity) Hs Hx). rewrite <- H. by rewrite bool_decide_eq_true.
Qed.
Lemma reverse_wrong_sound c a e v : reverse_wrong c a e v = true -> ~ reverse_agrees (disk (cc_conn c)) (schema_of (cc_conn c)) (cc_cache c).
Proof.
  unfold reverse_wrong, reverse_says. destruct (sc_attribute_map _ !! a) as [at_|] eqn:Ea; [|done]. intros [Hc Hx]%andb_true_iff H.
  specialize (H a at_ Ea Hc). pose proof (storedb_iff (disk (cc_conn c)) e a v) as Hs. destruct (at_unique at_).
  - apply (xorb_iff _ _ _ _ ltac:(reflexivity) Hs Hx). rewrite <- H. by rewrite bool_decide_eq_true.
  - apply (xorb_iff _ _ _ _ ltac:(reflexivity) Hs Hx). rewrite <- H. destruct (get_entids _ _ _) as [es|].
    + rewrite bool_decide_eq_true. split; [intros Hv; by exists es|intros (? & [= <-] & ?); done].
    + split; [done|]. by intros (? & ? & _).
Qed.
(** Every step succeeds. *)
Fixpoint all_done (mv : Z) (c : cconn) (l : list cc_op) : bool :=
  match l with [] => true | o :: l => let x := cc_step mv c o in done_ok x.2 && all_done mv x.1 l end.

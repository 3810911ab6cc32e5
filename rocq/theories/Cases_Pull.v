(** Deciding whether a pull expression is unambiguous. *)
From Verif Require Import M_Pull Spec_Tx Spec_Conn Spec_Cache Spec_Pull Cases.

Definition named_pair (s : schema) (a : Z) (ok : option keyword) : list (Z * keyword) :=
  match sc_attribute_map s !! a, ok with Some _, Some k => [(a, k)] | _, _ => [] end.
Definition asked_pairs (s : schema) (l : list pull_spec) : list (Z * keyword) :=
  flat_map (fun x => match x with
    | PuWildcard => flat_map (fun a => named_pair s a (sc_entid_map s !! a)) (elements (dom (sc_attribute_map s)))
    | PuAttr (PuIdent i) alias =>
        if decide (i = db_id) then [] else match sc_ident_map s !! i with Some a => named_pair s a (Some (default i alias)) | None => [] end
    | PuAttr (PuEntid a) alias => named_pair s a (match alias with Some k => Some k | None => sc_entid_map s !! a end)
    end) l.
Definition asked_ids (l : list pull_spec) : list keyword :=
  flat_map (fun x => match x with PuAttr (PuIdent i) alias => if decide (i = db_id) then [default db_id alias] else [] | _ => [] end) l.
Fixpoint wildcard_last (l : list pull_spec) : bool :=
  match l with [] => true | [PuWildcard] => true | PuWildcard :: _ => false | _ :: l => wildcard_last l end.
Definition unambiguousb (s : schema) (l : list pull_spec) : bool :=
  let ps := asked_pairs s l in
  forallb (fun p => forallb (fun q => bool_decide (p.1 = q.1 <-> p.2 = q.2)) ps) ps
  && forallb (fun k => forallb (fun p => negb (bool_decide (p.2 = k))) ps) (asked_ids l) && wildcard_last l.

Lemma named_pair_elem s a ok a' k : (a', k) ∈ named_pair s a ok <-> a' = a /\ is_Some (sc_attribute_map s !! a) /\ ok = Some k.
Proof.
  unfold named_pair. destruct (sc_attribute_map s !! a); [|split; [by intros ?%elem_of_nil|by intros (_ & [? ?] & _)]].
  destruct ok; [|split; [by intros ?%elem_of_nil|by intros (_ & _ & ?)]]. rewrite elem_of_list_singleton. split; [intros [= -> ->]; split_and!; eauto|].
  by intros (-> & _ & [= ->]).
Qed.
Lemma asked_pairs_iff s l a k : (a, k) ∈ asked_pairs s l <-> asks s l a k.
Proof.
  unfold asked_pairs. rewrite elem_of_list_In, in_flat_map. setoid_rewrite <- elem_of_list_In. unfold asks. split.
  - intros (x & Hx & H). destruct x as [|[i|a0] alias].
    + apply elem_of_list_In, in_flat_map in H as (a1 & _ & H). apply elem_of_list_In, named_pair_elem in H as (-> & Ha & Hk). split; [done|]. by left.
    + destruct (decide (i = db_id)); [by apply elem_of_nil in H|]. destruct (sc_ident_map s !! i) as [a1|] eqn:Ei; [|by apply elem_of_nil in H].
      apply named_pair_elem in H as (-> & Ha & [= <-]). split; [done|]. right. left. by exists i, alias.
    + apply named_pair_elem in H as (-> & Ha & Hk). split; [done|]. right. right. exists alias. split; [done|]. destruct alias; [by left|by right].
  - intros [Ha [[Hw Hk]|[(i & al & Hx & Hi & Hj & ->)|(al & Hx & Hk)]]].
    + exists PuWildcard. split; [done|]. apply elem_of_list_In, in_flat_map. exists a. split; [by apply elem_of_list_In, elem_of_elements, elem_of_dom|].
      apply elem_of_list_In, named_pair_elem. done.
    + eexists. split; [exact Hx|]. cbn beta iota. rewrite decide_False by done. rewrite Hj. by apply named_pair_elem.
    + eexists. split; [exact Hx|]. cbn beta iota. apply named_pair_elem. split; [done|]. split; [done|]. by destruct Hk as [->|[-> ->]].
Qed.
Lemma asked_ids_iff l k : k ∈ asked_ids l <-> asks_id l k.
Proof.
  unfold asked_ids, asks_id. rewrite elem_of_list_In, in_flat_map. setoid_rewrite <- elem_of_list_In. split.
  - intros (x & Hx & H). destruct x as [|[i|a0] alias]; try by apply elem_of_nil in H. destruct (decide (i = db_id)) as [->|]; [|by apply elem_of_nil in H].
    apply elem_of_list_singleton in H as ->. by exists alias.
  - intros (al & Hx & ->). eexists. split; [exact Hx|]. cbn beta iota. rewrite decide_True by done. by left.
Qed.
Lemma wildcard_last_sound l : wildcard_last l = true -> forall l1 l2, l = l1 ++ PuWildcard :: l2 -> l2 = [].
Proof.
  intros H l1. revert l H. induction l1 as [|x l1 IH]; intros l H l2 ->.
  - cbn in H. by destruct l2.
  - apply (IH (l1 ++ PuWildcard :: l2)); [|done]. cbn [app wildcard_last] in H. destruct x; [by destruct l1|]. done.
Qed.
Lemma unambiguousb_sound s l : unambiguousb s l = true -> unambiguous s l.
Proof.
  unfold unambiguousb. intros [[H1 H2]%andb_true_iff H3]%andb_true_iff.
  assert (forall a k a' k', asks s l a k -> asks s l a' k' -> a = a' <-> k = k') as H.
  { intros a k a' k' Ha%asked_pairs_iff Ha'%asked_pairs_iff. rewrite forallb_forall in H1. apply elem_of_list_In in Ha, Ha'. specialize (H1 _ Ha).
    rewrite forallb_forall in H1. specialize (H1 _ Ha'). by apply bool_decide_eq_true in H1. }
  split.
  - intros a k k' Ha Ha'. by apply (H a k a k').
  - intros a a' k Ha Ha'. by apply (H a k a' k).
  - intros a k Hi%asked_ids_iff Ha%asked_pairs_iff. apply elem_of_list_In in Hi, Ha. rewrite forallb_forall in H2. specialize (H2 _ Hi).
    rewrite forallb_forall in H2. specialize (H2 _ Ha). cbn [snd] in H2. rewrite bool_decide_eq_true_2 in H2; done.
  - by apply wildcard_last_sound.
Qed.

(** What a pull of one entity shows under a name *)
Definition pulled_as (c : conn) (l : list pull_spec) (es : list Z) (e : Z) (k : keyword) : res (option binding) :=
  let! p := prepare (md_schema (cn_md c)) l in let! m := pull p (md_schema (cn_md c)) (cn_disk c) es in Ok (said_of m e k).

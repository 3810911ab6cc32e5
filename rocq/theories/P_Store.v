(** Search and materialization. *)
From Verif Require Import M_Store M_Tx P_Base.

Definition row_key (t : srow) : Z * Z * Z * sqlval := (s_e t, s_a t, s_tag t, s_v t).

Lemma exact_match_key t d : exact_match t d = true <-> row_key t = d_key d.
Proof.
  unfold exact_match, row_key, d_key. rewrite !andb_true_iff, !bool_decide_eq_true.
  split; [intros (((-> & ->) & ->) & ->); done|]. intros [= -> -> -> ->]. done.
Qed.
Lemma inexact_match_ea t d : inexact_match t d = true <-> s_e t = d_e d /\ s_a t = d_a d.
Proof. unfold inexact_match. by rewrite !andb_true_iff, !bool_decide_eq_true. Qed.

Definition match_ok (m : srow -> datom -> bool) (ds : list datom) (r : sresult) : Prop :=
  match sr_match r with
  | None => forall d, d ∈ ds -> m (sr_row r) d = false
  | Some d => d ∈ ds /\ m (sr_row r) d = true
  end.

Lemma left_join_elem one m ds t r :
  r ∈ left_join one m ds t <-> sr_row r = t /\ sr_one r = one /\ match_ok m ds r.
Proof.
  unfold left_join, match_ok.
  destruct (filter (fun d => m t d = true) ds) as [|d0 l] eqn:E.
  - rewrite elem_of_list_singleton. split.
    + intros ->. simpl. split_and!; try done. intros d Hd. apply not_true_is_false. intros Hm.
      assert (d ∈ filter (fun d => m t d = true) ds) as K by by apply elem_of_list_filter. rewrite E in K. by apply elem_of_nil in K.
    + destruct r as [t' o [d|]]; simpl; intros (-> & -> & H); [|done]. destruct H as [Hd Hm].
      assert (d ∈ filter (fun d => m t d = true) ds) as K by by apply elem_of_list_filter. rewrite E in K. by apply elem_of_nil in K.
  - rewrite <- E. rewrite elem_of_list_fmap. split.
    + intros (d & -> & Hd). apply elem_of_list_filter in Hd as [? ?]. done.
    + destruct r as [t' o [d|]]; simpl; intros (-> & -> & H).
      * exists d. split; [done|]. apply elem_of_list_filter. naive_solver.
      * exfalso. assert (d0 ∈ filter (fun d => m t d = true) ds) as K by (rewrite E; left).
        apply elem_of_list_filter in K as [K1 K2]. rewrite H in K1; done.
Qed.

Section search.
  Context (ds : list datom) (exact inexact : list srow) (rs : list sresult).
  Context (Hs : search ds exact inexact = Ok rs).

  Lemma search_elem r : r ∈ rs <->
    (sr_row r ∈ exact /\ sr_one r = false /\ match_ok exact_match ds r)
    \/ (sr_row r ∈ inexact /\ sr_one r = true /\ match_ok inexact_match ds r).
  Proof.
    unfold search in Hs. case_bool_decide; [|done]. injection Hs as <-.
    rewrite elem_of_app, !elem_of_list_In, !in_flat_map. setoid_rewrite <- elem_of_list_In.
    setoid_rewrite left_join_elem. split.
    - intros [(t & Ht & <- & ? & ?)|(t & Ht & <- & ? & ?)]; [left|right]; done.
    - intros [(Ht & ? & ?)|(Ht & ? & ?)]; [left|right]; exists (sr_row r); done.
  Qed.

  Lemma search_key_nodup : NoDup (map (fun r => s_key (sr_row r)) rs).
  Proof. unfold search in Hs. case_bool_decide; [|done]. by injection Hs as <-. Qed.

  Lemma search_inj r1 r2 : r1 ∈ rs -> r2 ∈ rs -> s_key (sr_row r1) = s_key (sr_row r2) -> r1 = r2.
  Proof. intros. eapply (NoDup_map_inj (fun r => s_key (sr_row r))); eauto using search_key_nodup. Qed.

  Lemma search_total_exact t : t ∈ exact -> exists r, r ∈ rs /\ sr_row r = t /\ sr_one r = false /\ match_ok exact_match ds r.
  Proof.
    intros Ht. destruct (filter (fun d => exact_match t d = true) ds) as [|d l] eqn:E.
    - exists (SResult t false None). assert (match_ok exact_match ds (SResult t false None)).
      { intros d Hd. apply not_true_is_false. intros Hm.
        assert (d ∈ filter (fun d => exact_match t d = true) ds) as K by by apply elem_of_list_filter. rewrite E in K. by apply elem_of_nil in K. }
      split_and!; try done. apply search_elem. left. done.
    - assert (d ∈ filter (fun d => exact_match t d = true) ds) as K by (rewrite E; left).
      apply elem_of_list_filter in K as [K1 K2].
      exists (SResult t false (Some d)). split_and!; try done. apply search_elem. left. done.
  Qed.
  Lemma search_total_inexact t : t ∈ inexact -> exists r, r ∈ rs /\ sr_row r = t /\ sr_one r = true /\ match_ok inexact_match ds r.
  Proof.
    intros Ht. destruct (filter (fun d => inexact_match t d = true) ds) as [|d l] eqn:E.
    - exists (SResult t true None). assert (match_ok inexact_match ds (SResult t true None)).
      { intros d Hd. apply not_true_is_false. intros Hm.
        assert (d ∈ filter (fun d => inexact_match t d = true) ds) as K by by apply elem_of_list_filter. rewrite E in K. by apply elem_of_nil in K. }
      split_and!; try done. apply search_elem. right. done.
    - assert (d ∈ filter (fun d => inexact_match t d = true) ds) as K by (rewrite E; left).
      apply elem_of_list_filter in K as [K1 K2].
      exists (SResult t true (Some d)). split_and!; try done. apply search_elem. right. done.
  Qed.
  Lemma inexact_unique t d d' : t ∈ inexact -> d ∈ ds -> d' ∈ ds ->
    inexact_match t d = true -> inexact_match t d' = true -> d = d'.
  Proof.
    intros Ht Hd Hd' Hm Hm'.
    assert (SResult t true (Some d) = SResult t true (Some d')) as [=]; [|done].
    apply search_inj; [apply search_elem; right; done..|done].
  Qed.

  Lemma deleted_elem k : k ∈ deleted_keys rs <->
    exists r d, r ∈ rs /\ sr_retracts r = true /\ sr_match r = Some d /\ d_key d = k.
  Proof.
    unfold deleted_keys. rewrite elem_of_list_omap. split.
    - intros (r & Hr & H). destruct (sr_retracts r) eqn:E; [|done].
      apply fmap_Some in H as (d & Hd & ->). by exists r, d.
    - intros (r & d & Hr & E & Hm & <-). exists r. split; [done|]. by rewrite E, Hm.
  Qed.

  (** A datom is deleted exactly if it is retracted by an exact search, or it is what an inexact search finds and is
      retracted (with whatever value) or replaced. *)
  Lemma deleted_spec d : NoDup (map d_key ds) -> d ∈ ds ->
    (d_key d ∈ deleted_keys rs <->
     (exists t, t ∈ exact /\ s_added t = false /\ row_key t = d_key d)
     \/ (exists t, t ∈ inexact /\ s_e t = d_e d /\ s_a t = d_a d /\ (s_added t = false \/ s_v t <> d_v d))).
  Proof.
    intros Hn Hd. rewrite deleted_elem. split.
    - intros (r & d' & Hr & Hret & Hm & Hk).
      assert (d' = d) as ->.
      { apply search_elem in Hr. unfold match_ok in Hr. rewrite Hm in Hr.
        eapply (NoDup_map_inj d_key); eauto. naive_solver. }
      apply search_elem in Hr. unfold match_ok in Hr. rewrite Hm in Hr. unfold sr_retracts in Hret. rewrite Hm in Hret.
      destruct Hr as [(Ht & Ho & Hd' & Hmt)|(Ht & Ho & Hd' & Hmt)]; rewrite Ho in Hret; [left|right].
      + exists (sr_row r). split_and!; try done.
        * rewrite andb_false_r, andb_false_l, orb_false_r in Hret. by apply negb_true_iff.
        * by apply exact_match_key in Hmt.
      + apply inexact_match_ea in Hmt as [He Ha]. exists (sr_row r). split_and!; try done.
        destruct (s_added (sr_row r)); simpl in Hret; [right|by left].
        by apply negb_true_iff, bool_decide_eq_false in Hret.
    - intros [(t & Ht & Hadd & Hk)|(t & Ht & He & Ha & Hv)].
      + exists (SResult t false (Some d)), d. split_and!; try done.
        * apply search_elem. left. split_and!; try done. split; [done|]. by apply exact_match_key.
        * unfold sr_retracts. simpl. by rewrite Hadd.
      + exists (SResult t true (Some d)), d. split_and!; try done.
        * apply search_elem. right. split_and!; try done. split; [done|]. by apply inexact_match_ea.
        * unfold sr_retracts. simpl. destruct Hv as [->|Hv]; [done|]. rewrite andb_true_r.
          rewrite bool_decide_eq_false_2 by done. by destruct (s_added t).
  Qed.

  (** A row is inserted exactly if its datom is not there. *)
  Lemma adds_spec r : r ∈ rs -> sr_adds r = true <->
    s_added (sr_row r) = true /\
    ((sr_row r ∈ exact /\ sr_one r = false /\ row_key (sr_row r) ∉ map d_key ds)
     \/ (sr_row r ∈ inexact /\ sr_one r = true
         /\ forall d, d ∈ ds -> d_e d = s_e (sr_row r) -> d_a d = s_a (sr_row r) -> d_v d <> s_v (sr_row r))).
  Proof.
    intros Hr. pose proof Hr as Hr0. apply search_elem in Hr. unfold sr_adds. rewrite andb_true_iff.
    unfold match_ok in Hr. destruct (sr_match r) as [d|] eqn:Hm.
    - rewrite negb_true_iff, bool_decide_eq_false.
      destruct Hr as [(Ht & Ho & Hd & Hmt)|(Ht & Ho & Hd & Hmt)].
      + apply exact_match_key in Hmt. split.
        * intros [_ Hv]. exfalso. apply Hv. unfold row_key, d_key in Hmt. congruence.
        * intros [Hadd [(_ & _ & Hk)|(_ & Ho' & _)]]; [|congruence]. exfalso. apply Hk. rewrite Hmt.
          by apply elem_of_list_fmap_1.
      + pose proof Hmt as Hmt'. apply inexact_match_ea in Hmt as [He Ha]. split.
        * intros [Hadd Hv]. split; [done|]. right. split_and!; try done. intros d' Hd' He' Ha'.
          assert (d' = d) as ->; [|congruence].
          eapply inexact_unique; eauto. by apply inexact_match_ea.
        * intros [Hadd [(_ & Ho' & _)|(_ & _ & H)]]; [congruence|]. split; [done|]. intros E. by apply (H d).
    - destruct Hr as [(Ht & Ho & Hno)|(Ht & Ho & Hno)].
      + split; [|naive_solver]. intros [Hadd _]. split; [done|]. left. split_and!; try done.
        intros (d & Hk & Hd)%elem_of_list_fmap. specialize (Hno d Hd). apply exact_match_key in Hk. congruence.
      + split; [|naive_solver]. intros [Hadd _]. split; [done|]. right. split_and!; try done.
        intros d Hd He Ha. specialize (Hno d Hd). assert (inexact_match (sr_row r) d = true) by by apply inexact_match_ea.
        congruence.
  Qed.

  Definition added_rows : list srow := map sr_row (filter (fun r => sr_adds r = true) rs).
  Lemma added_rows_spec t : t ∈ added_rows <->
    s_added t = true /\
    ((t ∈ exact /\ row_key t ∉ map d_key ds)
     \/ (t ∈ inexact /\ forall d, d ∈ ds -> d_e d = s_e t -> d_a d = s_a t -> d_v d <> s_v t)).
  Proof.
    unfold added_rows. rewrite elem_of_list_fmap. split.
    - intros (r & -> & Hr). apply elem_of_list_filter in Hr as [Ha Hr]. apply adds_spec in Ha; [|done]. naive_solver.
    - intros [Hadd [[Ht Hk]|[Ht Hk]]].
      + destruct (search_total_exact t Ht) as (r & Hr & <- & Ho & _). exists r. split; [done|].
        apply elem_of_list_filter. split; [|done]. apply adds_spec; naive_solver.
      + destruct (search_total_inexact t Ht) as (r & Hr & <- & Ho & _). exists r. split; [done|].
        apply elem_of_list_filter. split; [|done]. apply adds_spec; naive_solver.
  Qed.
  Lemma added_rows_nodup : NoDup (map row_key added_rows).
  Proof.
    unfold added_rows. rewrite map_map.
    pose proof search_key_nodup as H.
    assert (forall l, NoDup (map (fun r => s_key (sr_row r)) l) -> NoDup (map (fun x => row_key (sr_row x)) (filter (fun r => sr_adds r = true) l))) as K.
    { induction l as [|r l IH]; intros Hl; simpl; [constructor|].
      apply NoDup_cons in Hl as [Hr Hl]. rewrite filter_cons. destruct (decide _); [|by apply IH].
      simpl. constructor; [|by apply IH]. intros (x & Hx & Hin)%elem_of_list_fmap. apply Hr.
      apply elem_of_list_filter in Hin as [_ Hin]. apply elem_of_list_fmap. exists x. split; [|done].
      unfold row_key, s_key in *. congruence. }
    by apply K.
  Qed.

  (** No datom is both inserted and deleted. *)
  Lemma added_not_deleted t : NoDup (map d_key ds) -> t ∈ added_rows -> row_key t ∉ deleted_keys rs.
  Proof.
    intros Hn Ht Hdel. apply added_rows_spec in Ht as [Hadd Ht].
    pose proof Hdel as Hdel0. apply deleted_elem in Hdel as (r & d & Hr & _ & Hm & Hk).
    assert (d ∈ ds) as Hd.
    { apply search_elem in Hr. unfold match_ok in Hr. rewrite Hm in Hr. naive_solver. }
    destruct Ht as [[Ht Hno]|[Ht Hno]].
    - apply Hno. rewrite <- Hk. by apply elem_of_list_fmap_1.
    - unfold row_key, d_key in Hk. injection Hk as He Ha _ Hv. by apply (Hno d).
  Qed.
End search.

(* ---------------------------------------------------------------- update_datoms *)

Lemma update_datoms_Ok st tx rs st' u : update_datoms st tx rs = (st', Ok u) ->
  st' = set_datoms st (after_delete (st_datoms st) rs ++ map (datom_of_search tx) (added_rows rs))
  /\ datoms_unique (st_datoms st') = true.
Proof.
  unfold update_datoms, added_rows. rewrite map_map. destruct (datoms_unique _) eqn:E; [|done].
  intros [= <- <-]. done.
Qed.

Lemma datom_of_search_key tx t : d_key (datom_of_search tx t) = row_key t.
Proof. done. Qed.

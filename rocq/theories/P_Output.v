(** Taking the output of a query apart. *)
From Verif Require Import M_Output Spec_Conn Spec_Transact Spec_Query Spec_Output P_Base P_QueryProj P_QueryConn.

(** Rows of one positive width come back as they were. *)
Section rows.
  Context (w : nat) (Hw : (0 < w)%nat).
  Definition wide (rows : list (list typed_value)) : Prop := Forall (fun r => length r = w) rows.
  Lemma concat_length rows : wide rows -> length (concat rows) = (length rows * w)%nat.
  Proof using Type. clear Hw. induction 1 as [|r rows H _ IH]; [done|]. cbn. rewrite app_length. lia. Qed.
  Lemma row_nonempty (r : list typed_value) : length r = w -> r <> [].
  Proof using Hw. intros H ->. cbn in H. lia. Qed.
  Lemma chunks_concat rows : forall fuel, wide rows -> (length rows <= fuel)%nat -> chunks_of fuel w (concat rows) = rows.
  Proof using Hw.
    induction rows as [|r rows IH]; intros fuel H Hf; [by destruct fuel|]. apply Forall_cons in H as [Hr H]. destruct fuel as [|fuel]; cbn in Hf; [lia|].
    pose proof (row_nonempty r Hr) as Hn. cbn [concat chunks_of]. destruct (r ++ concat rows) as [|x l] eqn:E; [by destruct r|]. rewrite <- E, <- Hr, take_app, drop_app. f_equal. rewrite Hr. apply IH; [done|lia].
  Qed.
  Lemma into_iter_concat rows : forall fuel, wide rows -> (length rows <= fuel)%nat -> rr_into_iter_from fuel w (concat rows) = rows.
  Proof using Hw.
    induction rows as [|r rows IH]; intros fuel H Hf; [destruct fuel; cbn; by rewrite take_nil|]. apply Forall_cons in H as [Hr H]. destruct fuel as [|fuel]; cbn in Hf; [lia|].
    pose proof (row_nonempty r Hr) as Hn. cbn [concat rr_into_iter_from]. rewrite <- Hr, take_app, drop_app. destruct r as [|x r]; [done|]. f_equal. rewrite Hr. apply IH; [done|lia].
  Qed.
  Lemma enough rows : wide rows -> (length rows <= length (concat rows))%nat.
  Proof using Hw. intros H. rewrite (concat_length _ H). nia. Qed.
  Lemma row_concat rows : forall i, wide rows ->
    (if (length (concat rows) <? w * (i + 1))%nat then None else Some (take (w * (i + 1) - w * i) (drop (w * i) (concat rows)))) = rows !! i.
  Proof using Hw.
    intros i H. rewrite (concat_length _ H). destruct (rows !! i) as [r|] eqn:E.
    - pose proof (lookup_lt_Some _ _ _ E). assert ((length rows * w <? w * (i + 1))%nat = false) as -> by (apply Nat.ltb_ge; nia). f_equal. clear H0. revert i E H.
      induction rows as [|r' rows IH]; intros i E H; [done|]. apply Forall_cons in H as [Hr H]. destruct i as [|i]; cbn in E.
      + injection E as <-. rewrite Nat.mul_0_r, drop_0. cbn [concat]. replace (w * (0 + 1) - 0)%nat with (length r') by lia. apply take_app.
      + cbn [concat]. replace (w * S i)%nat with (length r' + w * i)%nat by lia. rewrite drop_app_ge by lia. replace (length r' + w * i - length r')%nat with (w * i)%nat by lia.
        replace (w * (S i + 1) - (length r' + w * i))%nat with (w * (i + 1) - w * i)%nat by lia. by apply IH.
    - apply lookup_ge_None in E. assert ((length rows * w <? w * (i + 1))%nat = true) as -> by (apply Nat.ltb_lt; nia). done.
  Qed.
End rows.

Lemma rel_apart w rows : (0 < w)%nat -> Forall (fun r => length r = w) rows -> let rr := RelResult w (concat rows) in
  rr_rows rr = Ok rows /\ rr_into_iter rr = rows /\ rr_row_count rr = Ok (length rows) /\ (forall i, rr_row rr i = rows !! i) /\ (rr_is_empty rr = true <-> rows = []).
Proof.
  intros Hw H rr. unfold rr_rows, rr_into_iter, rr_row_count, rr_row, rr_is_empty, rr. cbn [rr_width rr_values]. destruct w as [|w'] eqn:Ew; [lia|]. rewrite <- Ew in *. split_and!.
  - f_equal. apply chunks_concat; [lia|done|]. by apply (enough w).
  - apply into_iter_concat; [lia|done|]. by apply (enough w).
  - f_equal. rewrite (concat_length w rows H). apply Nat.div_mul. lia.
  - intros i. apply row_concat; [lia|done].
  - destruct rows as [|r rows]; [done|]. apply Forall_cons in H as [Hr H]. destruct r; [cbn in Hr; lia|]. done.
Qed.

(** The shape of the results of a query is that of its :find. *)
Definition fits (f : find_spec) (r : results) : Prop :=
  match f, r with
  | FRel vs, RRel rows => Forall (fun row => length row = length vs) rows
  | FColl _, RColl _ => True
  | FTuple vs, RTuple o => forall row, o = Some row -> length row = length vs
  | FScalar _, RScalar _ => True
  | _, _ => False
  end.
Lemma rmapM_length {A B} (f : A -> res B) l ys : rmapM f l = Ok ys -> length ys = length l.
Proof. intros H%rmapM_Ok. symmetry. by eapply Forall2_length. Qed.
Lemma run_fits q st f a r : run_algebrized q st f a = Ok r -> fits f r.
Proof.
  unfold run_algebrized. destruct (c_empty (aq_cc a)); [intros [= <-]; destruct f; cbn; [constructor|done|by intros ? [=]|done]|]. destruct (_ && _)%bool.
  { intros [= <-]. destruct f; cbn; try done; [constructor; [by rewrite map_length|constructor]|intros row [= <-]; by rewrite map_length]. }
  destruct (project_vars _ [] 0 (find_vars f)) as [[cols ixs]| |] eqn:Ep; cbn [rbind]; try done. apply project_vars_nodup in Ep.
  destruct (project_named _ _ _) as [more| |]; cbn [rbind]; try done. destruct (check_cc _ _); cbn [rbind]; try done. destruct (negb _); [done|]. destruct (order_indices _ _); [|done].
  destruct f as [vs|v|vs|v]; cbn [find_vars] in *.
  - destruct (rmapM _ _) as [rows| |] eqn:E; cbn; try done. intros [= <-]. cbn. apply rmapM_Ok in E. clear - E Ep. induction E as [|x y l1 l2 H E IH]; constructor; [|done].
    apply rmapM_length in H. congruence.
  - destruct (rmapM _ _); cbn; try done. by intros [= <-].
  - destruct (sql_rows _ _ _ _ _ _ _) as [|row rows]; [intros [= <-]; by cbn|]. destruct (rmapM _ _) as [x| |] eqn:E; cbn; try done. intros [= <-]. cbn. intros y [= <-]. apply rmapM_length in E. congruence.
  - destruct (sql_rows _ _ _ _ _ _ _) as [|row rows]; [intros [= <-]; by cbn|]. destruct ixs; [done|]. destruct (typed_lookup row t); cbn; try done. by intros [= <-].
Qed.
Lemma once_fits q k st qu vals r : q_once q k st qu vals = Ok r -> fits (q_find qu) r.
Proof. unfold q_once. destruct (algebrize k qu vals) as [a| |]; cbn [rbind]; try done. destruct (bool_decide _); [|done]. apply run_fits. Qed.
Lemma output_once q k st qu vals o : q_output q k st qu vals = Ok o -> exists r, q_once q k st qu vals = Ok r /\ o = output_of (q_find qu) r /\ fits (q_find qu) r.
Proof.
  unfold q_output. destruct (q_once q k st qu vals) as [r| |] eqn:E; try done. cbn. intros [= <-]. exists r. split_and!; [done|done|]. by eapply once_fits.
Qed.

Lemma output_rel q k st qu vals o vs : q_output q k st qu vals = Ok o -> q_find qu = FRel vs -> vs <> [] ->
  exists rows rr, q_once q k st qu vals = Ok (RRel rows) /\ into_rel o = Ok rr /\ Forall (fun row => length row = length vs) rows
    /\ rr_rows rr = Ok rows /\ rr_into_iter rr = rows /\ rr_row_count rr = Ok (length rows) /\ (forall i, rr_row rr i = rows !! i) /\ (rr_is_empty rr = true <-> rows = []).
Proof.
  intros (r & Hr & -> & Hf)%output_once Hfind Hvs. rewrite Hfind in Hf. destruct r as [rows|l|t|s]; try done. exists rows. eexists. split; [done|]. split; [done|]. split; [done|].
  rewrite Hfind. cbn [find_vars]. apply rel_apart; [destruct vs; [done|cbn; lia]|done].
Qed.
Lemma output_tuple q k st qu vals o : q_output q k st qu vals = Ok o ->
  match q_find qu with
  | FTuple vs => exists t, q_once q k st qu vals = Ok (RTuple t) /\ into_tuple None o = Ok t
      /\ forall n, into_tuple (Some n) o = if decide (n = length vs) then Ok t else Err EProjector
  | _ => forall b, into_tuple b o = Err EProjector
  end.
Proof.
  intros (r & Hr & -> & Hf)%output_once. destruct (q_find qu) as [vs|v|vs|v] eqn:Eq; destruct r as [rows|l|t|s]; try done. exists t. split; [done|].
  unfold into_tuple. cbn [output_of qo_results qo_spec qr_into_tuple rbind expected_column_count]. split.
  - unfold from_binding_vec. destruct t as [row|]; [|done]. by rewrite (Hf row eq_refl), Nat.eqb_refl.
  - intros n. unfold from_binding_vec. destruct (decide (n = length vs)) as [->|Hn].
    + rewrite Nat.eqb_refl. cbn [negb]. destruct t as [row|]; [|done]. rewrite (Hf row eq_refl), Nat.eqb_refl. cbn [negb]. rewrite Nat.ltb_irrefl. by rewrite take_ge by (by rewrite (Hf row eq_refl)).
    + assert ((length vs =? n)%nat = false) as -> by (apply Nat.eqb_neq; lia). done.
Qed.
Lemma output_shape q k st qu vals o : q_output q k st qu vals = Ok o ->
  match q_find qu with
  | FScalar _ => exists s, q_once q k st qu vals = Ok (RScalar s) /\ into_scalar o = Ok s /\ into_coll o = Err EProjector /\ into_rel o = Err EProjector
  | FColl _ => exists l, q_once q k st qu vals = Ok (RColl l) /\ into_coll o = Ok l /\ into_scalar o = Err EProjector /\ into_rel o = Err EProjector
  | _ => into_scalar o = Err EProjector /\ into_coll o = Err EProjector
  end.
Proof.
  intros (r & Hr & -> & Hf)%output_once. destruct (q_find qu) as [vs|v|vs|v] eqn:Eq; destruct r as [rows|l|t|s]; try done; eauto.
Qed.
Lemma output_number q k st qu vals o : q_output q k st qu vals = Ok o -> q_find qu <> FRel [] ->
  exists r, q_once q k st qu vals = Ok r /\ qr_len (qo_results o) = Ok (number_of r) /\ (qr_is_empty (qo_results o) = true <-> number_of r = 0%nat).
Proof.
  intros Ho Hne. destruct (q_find qu) as [vs|v|vs|v] eqn:Eq.
  - destruct (output_rel q k st qu vals o vs Ho Eq ltac:(congruence)) as (rows & rr & Hq & Hi & _ & _ & _ & Hc & _ & He). exists (RRel rows). split; [done|].
    destruct o as [f [x|x|x|x]]; try done. injection Hi as ->. split; [done|]. cbn. rewrite He. by destruct rows.
  - apply output_once in Ho as (r & Hr & -> & Hf). exists r. rewrite Eq in *. destruct r as [rows|l|t|s]; try done. split_and!; [done|done|]. by destruct l.
  - apply output_once in Ho as (r & Hr & -> & Hf). exists r. rewrite Eq in *. destruct r as [rows|l|t|s]; try done. split_and!; [done|by destruct t|]. by destruct t.
  - apply output_once in Ho as (r & Hr & -> & Hf). exists r. rewrite Eq in *. destruct r as [rows|l|t|s]; try done. split_and!; [done|by destruct s|]. by destruct s.
Qed.
Lemma from_rows w rows : (0 < w)%nat -> Forall (fun r => length r = w) rows -> rows <> [] -> rr_into_iter (rr_from rows) = rows /\ rr_rows (rr_from rows) = Ok rows /\ rr_row_count (rr_from rows) = Ok (length rows).
Proof.
  intros Hw H Hne. destruct rows as [|r rows]; [done|]. pose proof H as H'. apply Forall_cons in H' as [Hr _]. cbn [rr_from]. rewrite Hr.
  change (concat (r :: rows)) with (concat (r :: rows)). destruct (rel_apart w (r :: rows) Hw H) as (A & B & C & _). done.
Qed.

(** Together with the meaning of the query (C44) *)
Lemma output_answer mv c sq q vals o vs : clean mv c -> sqlite_ok sq -> all_readable (cn_disk c) -> safe q vals -> Forall (regular (schema_of c) (q_in q) vals) (q_where q) ->
  well_ordered q -> well_limited q vals -> twinless (cn_disk c) \/ closed_find q -> q_find q = FRel vs -> vs <> [] ->
  q_output sq (Known (schema_of c) no_cache) (cn_disk c) q vals = Ok o ->
  exists l rr, listing (cn_disk c) (schema_of c) q vals l /\ into_rel o = Ok rr /\ rr_into_iter rr = map (fun σ => map σ vs) (up_to (limit_of q vals) l).
Proof.
  intros Hc SQ Hr SF Hn WO WL TW Hf Hvs Ho. destruct (output_rel _ _ _ _ _ _ _ Ho Hf Hvs) as (rows & rr & H1 & H2 & _ & _ & H3 & _).
  destruct (uncached_listing mv c sq q vals (RRel rows) Hc SQ Hr SF Hn WO WL TW H1) as (l & Hl & Hs). exists l, rr. split_and!; try done. rewrite Hf in Hs. cbn in Hs. by rewrite H3, Hs.
Qed.

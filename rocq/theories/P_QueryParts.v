(** Texts made of parts are read exactly if the parts are complete. *)
From Verif Require Import M_Base M_Value M_Upsert M_Entity Spec_Edn P_EdnNum P_Edn P_EdnOrd P_EdnParsed P_TxText P_QueryText Spec_TxText Spec_QueryText Spec_QueryParts.
Open Scope string_scope.

Definition filled_slot (s : slots) (k : part_kind) : Prop :=
  match k with KFind => s_find s <> None | KWith => s_with s <> None | KIn => s_in s <> None | KLimit => s_limit s <> None | KWhere => s_where s <> None | KOrder => s_order s <> None end.
Lemma fill_one s p : (filled_slot s (kind_of p) /\ fill (Some s) p = None)
  \/ (~ filled_slot s (kind_of p) /\ exists s', fill (Some s) p = Some s' /\ forall k, filled_slot s' k <-> filled_slot s k \/ k = kind_of p).
Proof.
  destruct s as [f w i l c o].
  destruct p; cbn;
    match goal with |- context [match ?x with Some _ => None | None => _ end] => destruct x end; try (left; split; congruence);
    right; (split; [congruence|]); (eexists; split; [reflexivity|]); intros []; cbn; split; intros H; try (by left); try (by right); try (by destruct H as [H|H]); congruence.
Qed.
Lemma fill_none ps : foldl fill None ps = None.
Proof. by induction ps. Qed.
Lemma fill_list ps : forall s,
  (NoDup (map kind_of ps) /\ (forall k, k ∈ map kind_of ps -> ~ filled_slot s k)
    /\ exists s', foldl fill (Some s) ps = Some s' /\ forall k, filled_slot s' k <-> filled_slot s k \/ k ∈ map kind_of ps)
  \/ (~ (NoDup (map kind_of ps) /\ (forall k, k ∈ map kind_of ps -> ~ filled_slot s k)) /\ foldl fill (Some s) ps = None).
Proof.
  induction ps as [|p ps IH]; intros s; cbn [map foldl].
  - left. split; [constructor|]. split; [intros k H; by apply elem_of_nil in H|]. exists s. split; [done|]. intros k. rewrite elem_of_nil. tauto.
  - destruct (fill_one s p) as [[A E]|(A & s1 & E & S1)]; rewrite E.
    + right. split; [|apply fill_none]. intros [_ H]. apply (H (kind_of p)); [apply elem_of_list_here|done].
    + destruct (IH s1) as [(N & D & s2 & E2 & S2)|(N & E2)]; rewrite E2.
      * left. split; [constructor; [|done]; intros H; apply (D _ H), S1; by right|]. split.
        { intros k [-> | H]%elem_of_cons; [done|]. intros F. apply (D k H), S1. by left. }
        exists s2. split; [done|]. intros k. rewrite S2, S1, elem_of_cons. tauto.
      * right. split; [|done]. intros [[Np N']%NoDup_cons D]. apply N. split; [done|]. intros k Hk [F | ->]%S1; [|done]. apply (D k); [by apply elem_of_list_further|done].
Qed.
Lemma from_complete ps : (complete ps /\ exists q, from_parts ps = Some q) \/ (~ complete ps /\ from_parts ps = None).
Proof.
  unfold from_parts. destruct (fill_list ps (Slots None None None None None None)) as [(N & _ & s & E & S)|(N & E)]; rewrite E.
  - assert (S' : forall k, filled_slot s k <-> k ∈ map kind_of ps) by (intros k; rewrite S; split; [intros [H|H]; [destruct k; cbn in H; congruence|done]|by right]). clear S E.
    pose proof (S' KFind) as SF. pose proof (S' KWhere) as SW. destruct s as [[f|] w i l [c|] o]; cbn in SF, SW.
    + left. split; [|by eexists]. split; [done|]. split; [apply SF; discriminate|apply SW; discriminate].
    + right. split; [|done]. intros (_ & _ & H). by apply SW in H.
    + right. split; [|done]. intros (_ & H & _). by apply SF in H.
    + right. split; [|done]. intros (_ & H & _). by apply SF in H.
  - right. split; [|done]. intros (H & _). apply N. split; [done|]. intros k _ F. destruct k; cbn in F; congruence.
Qed.

Theorem parts_read show float_of ls ps g t g' : shows_floats show float_of -> Forall2 part_form ls ps -> ls <> [] -> blank g -> written show (EVec (concat ls)) t -> blank g' ->
  (complete ps /\ exists q, read_query float_of (g ++ t ++ g') = QueryRead q) \/ (~ complete ps /\ read_query float_of (g ++ t ++ g') = QueryError).
Proof.
  intros Hs F N B W B'. pose proof (parts_taken show float_of Hs ls ps g t g' "" F N B W B') as E. rewrite app_nil_str in E. unfold read_query. rewrite E.
  destruct (from_complete ps) as [(C & q & ->)|(C & ->)]; [left|right]; (split; [done|]); [by exists q|done].
Qed.

(** Further properties of transactions: C11. *)
From Verif Require Import M_Conn Spec_Partition Spec_Tx Spec_Conn Spec_Upsert Spec_Entity Spec_Transact Spec_Perm.
From Verif Require Import P_Perm Cases.

(* ------------------------------------------------------------------ C11 *)

(** C11: a transaction is a set of entities: reordering or repeating them changes neither acceptance, nor the resulting connection,
    nor the report.  This holds for entities all of whose maps have a :db/id. *)
Theorem C11_set_of_entities : forall mv now c es es', limit_ok mv -> Forall (fun x => ent_named x = true) es ->
  (forall x, x ∈ es <-> x ∈ es') ->
  forall c' r, conn_transact mv now c es = (c', Ok r) <-> conn_transact mv now c es' = (c', Ok r).
Proof. exact set_of_entities. Qed.
Print Assumptions C11_set_of_entities.
Definition family : list entity :=
  [ add (tmp "t") (person "name") (v_str "Ivan"); add (tmp "t") (person "friend") (VPVector [v_str "u"; VPMap [(at_kw (db_ "id"), v_str "w"); (at_kw (person "name"), v_str "Anna")]]);
    add (tmp "u") (person "name") (v_str "Olga"); add (tmp "v") (person "name") (v_str "Olga"); EntMap [(at_kw (db_ "id"), v_str "u"); (at_kw (person "age"), v_int 7)] ].
Definition yllimaf : list entity := rev family ++ family.
Example C11_set_of_entities_case : limit_ok MV /\ Forall (fun x => ent_named x = true) family /\ (forall x, x ∈ family <-> x ∈ yllimaf)
  /\ Cases.is_ok (result case_conn family) = true
  /\ map (fun n => rp_tempids (report case_conn family) !! n) ["t"; "u"; "v"; "w"] = [Some 65543; Some 65545; Some 65545; Some 65546].
Proof.
  split; [by repeat split|]. split; [by repeat constructor|]. split.
  - intros x. unfold yllimaf. rewrite elem_of_app, !elem_of_list_In, <- in_rev. tauto.
  - split; vm_compute; reflexivity.
Qed.

(** Maps without :db/id are numbered in their order, so it matters which comes first, and a repeated map is another entity. *)
Definition anonymous (n : string) : entity := EntMap [(at_kw (person "nick"), v_str n)].
Theorem C11_anonymous_refuted :
  Cases.is_ok (result case_conn [anonymous "a"; anonymous "b"]) = true /\ Cases.is_ok (result case_conn [anonymous "b"; anonymous "a"]) = true
  /\ fact_in (65545, 65539, (SText "a", 10)) (disk (after case_conn [anonymous "a"; anonymous "b"])) = true
  /\ fact_in (65545, 65539, (SText "a", 10)) (disk (after case_conn [anonymous "b"; anonymous "a"])) = false
  /\ fact_in (65546, 65539, (SText "a", 10)) (disk (after case_conn [anonymous "a"; anonymous "a"])) = true.
Proof. repeat split; vm_compute; reflexivity. Qed.
Print Assumptions C11_anonymous_refuted.

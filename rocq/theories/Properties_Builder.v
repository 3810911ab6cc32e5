(** Properties of the entity builder: C56.

    A program is a list of calls on a builder ([builder_call]); [says] lists the assertions and retractions of a call, and [writes s x y]
    that the EDN entity [y] says what [x] says under the schema [s] (Spec_Builder): a typed value is written as a literal, and a tempid,
    an entid or an ident in the place of a value as a string, a number or a keyword. *)
From Verif Require Import M_Builder Spec_Partition Spec_Tx Spec_Conn Spec_Upsert Spec_Entity Spec_Transact Spec_Builder.
From Verif Require Import P_Builder Cases.

(** Say that Ivan, who has a name, is 31 and has a new friend Ann, who is nobody's spouse and has the nicks "A" and "B". *)
Definition case_prog : list builder_call :=
  [ BDescribeTempid "ann" [(OAdd, at_kw (person "name"), VPAtom (VTyped (TVString "Ann")));
                           (OAdd, at_kw (person "nick"), VPVector [VPAtom (VTyped (TVString "A")); VPAtom (VTyped (TVString "B"))])];
    BNamed "unused";
    BDescribe (EPLookup (at_kw (person "name")) (VTyped (TVString "Ivan")))
      [(OAdd, at_kw (person "age"), VPAtom (VTyped (TVLong 31))); (ORetract, at_kw (person "nick"), VPAtom (VTyped (TVString "Vanya")));
       (OAdd, at_kw (person "friend"), VPTempId (TExternal "ann"))];
    BPush OAdd (ent 65544) (at_kw (person "friend")) (VPAtom (VTyped (TVRef 65544))) ].
Definition case_text : list entity :=
  let ivan := EPLookup (at_kw (person "name")) (VEdn (EText "Ivan")) in
  [ add (tmp "ann") (person "name") (v_str "Ann"); add (tmp "ann") (person "nick") (VPVector [v_str "A"; v_str "B"]);
    add ivan (person "age") (v_int 31); retract ivan (person "nick") (v_str "Vanya"); add ivan (person "friend") (v_str "ann");
    add (ent 65544) (person "friend") (v_int 65544) ].
Lemma typed_person s n t vt : kw_is_backward (person n) = false ->
  at_type <$> (sc_ident_map s !! person n ≫= fun e => sc_attribute_map s !! e) = Some t -> about_type s (at_kw (person n)) vt -> vt = t.
Proof.
  intros Hb Ht. unfold about_type, at_kw. rewrite Hb. intros (e & at_ & H1 & H2 & H3). unfold reads_name in H1. rewrite H1 in Ht. cbn [mbind option_bind] in Ht. rewrite H2 in Ht. cbn in Ht. congruence.
Qed.
Lemma case_types : let s := schema_of case_conn in (forall vt, about_type s (at_kw (person "name")) vt -> vt = VTString)
  /\ (forall vt, about_type s (at_kw (person "nick")) vt -> vt = VTString) /\ (forall vt, about_type s (at_kw (person "age")) vt -> vt = VTLong)
  /\ (forall vt, about_type s (at_kw (person "friend")) vt -> vt = VTRef).
Proof. cbv zeta. split_and!; intros vt; apply typed_person; vm_compute; reflexivity. Qed.
Lemma case_writes : Forall2 (writes (schema_of case_conn)) (flat_map says case_prog) case_text.
Proof.
  destruct case_types as (Hname & Hnick & Hage & Hfriend). revert Hname Hnick Hage Hfriend. generalize (schema_of case_conn) as s. intros s Hname Hnick Hage Hfriend.
  assert (writes_entity s (EPLookup (at_kw (person "name")) (VTyped (TVString "Ivan"))) (EPLookup (at_kw (person "name")) (VEdn (EText "Ivan")))) as Hivan.
  { constructor. intros vt Hvt. assert (about_type s (at_kw (person "name")) vt) as H by exact Hvt. rewrite (Hname _ H). by constructor. }
  constructor; [split_and!; [done..|constructor|]; intros vt H; rewrite (Hname _ H); by constructor; constructor|].
  constructor; [split_and!; [done..|constructor|]; intros vt H; rewrite (Hnick _ H); apply wv_vector; constructor; [by constructor; constructor|constructor; [by constructor; constructor|constructor]]|].
  constructor; [split_and!; [done..|exact Hivan|]; intros vt H; rewrite (Hage _ H); by constructor; constructor|].
  constructor; [split_and!; [done..|exact Hivan|]; intros vt H; rewrite (Hnick _ H); by constructor; constructor|].
  constructor; [split_and!; [done..|exact Hivan|]; intros vt H; rewrite (Hfriend _ H); by constructor|].
  constructor; [split_and!; [done..|constructor|]; intros vt H; rewrite (Hfriend _ H); by constructor; constructor|constructor].
Qed.

(* ------------------------------------------------------------------ C56 *)

(** C56: a transaction said through a builder does what the same transaction said in EDN does, at any point of a session: the same
    changes, the same report, or the same error. *)
Theorem C56_builder : forall mv now ig prog es, Forall2 (writes (ig_schema ig)) (flat_map says prog) es ->
  builder_transact mv now ig (builder_run prog) = ig_transact mv now ig es.
Proof. exact builder_transact_same. Qed.
Print Assumptions C56_builder.

(** ... and so does committing a builder: nothing is left of it if it fails. *)
Theorem C56_commit : forall mv now c prog es, Forall2 (writes (schema_of c)) (flat_map says prog) es ->
  builder_commit mv now c (conn_begin c) (builder_run prog) = conn_transact mv now c es.
Proof. exact builder_commit_same. Qed.
Print Assumptions C56_commit.

Example C56_case : Forall2 (writes (schema_of case_conn)) (flat_map says case_prog) case_text
  /\ accepted MV 4000 case_conn case_text (after case_conn case_text) (report case_conn case_text)
  /\ fact_in (65543, 65536, (SInt 31, 5)) (disk (after case_conn case_text)) = true
  /\ fact_in (65545, 65541, (SText "Ann", 10)) (disk (after case_conn case_text)) = true.
Proof.
  split; [exact case_writes|]. split; [apply accepts; [exact case_clean|vm_compute; reflexivity]|]. split; vm_compute; reflexivity.
Qed.

(** The hypothesis about refs is needed: a number that the builder passes as a long is rejected where EDN takes it for an entid. *)
Theorem C56_long_refuted : ~ (forall mv now c e a n, clean mv c ->
  builder_commit mv now c (conn_begin c) (builder_run [BPush OAdd e a (VPAtom (VTyped (TVLong n)))]) = conn_transact mv now c [EntAdd OAdd e a (VPAtom (VEdn (EInt n)))]).
Proof.
  intros H. specialize (H MV 4000 case_conn (ent 65543) (at_kw (person "friend")) 65544 case_clean).
  assert (is_ok (builder_commit MV 4000 case_conn (conn_begin case_conn) (builder_run [BPush OAdd (ent 65543) (at_kw (person "friend")) (VPAtom (VTyped (TVLong 65544)))])).2 = false) as H1 by (vm_compute; reflexivity).
  assert (is_ok (conn_transact MV 4000 case_conn [EntAdd OAdd (ent 65543) (at_kw (person "friend")) (VPAtom (VEdn (EInt 65544)))]).2 = true) as H2 by (vm_compute; reflexivity).
  rewrite H, H2 in H1. discriminate H1.
Qed.
Print Assumptions C56_long_refuted.

Definition built (p : list builder_call) : conn * res txreport := builder_commit MV 4000 case_conn (conn_begin case_conn) (builder_run p).
Lemma built_ok p : is_ok (built p).2 = true -> exists r, builder_commit MV 4000 case_conn (conn_begin case_conn) (builder_run p) = ((built p).1, Ok r).
Proof. unfold built. destruct (builder_commit _ _ _ _ _) as [c [r| |]]; cbn; [by exists r|discriminate..]. Qed.
Definition both (f g : Z * (sqlval * Z)) (st : store) : bool := existsb (fun x : fact => bool_decide (x.1.2 = f.1 /\ x.2 = f.2 /\ (x.1.1, g.1, g.2) ∈ facts st)) (facts st).
Lemma both_iff f g st : both f g st = true <-> exists e, (e, f.1, f.2) ∈ facts st /\ (e, g.1, g.2) ∈ facts st.
Proof.
  unfold both. rewrite existsb_exists. split.
  - intros ([[e a] v] & Hin%elem_of_list_In & (H1 & H2 & H3)%bool_decide_eq_true_1). cbn in *. subst. eauto.
  - intros (e & H1%elem_of_list_In & H2). exists (e, f.1, f.2). split; [done|]. by apply bool_decide_eq_true_2.
Qed.
Definition numbered_prog : list builder_call :=
  [BNumbered 1; BPush OAdd (EPTempId (TInternal 1)) (at_kw (person "age")) (VPAtom (VTyped (TVLong 50)));
   BPush OAdd (ent 65543) (at_kw (person "friend")) (VPMap [(at_kw (person "name"), VPAtom (VTyped (TVString "Ann")))])].
(** A numbered tempid is not like a named one: the tempids that the transactor gives to maps without :db/id are numbered 1, 2, .. too, so
    that the entity the program calls 1 and the friend become one. *)
Theorem C56_numbered_refuted : ~ (forall mv now c prog n z c1 r1 c2 r2 a v b w, clean mv c -> z ∉ flat_map entity_names (flat_map says prog) ->
  builder_commit mv now c (conn_begin c) (builder_run prog) = (c1, Ok r1) ->
  builder_commit mv now c (conn_begin c) (builder_run (map (named_instead n z) prog)) = (c2, Ok r2) ->
  (exists e, (e, a, v) ∈ facts (disk c1) /\ (e, b, w) ∈ facts (disk c1)) -> exists e, (e, a, v) ∈ facts (disk c2) /\ (e, b, w) ∈ facts (disk c2)).
Proof.
  intros H. destruct (built_ok numbered_prog) as [r1 O1]; [vm_compute; reflexivity|]. destruct (built_ok (map (named_instead 1 "z") numbered_prog)) as [r2 O2]; [vm_compute; reflexivity|].
  assert ("z" ∉ flat_map entity_names (flat_map says numbered_prog)) as Hz by (by apply (bool_decide_eq_true_1 _)).
  assert (both (65536, (SInt 50, 5)) (65541, (SText "Ann", 10)) (disk (built numbered_prog).1) = true) as F1 by (vm_compute; reflexivity).
  assert (both (65536, (SInt 50, 5)) (65541, (SText "Ann", 10)) (disk (built (map (named_instead 1 "z") numbered_prog)).1) = false) as F2 by (vm_compute; reflexivity).
  revert O1 O2 F1 F2. generalize (built numbered_prog).1 as c1, (built (map (named_instead 1 "z") numbered_prog)).1 as c2. intros c1 c2 O1 O2 F1 F2.
  apply both_iff in F1. cbn [fst snd] in F1. pose proof (H MV 4000 case_conn numbered_prog 1 "z" c1 r1 c2 r2 65536 (SInt 50, 5) 65541 (SText "Ann", 10) case_clean Hz O1 O2 F1) as F3.
  apply not_true_iff_false in F2. apply F2. by apply both_iff.
Qed.
Print Assumptions C56_numbered_refuted.

(** Concrete vocabularies. *)
From Verif Require Import M_Vocab Spec_Value Spec_Partition Spec_Tx Spec_Conn Spec_Transact Spec_Schema Spec_Vocab P_SchemaThms P_EnsureThms Cases Cases_Schema.

Definition link (n : string) : keyword := nskw "link" n.
Definition title : keyword * attribute := (link "title", Attr VTString false None true true false false).
Definition url (u : option uniq) : keyword * attribute := (link "url", Attr VTString false u true false false false).
Definition tags : keyword * attribute := (link "tags", Attr VTString true None true false false false).
Definition links_with (v : Z) (l : list (keyword * attribute)) : definition := def_new (nskw "example" "links") v l.
Definition links : definition := links_with 1 [title; url (Some UIdentity)].
(** A second version in which the address is no longer unique, and the first version with an attribute more *)
Definition links2 : definition := links_with 2 [title; url None].
Definition links_more : definition := links_with 1 [title; tags; url (Some UIdentity)].
Definition links_other : definition := links_with 1 [title; url None].

Definition links_dump := Eval vm_compute in dump (conn_ensure MV 4000 case_conn links).1.
Definition links_conn : conn := undump links_dump.
Lemma links_conn_eq : links_conn = (conn_ensure MV 4000 case_conn links).1.
Proof.
  assert (links_dump = dump (conn_ensure MV 4000 case_conn links).1) as E by (vm_compute; reflexivity).
  unfold links_conn. rewrite E. exact (undump_dump _).
Qed.
Lemma links_installed : conn_ensure MV 4000 case_conn links = (links_conn, Ok Installed).
Proof.
  rewrite links_conn_eq. assert ((conn_ensure MV 4000 case_conn links).2 = Ok Installed) as E by (vm_compute; reflexivity).
  by rewrite <- E, <- surjective_pairing.
Qed.

(* ---------------------------------------------------------------- deciding the hypotheses *)

Definition core_b (s : schema) : bool :=
  (forallb (fun x : keyword * Z => bool_decide (sc_ident_map s !! x.1 = Some x.2)) core_names
   && forallb (fun x : Z * attribute => bool_decide (sc_attribute_map s !! x.1 = Some x.2)) core_attributes)%bool.
Lemma core_sound s : core_b s = true -> core_intact s.
Proof.
  unfold core_b. intros [H1 H2]%andb_true_iff. rewrite forallb_forall in H1, H2.
  split; intros x Hx%elem_of_list_In; [exact (proj1 (bool_decide_eq_true _) (H1 _ Hx))|exact (proj1 (bool_decide_eq_true _) (H2 _ Hx))].
Qed.
Definition in_parts (l : list (string * partition)) (e : Z) : bool := existsb (fun x : string * partition => (pt_start x.2 <=? e) && (e <? pt_next x.2))%bool l.
Definition allocated_b (c : conn) : bool := forallb (fun f : fact => in_parts (map_to_list (md_parts (cn_md c))) f.1.1) (facts (disk c)).
Lemma allocated_sound c : allocated_b c = true -> all_allocated c.
Proof.
  unfold allocated_b. rewrite forallb_forall. intros H e a p Hf%elem_of_list_In. specialize (H _ Hf). apply existsb_exists in H as ([n q] & Hq & [H1 H2]%andb_true_iff).
  exists n, q. split; [apply elem_of_map_to_list; by apply elem_of_list_In|]. cbn in H1, H2. apply Z.leb_le in H1. apply Z.ltb_lt in H2. done.
Qed.
Definition acceptable_b (d : definition) : bool :=
  let names := df_name d :: (df_attributes d).*1 in
  (bool_decide (NoDup names) && forallb (fun k => storable_b k && negb (bool_decide (k ∈ core_names.*1))) names && (0 <? df_version d) && (df_version d <? U32_MAX)
   && forallb (fun x : keyword * attribute => negb (at_no_history x.2)) (df_attributes d))%bool.
Lemma acceptable_sound d : acceptable_b d = true -> acceptable d.
Proof.
  unfold acceptable_b. intros [[[[H1%bool_decide_eq_true H2]%andb_true_iff H3%Z.ltb_lt]%andb_true_iff H4%Z.ltb_lt]%andb_true_iff H5]%andb_true_iff.
  rewrite forallb_forall in H2, H5. split; [exact H1|]. split; [|split; [done|]].
  - apply Forall_forall. intros k Hk%elem_of_list_In. specialize (H2 _ Hk). apply andb_true_iff in H2 as [H2 H6].
    split; [by apply storable_sound|]. by apply negb_true_iff, bool_decide_eq_false in H6.
  - apply Forall_forall. intros x Hx%elem_of_list_In. specialize (H5 _ Hx). by apply negb_true_iff.
Qed.
Lemma new_unique_known c d : (forall x, x ∈ df_attributes d -> sc_ident_map (schema_of c) !! x.1 = None) -> uniqueness_known c d.
Proof. intros H x a old Hx _ Ha. rewrite (H x Hx) in Ha. discriminate Ha. Qed.

(* ---------------------------------------------------------------- definitions that do not work out *)

(** An attribute without history, and a version out of range *)
Definition forgetful : definition := def_new (nskw "example" "forgetful") 1 [(nskw "forget" "me", Attr VTString false None true false false true)].
Definition zero : definition := def_new (nskw "example" "zero") 0 [title].
(** :person/nick as it is in the store, with nothing said about fulltext *)
Definition nicks : definition := def_new (nskw "example" "nicks") 1 [(person "nick", Attr VTString true None false false false false)].
(** A unique attribute that the definition declares not unique *)
Definition old_code : list entity :=
  install "c" (nskw "old" "code") "string" "one" (identity_index ++ [(db_ "fulltext", v_bool false); (db_ "isComponent", v_bool false); (db_ "noHistory", v_bool false)]).
Definition codes : definition := def_new (nskw "example" "codes") 1 [(nskw "old" "code", Attr VTString false None true false false false)].
Definition code_conn : conn := (conn_transact MV 4000 case_conn old_code).1.

Lemma check_err mv now c d e : check_vocabulary (disk c) (schema_of c) d = Err e -> conn_ensure mv now c d = (c, Err e).
Proof. intros H. unfold conn_ensure, ensure_vocabulary, ig_check. cbn [ibind conn_begin ig_store ig_schema]. rewrite H. reflexivity. Qed.
Lemma ensure_err mv now c d e : (conn_ensure mv now c d).2 = Err e -> conn_ensure mv now c d = (c, Err e).
Proof.
  unfold conn_ensure. destruct (ensure_vocabulary _ _ _ _) as [ig [o|x|p]]; cbn [conn_finish snd]; [|congruence..].
  destruct (conn_commit c ig) as [[c' t]|x|p]; cbn [snd]; congruence.
Qed.
Definition again_b (c : conn) (d : definition) : bool :=
  let x := conn_ensure MV 5000 c d in
  (core_b (schema_of c) && match x.2 with Ok Installed => true | _ => false end && tidy_b (st_log (disk x.1)))%bool.
Lemma again c d e : orderly MV c -> again_b c d = true -> check_vocabulary (disk (conn_ensure MV 5000 c d).1) (schema_of (conn_ensure MV 5000 c d).1) d = Err e ->
  orderly MV c /\ core_intact (schema_of c) /\ conn_ensure MV 5000 c d = ((conn_ensure MV 5000 c d).1, Ok Installed) /\ tidy (st_log (disk (conn_ensure MV 5000 c d).1))
  /\ forall now', (conn_ensure MV now' (conn_ensure MV 5000 c d).1 d).2 = Err e.
Proof.
  unfold again_b. generalize (conn_ensure MV 5000 c d). intros [c' o] Ho [[H1 H2]%andb_true_iff H3]%andb_true_iff He. cbn [fst snd] in *.
  split; [exact Ho|]. split; [by apply core_sound|]. split; [by destruct o as [[]| |]|]. split; [by apply tidy_sound|]. intros now'. by rewrite (check_err _ _ _ _ _ He).
Qed.
Lemma no_history_again : exists mv now c d c', orderly mv c /\ core_intact (schema_of c) /\ quiet d
  /\ conn_ensure mv now c d = (c', Ok Installed) /\ tidy (st_log (disk c')) /\ forall now', (conn_ensure mv now' c' d).2 = Err EConflictingAttributeDefinitions.
Proof.
  destruct (again case_conn forgetful EConflictingAttributeDefinitions case_orderly) as (H1 & H2 & H3 & H4 & H5); [vm_compute; reflexivity..|].
  exists MV, 5000, case_conn, forgetful. eexists. split; [exact H1|]. split; [exact H2|]. split; [split; reflexivity|]. split; [exact H3|]. split; [exact H4|exact H5].
Qed.
Lemma version_again : exists mv now c d c', orderly mv c /\ core_intact (schema_of c) /\ quiet d
  /\ conn_ensure mv now c d = (c', Ok Installed) /\ tidy (st_log (disk c')) /\ forall now', (conn_ensure mv now' c' d).2 = Err EInvalidVocabularyVersion.
Proof.
  destruct (again case_conn zero EInvalidVocabularyVersion case_orderly) as (H1 & H2 & H3 & H4 & H5); [vm_compute; reflexivity..|].
  exists MV, 5000, case_conn, zero. eexists. split; [exact H1|]. split; [exact H2|]. split; [split; reflexivity|]. split; [exact H3|]. split; [exact H4|exact H5].
Qed.
Definition code_history : list conn_op := case_history ++ [CTransact 4000 old_code].
Lemma code_tidy : tidy_b (st_log (disk code_conn)) = true.
Proof. vm_compute. reflexivity. Qed.
Lemma transact_step mv now c es : (conn_step mv c (CTransact now es)).1 = (conn_transact mv now c es).1.
Proof. unfold conn_step. destruct (conn_transact mv now c es) as [c' [r|e|p]]; reflexivity. Qed.
Lemma code_conn_run : code_conn = run code_history.
Proof. unfold code_conn, code_history. rewrite case_conn_run. unfold run, conn_run. rewrite fold_left_app. cbn [fold_left]. symmetry. apply transact_step. Qed.
Lemma code_orderly : orderly MV code_conn.
Proof. pose proof code_tidy as H. rewrite code_conn_run in H |- *. apply (run_orderly code_history); [reflexivity|exact H]. Qed.
Lemma adopted_again : exists mv now c d c', orderly mv c /\ core_intact (schema_of c) /\ acceptable d /\ quiet d
  /\ conn_ensure mv now c d = (c', Ok Installed) /\ tidy (st_log (disk c')) /\ forall now', (conn_ensure mv now' c' d).2 = Err EConflictingAttributeDefinitions.
Proof.
  destruct (again code_conn codes EConflictingAttributeDefinitions code_orderly) as (H1 & H2 & H3 & H4 & H5); [vm_compute; reflexivity..|].
  exists MV, 5000, code_conn, codes. eexists. split; [exact H1|]. split; [exact H2|]. split; [apply acceptable_sound; vm_compute; reflexivity|].
  split; [split; reflexivity|]. split; [exact H3|]. split; [exact H4|exact H5].
Qed.
Lemma existing_refused : exists mv now c d, orderly mv c /\ core_intact (schema_of c) /\ acceptable d /\ quiet d /\ uniqueness_known c d
  /\ (forall x, x ∈ df_attributes d -> exists a, sc_ident_map (schema_of c) !! x.1 = Some a /\ sc_attribute_map (schema_of c) !! a = Some x.2)
  /\ conn_ensure mv now c d = (c, Err EBadSchemaAssertion).
Proof.
  assert (forall x, x ∈ df_attributes nicks -> exists a, sc_ident_map (schema_of case_conn) !! x.1 = Some a /\ sc_attribute_map (schema_of case_conn) !! a = Some x.2) as Hx.
  { intros x [->|[]%elem_of_nil]%elem_of_cons. eexists. split; vm_compute; reflexivity. }
  exists MV, 5000, case_conn, nicks. split; [exact case_orderly|]. split; [apply core_sound; vm_compute; reflexivity|]. split; [apply acceptable_sound; vm_compute; reflexivity|].
  split; [split; reflexivity|]. split; [|split; [exact Hx|]].
  - intros x a old Hin Hu Ha Hold. destruct (Hx x Hin) as (a' & Ha' & Hat). rewrite Ha in Ha'. injection Ha' as <-. rewrite Hold in Hat. injection Hat as ->. intros Hne. exact (False_ind _ (Hne Hu)).
  - assert ((conn_ensure MV 5000 case_conn nicks).2 = Err EBadSchemaAssertion) as E by (vm_compute; reflexivity).
    revert E. apply ensure_err.
Qed.

(* ---------------------------------------------------------------- several *)

Definition notes : definition := def_new (nskw "example" "notes") 3 [(nskw "note" "text", Attr VTString false None true true false false)].
Definition marks : definition := def_new (nskw "example" "marks") 1 [(nskw "mark" "of", Attr VTRef true None true false true false); (nskw "mark" "at", Attr VTInstant false None true false false false)].
Definition three : voc_source := VocSource [notes; links_more; marks] (fun ig _ => (ig, Ok tt)) (fun ig => (ig, Ok tt)).
Lemma three_quiet : quiet_source three.
Proof. split; [done|]. split; [done|]. intros d [->|[->|[->|[]%elem_of_nil]%elem_of_cons]%elem_of_cons]%elem_of_cons; split; reflexivity. Qed.
Definition known_b (c : conn) (d : definition) : bool :=
  forallb (fun x : keyword * attribute => match sc_ident_map (schema_of c) !! x.1 with
    | Some a => match sc_attribute_map (schema_of c) !! a with Some old => bool_decide (at_unique old = at_unique x.2) | None => true end
    | None => true end) (df_attributes d).
Lemma known_sound c d : known_b c d = true -> uniqueness_known c d.
Proof.
  unfold known_b. rewrite forallb_forall. intros H x a old Hx%elem_of_list_In Hu Ha Hat Hne. specialize (H x Hx). rewrite Ha, Hat in H. apply bool_decide_eq_true in H. congruence.
Qed.
Lemma three_acceptable d : d ∈ vs_definitions three -> acceptable d /\ uniqueness_known links_conn d.
Proof.
  intros [->|[->|[->|[]%elem_of_nil]%elem_of_cons]%elem_of_cons]%elem_of_cons; (split; [apply acceptable_sound|apply known_sound]; vm_compute; reflexivity).
Qed.
Lemma links_tidy : tidy_b (st_log (disk links_conn)) = true.
Proof. vm_compute. reflexivity. Qed.
Lemma links_orderly : orderly MV links_conn.
Proof.
  assert (core_intact (schema_of case_conn)) as Hcore by (apply core_sound; vm_compute; reflexivity).
  assert (all_allocated case_conn) as Hall by (apply allocated_sound; vm_compute; reflexivity).
  assert (acceptable links) as Hd by (apply acceptable_sound; vm_compute; reflexivity).
  assert (uniqueness_known case_conn links) as Hk by (apply known_sound; vm_compute; reflexivity).
  pose proof (tidy_sound _ links_tidy) as Hti. pose proof case_orderly as Ho.
  exact (ensured_orderly _ _ _ _ _ _ Ho Hcore Hall Hd (fun _ _ => conj eq_refl eq_refl) Hk links_installed Hti).
Qed.

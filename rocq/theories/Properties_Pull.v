(** C45: pull. *)
From Verif Require Import M_Pull Spec_Tx Spec_Conn Spec_Transact Spec_Cache Spec_Pull Spec_Schema P_Pull Cases Cases_Cache Cases_Schema Cases_Pull.

(** A pull of an unambiguous expression gives, for each of the entities, the attributes that were asked for and that it has, with their
    values; and nothing else. *)
Theorem C45_pull : forall mv c l p es m, clean mv c -> unambiguous (schema_of c) l -> prepare (schema_of c) l = Ok p ->
  pull p (schema_of c) (disk c) es = Ok m -> pulls (disk c) (schema_of c) es (asks (schema_of c) l) (asks_id l) m.
Proof. exact thm_pull. Qed.
Print Assumptions C45_pull.
(** It succeeds if the values can be read back (C21). *)
Theorem C45_total : forall mv c l p es, clean mv c -> unambiguous (schema_of c) l ->
  (forall a k, asks (schema_of c) l a k -> readable (disk c) a) -> prepare (schema_of c) l = Ok p ->
  exists m, pull p (schema_of c) (disk c) es = Ok m.
Proof. exact thm_pull_total. Qed.
Print Assumptions C45_total.
Definition asked : list pull_spec :=
  [ PuAttr (PuIdent (person "name")) (Some (nskw "as" "name")); PuAttr (PuEntid 65539) None; PuAttr (PuIdent (person "friend")) None;
    PuAttr (PuIdent db_id) None; PuAttr (PuIdent (person "unheard")) None; PuAttr (PuIdent (person "bio")) None ].
Example C45_case : clean MV case_conn /\ unambiguous (schema_of case_conn) asked
  /\ forallb (readableb (disk case_conn)) (map fst (asked_pairs (schema_of case_conn) asked)) = true
  /\ map (pulled_as case_conn asked [65544; 65543; 65536] 65544)
       [nskw "as" "name"; person "name"; person "friend"; person "nick"; db_id]
     = map Ok [Some (BScalar (TVString "Petr")); None; Some (BVec [TVRef 65543]); None; Some (BScalar (TVRef 65544))]
  /\ pulled_as case_conn asked [65544; 65543; 65536] 65543 (person "nick") = Ok (Some (BVec [TVString "Vanya"]))
  /\ is_ok (pulled_as case_conn [PuAttr (PuIdent (person "name")) None; PuWildcard] [65543] 65543 (person "name")) = true.
Proof.
  split; [exact case_clean|]. split; [apply unambiguousb_sound; vm_compute; reflexivity|]. vm_compute. split_and!; reflexivity.
Qed.

(** The same for pulling by attribute entids, in a connection whose idents are in order (C27); no condition on the attributes. *)
Theorem C45_attributes : forall mv c es attrs m, orderly mv c -> pull_attributes_for_entities (schema_of c) (disk c) es attrs = Ok m ->
  pulls (disk c) (schema_of c) es (fun a k => is_Some (sc_attribute_map (schema_of c) !! a) /\ a ∈ attrs /\ sc_entid_map (schema_of c) !! a = Some k)
    (fun _ => False) m.
Proof. exact thm_pull_attributes. Qed.
Print Assumptions C45_attributes.
(** Pulling for one entity is pulling for a list of one. *)
Theorem C45_entity : forall s st e attrs, pull_attributes_for_entity s st e attrs =
  let! m := pull_attributes_for_entities s st [e] attrs in Ok (default ∅ (m !! e)).
Proof. exact thm_pull_entity. Qed.
Print Assumptions C45_entity.
Example C45_attributes_case : orderly MV case_conn
  /\ (let! m := pull_attributes_for_entity (schema_of case_conn) (disk case_conn) 65543 [65541; 65536; 65541; 65538] in
      Ok (map (m !!.) [person "name"; person "age"; person "friend"]))
     = Ok [Some (BScalar (TVString "Ivan")); Some (BScalar (TVLong 30)); None].
Proof. split; [exact case_orderly|vm_compute; reflexivity]. Qed.

(** What an ambiguous expression asks for may be missing: a wildcard ends the expression, and it takes names back; and of two attributes
    under one name only one is given. *)
Theorem C45_after_wildcard_refuted : asks_id [PuWildcard; PuAttr (PuIdent db_id) None] db_id
  /\ pulled_as case_conn [PuWildcard; PuAttr (PuIdent db_id) None] [65543] 65543 db_id = Ok None.
Proof. split; [by exists None; split; [right; left|]|vm_compute; reflexivity]. Qed.
Print Assumptions C45_after_wildcard_refuted.
Theorem C45_renamed_refuted : asks (schema_of case_conn) [PuAttr (PuIdent (person "name")) (Some (nskw "as" "name")); PuWildcard] 65541 (nskw "as" "name")
  /\ pulled_as case_conn [PuAttr (PuIdent (person "name")) (Some (nskw "as" "name")); PuWildcard] [65543] 65543 (nskw "as" "name") = Ok None.
Proof.
  split; [apply asked_pairs_iff, elem_of_app; left|vm_compute; reflexivity].
  assert (named_pair (schema_of case_conn) 65541 (Some (nskw "as" "name")) = [(65541, nskw "as" "name")]) as E by (vm_compute; reflexivity).
  assert (sc_ident_map (schema_of case_conn) !! person "name" = Some 65541) as E2 by (vm_compute; reflexivity).
  rewrite decide_False by done. rewrite E2. cbn [default from_option id]. rewrite E. by left.
Qed.
Print Assumptions C45_renamed_refuted.
Theorem C45_one_name_refuted : pulled_as case_conn [PuAttr (PuEntid 65541) (Some (nskw "as" "it")); PuAttr (PuEntid 65536) (Some (nskw "as" "it"))] [65543] 65543 (nskw "as" "it")
    = Ok (Some (BScalar (TVString "Ivan")))
  /\ (exists f, facts_about (disk case_conn) 65543 65536 = [f] /\ from_sql_value_pair f.2.1 f.2.2 = Ok (TVLong 30)).
Proof. split; [vm_compute; reflexivity|]. eexists. split; vm_compute; reflexivity. Qed.
Print Assumptions C45_one_name_refuted.

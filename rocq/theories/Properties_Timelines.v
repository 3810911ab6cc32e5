(** Rewinding: C31. *)
From Verif Require Import M_Timelines Spec_Tx Spec_Conn Spec_Transact Spec_Timelines P_Timelines Cases Cases_Timelines.

(* ------------------------------------------------------------------ C31 *)

(** C31: when a history of transactions about data is moved off the main timeline, the store has exactly the facts it had before,
    its main timeline is the one from before, the moved transactions are intact on the other timeline, and the partition map
    returned is the one that the earlier store would be opened with. *)
Theorem C31_rewound : forall mv now c1 l c2 from timeline st' sc pm',
  clean mv c1 -> clean_history mv c1 l -> c2 = conn_run mv c1 l -> never_uninstalled (st_log (disk c2)) ->
  since from c1 c2 -> only_data from c2 -> reads_back from c2 -> next_tx_unused c2 ->
  move_from_main_timeline mv now (disk c2) (schema_of c2) (parts_of c2) from timeline = (st', Ok (sc, pm')) ->
  rewound from timeline c1 c2 st' /\ sc = None /\ read_partition_map (disk c1) = Ok pm'.
Proof. exact thm_rewound. Qed.
Print Assumptions C31_rewound.
Example C31_rewound_case : clean MV case_conn /\ clean_history MV case_conn busy /\ never_uninstalled (st_log (disk busy_conn))
  /\ since 268435459 case_conn busy_conn /\ only_data 268435459 busy_conn /\ reads_back 268435459 busy_conn /\ next_tx_unused busy_conn
  /\ rewinding busy_conn 268435459 1
     = (rewound_store busy_conn 268435459 1, Ok (rewound_schema busy_conn 268435459 1, rewound_parts busy_conn 268435459 1))
  /\ people busy_conn = [(65544, 65536, (SInt 40, 5)); (65544, 65541, (SText "Petr", 10)); (65543, 65541, (SText "Ivan", 10));
       (65543, 65537, (SText "a life", 10)); (65543, 65539, (SText "Vanechka", 10)); (65545, 65538, (SInt 65543, 0));
       (65543, 65539, (SText "Vanya", 10)); (65543, 65536, (SInt 32, 5)); (65545, 65541, (SText "Olga", 10))]
  /\ filter (fun x : fact => bool_decide (65542 < x.1.1 < 268435456) = true) (facts (rewound_store busy_conn 268435459 1))
     = [(65544, 65536, (SInt 40, 5)); (65544, 65541, (SText "Petr", 10)); (65543, 65541, (SText "Ivan", 10));
        (65543, 65537, (SText "a life", 10)); (65544, 65538, (SInt 65543, 0)); (65543, 65539, (SText "Vanya", 10)); (65543, 65536, (SInt 30, 5))].
Proof.
  split; [exact case_clean|]. split; [by apply only_transacts_clean|]. split; [apply no_uninstall_sound; vm_compute; reflexivity|].
  split; [apply since_sound; vm_compute; reflexivity|]. split; [apply only_data_sound; vm_compute; reflexivity|].
  split; [apply reads_back_sound; vm_compute; reflexivity|]. split; [apply next_tx_unused_sound; vm_compute; reflexivity|].
  split; [apply rewinds; vm_compute; reflexivity|]. split; vm_compute; reflexivity.
Qed.

(** The facts are restored, but not their transactions: Ivan's age 30, asserted by transaction 268435458, comes back as if
    268435461 had asserted it, which is no transaction of the store. *)
Theorem C31_transactions_refuted : (rewinding busy_conn 268435459 1).2 = Ok (rewound_schema busy_conn 268435459 1, rewound_parts busy_conn 268435459 1)
  /\ existsb (fun d => bool_decide (d_key d = (65543, 65536, 5, SInt 30)) && (d_tx d =? 268435458))%bool (st_datoms (disk case_conn)) = true
  /\ existsb (fun d => bool_decide (d_key d = (65543, 65536, 5, SInt 30)) && (d_tx d =? 268435461))%bool (st_datoms (rewound_store busy_conn 268435459 1)) = true
  /\ existsb (fun r => t_tx r =? 268435461) (st_log (rewound_store busy_conn 268435459 1)) = false.
Proof.
  split; [rewrite (rewinds busy_conn 268435459 1); [reflexivity|vm_compute; reflexivity]|]. split_and!; vm_compute; reflexivity.
Qed.
Print Assumptions C31_transactions_refuted.

(** A transaction that says anything about a fulltext attribute cannot be moved: its value in the log is the number of the text. *)
Definition new_bio : list entity := [add (ent 65543) (person "bio") (v_str "a new life")].
Theorem C31_fulltext_refuted : accepted MV 4000 case_conn new_bio (after case_conn new_bio) (report case_conn new_bio)
  /\ (rewinding (after case_conn new_bio) 268435459 1).2 = Err EBadSQLValuePair.
Proof. split; [apply accepts; [exact case_clean|vm_compute; reflexivity]|apply fails; vm_compute; reflexivity]. Qed.
Print Assumptions C31_fulltext_refuted.

(** A transaction that makes an attribute cardinality-many cannot be moved either, as attributes cannot become cardinality-one. *)
Definition widen_age : list entity := [add (ent 65536) (db_ "cardinality") (v_kw (nskw "db.cardinality" "many"))].
Theorem C31_widening_refuted : accepted MV 4000 case_conn widen_age (after case_conn widen_age) (report case_conn widen_age)
  /\ (rewinding (after case_conn widen_age) 268435459 1).2 = Err ESchemaAlterationFailed.
Proof. split; [apply accepts; [exact case_clean|vm_compute; reflexivity]|apply fails; vm_compute; reflexivity]. Qed.
Print Assumptions C31_widening_refuted.

(** When two transactions that install attributes are moved, the schema returned still has the later attribute, though the facts that
    define it are gone: each is reversed in the schema the caller passed, and the last result wins. *)
Definition two_attributes : list conn_op :=
  [CTransact 4000 (install "x" (person "x") "long" "one" []); CTransact 5000 (install "y" (person "y") "long" "one" [])].
Definition two_conn : conn := conn_run MV case_conn two_attributes.
Theorem C31_schema_refuted : clean MV case_conn /\ clean_history MV case_conn two_attributes
  /\ (rewinding two_conn 268435459 1).2 = Ok (rewound_schema two_conn 268435459 1, rewound_parts two_conn 268435459 1)
  /\ option_map (fun s => (sc_ident_map s !! person "x", sc_ident_map s !! person "y")) (rewound_schema two_conn 268435459 1)
     = Some (None, Some 65546)
  /\ filter (fun x : fact => bool_decide (x.1.1 = 65546) = true) (facts (rewound_store two_conn 268435459 1)) = [].
Proof.
  split; [exact case_clean|]. split; [by apply only_transacts_clean|].
  split; [rewrite (rewinds two_conn 268435459 1); [reflexivity|vm_compute; reflexivity]|]. split; vm_compute; reflexivity.
Qed.
Print Assumptions C31_schema_refuted.

(** And when the earliest transaction moved does not change the schema, no schema at all is returned, and the caller keeps the one
    with the attribute. *)
Definition doc_attribute : list conn_op :=
  [CTransact 4000 [add (ent 65543) (person "age") (v_int 31)]; CTransact 5000 (install "x" (person "x") "long" "one" [])].
Definition doc_conn : conn := conn_run MV case_conn doc_attribute.
Theorem C31_no_schema_refuted : clean MV case_conn /\ clean_history MV case_conn doc_attribute
  /\ (rewinding doc_conn 268435459 1).2 = Ok (None, rewound_parts doc_conn 268435459 1)
  /\ sc_ident_map (schema_of doc_conn) !! person "x" = Some 65545
  /\ filter (fun x : fact => bool_decide (x.1.1 = 65545) = true) (facts (rewound_store doc_conn 268435459 1)) = [].
Proof.
  split; [exact case_clean|]. split; [by apply only_transacts_clean|].
  split; [|split; vm_compute; reflexivity]. rewrite (rewinds doc_conn 268435459 1) by (vm_compute; reflexivity). cbn [snd].
  assert (bool_decide (rewound_schema doc_conn 268435459 1 = None) = true) as E%bool_decide_eq_true by (vm_compute; reflexivity). by rewrite E.
Qed.
Print Assumptions C31_no_schema_refuted.

(** Transaction numbers are used again after a move, and a second move to another timeline takes along what the first one put on
    timeline 1: here Ivan's age 31. *)
Definition age_31 : list entity := [add (ent 65543) (person "age") (v_int 31)].
Definition age_32 : list entity := [add (ent 65543) (person "age") (v_int 32)].
Definition first_move : conn :=
  Conn (rewound_store (after case_conn age_31) 268435459 1) (Metadata 3 (rewound_parts (after case_conn age_31) 268435459 1) (schema_of case_conn)).
Definition second_move : conn := after first_move age_32.
Definition log_of (timeline : Z) (st : store) : list (Z * Z * sqlval) :=
  map (fun r => (t_e r, t_a r, t_v r)) (filter (fun r => bool_decide (t_timeline r = timeline /\ t_e r < 268435456) = true) (st_log st)).
Theorem C31_second_refuted :
  is_ok (result case_conn age_31) = true /\ is_ok (rewinding (after case_conn age_31) 268435459 1).2 = true
  /\ is_ok (result first_move age_32) = true /\ is_ok (rewinding second_move 268435459 2).2 = true
  /\ log_of 1 (disk first_move) = [(65543, 65536, SInt 31); (65543, 65536, SInt 30)]
  /\ log_of 1 (rewound_store second_move 268435459 2) = []
  /\ log_of 2 (rewound_store second_move 268435459 2)
     = [(65543, 65536, SInt 31); (65543, 65536, SInt 30); (65543, 65536, SInt 32); (65543, 65536, SInt 30)].
Proof. split_and!; vm_compute; reflexivity. Qed.
Print Assumptions C31_second_refuted.

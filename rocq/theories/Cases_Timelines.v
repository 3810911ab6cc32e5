(** Concrete connections to rewind. *)
From Verif Require Import M_Timelines Spec_Tx Spec_Conn Spec_Transact Spec_Timelines Cases.

(* ---------------------------------------------------------------- deciding the hypotheses *)

Definition rowb (r1 r2 : txrow) : bool :=
  ((t_e r1 =? t_e r2) && (t_a r1 =? t_a r2) && bool_decide (t_v r1 = t_v r2) && (t_tag r1 =? t_tag r2) && (t_tx r1 =? t_tx r2)
   && Bool.eqb (t_added r1) (t_added r2) && (t_timeline r1 =? t_timeline r2))%bool.
Lemma rowb_sound r1 r2 : rowb r1 r2 = true -> r1 = r2.
Proof.
  destruct r1, r2. unfold rowb. cbn. rewrite !andb_true_iff, !Z.eqb_eq, bool_decide_eq_true, Bool.eqb_true_iff. naive_solver.
Qed.
Definition sinceb (from : Z) (c1 c2 : conn) : bool :=
  (forallb (fun r => t_tx r <? from) (st_log (disk c1))
   && forallb (fun r => (from <=? t_tx r) || existsb (rowb r) (st_log (disk c1))) (st_log (disk c2)))%bool.
Lemma since_sound from c1 c2 : sinceb from c1 c2 = true -> since from c1 c2.
Proof.
  unfold sinceb. rewrite andb_true_iff, !forallb_forall. intros [H1 H2]. split; intros r Hr%elem_of_list_In.
  - by apply Z.ltb_lt, H1.
  - apply H2, orb_true_iff in Hr as [Hr|Hr]; [right; by apply Z.leb_le|left].
    apply existsb_exists in Hr as (r' & Hr & ->%rowb_sound). by apply elem_of_list_In.
Qed.
Definition only_datab (from : Z) (c : conn) : bool :=
  forallb (fun r => (t_tx r <? from) || negb (bool_decide (t_a r ∈ METADATA_LIST)))%bool (st_log (disk c)).
Lemma only_data_sound from c : only_datab from c = true -> only_data from c.
Proof.
  unfold only_datab. rewrite forallb_forall. intros H r Hr%elem_of_list_In Hf. specialize (H r Hr).
  apply orb_true_iff in H as [H%Z.ltb_lt|H%negb_true_iff%bool_decide_eq_false]; [lia|done].
Qed.
Definition reads_backb (from : Z) (c : conn) : bool :=
  forallb (fun r => (t_tx r <? from) || match from_sql_value_pair (t_v r) (t_tag r) with
                                        | Ok v => bool_decide ((to_sql_value_pair v).1 = t_v r) && ((to_sql_value_pair v).2 =? t_tag r)
                                        | _ => true end)%bool (st_log (disk c)).
Lemma reads_back_sound from c : reads_backb from c = true -> reads_back from c.
Proof.
  unfold reads_backb. rewrite forallb_forall. intros H r v Hr%elem_of_list_In Hf Hv. specialize (H r Hr). rewrite Hv in H.
  apply orb_true_iff in H as [H%Z.ltb_lt|[H1%bool_decide_eq_true H2%Z.eqb_eq]%andb_true_iff]; [lia|].
  by rewrite <- H1, <- H2, <- surjective_pairing.
Qed.
Definition next_tx_unusedb (c : conn) : bool :=
  match parts_of c !! ":db.part/tx" with
  | Some p => forallb (fun r => negb (t_e r =? pt_next p)) (st_log (disk c))
  | None => true
  end.
Lemma next_tx_unused_sound c : next_tx_unusedb c = true -> next_tx_unused c.
Proof.
  unfold next_tx_unusedb. intros H p r Hp Hr%elem_of_list_In E. rewrite Hp, forallb_forall in H. specialize (H r Hr). rewrite E, Z.eqb_refl in H. done.
Qed.

(* ---------------------------------------------------------------- rewinding *)

(** Rewinding the connection to before transaction [from], at time 9000 *)
Definition rewinding (c : conn) (from timeline : Z) : store * res (option schema * partition_map) :=
  move_from_main_timeline MV 9000 (disk c) (schema_of c) (parts_of c) from timeline.
Definition rewound_store (c : conn) (from timeline : Z) : store := (rewinding c from timeline).1.
Definition rewound_schema (c : conn) (from timeline : Z) : option schema :=
  match (rewinding c from timeline).2 with Ok (sc, _) => sc | _ => None end.
Definition rewound_parts (c : conn) (from timeline : Z) : partition_map :=
  match (rewinding c from timeline).2 with Ok (_, pm) => pm | _ => ∅ end.
Lemma rewinds c from timeline : is_ok (rewinding c from timeline).2 = true ->
  rewinding c from timeline = (rewound_store c from timeline, Ok (rewound_schema c from timeline, rewound_parts c from timeline)).
Proof.
  unfold rewound_store, rewound_schema, rewound_parts. destruct (rewinding c from timeline) as [st [[sc pm]| |]]; cbn; [reflexivity|discriminate..].
Qed.
Definition fails_with (c : conn) (from timeline : Z) (e : dberr) : bool :=
  match (rewinding c from timeline).2 with Err x => bool_decide (x = e) | _ => false end.
Lemma fails c from timeline e : fails_with c from timeline e = true -> (rewinding c from timeline).2 = Err e.
Proof. unfold fails_with. destruct (rewinding c from timeline).2; try discriminate. intros H%bool_decide_eq_true. by rewrite H. Qed.

(** Two transactions about Ivan and Petr: the first changes Ivan's age, gives a second nickname and withdraws the first, and takes
    Petr's friend; the second changes the age once more and adds Olga. *)
Definition busy : list conn_op :=
  [CTransact 4000 [add (ent 65543) (person "age") (v_int 31); add (ent 65543) (person "nick") (v_str "Vanechka");
                   retract (ent 65543) (person "nick") (v_str "Vanya"); retract (ent 65544) (person "friend") (v_int 65543)];
   CTransact 5000 [add (ent 65543) (person "age") (v_int 32); add (ent 65543) (person "nick") (v_str "Vanya");
                   add (tmp "o") (person "name") (v_str "Olga"); add (tmp "o") (person "friend") (v_int 65543)]].
Definition busy_conn : conn := conn_run MV case_conn busy.

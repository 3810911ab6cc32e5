(** Concrete orderly connections, and connections that are not. *)
From Verif Require Import M_Shared Spec_Value Spec_Partition Spec_Tx Spec_Conn Spec_Transact Spec_Schema Spec_Shared P_SchemaThms Cases.

(* ---------------------------------------------------------------- deciding that a log is tidy *)

Fixpoint no_sep_b (s : string) : bool :=
  match s with EmptyString => true | String c s' => (negb (is_sep c) && no_sep_b s')%bool end.
Lemma no_sep_sound s : no_sep_b s = true -> no_sep s.
Proof. induction s as [|c s IH]; [done|]. simpl. intros [H1 H2]%andb_true_iff. split; [by apply negb_true_iff|auto]. Qed.
Definition storable_b (k : keyword) : bool :=
  match kw_ns k with
  | None => false
  | Some ns => negb (bool_decide (ns = EmptyString)) && negb (bool_decide (kw_name k = EmptyString)) && no_sep_b ns && no_sep_b (kw_name k)
  end%bool.
Lemma storable_sound k : storable_b k = true -> storable_keyword k.
Proof.
  unfold storable_b, storable_keyword. destruct (kw_ns k) as [ns|]; [|done]. intros [[[H1 H2]%andb_true_iff H3]%andb_true_iff H4]%andb_true_iff.
  split_and!; [by apply negb_true_iff, bool_decide_eq_false in H1|by apply negb_true_iff, bool_decide_eq_false in H2|by apply no_sep_sound..].
Qed.
Definition ident_row_b (r : txrow) : bool :=
  match t_v r with
  | SText s => match to_namespaced_keyword s with Ok k => (storable_b k && bool_decide (kw_to_string k = s))%bool | _ => false end
  | _ => false
  end.
Definition a_in (r : txrow) (l : list Z) : bool := existsb (fun a => t_a r =? a) l.
Lemma a_in_spec r l : a_in r l = true <-> t_a r ∈ l.
Proof.
  unfold a_in. rewrite existsb_exists. split.
  - intros (a & Ha & E%Z.eqb_eq). rewrite E. by apply elem_of_list_In.
  - intros Ha. exists (t_a r). split; [by apply elem_of_list_In|apply Z.eqb_refl].
Qed.
Definition tidy_b (l : list txrow) : bool :=
  let ids := filter (fun r => t_a r = DB_IDENT) l in
  let uns := filter (fun r => t_a r = DB_UNIQUE /\ t_added r = true) l in
  (no_uninstall l
   && forallb (fun r => negb (existsb (fun a => t_e r =? a) METADATA_LIST && a_in r METADATA_LIST) || (t_tx r =? TX0)) l
   && forallb (fun r1 => forallb (fun r2 => negb (t_e r1 =? t_e r2) || negb (a_in r2 [DB_CARDINALITY; DB_INDEX; DB_IS_COMPONENT]) || (t_tx r2 <=? t_tx r1)) l) uns
   && forallb ident_row_b ids
   && forallb (fun r2 => t_added r2 || forallb (fun r1 => negb (t_added r1) || negb (t_tx r1 =? t_tx r2) || negb (bool_decide (t_v r1 = t_v r2))) ids) ids)%bool.
Lemma tidy_sound l : tidy_b l = true -> tidy l.
Proof.
  unfold tidy_b. intros [[[[H1 H2]%andb_true_iff H3]%andb_true_iff H4]%andb_true_iff H5]%andb_true_iff.
  rewrite !forallb_forall in *. split; [by apply no_uninstall_sound|]. split; [|split; [|split]].
  - intros r Hr%elem_of_list_In He Ha%a_in_spec. specialize (H2 r Hr). apply orb_true_iff in H2 as [H2|H2]; [|by apply Z.eqb_eq].
    rewrite Ha in H2. assert (existsb (fun a => t_e r =? a) METADATA_LIST = true) as E.
    { apply existsb_exists. exists (t_e r). split; [by apply elem_of_list_In|apply Z.eqb_refl]. }
    by rewrite E in H2.
  - intros r1 r2 R1 R2%elem_of_list_In He Ha Had Ha2%a_in_spec.
    assert (In r1 (filter (fun r => t_a r = DB_UNIQUE /\ t_added r = true) l)) as Hin by (apply elem_of_list_In, elem_of_list_filter; done).
    specialize (H3 r1 Hin). rewrite forallb_forall in H3. specialize (H3 r2 R2). rewrite Ha2, (proj2 (Z.eqb_eq _ _) He) in H3. by apply Z.leb_le.
  - intros r Hr Ha. assert (In r (filter (fun r => t_a r = DB_IDENT) l)) as Hin by (apply elem_of_list_In, elem_of_list_filter; done).
    specialize (H4 r Hin). unfold ident_row_b in H4. destruct (t_v r); try done. destruct (to_namespaced_keyword s) as [k| |]; try done.
    apply andb_true_iff in H4 as [Hs E%bool_decide_eq_true]. exists k. split; [by apply storable_sound|by rewrite E].
  - intros r1 r2 R1 R2 A1 A2 Ht Ad1 Ad2 E.
    assert (forall r, r ∈ l -> t_a r = DB_IDENT -> In r (filter (fun r => t_a r = DB_IDENT) l)) as Hin by (intros; apply elem_of_list_In, elem_of_list_filter; done).
    specialize (H5 r2 (Hin _ R2 A2)). rewrite Ad2 in H5. cbn [orb] in H5. rewrite forallb_forall in H5. specialize (H5 r1 (Hin _ R1 A1)).
    rewrite Ad1, (proj2 (Z.eqb_eq _ _) Ht), (bool_decide_eq_true_2 _ E) in H5. done.
Qed.
Definition once_b (l : list txrow) (e : Z) : bool :=
  match filter (fun r => t_e r = e /\ t_a r ∈ SCHEMA_LIST) l with
  | [] => true
  | r :: rs => forallb (fun r' => t_tx r' =? t_tx r) rs
  end.
Lemma once_sound l e : once_b l e = true -> defined_once l e.
Proof.
  unfold once_b. intros H.
  assert (exists tx, forall r, r ∈ l -> t_e r = e -> t_a r ∈ SCHEMA_LIST -> t_tx r = tx) as (tx & Htx).
  { destruct (filter _ l) as [|r0 rs] eqn:E.
    - exists 0. intros r Hr He Ha. assert (r ∈ ([] : list txrow)) as Hx by (rewrite <- E; by apply elem_of_list_filter). by apply elem_of_nil in Hx.
    - exists (t_tx r0). intros r Hr He Ha. assert (r ∈ r0 :: rs) as Hx by (rewrite <- E; by apply elem_of_list_filter).
      apply elem_of_cons in Hx as [->|Hx]; [done|]. rewrite forallb_forall in H. by apply Z.eqb_eq, H, elem_of_list_In. }
  intros r1 r2 R1 R2 E1 E2 A1 A2. rewrite (Htx r1), (Htx r2); done.
Qed.
Definition all_once (c : conn) : bool := forallb (fun x : Z * attribute => once_b (st_log (disk c)) x.1) (map_to_list (sc_attribute_map (schema_of c))).
Lemma all_once_sound c : all_once c = true -> forall e at_, sc_attribute_map (schema_of c) !! e = Some at_ -> defined_once (st_log (disk c)) e.
Proof.
  intros H e at_ Hm. apply once_sound. unfold all_once in H. rewrite forallb_forall in H. apply (H (e, at_)). apply elem_of_list_In. by apply elem_of_map_to_list.
Qed.
Definition room_b (l : list txrow) : bool := forallb (fun r => negb (t_e r =? USER0 - 1) && negb (t_e r =? TX0 - 1) && negb (t_e r =? I64_MAX))%bool l.
Lemma room_sound l : room_b l = true -> room l.
Proof.
  unfold room_b. rewrite forallb_forall. intros H r Hr%elem_of_list_In. specialize (H r Hr).
  apply andb_true_iff in H as [[H1 H2]%andb_true_iff H3]. apply negb_true_iff, Z.eqb_neq in H1, H2, H3. done.
Qed.

Lemma only_transacts_sessions mv l : forall c, only_transacts l = true -> clean_sessions mv c l.
Proof. induction l as [|[] l IH]; intros c H; try done. split; [done|]. by apply IH. Qed.
Lemma run_orderly l : only_transacts l = true -> tidy_b (st_log (cn_disk (run l))) = true -> orderly MV (run l).
Proof.
  intros Ht Hu. exists 1000, (conn_of (conn_open MV 1000 None)), l. split; [apply case_open|]. split; [reflexivity|]. split.
  - by apply only_transacts_sessions.
  - by apply tidy_sound.
Qed.
Lemma case_tidy : tidy_b (st_log (disk case_conn)) = true.
Proof. vm_compute. reflexivity. Qed.
Lemma case_orderly : orderly MV case_conn.
Proof. pose proof case_tidy as H. rewrite case_conn_run in *. exact (run_orderly case_history eq_refl H). Qed.

(** Altering the schema: :person/age becomes indexed and many, :person/nick loses its name *)
Definition alter_age : list entity :=
  [ add (ent 65536) (db_ "index") (v_bool true); add (ent 65536) (db_ "cardinality") (v_kw (nskw "db.cardinality" "many"));
    add (ent 65539) (db_ "ident") (v_kw (person "nickname")) ].
(** :person/name, which is unique, becomes many *)
Definition widen_name : list entity := [add (ent 65541) (db_ "cardinality") (v_kw (nskw "db.cardinality" "many"))].
(** :person/age and :person/nick exchange their names *)
Definition swap_idents : list entity :=
  [ add (ent 65536) (db_ "ident") (v_kw (person "nick")); add (ent 65539) (db_ "ident") (v_kw (person "age")) ].
(** :person/nick, of which no entity has two values, becomes one *)
Definition narrow_nick : list entity := [add (ent 65539) (db_ "cardinality") (v_kw (nskw "db.cardinality" "one"))].
(** :person/age becomes unique without an index *)
Definition unique_age : list entity := [add (ent 65536) (db_ "unique") (v_kw (nskw "db.unique" "value"))].
Definition namesakes : list entity :=
  [add (tmp "x") (person "name") (v_str "Olga"); add (tmp "y") (person "name") (v_str "Olga"); add (tmp "y") (person "age") (v_int 1)].
Definition reopened (c : conn) : conn := conn_of (conn_open MV 0 (Some (disk c))).
Lemma reopens_to c : is_ok (conn_open MV 0 (Some (disk c))) = true -> conn_open MV 0 (Some (disk c)) = Ok (reopened c).
Proof. unfold reopened. destruct (conn_open MV 0 (Some (disk c))); cbn; [reflexivity|discriminate..]. Qed.
Lemma shared_value e1 e2 a p s st : fact_in (e1, a, p) st = true -> fact_in (e2, a, p) st = true ->
  match sc_attribute_map s !! a with Some at_ => M_Base.is_some (at_unique at_) | None => false end = true -> e1 <> e2 -> ~ values_unique s st.
Proof.
  intros F1%fact_is_in F2%fact_is_in Hu Hne H. destruct (sc_attribute_map s !! a) as [at_|] eqn:E; [|done].
  apply Hne. apply (H e1 e2 a at_ p); try done. destruct (at_unique at_); [by eexists|done].
Qed.
Definition out_ok (r : sh_out) : bool := match r with SOk => true | _ => false end.
Lemma all_ok (t : list (sh_op * sh_out)) : forallb (fun x => out_ok x.2) t = true -> Forall (fun x => x.2 = SOk) t.
Proof.
  rewrite forallb_forall. intros H. apply Forall_forall. intros x Hx%elem_of_list_In. specialize (H x Hx). by destruct x as [? []].
Qed.
Lemma no_value a p st : forallb (fun x : fact => negb (bool_decide (x.1.2 = a) && bool_decide (x.2 = p))%bool) (facts st) = true ->
  forall e, (e, a, p) ∉ facts st.
Proof.
  rewrite forallb_forall. intros H e Hx%elem_of_list_In. specialize (H _ Hx). simpl in H. by rewrite !bool_decide_eq_true_2 in H.
Qed.

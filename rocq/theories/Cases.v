(** Concrete connections used as examples and counterexamples beside the theorems. *)
From Verif Require Import M_Conn Spec_Partition Spec_Tx Spec_Conn Spec_Transact.

Definition MV := 999.
Definition db_ (n : string) : keyword := nskw "db" n.
Definition person (n : string) : keyword := nskw "person" n.
Definition at_kw (k : keyword) : entid_or_ident := EIdent k.
Definition v_str (s : string) : value_place := VPAtom (VEdn (EText s)).
Definition v_int (z : Z) : value_place := VPAtom (VEdn (EInt z)).
Definition v_kw (k : keyword) : value_place := VPAtom (VEdn (EKw k)).
Definition v_bool (b : bool) : value_place := VPAtom (VEdn (EBool b)).
Definition tmp (s : string) : entity_place := EPTempId (TExternal s).
Definition ent (e : Z) : entity_place := EPEntid (EEntid e).
Definition add (e : entity_place) (a : keyword) (v : value_place) : entity := EntAdd OAdd e (at_kw a) v.
Definition retract (e : entity_place) (a : keyword) (v : value_place) : entity := EntAdd ORetract e (at_kw a) v.

(** {:db/id t, :db/ident i, :db/valueType :db.type/vt, :db/cardinality :db.cardinality/card, ...} *)
Definition install (t : string) (i : keyword) (vt card : string) (more : list (keyword * value_place)) : list entity :=
  [ add (tmp t) (db_ "ident") (v_kw i);
    add (tmp t) (db_ "valueType") (v_kw (nskw "db.type" vt));
    add (tmp t) (db_ "cardinality") (v_kw (nskw "db.cardinality" card)) ]
  ++ map (fun p => add (tmp t) p.1 p.2) more.
Definition identity_index : list (keyword * value_place) :=
  [(db_ "unique", v_kw (nskw "db.unique" "identity")); (db_ "index", v_bool true)].

Definition case_schema : list entity :=
  install "n" (person "name") "string" "one" identity_index
  ++ install "m" (person "email") "string" "one" identity_index
  ++ install "a" (person "age") "long" "one" []
  ++ install "f" (person "friend") "ref" "many" []
  ++ install "s" (person "spouse") "ref" "one" identity_index
  ++ install "k" (person "nick") "string" "many" []
  ++ install "b" (person "bio") "string" "one" [(db_ "fulltext", v_bool true); (db_ "index", v_bool true)].
Definition case_people : list entity :=
  [ add (tmp "i") (person "name") (v_str "Ivan"); add (tmp "i") (person "age") (v_int 30);
    add (tmp "i") (person "nick") (v_str "Vanya"); add (tmp "i") (person "bio") (v_str "a life");
    add (tmp "p") (person "name") (v_str "Petr"); add (tmp "p") (person "friend") (v_str "i");
    add (tmp "p") (person "age") (v_int 40) ].

Definition conn_of (r : res conn) : conn :=
  match r with Ok c => c | _ => Conn store_empty (Metadata 0 ∅ schema_default) end.
Definition run (l : list conn_op) : conn := conn_run MV (conn_of (conn_open MV 1000 None)) l.
Definition case_history : list conn_op := [CTransact 2000 case_schema; CTransact 3000 case_people].

(** The state it leads to, computed once *)
Definition dump (c : conn) :=
  (cn_disk c, md_gen (cn_md c), map_to_list (md_parts (cn_md c)), map_to_list (sc_entid_map (md_schema (cn_md c))),
   map_to_list (sc_ident_map (md_schema (cn_md c))), map_to_list (sc_attribute_map (md_schema (cn_md c))),
   sc_component_attributes (md_schema (cn_md c))).
Definition undump (d : store * Z * list (string * partition) * list (Z * keyword) * list (keyword * Z) * list (Z * attribute) * list Z) : conn :=
  let '(st, g, pm, em, im, am, ca) := d in
  Conn st (Metadata g (list_to_map pm) (Schema (list_to_map em) (list_to_map im) (list_to_map am) ca)).
Lemma undump_dump c : undump (dump c) = c.
Proof. destruct c as [st [g pm [em im am ca]]]. unfold undump, dump. cbn. by rewrite !list_to_map_to_list. Qed.
Definition case_dump := Eval vm_compute in dump (run case_history).
Definition case_conn : conn := undump case_dump.
Lemma case_dump_eq : case_dump = dump (run case_history).
Proof. vm_compute. reflexivity. Qed.
Lemma case_conn_run : case_conn = run case_history.
Proof. unfold case_conn. rewrite case_dump_eq. exact (undump_dump (run case_history)). Qed.

Definition is_ok {A} (r : res A) : bool := match r with Ok _ => true | _ => false end.
Lemma case_open_ok : is_ok (conn_open MV 1000 None) = true.
Proof. vm_compute. reflexivity. Qed.
Lemma case_open : conn_open MV 1000 None = Ok (conn_of (conn_open MV 1000 None)).
Proof. pose proof case_open_ok as H. revert H. generalize (conn_open MV 1000 None). by intros [c| |]. Qed.

(** Histories of transacts are clean. *)
Fixpoint only_transacts (l : list conn_op) : bool :=
  match l with [] => true | CTransact _ _ :: l => only_transacts l | _ :: _ => false end.
Lemma only_transacts_clean mv l : forall c, only_transacts l = true -> clean_history mv c l.
Proof. induction l as [|[] l IH]; intros c H; try done. split; [done|]. by apply IH. Qed.
Definition no_uninstall (l : list txrow) : bool := forallb (fun r => negb (bool_decide (t_a r = DB_VALUE_TYPE) && negb (t_added r))) l.
Lemma no_uninstall_sound l : no_uninstall l = true -> never_uninstalled l.
Proof.
  unfold no_uninstall. rewrite forallb_forall. intros H r Hr%elem_of_list_In [Ha Hb]. specialize (H r Hr).
  rewrite (bool_decide_eq_true_2 _ Ha), Hb in H. done.
Qed.
Lemma run_clean l : only_transacts l = true -> no_uninstall (st_log (cn_disk (run l))) = true -> clean MV (run l).
Proof.
  intros Ht Hu. exists 1000, (conn_of (conn_open MV 1000 None)), l. split; [apply case_open|]. split; [reflexivity|]. split.
  - by apply only_transacts_clean.
  - by apply no_uninstall_sound.
Qed.
Lemma case_clean : clean MV case_conn.
Proof. rewrite case_conn_run. apply run_clean; [reflexivity|vm_compute; reflexivity]. Qed.

(** Transacting at time 4000 *)
Definition after (c : conn) (es : list entity) : conn := (conn_transact MV 4000 c es).1.
Definition result (c : conn) (es : list entity) : res txreport := (conn_transact MV 4000 c es).2.
Definition report (c : conn) (es : list entity) : txreport := match result c es with Ok r => r | _ => TxReport 0 0 ∅ end.
Lemma accepts c es : clean MV c -> is_ok (result c es) && no_uninstall (st_log (cn_disk (after c es))) = true ->
  accepted MV 4000 c es (after c es) (report c es).
Proof.
  intros Hc [Ho Hn]%andb_true_iff. split; [exact Hc|]. split; [|by apply no_uninstall_sound].
  unfold after, report. unfold result in *. destruct (conn_transact MV 4000 c es) as [c' [r| |]]; try discriminate Ho. reflexivity.
Qed.
(** The facts about people *)
Definition people (c : conn) : list fact := filter (fun x : fact => bool_decide (65542 < x.1.1 < 268435456) = true) (facts (cn_disk c)).

(** Decision procedures for the counterexamples, stated for variables so that nothing is unfolded *)
Definition fact_in (f : fact) (st : store) : bool := bool_decide (f ∈ facts st).
Lemma fact_is_in f st : fact_in f st = true -> f ∈ facts st.
Proof. apply bool_decide_eq_true_1. Qed.
Lemma fact_not_in f st : fact_in f st = false -> f ∉ facts st.
Proof. apply bool_decide_eq_false_1. Qed.
Lemma no_datom k st : forallb (fun d => negb (bool_decide (d_key d = k))) (st_datoms st) = true -> forall d, d ∈ st_datoms st -> d_key d <> k.
Proof.
  intros H d Hd E. rewrite forallb_forall in H. specialize (H d (proj1 (elem_of_list_In _ _) Hd)).
  by rewrite (bool_decide_eq_true_2 _ E) in H.
Qed.
Lemma ill_typed s st e a x : fact_in (e, a, (SInt x, 5)) st = true -> at_type <$> sc_attribute_map s !! a = Some VTString -> ~ well_typed s st.
Proof.
  intros F%fact_is_in T H. destruct (H _ _ _ F) as (at_ & v & Ha & Ht & E). rewrite Ha in T. injection T as T. rewrite T in Ht.
  by destruct v.
Qed.
Lemma not_allocated (pm : partition_map) e :
  forallb (fun x : string * partition => negb (bool_decide (pt_start x.2 <= e < pt_next x.2))) (map_to_list pm) = true -> ~ allocated pm e.
Proof.
  intros H (k & p & Hp & Hr). apply elem_of_map_to_list in Hp.
  rewrite forallb_forall in H. specialize (H _ (proj1 (elem_of_list_In _ _) Hp)). by rewrite (bool_decide_eq_true_2 _ Hr) in H.
Qed.
Lemma transacts c es : is_ok (result c es) = true -> conn_transact MV 4000 c es = (after c es, Ok (report c es)).
Proof. unfold after, report. unfold result. destruct (conn_transact MV 4000 c es) as [c2 [r2| |]]; cbn; [reflexivity|discriminate..]. Qed.

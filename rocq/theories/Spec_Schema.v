(** What the facts of a store say about its schema, independently of how the schema is maintained. *)
From Verif Require Import M_Conn Spec_Value Spec_Tx Spec_Conn.

Notation ref_value x := (to_sql_value_pair (TVRef x)) (only parsing).
Notation bool_value b := (to_sql_value_pair (TVBoolean b)) (only parsing).
Notation keyword_value k := (to_sql_value_pair (TVKeyword k)) (only parsing).

(** The entids that name value types and kinds of uniqueness (the documented vocabulary :db.type/... and :db.unique/...) *)
Definition type_entid (vt : value_type) : Z :=
  match vt with
  | VTRef => DB_TYPE_REF | VTBoolean => DB_TYPE_BOOLEAN | VTInstant => DB_TYPE_INSTANT | VTLong => DB_TYPE_LONG
  | VTDouble => DB_TYPE_DOUBLE | VTString => DB_TYPE_STRING | VTKeyword => DB_TYPE_KEYWORD | VTUuid => DB_TYPE_UUID
  end.
Definition unique_entid (u : uniq) : Z := match u with UValue => DB_UNIQUE_VALUE | UIdentity => DB_UNIQUE_IDENTITY end.

(** The facts [F] define [e] as the attribute [at_].  What they do not mention has its default; :db/noHistory has no effect. *)
Record stated (F : fact -> Prop) (e : Z) (at_ : attribute) : Prop := {
  sd_type : F (e, DB_VALUE_TYPE, ref_value (type_entid (at_type at_)));
  sd_card : at_multival at_ = true <-> F (e, DB_CARDINALITY, ref_value DB_CARDINALITY_MANY);
  sd_unique : forall u, at_unique at_ = Some u <-> F (e, DB_UNIQUE, ref_value (unique_entid u));
  sd_index : at_index at_ = true <-> F (e, DB_INDEX, bool_value true);
  sd_fulltext : at_fulltext at_ = true <-> F (e, DB_FULLTEXT, bool_value true);
  sd_component : at_component at_ = true <-> F (e, DB_IS_COMPONENT, bool_value true);
  sd_history : at_no_history at_ = false }.

(** The attributes are those that the facts define. *)
Definition attributes_agree (F : fact -> Prop) (m : gmap Z attribute) : Prop :=
  (forall e at_, m !! e = Some at_ -> stated F e at_)
  /\ (forall e a p, F (e, a, p) -> a ∈ SCHEMA_LIST -> is_Some (m !! e)).

(** [e] is called [k]. *)
Definition named (F : fact -> Prop) (e : Z) (k : keyword) : Prop := storable_keyword k /\ F (e, DB_IDENT, keyword_value k).
(** The ident maps are the :db/ident facts, read in both directions. *)
Definition idents_agree (F : fact -> Prop) (s : schema) : Prop :=
  (forall e k, sc_entid_map s !! e = Some k <-> named F e k) /\ (forall k e, sc_ident_map s !! k = Some e <-> named F e k).

(** An attribute obeys the rules: unique implies indexed, fulltext implies string and indexed, component implies ref. *)
Definition valid_attribute (at_ : attribute) : Prop :=
  (is_Some (at_unique at_) -> at_index at_ = true)
  /\ (at_fulltext at_ = true -> at_type at_ = VTString /\ at_index at_ = true)
  /\ (at_component at_ = true -> at_type at_ = VTRef).

(* ---------------------------------------------------------------- logs without the schema changes that go wrong *)

(** The attributes that define the schema are as the bootstrap defined them. *)
Definition core_untouched (l : list txrow) : Prop :=
  forall r, r ∈ l -> t_e r ∈ METADATA_LIST -> t_a r ∈ METADATA_LIST -> t_tx r = TX0.
(** Once an attribute is unique its other properties are left alone. *)
Definition unique_untouched (l : list txrow) : Prop :=
  forall r1 r2, r1 ∈ l -> r2 ∈ l -> t_e r1 = t_e r2 -> t_a r1 = DB_UNIQUE -> t_added r1 = true ->
    t_a r2 ∈ [DB_CARDINALITY; DB_INDEX; DB_IS_COMPONENT] -> t_tx r2 <= t_tx r1.
(** Idents are keywords whose text reads back as the keyword; no transaction takes an ident from one entity and gives it to
    another. *)
Definition idents_tidy (l : list txrow) : Prop :=
  (forall r, r ∈ l -> t_a r = DB_IDENT -> exists k, storable_keyword k /\ t_v r = SText (kw_to_string k))
  /\ (forall r1 r2, r1 ∈ l -> r2 ∈ l -> t_a r1 = DB_IDENT -> t_a r2 = DB_IDENT -> t_tx r1 = t_tx r2 ->
        t_added r1 = true -> t_added r2 = false -> t_v r1 <> t_v r2).
Definition tidy (l : list txrow) : Prop :=
  never_uninstalled l /\ core_untouched l /\ unique_untouched l /\ idents_tidy l.

(** One transaction wrote all the log says about the attribute [e]. *)
Definition defined_once (l : list txrow) (e : Z) : Prop :=
  forall r1 r2, r1 ∈ l -> r2 ∈ l -> t_e r1 = e -> t_e r2 = e -> t_a r1 ∈ SCHEMA_LIST -> t_a r2 ∈ SCHEMA_LIST -> t_tx r1 = t_tx r2.
(** The transaction [tx] said something about the property [a] of [e]. *)
Definition touched (l : list txrow) (tx e a : Z) : Prop := exists r, r ∈ l /\ t_tx r = tx /\ t_e r = e /\ t_a r = a.

(** No entity is the last one of its partition. *)
Definition room (l : list txrow) : Prop := forall r, r ∈ l -> t_e r <> USER0 - 1 /\ t_e r <> TX0 - 1 /\ t_e r <> I64_MAX.

(* ---------------------------------------------------------------- histories *)

(** What is committed was built by clean calls.  (The second condition of [clean_history], that reopening gives back the attributes, is
    proved here: C26.) *)
Fixpoint clean_sessions (mv : Z) (c : conn) (l : list conn_op) : Prop :=
  match l with
  | [] => True
  | o :: l =>
      match o with CSession ops true => clean_calls mv (conn_begin c) ops | _ => True end
      /\ clean_sessions mv (conn_step mv c o).1 l
  end.
(** The connection [c] is the result of creating a store and a history of clean calls, and its log is tidy. *)
Definition orderly (mv : Z) (c : conn) : Prop :=
  exists now c0 l, conn_open mv now None = Ok c0 /\ c = conn_run mv c0 l /\ clean_sessions mv c0 l
    /\ tidy (st_log (cn_disk c)).

(** How the input of a successful transaction is understood. *)
From Verif Require Import M_Conn Spec_Tx Spec_Conn Spec_Upsert Spec_Entity Spec_Partition.

Notation disk c := (cn_disk c) (only parsing).
Notation schema_of c := (md_schema (cn_md c)) (only parsing).
Notation parts_of c := (md_parts (cn_md c)) (only parsing).

(** After a clean history, transacting [es] at time [now] succeeds with report [r]; no attribute is uninstalled. *)
Definition accepted (mv now : Z) (c : conn) (es : list entity) (c' : conn) (r : txreport) : Prop :=
  clean mv c /\ conn_transact mv now c es = (c', Ok r) /\ never_uninstalled (st_log (disk c')).

(** Each entity of [l] reads as one of the terms [ts], and conversely. *)
Definition read_as (c : conn) (tx : Z) (l : list entity) (ts : list term_t) : Prop :=
  exists l', l ≡ₚ l' /\ Forall2 (reads (disk c) (parts_of c) (schema_of c) tx) l' ts.

(** [l]: the assertions and retractions that the entities [es] are notation for; [ts]: these with idents, literals and lookup refs
    replaced by entids and values; [σ]: the entids of the tempids, of which the report tells the user's. *)
Record understood (c : conn) (es : list entity) (r : txreport) (l : list entity) (ts : list term_t) (σ : gmap tempid Z) : Prop := {
  un_notation : stands_for (schema_of c) es l;
  un_terms : read_as c (rp_tx r) l ts;
  un_tempids : forall y, is_Some (σ !! y) <-> exists t, t ∈ ts /\ y ∈ tempids_of t;
  un_report : forall n, rp_tempids r !! n = σ !! TExternal n }.

(** The transaction asks for [o e a v]. *)
Definition asks (ts : list term_t) (σ : gmap tempid Z) (o : op) (e a : Z) (v : typed_value) : Prop :=
  exists t, t ∈ ts /\ subst σ t = Some (Term o e a v).

(** The tempid [y] names the entity [e] of the store: the transaction asserts a value of an identity attribute for [y] that [e]
    has. *)
Definition names (c : conn) (ts : list term_t) (σ : gmap tempid Z) (y : tempid) (e : Z) : Prop :=
  exists t v, t ∈ ts /\ identity_add (schema_of c) t y /\ subst_v σ (tm_v t) = Some v /\ holds (disk c) e (tm_a t) v.

(** The assertion [t] is about a tempid that names an entity of the store, by this or another identity attribute. *)
Definition upserting (c : conn) (ts : list term_t) (σ : gmap tempid Z) (t : term_t) : Prop :=
  exists y e, identity_add (schema_of c) t y /\ σ !! y = Some e /\ names c ts σ y e.

Definition card_one_attr (s : schema) (a : Z) : Prop := exists at_, sc_attribute_map s !! a = Some at_ /\ at_multival at_ = false.
Definition card_many_attr (s : schema) (a : Z) : Prop := exists at_, sc_attribute_map s !! a = Some at_ /\ at_multival at_ = true.
(** The transaction's own fact *)
Definition is_instant (r : txreport) (e a : Z) (p : sqlval * Z) : Prop :=
  e = rp_tx r /\ a = DB_TX_INSTANT /\ p = to_sql_value_pair (TVInstant (rp_instant r)).

(* ---------------------------------------------------------------- panics *)

(** Numbers of SQL variables per statement for which the chunk assertions hold, whatever the number of values *)
Definition limit_ok (mv : Z) : Prop := 6 <= mv /\ mv mod 6 <> 0 /\ mv mod 4 <> 0.
(** The entities read as the terms [ts] *)
Definition meant (c : conn) (es : list entity) (ts : list term_t) : Prop :=
  exists tx l, stands_for (schema_of c) es l /\ read_as c tx l ts.
(** Less than [n] entids are left in the partition. *)
Definition exhausted (c : conn) (part : string) (n : Z) : Prop :=
  exists p, parts_of c !! part = Some p /\ pt_end p < pt_next p + n.
(** The panics that transacting [es] can end in, and when *)
Definition may_panic (mv : Z) (c : conn) (es : list entity) (p : panicsite) : Prop :=
  match p with
  | PKeyword => True
  | PTx808 => exists ts t x y, meant c es ts /\ t ∈ ts /\ identity_add (schema_of c) t x /\ tm_v t = inr y
  | PTxInstant => card_many_attr (schema_of c) DB_TX_INSTANT
  | PTooManyValues => ~ limit_ok mv
  | PRepeatValues => exists a at_, sc_attribute_map (schema_of c) !! a = Some at_ /\ at_fulltext at_ = true
  | PPartition => exhausted c ":db.part/tx" 1
      \/ exists ts (ids : gset tempid), meant c es ts /\ (forall x, x ∈ ids -> exists t, t ∈ ts /\ x ∈ tempids_of t)
           /\ exhausted c ":db.part/user" (Z.of_nat (size ids))
  | _ => False
  end.

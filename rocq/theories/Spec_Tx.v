(** What a store says, independently of how the transactor works. *)
From Verif Require Import M_Store M_Schema M_Tx.

(** A fact: entity, attribute, and the value in its SQL encoding (the encoding is injective on representable values, C21). *)
Definition fact : Type := Z * Z * (sqlval * Z).
(** The facts a store holds are the rows of its view all_datoms. *)
Definition facts (st : store) : list fact := map (fun d => (d_e d, d_a d, (d_v d, d_tag d))) (all_datoms st).
Definition holds (st : store) (e a : Z) (v : typed_value) : Prop := (e, a, to_sql_value_pair v) ∈ facts st.

(* ---------------------------------------------------------------- the log *)

(** The datom a log row is about *)
Definition t_key (r : txrow) : Z * Z * Z * sqlval := (t_e r, t_a r, t_tag r, t_v r).
(** The rows about one datom, oldest first *)
Definition rows_of (l : list txrow) (k : Z * Z * Z * sqlval) : list txrow := filter (fun r => t_key r = k) l.

(** The log determines the datoms: a datom is present exactly if the last row about it is an assertion, and it carries the
    transaction of that row. *)
Definition log_determines (st : store) : Prop :=
  forall k tx, (exists d, d ∈ st_datoms st /\ d_key d = k /\ d_tx d = tx) <->
            (exists r, last (rows_of (transactions st) k) = Some r /\ t_added r = true /\ t_tx r = tx).

(** Replaying a log from the empty store: for every datom, the transaction that asserted it, if it is present *)
Definition replay (l : list txrow) : Z * Z * Z * sqlval -> option Z :=
  fold_left (fun m r k => if decide (k = t_key r) then (if t_added r then Some (t_tx r) else None) else m k) l (fun _ => None).

(** A sequence of flags true, false, true, ... *)
Fixpoint alternates (expect : bool) (l : list bool) : Prop :=
  match l with [] => True | b :: l => b = expect /\ alternates (negb expect) l end.

(** No row of the log is redundant: a datom is asserted, retracted, asserted... in turn, and no transaction mentions a
    datom twice. *)
Definition log_minimal (st : store) : Prop :=
  (forall k, alternates true (map t_added (rows_of (transactions st) k)))
  /\ NoDup (map (fun r => (t_tx r, t_key r)) (transactions st)).

(** The value a log row is about; the row of a fulltext value holds the number of the text. *)
Definition row_value (m : gmap Z attribute) (st : store) (r : txrow) (p : sqlval * Z) : Prop :=
  exists at_, m !! t_a r = Some at_
    /\ if at_fulltext at_ then exists txt, fts_text (st_fts st) (t_v r) = Some txt /\ p = (SText txt, t_tag r)
       else p = (t_v r, t_tag r).
(** The fact is new ([true]) or gone ([false]). *)
Definition changed (st st' : store) (b : bool) (x : fact) : Prop :=
  if b then x ∉ facts st /\ x ∈ facts st' else x ∈ facts st /\ x ∉ facts st'.

(* ---------------------------------------------------------------- schema conformance *)

(** At most one value per entity for cardinality-one attributes *)
Definition card_one (s : schema) (st : store) : Prop :=
  forall e a at_ p q, sc_attribute_map s !! a = Some at_ -> at_multival at_ = false ->
    (e, a, p) ∈ facts st -> (e, a, q) ∈ facts st -> p = q.

(** At most one entity per value for unique attributes *)
Definition values_unique (s : schema) (st : store) : Prop :=
  forall e1 e2 a at_ p, sc_attribute_map s !! a = Some at_ -> is_Some (at_unique at_) ->
    (e1, a, p) ∈ facts st -> (e2, a, p) ∈ facts st -> e1 = e2.

(** Every fact is about an attribute, and its value has the attribute's type *)
Definition well_typed (s : schema) (st : store) : Prop :=
  forall e a p, (e, a, p) ∈ facts st ->
    exists at_ v, sc_attribute_map s !! a = Some at_ /\ tv_type v = at_type at_ /\ p = to_sql_value_pair v.

(** Facts are a set *)
Definition facts_distinct (st : store) : Prop := NoDup (facts st).

(** What the attribute cache should answer, and the histories after which it does. *)
From Verif Require Import M_Cache Spec_Value Spec_Tx Spec_Conn Spec_Transact.

(** Querying the store for values of [a]: [e] has [v]. *)
Definition stored (st : store) (e a : Z) (v : typed_value) : Prop :=
  exists p, (e, a, p) ∈ facts st /\ from_sql_value_pair p.1 p.2 = Ok v.

(** For the attributes that are cached forward, the cache answers as the store would; the order and repetition of the values of a
    cardinality-many attribute aside. *)
Definition forward_agrees (st : store) (s : schema) (c : caches) : Prop :=
  forall a at_, sc_attribute_map s !! a = Some at_ -> is_cached_forward c a = true ->
    if at_multival at_
    then forall e v, (exists vs, get_values c s a e = Some vs /\ v ∈ vs) <-> stored st e a v
    else forall e v, get_value c s a e = Some v <-> stored st e a v.
(** The same for the attributes that are cached in reverse *)
Definition reverse_agrees (st : store) (s : schema) (c : caches) : Prop :=
  forall a at_, sc_attribute_map s !! a = Some at_ -> is_cached_reverse c a = true ->
    if at_unique at_
    then forall e v, get_entid c a v = Some e <-> stored st e a v
    else forall e v, (exists es, get_entids c a v = Some es /\ e ∈ es) <-> stored st e a v.

(* ---------------------------------------------------------------- histories *)

(** The values of [a] are ones that the store can represent (C21). *)
Definition readable (st : store) (a : Z) : Prop :=
  forall e p, (e, a, p) ∈ facts st -> exists v, storable v /\ p = to_sql_value_pair v.

(** What a transaction does to cached attributes, [evs] being the assertions and retractions that it comes to:
    - the values can be represented;
    - it does not assert a value that an entity has and at the same time retract it, or for a cardinality-one attribute retract any
      value (which retracts the value there is, C10);
    - the attributes keep their cardinality and stay, or stay not, unique. *)
Record gentle (cached : Z -> Prop) (st : store) (s s' : schema) (evs : list event) : Prop := {
  ge_storable : forall k e a v, (k, e, a, v) ∈ evs -> cached a -> storable v;
  ge_clash : forall e a v w, (OAdd, e, a, v) ∈ evs -> (ORetract, e, a, w) ∈ evs -> cached a ->
    w = v \/ card_one_attr s a -> ~ holds st e a v;
  ge_kept : forall a at_, cached a -> sc_attribute_map s !! a = Some at_ -> exists at', sc_attribute_map s' !! a = Some at'
    /\ at_multival at' = at_multival at_ /\ (is_Some (at_unique at') <-> is_Some (at_unique at_)) }.
(** For the reverse direction also:
    - retractions are of values that there are;
    - a cardinality-one value is not replaced but retracted and another one asserted;
    - the values of unique attributes are unique. *)
Record gentle_reverse (cached : Z -> Prop) (st st' : store) (s : schema) (evs : list event) : Prop := {
  gr_there : forall e a v, (ORetract, e, a, v) ∈ evs -> cached a -> holds st e a v;
  gr_replaced : forall e a v w, (OAdd, e, a, v) ∈ evs -> cached a -> card_one_attr s a -> storable w -> holds st e a w ->
    w = v \/ (ORetract, e, a, w) ∈ evs;
  gr_unique : forall a at_ e1 e2 p, cached a -> sc_attribute_map s !! a = Some at_ -> is_Some (at_unique at_) ->
    (e1, a, p) ∈ facts st -> (e2, a, p) ∈ facts st -> e1 = e2;
  gr_unique' : forall a at_ e1 e2 p, cached a -> sc_attribute_map s !! a = Some at_ -> is_Some (at_unique at_) ->
    (e1, a, p) ∈ facts st' -> (e2, a, p) ∈ facts st' -> e1 = e2 }.

(** No two entities have the same value of [a], if it is unique. *)
Definition uniquely (st : store) (s : schema) (a : Z) : Prop := forall at_ e1 e2 p,
  sc_attribute_map s !! a = Some at_ -> is_Some (at_unique at_) -> (e1, a, p) ∈ facts st -> (e2, a, p) ∈ facts st -> e1 = e2.

(** In a session each call succeeds, none goes back to a savepoint, transactions are gentle to what is cached, and only attributes
    that the connection's cache [c0] does not have are registered, if readable. *)
Definition tame_call (reverse : bool) (mv : Z) (c0 : caches) (i : cinprog) (o : cip_op) : Prop :=
  let i' := (ci_step mv i o).1 in
  (ci_step mv i o).2 = Ok tt
  /\ match o with
     | CiOp (OpRollbackTo _) => False
     | CiOp o =>
         let cached a := ov_cached_forward (ci_cache i) a = true \/ ov_cached_reverse (ci_cache i) a = true in
         gentle cached (ig_store (ci_ig i)) (ig_schema (ci_ig i)) (ig_schema (ci_ig i')) (wa_events (told mv (ci_ig i) o))
         /\ (reverse = true -> gentle_reverse (fun a => ov_cached_reverse (ci_cache i) a = true) (ig_store (ci_ig i)) (ig_store (ci_ig i'))
                                 (ig_schema (ci_ig i)) (wa_events (told mv (ci_ig i) o)))
     | CiCache k _ true => forall a, attribute_for_ident (ig_schema (ci_ig i)) k = Ok a ->
         is_cached_forward c0 a = false /\ is_cached_reverse c0 a = false /\ readable (ig_store (ci_ig i)) a
         /\ (reverse = true -> uniquely (ig_store (ci_ig i)) (ig_schema (ci_ig i)) a)
     | CiCache _ _ false => True
     end.
Fixpoint tame_calls (reverse : bool) (mv : Z) (c0 : caches) (i : cinprog) (l : list cip_op) : Prop :=
  match l with
  | [] => True
  | o :: l => tame_call reverse mv c0 i o /\ tame_calls reverse mv c0 (ci_step mv i o).1 l
  end.
(** What is committed is built by such calls; nobody holds the connection's cache during a commit; attributes are registered with the
    connection if readable; reopening the file gives the attributes that were in memory. *)
Definition tame (reverse : bool) (mv : Z) (c : cconn) (o : cc_op) : Prop :=
  match o with
  | CcTransact now es shared => shared = false
      /\ ((cc_step mv c o).2 = Ok tt -> tame_calls reverse mv (cc_cache c) (cc_begin c) [CiOp (OpTransact now es)])
  | CcSession l commit shared => commit = true -> shared = false
      /\ ((cc_step mv c o).2 = Ok tt -> tame_calls reverse mv (cc_cache c) (cc_begin c) l)
  | CcCache k _ true => forall a, attribute_for_ident (schema_of (cc_conn c)) k = Ok a -> readable (disk (cc_conn c)) a
      /\ (reverse = true -> uniquely (disk (cc_conn c)) (schema_of (cc_conn c)) a)
  | CcCache _ _ false => True
  | CcReopen => sc_attribute_map (schema_of (cc_conn (cc_step mv c o).1)) = sc_attribute_map (schema_of (cc_conn c))
  end.
(** The connections that a clean history and then a tame one lead to *)
Inductive caching (reverse : bool) (mv : Z) : cconn -> Prop :=
  | caching_start c : clean mv c -> caching reverse mv (CConn c caches_empty)
  | caching_step c o : caching reverse mv c -> tame reverse mv c o -> never_uninstalled (st_log (disk (cc_conn (cc_step mv c o).1))) ->
      caching reverse mv (cc_step mv c o).1.

(* ---------------------------------------------------------------- reading in a session *)

(** Reading through a session's cache gives what the session's store has, deletions of cardinality-one values aside: for an entity
    without a value there may be an answer (C37_deleted_refuted). *)
Definition session_forward_agrees (st : store) (s : schema) (o : overlaid) : Prop :=
  forall a at_, sc_attribute_map s !! a = Some at_ -> ov_cached_forward o a = true ->
    if at_multival at_
    then forall e v, (exists vs, ov_get_values o s a e = Some vs /\ v ∈ vs) <-> stored st e a v
    else forall e v, stored st e a v -> ov_get_value o s a e = Some v.
Definition session_reverse_agrees (st : store) (s : schema) (o : overlaid) : Prop :=
  forall a at_, sc_attribute_map s !! a = Some at_ -> ov_cached_reverse o a = true ->
    if at_unique at_
    then forall e v, ov_get_entid o a v = Some e <-> stored st e a v
    else forall e v, (exists es, ov_get_entids o a v = Some es /\ e ∈ es) <-> stored st e a v.

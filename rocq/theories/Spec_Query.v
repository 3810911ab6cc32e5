(** What a query means, and the queries and stores for which the code gives that. *)
From Verif Require Import M_Query Spec_Value Spec_Tx Spec_Conn Spec_Transact Spec_Cache.

(* ---------------------------------------------------------------- the meaning *)

(** The values of the variables *)
Notation assignment := (string -> typed_value) (only parsing).
(** There is a datom [e a v], asserted by [tx]. *)
Definition datom_at (st : store) (e a : Z) (v : typed_value) (tx : Z) : Prop :=
  exists d, d ∈ all_datoms st /\ d_e d = e /\ d_a d = a /\ d_tx d = tx /\ from_sql_value_pair (d_v d) (d_tag d) = Ok v.
Definition agree_on (vs : list var) (σ σ' : assignment) : Prop := forall x, x ∈ vs -> σ' x = σ x.

Section meaning.
  Context (st : store) (s : schema).
  Definition place_is (σ : assignment) (p : nplace) (e : Z) : Prop :=
    match p with
    | NPlaceholder => True
    | NVar x => σ x = TVRef e
    | NEntid i => e = i
    | NIdent k => sc_ident_map s !! k = Some e
    end.
  (** An integer stands for an entity, for a long, or for the double nearest to it; a keyword for itself or for the entity it names. *)
  Definition value_is (σ : assignment) (p : vplace) (v : typed_value) : Prop :=
    match p with
    | VPlaceholder => True
    | VVar x => σ x = v
    | VInteger z => v = TVRef z \/ v = TVLong z \/ v = TVDouble (long_to_double z)
    | VIdent k => v = TVKeyword k \/ exists e, sc_ident_map s !! k = Some e /\ v = TVRef e
    | VConst c => v = c
    end.
  Definition matches (σ : assignment) (p : pattern) : Prop := exists e a v tx, datom_at st e a v tx
    /\ place_is σ (p_e p) e /\ place_is σ (p_a p) a /\ value_is σ (p_v p) v /\ place_is σ (p_tx p) tx.
  (** A comparison.  An integer stands for a long or an entity, a keyword for the entity it names. *)
  Definition arg_is (σ : assignment) (a : farg) (v : typed_value) : Prop :=
    match a with
    | FVar x => v = σ x
    | FInteger z => v = TVLong z \/ v = TVRef z
    | FKeyword k => exists e, sc_ident_map s !! k = Some e /\ v = TVRef e
    | FConst c => v = c
    | FOther => False
    end.
  Definition quantity (v : typed_value) : option Z :=
    match v with TVLong z => Some (long_value z) | TVDouble (DKey k) => Some (double_value k) | _ => None end.
  (** Two numbers compare, of either type, and two instants. *)
  Definition amounts (v w : typed_value) : option comparison :=
    match v, w with
    | TVInstant a, TVInstant b => Some (Z.compare a b)
    | _, _ => match quantity v, quantity w with Some a, Some b => Some (Z.compare a b) | _, _ => None end
    end.
  Definition entities (v w : typed_value) : option comparison := match v, w with TVRef a, TVRef b => Some (Z.compare a b) | _, _ => None end.
  Definition related (name : string) (v w : typed_value) : Prop :=
    match name with
    | "<" => amounts v w = Some Lt
    | "<=" => amounts v w = Some Lt \/ amounts v w = Some Eq
    | ">" => amounts v w = Some Gt
    | ">=" => amounts v w = Some Gt \/ amounts v w = Some Eq
    | "!=" => amounts v w = Some Lt \/ amounts v w = Some Gt
    | "unpermute" | "tx-before" => entities v w = Some Lt
    | "tx-after" => entities v w = Some Gt
    | "differ" => entities v w = Some Lt \/ entities v w = Some Gt
    | _ => False
    end%string.
  Definition compares (σ : assignment) (name : string) (args : list farg) : Prop :=
    exists a b v w, args = [a; b] /\ arg_is σ a v /\ arg_is σ b w /\ related name v w.
  (** The variables that a [not] or an [or] shares with what is around it *)
  Definition unified (u : unify) (mentioned : list var) : list var := match u with UImplicit => mentioned | UExplicit vs => vs end.
  Fixpoint meets (σ : assignment) (c : clause) {struct c} : Prop :=
    match c with
    | CPattern p => matches σ p
    | CType x t => tv_type (σ x) = t
    | CPred name args => compares σ name args
    | CNot u cs => ~ exists σ', agree_on (unified u (flat_map clause_vars cs)) σ σ'
                       /\ (fix all cs := match cs with [] => True | c :: cs => meets σ' c /\ all cs end) cs
    | COr u arms => exists σ', agree_on (unified u (flat_map arm_vars arms)) σ σ'
                       /\ (fix some arms := match arms with [] => False | a :: arms => meets_arm σ' a \/ some arms end) arms
    end
  with meets_arm (σ : assignment) (a : arm) {struct a} : Prop :=
    match a with
    | AClause c => meets σ c
    | AAnd cs => (fix all cs := match cs with [] => True | c :: cs => meets σ c /\ all cs end) cs
    end.
  (** A solution gives the inputs their values and meets every clause. *)
  Definition solution (q : query) (vals : gmap var typed_value) (σ : assignment) : Prop :=
    (forall x v, x ∈ q_in q -> vals !! x = Some v -> σ x = v) /\ Forall (meets σ) (q_where q).
  Definition answer (q : query) (vals : gmap var typed_value) (row : list typed_value) : Prop :=
    exists σ, solution q vals σ /\ row = map σ (find_vars (q_find q)).
End meaning.

(** A result gives the answers: a relation or a collection all of them, once; a tuple or a scalar one of them, if there is any. *)
Definition gives (r : results) (A : list typed_value -> Prop) : Prop :=
  match r with
  | RRel rows => NoDup rows /\ forall row, row ∈ rows <-> A row
  | RColl l => NoDup l /\ forall x, x ∈ l <-> A [x]
  | RTuple (Some row) => A row
  | RTuple None => forall row, ~ A row
  | RScalar (Some x) => A [x]
  | RScalar None => forall x, ~ A [x]
  end.

(* ---------------------------------------------------------------- order and limit *)

(** The order of values: by type, and for numbers of either type by number *)
Definition value_cmp (v w : typed_value) : comparison :=
  match Z.compare (vt_tag (tv_type v)) (vt_tag (tv_type w)) with
  | Eq =>
      match v, w with
      | TVRef a, TVRef b | TVLong a, TVLong b | TVInstant a, TVInstant b => Z.compare a b
      | TVBoolean a, TVBoolean b => Z.compare (Z.b2z a) (Z.b2z b)
      | TVDouble (DKey a), TVDouble (DKey b) => Z.compare a b
      | TVLong a, TVDouble (DKey b) => Z.compare (long_value a) (double_value b)
      | TVDouble (DKey a), TVLong b => Z.compare (double_value a) (long_value b)
      | TVString a, TVString b => string_cmp a b
      | TVKeyword a, TVKeyword b => string_cmp (kw_to_string a) (kw_to_string b)
      | TVUuid a, TVUuid b => N.compare a b
      | _, _ => Eq
      end
  | r => r
  end.
Fixpoint order_cmp (order : list (direction * var)) (σ σ' : assignment) : comparison :=
  match order with
  | [] => Eq
  | (d, x) :: order =>
      match (match d with Asc => value_cmp (σ x) (σ' x) | Desc => CompOpp (value_cmp (σ x) (σ' x)) end) with
      | Eq => order_cmp order σ σ'
      | r => r
      end
  end.
Definition no_later (order : list (direction * var)) (σ σ' : assignment) : Prop := order_cmp order σ σ' <> Gt.
(** The shape of a result with these rows *)
Definition shaped (f : find_spec) (rows : list (list typed_value)) (r : results) : Prop :=
  match f, r with
  | FRel _, RRel rs => rs = rows
  | FColl _, RColl l => map (fun x => [x]) l = rows
  | FTuple _, RTuple o => o = head rows
  | FScalar _, RScalar o => (fun x => [x]) <$> o = head rows
  | _, _ => False
  end.
Definition limit_of (q : query) (vals : gmap var typed_value) : option nat :=
  match q_limit q with
  | LNone => None
  | LFixed n => Some n
  | LVar x => match vals !! x with Some (TVLong n) => Some (Z.to_nat n) | _ => None end
  end.
Definition up_to {A} (n : option nat) (l : list A) : list A := match n with Some n => take n l | None => l end.
(** A list of solutions: every answer is there, once; they are in order. *)
Record listing (st : store) (s : schema) (q : query) (vals : gmap var typed_value) (l : list assignment) : Prop := {
  li_solutions : forall σ, σ ∈ l -> solution st s q vals σ;
  li_all : forall σ, solution st s q vals σ -> exists σ', σ' ∈ l /\ agree_on (find_vars (q_find q)) σ σ';
  li_once : NoDup (map (fun σ => map σ (find_vars (q_find q))) l);
  li_sorted : StronglySorted (no_later (q_order q)) l }.

(* ---------------------------------------------------------------- the queries *)

(** The patterns of a clause, at any depth *)
Fixpoint clause_patterns (c : clause) : list pattern :=
  match c with
  | CPattern p => [p]
  | CType _ _ | CPred _ _ => []
  | CNot _ cs => flat_map clause_patterns cs
  | COr _ arms => flat_map arm_patterns arms
  end
with arm_patterns (a : arm) : list pattern := match a with AClause c => clause_patterns c | AAnd cs => flat_map clause_patterns cs end.
Definition query_patterns (q : query) : list pattern := flat_map clause_patterns (q_where q).
(** The arguments of comparisons, at any depth *)
Fixpoint clause_compared (c : clause) : list farg :=
  match c with
  | CPattern _ | CType _ _ => []
  | CPred _ args => args
  | CNot _ cs => flat_map clause_compared cs
  | COr _ arms => flat_map arm_compared arms
  end
with arm_compared (a : arm) : list farg := match a with AClause c => clause_compared c | AAnd cs => flat_map clause_compared cs end.
(** [x] is at one place of the patterns of the query. *)
Definition lone (ps : list pattern) (ins : list var) (x : var) : Prop :=
  x ∉ ins /\ exists l1 l2, flat_map pattern_vars ps = l1 ++ x :: l2 /\ x ∉ l1 /\ x ∉ l2.
(** A pattern is open if it does not say which attribute. *)
Definition open_pattern (ins : list var) (p : pattern) : Prop :=
  match p_a p with NPlaceholder => True | NVar a => a ∉ ins | _ => False end.
Definition own_tag (t : value_type) : Prop := t <> VTRef /\ t <> VTLong /\ t <> VTDouble.
(** The value of an open pattern has to be a variable that occurs nowhere else, or of a type the code can tell from others. *)
Definition safe_pattern (ps : list pattern) (ins : list var) (vals : gmap var typed_value) (p : pattern) : Prop :=
  match p_v p with VConst v => storable v | VIdent k => storable (TVKeyword k) | _ => True end
  /\ (open_pattern ins p ->
      match p_v p with
      | VPlaceholder => True
      | VVar x => lone ps ins x \/ exists v, x ∈ ins /\ vals !! x = Some v /\ own_tag (tv_type v)
      | VConst v => own_tag (tv_type v)
      | VInteger _ | VIdent _ => False
      end).
(** Patterns, type annotations and comparisons only *)
Definition plain (c : clause) : Prop := match c with CPattern _ | CType _ _ | CPred _ _ => True | _ => False end.
(** The pattern names its attribute. *)
Definition named (p : pattern) : Prop := match p_a p with NEntid _ | NIdent _ => True | _ => False end.
(** What is negated names an attribute or compares something. *)
Definition anchored (cs : list clause) : Prop := (exists p, CPattern p ∈ cs /\ named p) \/ exists name args, CPred name args ∈ cs.
(** [or]: the alternatives are patterns with variables at the same places, which name attributes of one kind. *)
Definition same_place (p p' : nplace) : Prop :=
  match p, p' with
  | NPlaceholder, NPlaceholder => True
  | NVar x, NVar y => x = y
  | (NEntid _ | NIdent _), (NEntid _ | NIdent _) => True
  | _, _ => False
  end.
Definition same_value (p p' : vplace) : Prop :=
  match p, p' with
  | VPlaceholder, VPlaceholder => True
  | VVar x, VVar y => x = y
  | (VInteger _ | VIdent _ | VConst _), (VInteger _ | VIdent _ | VConst _) => True
  | _, _ => False
  end.
Definition attribute_of (s : schema) (p : pattern) : option attribute :=
  match p_a p with
  | NEntid a => sc_attribute_map s !! a
  | NIdent i => sc_ident_map s !! i ≫= fun a => sc_attribute_map s !! a
  | _ => None
  end.
Definition alike (s : schema) (ins : list var) (p p' : pattern) : Prop :=
  same_place (p_e p) (p_e p') /\ same_value (p_v p) (p_v p') /\ same_place (p_tx p) (p_tx p')
  /\ forall a a', attribute_of s p = Some a -> attribute_of s p' = Some a' ->
       at_fulltext a = at_fulltext a' /\ (forall x, p_v p = VVar x -> x ∉ ins -> at_type a = at_type a').
(** Inputs at the places of entities, attributes and transactions are entities. *)
Definition ref_inputs (ins : list var) (vals : gmap var typed_value) (p : pattern) : Prop :=
  forall x v, x ∈ nplace_vars (p_e p) ++ nplace_vars (p_a p) ++ nplace_vars (p_tx p) -> x ∈ ins -> vals !! x = Some v -> tv_type v = VTRef.
Definition alternatives (s : schema) (ins : list var) (vals : gmap var typed_value) (arms : list arm) : Prop :=
  exists ps, ps <> [] /\ arms = map (fun p => AClause (CPattern p)) ps
    /\ (forall p, p ∈ ps -> named p /\ ref_inputs ins vals p) /\ (forall p p', p ∈ ps -> p' ∈ ps -> alike s ins p p').
(** Also [not] at any depth, where a [not-join] shares the inputs it mentions, and [or] and [or-join] at any depth,
    of such alternatives or with one arm, where all variables are shared. *)
Fixpoint regular (s : schema) (ins : list var) (vals : gmap var typed_value) (c : clause) : Prop :=
  match c with
  | CPattern _ | CType _ _ | CPred _ _ => True
  | CNot u cs => anchored cs /\ (forall x, x ∈ ins -> x ∈ flat_map clause_vars cs -> x ∈ unified u (flat_map clause_vars cs))
      /\ (fix all cs := match cs with [] => True | c :: cs => regular s ins vals c /\ all cs end) cs
  | COr u arms => (forall x, x ∈ flat_map arm_vars arms -> x ∈ unified u (flat_map arm_vars arms))
      /\ match arms with [a] => regular_arm s ins vals a | _ => alternatives s ins vals arms end
  end
with regular_arm (s : schema) (ins : list var) (vals : gmap var typed_value) (a : arm) : Prop :=
  match a with
  | AClause c => match c with CPattern p => ref_inputs ins vals p | _ => True end /\ regular s ins vals c
  | AAnd cs => (fix all cs := match cs with [] => True | c :: cs => regular s ins vals c /\ all cs end) cs
  end.
(** No comparison has a variable that is the value of an open pattern. *)
Definition safe_arg (ps : list pattern) (ins : list var) (a : farg) : Prop :=
  match a with
  | FVar x => forall p, p ∈ ps -> open_pattern ins p -> p_v p = VVar x -> x ∈ ins
  | FConst c => storable c
  | _ => True
  end.
Record safe (q : query) (vals : gmap var typed_value) : Prop := {
  sa_bound : forall x, x ∈ q_in q -> exists v, vals !! x = Some v /\ storable v;
  sa_patterns : Forall (safe_pattern (query_patterns q) (q_in q) vals) (query_patterns q);
  sa_compared : Forall (safe_arg (query_patterns q) (q_in q)) (flat_map clause_compared (q_where q)) }.

(** The values in the store are ones it can represent (C21). *)
Definition all_readable (st : store) : Prop := forall a, readable st a.
(** No long and double of the store are equal as numbers. *)
Definition twinless (st : store) : Prop := forall e a z tx e' a' k tx',
  datom_at st e a (TVLong z) tx -> datom_at st e' a' (TVDouble (DKey k)) tx' -> long_value z <> double_value k.
(** [:find] has no variable that is the value of an open pattern. *)
Definition closed_find (q : query) : Prop := forall p x,
  p ∈ query_patterns q -> open_pattern (q_in q) p -> p_v p = VVar x -> x ∉ q_in q -> x ∉ find_vars (q_find q).
(** The limit is positive; [:order] is by variables of [:find] or inputs. *)
Definition well_limited (q : query) (vals : gmap var typed_value) : Prop :=
  match q_limit q with LNone => True | LFixed n => (0 < n)%nat | LVar x => exists n, vals !! x = Some (TVLong n) /\ 0 < n end.
Definition well_ordered (q : query) : Prop := forall x, x ∈ map snd (q_order q) -> x ∈ find_vars (q_find q) \/ x ∈ q_in q.
(** What SQLite is: a plan gives the rows in some order. *)
Definition sqlite_ok (sq : sqlite) : Prop := forall rows, Permutation (sq_plan sq rows) rows.

(** A query as it is run on a connection, without a cache and with one *)
Definition q_uncached (sq : sqlite) (c : conn) (q : query) (vals : gmap var typed_value) : res results :=
  q_once sq (Known (schema_of c) no_cache) (disk c) q vals.
Definition q_cached (sq : sqlite) (c : cconn) (q : query) (vals : gmap var typed_value) : res results :=
  q_once sq (Known (schema_of (cc_conn c)) (conn_cache (cc_cache c) (schema_of (cc_conn c)))) (disk (cc_conn c)) q vals.
(** No attribute of many values is cached forward. *)
Definition singly_cached (c : cconn) : Prop := forall a at_, sc_attribute_map (schema_of (cc_conn c)) !! a = Some at_ ->
  is_cached_forward (cc_cache c) a = true -> at_multival at_ = false.
(** Two results that are the same, but for the order of rows and for which answer a tuple or scalar is *)
Definition same_results (r r' : results) : Prop :=
  match r, r' with
  | RRel l, RRel l' => Permutation l l'
  | RColl l, RColl l' => Permutation l l'
  | RTuple o, RTuple o' => is_some o = is_some o'
  | RScalar o, RScalar o' => is_some o = is_some o'
  | _, _ => False
  end.

(** A query with one more clause; the values that a row and the inputs give *)
Definition adding (q : query) (c : clause) : query := Query (q_find q) (q_in q) (q_where q ++ [c]) (q_order q) (q_limit q).
Definition of_row (q : query) (vals : gmap var typed_value) (row : list typed_value) : assignment := fun x =>
  match list_find (eq x) (find_vars (q_find q)) with
  | Some (i, _) => default (TVRef 0) (row !! i)
  | None => default (TVRef 0) (vals !! x)
  end.

(** The programmatic notation for transactions: transaction/src/entity_builder.rs, transaction/src/lib.rs:152-162. *)
From Verif Require Export M_Conn.

(** entity_builder.rs:70-74 TermBuilder.  Values are typed values or (for the vocabulary code) any value place. *)
Record term_builder := TermBuilder { tb_tempids : gset tempid; tb_terms : list entity }.
(** entity_builder.rs:76-79 EntityBuilder *)
Record entity_builder := EntityBuilder { eb_builder : term_builder; eb_entity : entity_place }.

(** entity_builder.rs:165-170 *)
Definition tb_new : term_builder := TermBuilder ∅ [].
(** entity_builder.rs:161-163 *)
Definition tb_build (b : term_builder) : list entity * gset tempid := (tb_terms b, tb_tempids b).
(** entity_builder.rs:105-110, 176-179: interning returns the tempid itself (M_Sets, C35) *)
Definition tb_intern (t : tempid) (b : term_builder) : tempid * term_builder :=
  (t, TermBuilder ({[t]} ∪ tb_tempids b) (tb_terms b)).
Definition named_tempid (n : string) (b : term_builder) : tempid * term_builder := tb_intern (TExternal n) b.
Definition numbered_tempid (n : Z) (b : term_builder) : tempid * term_builder := tb_intern (TInternal n) b.
(** entity_builder.rs:127-155 add, retract: always succeed *)
Definition tb_push (o : op) (e : entity_place) (a : entid_or_ident) (v : value_place) (b : term_builder) : term_builder :=
  TermBuilder (tb_tempids b) (tb_terms b ++ [EntAdd o e a v]).
(** entity_builder.rs:112-125, 281-292 describe_tempid, describe *)
Definition describe (e : entity_place) (b : term_builder) : entity_builder := EntityBuilder b e.
Definition describe_tempid (n : string) (b : term_builder) : entity_builder :=
  let '(t, b) := named_tempid n b in describe (EPTempId t) b.
(** entity_builder.rs:203-221 *)
Definition eb_push (o : op) (a : entid_or_ident) (v : value_place) (b : entity_builder) : entity_builder :=
  EntityBuilder (tb_push o (eb_entity b) a v (eb_builder b)) (eb_entity b).
Definition eb_finish (b : entity_builder) : term_builder * entity_place := (eb_builder b, eb_entity b).

(** lib.rs:158-162 transact_builder, entity_builder.rs:240-248 InProgressBuilder::transact: the tempids of the builder are dropped,
    the transactor interns them again *)
Definition builder_transact (mv now : Z) (ig : inprog) (b : term_builder) : inprog * res txreport :=
  ig_transact mv now ig (tb_build b).1.
(** entity_builder.rs:252-260 InProgressBuilder::commit, for a connection [c] and a transaction in progress on it.  On failure the
    InProgress is dropped, which rolls SQLite back. *)
Definition builder_commit (mv now : Z) (c : conn) (ig : inprog) (b : term_builder) : conn * res txreport :=
  match builder_transact mv now ig b with
  | (ig, Ok r) => match conn_commit c ig with
                  | Ok (c', _) => (c', Ok r)
                  | Err e => (c, Err e)
                  | Panic p => (c, Panic p)
                  end
  | (_, Err e) => (c, Err e)
  | (_, Panic p) => (c, Panic p)
  end.

(** The calls a program makes on a builder; [BDescribe] and [BDescribeTempid]: describe an entity, say things about it, finish. *)
Inductive builder_call :=
  | BPush (o : op) (e : entity_place) (a : entid_or_ident) (v : value_place)
  | BNamed (n : string)
  | BNumbered (n : Z)
  | BDescribe (e : entity_place) (l : list (op * entid_or_ident * value_place))
  | BDescribeTempid (n : string) (l : list (op * entid_or_ident * value_place)).
Definition eb_pushes (l : list (op * entid_or_ident * value_place)) (b : entity_builder) : entity_builder :=
  fold_left (fun b x => eb_push x.1.1 x.1.2 x.2 b) l b.
Definition builder_step (b : term_builder) (x : builder_call) : term_builder :=
  match x with
  | BPush o e a v => tb_push o e a v b
  | BNamed n => (named_tempid n b).2
  | BNumbered n => (numbered_tempid n b).2
  | BDescribe e l => (eb_finish (eb_pushes l (describe e b))).1
  | BDescribeTempid n l => (eb_finish (eb_pushes l (describe_tempid n b))).1
  end.
Definition builder_run (l : list builder_call) : term_builder := fold_left builder_step l tb_new.

# Formal model of mentat in Rocq

## 1. What is here

* `properties.jsonl` - the properties (C01..C61), in API terms.
* `rocq/theories/` - the model (`M_*.v`, no proofs), small specifications (`Spec*.v`),
  lemmas (`P_*.v`) and the property theorems (`Properties*.v`, statements closed by
  `exact lemma`, with `Print Assumptions` below each).
* `MANIFEST.json` - property -> theorem names.
* `seeded/LOG.jsonl` - mutation experiments against the model.

## 2. Conventions

* A Rust function is a total Gallina function.  `Result` is `res A = Ok a | Err e | Panic p`;
  every `assert!`, `unreachable!`, `unimplemented!`, `expect` that can be reached is a `Panic`.
* Mutation through `&mut` returns the new value.  A function which writes to SQLite before it
  can fail returns the new database together with the result, because an open SQLite
  transaction keeps the writes that precede an error.
* Entids are `Z`.  Partition arithmetic does not wrap: `Partition::set_next_entid` panics first
  except at `i64::MAX`, which is stated in the model comment.
* BTreeMap/BTreeSet iteration order is modelled with explicitly sorted lists where it is observable.
  HashMap iteration order is never observable in what is modelled, except where said.
* SQLite: tables are lists of rows in insertion order.  Statements are atomic: a violated UNIQUE or
  NOT NULL constraint aborts the statement, and keeps the effects of earlier statements of
  the same SQL transaction.  Row ids are replaced by the unique key (e,a,tag,v).
* Doubles are abstracted to `DNaN` or `DKey z` (a total order key of the non-NaN doubles); SQLite never
  compares an INTEGER with a REAL in the same attribute as long as C05 holds.

## 3. Plan per property

| Id | Model | Proof |
|----|-------|-------|
| C01,C02 | `transact` on tables datoms / transactions | invariant over histories, refinement to replay of the log |
| C03,C04,C05 | same, with schema evolution | invariant over histories |
| C06,C07 | Conn / InProgress state machine with SQLite savepoint-less transaction | case analysis; C07 refuted by witness |
| C08 | partition map + log | invariant |
| C09 | upsert resolution + trie | refuted by witness (two identity attributes); positive theorem for the terms that reach the trie |
| C10 | search/update_datoms | positive for cardinality many; refuted for cardinality one |
| C11,C12 | trie and search | set equality |
| C13..C16 | upsert_resolution.rs and the transactor loop | invariants of generations; C15 panic refuted by witness, termination proved |
| C17 | read_partition_map | refuted by witness |
| C18..C20 | entities_into_terms, resolve_lookup_refs, tx_checking | direct |
| C21,C22 | codec | round trips, refutations on edge cases |
| C23 | namespaceable_name, tx.rs reversed notation | direct, refutations |
| C24 | Partition | invariant |
| C25 | AddRetractAlterSet | induction over event lists |
| C26..C30,C33 | metadata.rs, schema.rs, update_metadata, read_db | invariants and refutations |
| C31 | timelines.rs | refinement to log prefix |
| C32 | chunking | arithmetic, refutation |
| C34,C35 | value_type_set.rs, intern_set.rs | algebra, induction |
| C36,C37 | cache.rs | refinement to queries, refutations |
| C38,C41..C45 | algebrizer, projector, pull | denotational semantics vs generated SQL; an `or` with conjunctions is a computed table, its rows are shown to be those of its alternatives (`P_QueryUnion`, `P_QueryBranch`, vocabulary in `Spec_Union`) |
| C39,C40 | tx_observer.rs, conn.rs | state machine over all schedules |
| C46 | `M_Edn.v`: Display of values, the grammar of edn/src/lib.rs:75-238 rule by rule, the order of values | induction over values; the parser only returns values that print well (induction over the grammar); refutations |
| C52 | the same; `unwrap()`s are explicit panics | each rule consumes and does not panic in texts with short runs; refutations |
| C47 | SQL builder | induction over pushes |
| C48 | `M_Sync.v` (tolstoy) over any implementation of the five calls of the remote | case analysis of one sync; the remote's history by induction over syncs; refutations (race, refused PUTs, merge) |
| C49 | the same, with the remote of the tests | invariant over any number of files that join, work, push and pull; refutations |
| C53 | `M_Vocab.v` (vocabulary.rs) on top of the transactor | the description of a vocabulary as a list of assertions about tempids; what any such transaction leaves (`P_Vocab`), then reading it back; refutations |
| C54 | the same; the BTreeMaps of the work list | induction over the work list: what was found about a vocabulary stays true while the others are written (`alike`) |
| C55 | algebrizer: clauses/predicate.rs, resolve.rs, convert.rs; types.rs Inequality | one step of the compiler is shown to narrow the rows by the comparison (`P_QueryPred`); then C41/C42, and laws between a query and the one with a comparison more (`P_QueryLaws`) |
| C56 | `M_Builder.v` (entity_builder.rs) on top of the transactor | the terms of a program of calls by induction over the calls; one iteration of the transactor's reading loop is the same for both notations (`P_Builder`), then induction over the loop; refutations |
| C57 | `M_Output.v` (relresult.rs, binding_tuple.rs, QueryOutput) on top of the query model | the flat vector of a relation is cut back into the rows by induction over the rows; every shape fits its :find (`P_Output`); `len` and `is_empty` agree with the number of results (`Spec_Output`); with C44 for the meaning of the rows; one refutation |
| C58 | `M_Aggregate.v` (aggregates.rs, project.rs, translate.rs re_project) on top of the query model | the rows of the inner SELECT are a list of the solutions (as in C44); the groups are those of the variables that are not aggregated, since equal group columns are equal values (`P_Aggregate`); SQLite's functions by induction over the group; four refutations |
| C59 | `M_Pretty.v`: pretty_print.rs; the documents of the crate `pretty` with all their layouts as a relation, and one renderer | every layout of the document of a value is read as the value: induction over the value, inversion of the layout (`P_Pretty`); the renderer chooses a layout; one refutation |
| C60 | `M_TxText.v`: the transaction grammar of edn/src/lib.rs:240-320 rule by rule on top of `M_Edn` | the ways of writing a transaction are an inductive relation (`Spec_TxText`); mutual induction over it, each rule takes what was written and leaves the rest (`P_TxText`); what any successful reading gives, by induction over the rules (`P_TxKept`); bounds are not reached (`P_TxTotal`); two refutations |
| C61 | `M_QueryText.v`: the query grammar of edn/src/lib.rs:322-525 rule by rule on top of `M_Edn`, with the conversions of edn/src/query.rs | the EDN data that stand for a query and the texts of EDN data are two inductive relations (`Spec_QueryText`); each rule takes the data it stands for out of any text of them, and declines the data of the rules tried before (`takes`, `declines` in `P_QueryText`), with induction over the depth of clauses and arguments; parts in any order because filling the slots commutes; bounds are not reached (`P_QueryTotal`); whatever is read is whole (`Spec_QueryKept`, `P_QueryKept`), by following the rules; parts are accepted exactly if complete (`Spec_QueryParts`, `P_QueryParts`), and nothing may follow; three refutations |
| C50 | entities_into_terms | measure |

## 4. Trusted base

* Coq 8.16.1's kernel, its virtual machine for `vm_compute` (used in the examples and the refutations; `coqchk` rechecks them
  without it), and the standard library and std++ as installed.
* `Print Assumptions` under every theorem of the `Properties*.v` files prints "Closed under the global context": no axiom of
  the standard library is used, and none is added.  There is no `Admitted`, no `Axiom`, no section-less `Variable`, no
  functor, no switched-off check, no plugin.
* That the model says what the Rust code does.  Every definition cites the file and the lines.  This was not tested by running the
  code: there was nothing to build it with.
* SQLite, rusqlite, chrono, ordered-float, uuid, indexmap, petgraph, peg are modelled by what mentat uses of them.

## 5. What is modelled, and what is not

| Model | Code |
|-------|------|
| `M_Value`, `M_EdnValue`, `M_Sets` | core-traits lib.rs (TypedValue, ValueType), value_type_set.rs, core/sql_types.rs, db.rs codec, edn symbols.rs, namespaceable_name.rs, types.rs (instants), intern_set.rs |
| `M_Schema`, `M_Meta` | core/lib.rs Schema, db/schema.rs, db/metadata.rs, add_retract_alter_set.rs, db.rs update_metadata, entids.rs |
| `M_Partition`, `M_Boot` | db/types.rs Partition, bootstrap.rs, db.rs creating and opening a store |
| `M_Store` | db.rs: the tables and the statements of MentatStoring |
| `M_Entity`, `M_Upsert`, `M_Tx` | tx.rs, upsert_resolution.rs, internal_types.rs, tx_checking.rs, edn entities.rs |
| `M_Conn`, `M_Shared`, `M_Observer` | conn.rs, transaction/lib.rs (InProgress, savepoints), transaction/metadata.rs, tx_observer.rs, watcher.rs |
| `M_Timelines` | timelines.rs |
| `M_Cache` | db/cache.rs, core/cache.rs |
| `M_Pull` | query-pull |
| `M_Query` | query-algebrizer (patterns, not, or, type annotations, comparisons, inputs, limit, order), query-projector (simple projections), translate.rs, and a semantics of the SQL that comes out |
| `M_Sql` | sql/lib.rs and query-sql/lib.rs: the text and the arguments of a statement |
| `M_Edn` | edn types.rs Display and order, edn lib.rs value grammar |
| `M_Vocab` | src/vocabulary.rs; lookups read the datoms and not a cache; the functions that a definition runs before and after an upgrade are arguments |
| `M_Builder` | transaction/src/entity_builder.rs, transaction/src/lib.rs transact_builder; EDN here means parsed entities (`M_TxText` is how they are read) |
| `M_Output` | query-projector/src/relresult.rs, binding_tuple.rs (tuples of any size, where the code has sizes 1 to 6), lib.rs QueryOutput and QueryResults, transaction/src/query.rs IntoResult; pull elements of :find are not modelled |
| `M_Pretty` | edn/src/pretty_print.rs:22-107. The crate `pretty` is not in the repository: `layout` admits any choice of groups laid out flat, `render` is Wadler's choice with columns counted in characters |
| `M_TxText` | edn/src/lib.rs:230-320: entities, entity, places, lookup refs, functions, map notation, forward and backward attributes; edn/src/entities.rs:58-62, 110. Spans are left out. Every `expected!` is a failure without its message |
| `M_QueryText` | edn/src/lib.rs:322-525, edn/src/query.rs: Variable, SrcVar, FnArg, the places of patterns, Pattern::new, ParsedQuery::from_parts. A NonIntegerConstant is kept as the EDN value it comes from, a set of variables as the list they were written in. `M_Query` starts from its own type of queries: the step from the parsed query to the algebrizer's input is not modelled. |
| `M_Aggregate` | query-projector-traits/aggregates.rs, query-projector/src/project.rs:155-527, query-projector/src/translate.rs:394-476, for count, min, max and sum of longs; avg and sums of doubles are errors in the model (no floating-point arithmetic), `the` and :order/:limit beside aggregates are not in it. SQLite's GROUP BY, count, min, max and sum are modelled as functions of the rows |
| `M_Sync` | tolstoy: syncer, tx_uploader, tx_processor, tx_mapper, metadata, datoms, bootstrap; the remote of tests/tolstoy.rs; remote_client.rs as far as answers to PUT go |

Not modelled: functions in `:where` (ground, fulltext, tx-ids, tx-data), pull inside queries,
rules; matcher.rs; read_vocabularies;
query_builder.rs; store.rs apart from what conn.rs does; encryption; the ffi, the command line tool, the web tool;
the threads behind observers and behind tokio; performance.

Simplifications that matter:

* SQLite: sections 2 and the comments of `M_Store`/`M_Query`.  The order of rows that a statement without ORDER BY returns is a
  parameter (`sq_plan`) of the query theorems, any permutation.  Collation, affinities and comparison of INTEGER with REAL follow the
  SQLite documentation (`sql_eq`, `sql_cmp`).  What `<` says of values of unlike storage classes is a parameter (`sq_mixed`).
* Entids, transaction numbers and times are `Z`; overflow of i64 is an explicit panic where the code would overflow in debug builds
  and is otherwise excluded by hypotheses.
* Uuids of sync are numbers from a supply that never gives the same twice (`uuids_fresh`).
* Time is an argument.

## 6. Findings

Each of these is a proved `..._refuted` theorem (a concrete history, computed), unless it says otherwise.

Transacting
* C07: a failed `transact` inside an InProgress is not rolled back; committing afterwards stores half of it.
* C09: an upsert drops other terms that resolve through it; a retraction in the same transaction can win over an assertion.
* C10: retracting a value that a cardinality-one attribute does not have retracts the value it has.
* C11: anonymous maps: order and repetition matter.
* C14: an identity attribute without an index never upserts.
* C15: transact panics: conflicting upserts (tx.rs:808), a keyword whose name is "_", some hundred fulltext values in one
  transaction, and a :db/txInstant that was made cardinality many.
* C17: after reopening, entids that were given and never stored as an entity are given again.
* C19, C23: reversed attribute notation ignores the operator, and skips the check that an entity was allocated.
* C20: conflicting assertions are accepted when the conflict appears through an upsert.
* C01: a value type can change when an attribute is retracted and installed again; old values then decode as another type.

Schema
* C26, C29, C33: an alteration of any property of a unique attribute drops its uniqueness in memory (schema.rs:229), not on disk.
* C27: swapping two idents in one transaction loses entries of the ident map.
* C28: changing cardinality many to one always fails.  C30: alterations are not validated, so that the store may not open again.
* noHistory never takes effect (read from the code, not stated as a theorem).

Values
* C21: the nil uuid is written and cannot be read back.  Of keywords, those that do not come back as written (without a namespace, with
  ':' or '/') are excluded by `storable_keyword` in the round trip; this is read from the code.
* C22: negative fractional microseconds, scale of milliseconds.  C23: `to_reversed` is not involutive.
* C46, C52, C59: strings are printed without escapes (injection), by Display and prettily; whole doubles print as integers; the parser panics on integers out of range,
  digits that do not fit a radix, instants out of range.
* C60: `[:db/add 1 :a/_ 2]` panics instead of being rejected, and so do entids out of range; of two pairs with the same key in a map the
  first is dropped without an error; `:a/_+b` gives an attribute that cannot be written as a keyword.
* C61: in `[?x :a/b :c]` the keyword without a namespace is no value, so it is read as the transaction: the pattern means `[?x :a/b _ :c]`;
  `[?x :a/_ ?y]` panics; `[(type?x :a)]` is a type annotation and `(the?x)` is `(the ?x)`, as no space is required after a word of the grammar.

Connections, observers, caches
* C40: two connections on one file do not notice each other's schema changes.
* C39: changes of rolled-back savepoints and of failed transactions are reported; reports can be lost.
* C36, C37, C38: caches are not kept coherent when attributes change, when transactions fail, when a cached cardinality-many value is
  retracted; cached queries then differ from uncached ones.
* C31: a rewound file has a stale schema, or none; fulltext values and widening of cardinality cannot be rewound; the second rewind takes
  rows of the first.

Queries
* C41: DISTINCT merges 5 and 5.0; an integer constant also finds booleans, instants and row numbers of fulltext values in open patterns; an
  ident in an open pattern only finds keywords.
* C42, C43: `(not [_ _ _])` is dropped; an `or` whose arms give a variable different types fails or finds nothing; `or-join` leaks types; an
  alternative of an `or` that a required type empties takes the others with it (its LIMIT 0 applies to the whole UNION); an `or` within a `not`
  has the same table name as the one outside and hides it; if all of `:find` are inputs and nothing else constrains them, a row is returned even if
  an `or` has no match (C42_or_constant_refuted).
* C55: a comparison with a value of unknown attribute lets references through and reads them as numbers; instants are compared by the microsecond,
  so that one can be found that is before its bound; a comparison that stands before the pattern that binds its variable is an error.
* C44: ordering by a variable that is not in `:find` repeats rows.  C43: a limit of the wrong type gives no rows.
* C45: attributes after a wildcard are ignored; two attributes with one alias lose one.
* C47: equal keywords are separate arguments; infinite doubles are written as a name; the check of reserved argument names never fires.

Sync
* C48: two syncs at the same time lose a transaction, and the files disagree for ever; refused PUTs count as success; a used file cannot be
  synced with a remote that has only the bootstrap transaction; a merge makes references point to other entities.
* C49: a file that downloads takes its next entids from the last transaction alone, and later overwrites existing entities; files with
  fulltext values cannot be uploaded, and each attempt leaves garbage.
* Read from the code, not stated as theorems: the report BadRemoteState is replaced by LocalFastForward; instants asserted of other
  transactions are redirected to the replayed one; tolstoy_parts is never updated.

Vocabularies
* C53: a vocabulary with an attribute without history, or with version 0, can be installed and then never be ensured again.  One that adopts
  a unique attribute as not unique leaves it unique, and then conflicts with itself.  One that adopts an attribute exactly as it is in the
  store is refused when nothing was ever said about its :db/fulltext.

Builders
* C56: `numbered_tempid(1)` and the tempid that the transactor makes up for the first map without :db/id are the same tempid: two entities
  become one.  A number passed as TypedValue::Long is rejected as a value of a ref attribute, where EDN takes it for an entid.

Outputs
* C57: `RelResult::from(vec![])` has width 0, so that `row_count()` divides by zero and `rows()` panics; it also differs from the empty relation that
  a query gives.

Aggregates

* C58: without solutions `(sum ?x)` is an error: SQLite gives NULL, which the projector only expects of avg, max and min (C58_sum_refuted).
* C58: without solutions `(count ?x)` is 0 if that is found by running the query, and nothing if the algebrizer knows it (C58_count_refuted).
* C58: `(max ?y)` of an input is the input, without an aggregate in the statement: with `:with` there is a row for each solution (C58_input_refuted).
* C58: the result is not grouped by inputs; `:find ?y (count ?x) :in ?y` without solutions is an error (C58_input_group_refuted).

## 7. Mutation testing

`seeded/LOG.jsonl` has one line per wrong model: the definition, the edit, the claim it breaks, the lemmas whose proofs broke, the
theorems that then were not proved, and the theorems that were tightened because the edit went unnoticed.

{"id": "C01", "title": "The transaction log determines the current state", "statement": "After any history of transacts, sessions and reopenings that never retracts an attribute's :db/valueType, the current datoms (what queries and `datoms` see) are exactly what one obtains by replaying the main-timeline transaction log from the empty store: an assertion row adds the fact, a retraction row removes it, and the `tx` of a current datom is the transaction that last asserted it. (Without the restriction: refuted.)", "quantifier": "every history of transactions of any length and shape, accepted or rejected, from the bootstrapped store", "why_tests_cant": "the log and the materialized datoms are maintained by separate SQL statements; agreement must hold after every possible history, tests compare a few", "anchors": ["db/src/db.rs: search, insert_transaction, update_datoms", "db/src/tx.rs: transact_simple_terms_with_action"]}
{"id": "C02", "title": "The log is minimal", "statement": "Every assertion row written to the log by a transaction was absent from the store just before that transaction, every retraction row was present, and no transaction both asserts and retracts the same [e a v].", "quantifier": "every transaction in every history", "why_tests_cant": "quantifies over all states and all inputs, including repeated and redundant assertions", "anchors": ["db/src/db.rs: insert_transaction"]}
{"id": "C03", "title": "Cardinality-one attributes hold at most one value", "statement": "In every reachable store each entity has at most one current value for an attribute whose schema says :db.cardinality/one, provided the history never retracts an attribute's :db/valueType.", "quantifier": "all entities, attributes and histories, including schema alterations", "why_tests_cant": "an invariant of all reachable states", "anchors": ["db/src/db.rs: update_datoms, update_metadata", "db/src/tx_checking.rs: cardinality_conflicts"]}
{"id": "C04", "title": "Unique attributes identify at most one entity", "statement": "In every store reached by a history that never retracts an attribute's :db/valueType, for an attribute with :db/unique no value is asserted for two different entities.", "quantifier": "all attributes, values and histories (without reopening the store; see C33)", "why_tests_cant": "an invariant of all reachable states, maintained by index flags stored per datom", "anchors": ["db/src/db.rs: V1_STATEMENTS idx_datoms_unique_value, update_metadata"]}
{"id": "C05", "title": "Stored values have the attribute's declared type", "statement": "In every store reached by a history that never retracts an attribute's :db/valueType, the type tag of each current datom is the tag of the value type the schema declares for its attribute, and a transaction containing a wrongly typed literal is rejected. (Without the restriction: refuted.)", "quantifier": "all datoms of all reachable stores; all inputs", "why_tests_cant": "types are checked at several distinct places of the transactor; holds only if no path bypasses them", "anchors": ["db/src/tx_checking.rs: type_disagreements", "db/src/schema.rs: to_typed_value, validate_alter_attribute"]}
{"id": "C06", "title": "A rejected transact leaves no trace", "statement": "If `Conn::transact` returns an error, the stored tables, the schema, the partition map, the caches and the last transaction id seen by any later operation are exactly what they were before the call.", "quantifier": "every state, every input and every failure point of the transactor", "why_tests_cant": "failure points are spread over the whole pipeline, including after the datoms table was modified", "anchors": ["src/conn.rs: transact", "transaction/src/lib.rs: InProgress"]}
{"id": "C07", "title": "A failed transact inside an open InProgress has no effect", "statement": "If a `transact` call on an InProgress fails with an error raised before its first write and the caller nevertheless commits the InProgress, the committed store is as if the failing call had not been made. (For errors raised later this is refuted: partial writes are committed.)", "quantifier": "every state, sequence of calls and failure point", "why_tests_cant": "needs every failure point inside the transactor, including those after SQL writes", "anchors": ["transaction/src/lib.rs: transact_entities, commit", "db/src/tx.rs"]}
{"id": "C08", "title": "Transaction ids increase and each transaction has one instant", "statement": "Each successful transaction gets a transaction id strictly greater than every earlier one on the connection; its report's instant is the :db/txInstant recorded for that id.", "quantifier": "all histories", "why_tests_cant": "monotonicity over unbounded histories", "anchors": ["db/src/tx.rs: start_tx, get_or_insert_tx_instant", "db/src/types.rs: Partition::allocate_entids"]}
{"id": "C09", "title": "Every accepted assertion holds afterwards", "statement": "After a successful transaction, every [:db/add e a v] of the input (with tempids, lookup refs and idents resolved) is a current datom, unless (1) it is about a tempid that upserted and a is an identity attribute, or (2) it held before and the same transaction retracts another value of the attribute. (Both exceptions are real: refuted without them.)", "quantifier": "all inputs and stores", "why_tests_cant": "must hold for arbitrary combinations of upserts", "anchors": ["db/src/upsert_resolution.rs: evolve_one_step", "db/src/tx.rs: into_aev_trie"]}
{"id": "C10", "title": "Retracting removes exactly the named fact", "statement": "[:db/retract e a v] leaves [e a v] absent; whatever fact disappears was retracted by value (cardinality many) or by attribute (cardinality one), or replaced by a cardinality-one assertion; whatever fact appears was asserted or is the transaction's own instant. (That a cardinality-one retraction removes only the value it names is refuted.)", "quantifier": "all inputs and stores", "why_tests_cant": "frame condition over the whole store", "anchors": ["db/src/db.rs: search, update_datoms"]}
{"id": "C11", "title": "A transaction is a set of facts", "statement": "Repeating or reordering the entities of a transaction changes neither acceptance nor the resulting store, schema, partition map and report, provided every map in it has a :db/id (for maps without :db/id order and repetition matter: refuted).", "quantifier": "all permutations and duplications of all inputs", "why_tests_cant": "order independence quantifies over all permutations", "anchors": ["db/src/tx.rs: extend_aev_trie", "db/src/upsert_resolution.rs"]}
{"id": "C12", "title": "Asserting what already holds is a no-op", "statement": "A transaction that only asserts facts already current changes no fact and logs nothing but its own :db/txInstant.", "quantifier": "all stores and all such inputs", "why_tests_cant": "all inputs", "anchors": ["db/src/db.rs: insert_transaction"]}
{"id": "C13", "title": "Every tempid is resolved consistently", "statement": "On success the report maps exactly the external tempids used, each to one entid, and every occurrence of a tempid in the transaction denotes that entid.", "quantifier": "all inputs", "why_tests_cant": "all inputs with arbitrary tempid graphs", "anchors": ["db/src/tx.rs: transact_simple_terms_with_action", "db/src/upsert_resolution.rs"]}
{"id": "C14", "title": "Upserts find the existing entity", "statement": "If an accepted transaction asserts [:db/add t a v] for a tempid t and an indexed identity attribute a, and v is already asserted for entity e, then t resolves to e; in particular two identity assertions that name different entities for the same tempid are rejected. (Without the index: refuted.)", "quantifier": "all stores and inputs, including values that are themselves tempids resolved by other upserts", "why_tests_cant": "resolution is a fixpoint iteration over arbitrary term graphs", "anchors": ["db/src/upsert_resolution.rs", "db/src/tx.rs: resolve_temp_id_avs"]}
{"id": "C15", "title": "Upsert resolution terminates and never panics", "statement": "The transactor's upsert loop terminates and transact returns a report or an error, or panics at one of five listed places under listed conditions. (That it never panics is refuted, with four different inputs.)", "quantifier": "all inputs and stores", "why_tests_cant": "termination and absence of panics over all inputs", "anchors": ["db/src/tx.rs:808-816", "db/src/upsert_resolution.rs: temp_ids_in_allocations, into_final_populations"]}
{"id": "C16", "title": "Fresh entids are fresh", "statement": "A tempid that does not upsert is given an entid that no earlier operation on the connection allocated; distinct tempids get distinct entids unless they are unified by sharing an identity [a v].", "quantifier": "all histories and inputs", "why_tests_cant": "freshness over all histories", "anchors": ["db/src/types.rs: Partition::allocate_entids", "db/src/upsert_resolution.rs: temp_ids_in_allocations"]}
{"id": "C17", "title": "Entids are never reused after reopening", "statement": "An entid handed out in a committed transaction that is the entity of some logged row is never handed out again, even after the store is closed and reopened. (For an entid that only occurs as a value: refuted.)", "quantifier": "all histories with reopen", "why_tests_cant": "the partition map is recomputed from the log on open", "anchors": ["db/src/db.rs: read_partition_map, create_current_partition_view"]}
{"id": "C18", "title": "Lookup refs resolve or fail", "statement": "A lookup ref (a v) in a transaction denotes the unique entity with that value; if there is none, or a is not unique, the transaction is rejected.", "quantifier": "all stores and inputs", "why_tests_cant": "all inputs", "anchors": ["db/src/tx.rs: intern_lookup_ref, resolve_lookup_refs", "db/src/db.rs: resolve_avs"]}
{"id": "C19", "title": "Entities named by number must be allocated", "statement": "A transaction whose entity position names, in forward notation, an entid that no partition has allocated is rejected. (In reversed notation: refuted.)", "quantifier": "all entids and partition maps", "why_tests_cant": "all integers", "anchors": ["db/src/tx.rs: ensure_entid_exists", "db/src/types.rs: contains_entid"]}
{"id": "C20", "title": "Conflicting assertions are rejected", "statement": "A transaction that asserts two different values for the same entity and cardinality-one attribute, or asserts and retracts the same [e a v], is rejected, except for assertions of identity attributes about a tempid that upserts, which are not checked. (Without the exception: refuted.)", "quantifier": "all inputs, with the conflict written through entids, idents, lookup refs, tempids or upserts", "why_tests_cant": "all inputs", "anchors": ["db/src/tx_checking.rs", "db/src/tx.rs: into_aev_trie"]}
{"id": "C21", "title": "SQL value codec round trip", "statement": "A value written to the store and read back is the same value with the same type, for exactly the values of the stated domain: no nil UUID, NaN, namespace-free keyword or fractional pre-1970 instant. (Without the domain: refuted.)", "quantifier": "all typed values", "why_tests_cant": "infinite value space; edge cases at sign, zero, NaN, nil", "anchors": ["db/src/db.rs: to_sql_value_pair, from_sql_value_pair"]}
{"id": "C22", "title": "Instant conversions are exact at their precision", "statement": "Converting an instant to microseconds and back loses only the sub-microsecond part, from 1970 on; before 1970 exactly for whole seconds. from_millis does not invert to_millis. (The unrestricted claims are refuted.)", "quantifier": "all instants", "why_tests_cant": "all integers", "anchors": ["edn/src/types.rs: FromMicros, ToMicros, FromMillis, ToMillis"]}
{"id": "C23", "title": "Attribute reversal notation", "statement": "Reversing a keyword twice gives the keyword back when its name does not start with two underscores; :ns/_name denotes the inverse of :ns/name, and [:db/add e :a/_b x] has the same effect as [:db/add x :a/b e]. (For retract, and for other names: refuted.)", "quantifier": "all keywords, operations and terms", "why_tests_cant": "all strings", "anchors": ["edn/src/namespaceable_name.rs: to_reversed", "db/src/tx.rs:467-476"]}
{"id": "C24", "title": "Partition allocation", "statement": "Allocating n entids returns a contiguous range never returned before, inside the partition, and panics rather than overflow the partition.", "quantifier": "all partitions and n, all histories", "why_tests_cant": "all integers", "anchors": ["db/src/types.rs: Partition"]}
{"id": "C25", "title": "Metadata diffing", "statement": "Given the assertions and retractions of one transaction (each key asserted and retracted at most once), the add/retract/alter sets report a key as asserted, retracted or altered exactly according to which of the two occurred, in any order.", "quantifier": "all sequences", "why_tests_cant": "all interleavings", "anchors": ["db/src/add_retract_alter_set.rs"]}
{"id": "C26", "title": "The in-memory schema agrees with the stored schema", "statement": "After any history, closing and reopening the store yields the schema that was in memory.", "quantifier": "all histories with schema changes", "why_tests_cant": "schema is maintained incrementally in memory and by materialized views on disk", "anchors": ["db/src/metadata.rs", "db/src/db.rs: update_metadata, read_db"]}
{"id": "C27", "title": "Idents map one-to-one", "statement": "After any history the ident->entid and entid->ident maps are inverse to each other and agree with the :db/ident datoms.", "quantifier": "all histories, including renames, swaps and moves of idents within one transaction", "why_tests_cant": "order of map updates matters only for overlapping renames", "anchors": ["db/src/metadata.rs: update_schema_from_entid_quadruples"]}
{"id": "C28", "title": "Schema alteration rules", "statement": "A transaction can never change the value type or fulltext flag of an installed attribute, and can change its cardinality from many to one exactly when no entity has two values.", "quantifier": "all schemas and transactions", "why_tests_cant": "all histories", "anchors": ["db/src/metadata.rs", "db/src/schema.rs: validate_alter_attribute", "db/src/db.rs: update_metadata"]}
{"id": "C29", "title": "Altering one attribute property keeps the others", "statement": "Altering one property of an attribute (index, component, cardinality, uniqueness) leaves its other properties unchanged.", "quantifier": "all attributes and alterations", "why_tests_cant": "all combinations", "anchors": ["db/src/schema.rs: AttributeBuilder::mutate"]}
{"id": "C30", "title": "Installed attributes are valid", "statement": "Every attribute in the schema satisfies the validity rules (unique implies index, fulltext implies string and index, component implies ref), so a store can always be reopened.", "quantifier": "all histories", "why_tests_cant": "alteration path differs from installation path", "anchors": ["db/src/schema.rs: AttributeValidation", "db/src/metadata.rs"]}
{"id": "C31", "title": "Rewinding restores the earlier facts", "statement": "Moving the transactions after t off the main timeline leaves exactly the facts that held just after t.", "quantifier": "all histories and t", "why_tests_cant": "inverse of arbitrary histories", "anchors": ["db/src/timelines.rs: move_from_main_timeline"]}
{"id": "C32", "title": "Chunked SQL parameters never exceed the limit or panic", "statement": "For every number of terms, the transactor splits its SQL parameter lists into chunks that fit the SQLite variable limit, and trips its own assertion exactly when the stated divisibility holds. (That it never does is refuted.)", "quantifier": "all term counts and limits", "why_tests_cant": "needs inputs with tens of thousands of terms", "anchors": ["db/src/db.rs: insert_non_fts_searches, insert_fts_searches, resolve_avs"]}
{"id": "C33", "title": "Uniqueness survives reopening", "statement": "If the reopened schema says an attribute is unique then no two entities share a value for it and no later transaction can make them share one.", "quantifier": "all histories with reopen", "why_tests_cant": "flags are stored per datom and rewritten on alteration", "anchors": ["db/src/db.rs: update_metadata", "db/src/schema.rs: mutate"]}
{"id": "C34", "title": "Value type sets form a boolean algebra", "statement": "Union, intersection, difference, subset and cardinality of value-type sets agree with set operations on the eight value types; is_numeric, is_only_numeric and unique_type_tag agree with their set-theoretic meaning.", "quantifier": "all sets of value types", "why_tests_cant": "2^8 x 2^8 combinations", "anchors": ["core-traits/value_type_set.rs", "core/src/sql_types.rs"]}
{"id": "C35", "title": "Interning is canonical", "statement": "Interning any sequence of values returns for each value a handle equal to the first one interned; two interned handles are the same iff the values are equal, and the set's length is the number of distinct values.", "quantifier": "all sequences", "why_tests_cant": "all sequences", "anchors": ["edn/src/intern_set.rs"]}
{"id": "C36", "title": "Cached lookups equal uncached lookups", "statement": "After any history of commits, looking up the value of a cached cardinality-one attribute (or the values of a cached cardinality-many attribute, or the entities for a value) through the cache gives the same answer as querying the store.", "quantifier": "all histories, attributes, entities and values, with caches registered at any time", "why_tests_cant": "cache is updated incrementally from transaction events", "anchors": ["db/src/cache.rs"]}
{"id": "C37", "title": "In-progress cache isolation", "statement": "Until commit, reads on the connection's cache are unaffected by what an open InProgress wrote, registered or unregistered; reads inside the InProgress see its own writes; dropping it changes nothing.", "quantifier": "all states and interleavings of cache operations", "why_tests_cant": "overlay semantics over arbitrary operation sequences", "anchors": ["db/src/cache.rs: InProgressSQLiteAttributeCache, commit_to"]}
{"id": "C38", "title": "Caching does not change query results", "statement": "For every query and store, executing it with a coherent cache gives the same result as executing it without any cache.", "quantifier": "all patterns, stores and registered caches", "why_tests_cant": "the algebrizer takes cache-dependent shortcuts", "anchors": ["query-algebrizer/src/clauses/pattern.rs: attempt_cache_lookup"]}
{"id": "C39", "title": "Observers are told exactly what they registered for", "statement": "After a commit each registered observer is called at most once, with exactly the committed transactions that touched at least one of its attributes, each with the set of attributes touched; rolled-back transactions are never reported.", "quantifier": "all histories and registrations", "why_tests_cant": "all histories", "anchors": ["db/src/tx_observer.rs", "transaction/src/lib.rs: commit"]}
{"id": "C40", "title": "Optimistic concurrency", "statement": "An InProgress commits only if no other InProgress committed since it began; otherwise it fails and changes nothing. Committed effects are therefore serializable.", "quantifier": "all interleavings of begin/transact/commit/rollback on one connection", "why_tests_cant": "all schedules", "anchors": ["transaction/src/lib.rs: commit", "src/conn.rs: begin_transaction"]}
{"id": "C41", "title": "Conjunctive queries compute the Datalog answer", "statement": "A query whose :where is a conjunction of patterns returns exactly the projections of the variable assignments under which every pattern matches a current datom.", "quantifier": "all stores, schemas and pattern lists", "why_tests_cant": "all joins", "anchors": ["query-algebrizer/src/clauses", "query-projector/src/translate.rs"]}
{"id": "C42", "title": "Negation and disjunction compute the Datalog answer", "statement": "`not`, `not-join`, `or` and `or-join` clauses have their Datalog meaning.", "quantifier": "all stores and clause trees", "why_tests_cant": "all nested clause trees", "anchors": ["query-algebrizer/src/clauses/not.rs", "query-algebrizer/src/clauses/or.rs"]}
{"id": "C43", "title": "A query proved empty is empty", "statement": "If the algebrizer declares a query known-empty (type conflicts, unknown idents, failed cache lookups) then it has no answers.", "quantifier": "all stores and queries", "why_tests_cant": "early pruning must be sound for all stores", "anchors": ["query-algebrizer/src/clauses/mod.rs: mark_known_empty"]}
{"id": "C44", "title": "Limit, order and result shapes", "statement": "Scalar and tuple queries return the first row of the relation, collections the first column; :limit n returns at most n rows; ordering is by the requested variables.", "quantifier": "all relations", "why_tests_cant": "all row sets", "anchors": ["query-projector/src/lib.rs", "query-algebrizer/src/lib.rs: validate_and_simplify_order, simplify_limit"]}
{"id": "C45", "title": "Pull returns exactly the requested attributes", "statement": "Pulling attributes for entities returns for each entity exactly the requested attributes that it has, single values for cardinality one and all values for cardinality many.", "quantifier": "all stores, entities and attribute lists", "why_tests_cant": "all stores", "anchors": ["query-pull/src/lib.rs", "db/src/cache.rs: make_cache_for_entities_and_attributes"]}
{"id": "C46", "title": "EDN printing and parsing are inverse", "statement": "Parsing the printed form of an EDN value gives the value back.", "quantifier": "all EDN values", "why_tests_cant": "unbounded nesting, all strings and numbers", "anchors": ["edn/src/types.rs: Display", "edn/src/lib.rs: grammar"]}
{"id": "C47", "title": "Generated SQL is injective in its arguments", "statement": "Every value in a query reaches SQL either as an integer literal or as a bound argument; building SQL never splices user text, and equal texts share an argument.", "quantifier": "all queries and values", "why_tests_cant": "all strings", "anchors": ["sql/src/lib.rs", "query-sql/src/lib.rs"]}
{"id": "C48", "title": "Sync decision table", "statement": "Sync uploads only when the remote head is the one last seen, downloads only when local has no unsynced changes, merges only when both moved, and never loses remote history.", "quantifier": "all local and remote states and interleavings", "why_tests_cant": "all interleavings of clients", "anchors": ["tolstoy/src/syncer.rs"]}
{"id": "C49", "title": "Fast-forward replication", "statement": "Uploading a store's transactions to an empty remote and fast-forwarding a fresh store from it reproduces the same datoms, the same entids and the same transaction ids.", "quantifier": "all histories", "why_tests_cant": "all histories", "anchors": ["tolstoy/src/syncer.rs: fast_forward_local, fast_forward_remote", "tolstoy/src/tx_uploader.rs"]}
{"id": "C50", "title": "Transaction terminates", "statement": "Processing a transaction's entities (nested maps, vectors, reversed attributes) always terminates.", "quantifier": "all entity trees", "why_tests_cant": "unbounded nesting", "anchors": ["db/src/tx.rs: entities_into_terms_with_temp_ids_and_lookup_refs"]}
{"id": "C51", "title": "Map and vector notation is sugar", "statement": "A transaction written with maps, nested maps and vectors of values means the flat assertions that the notation stands for: one assertion per entry and per value, a nested map standing for its entity, and a tempid of its own for each map without :db/id.", "quantifier": "all entity trees, all stores reached by a history", "why_tests_cant": "unbounded nesting, and the interaction of the unfolding with upserts and lookup refs", "anchors": ["db/src/tx.rs: entities_into_terms_with_temp_ids_and_lookup_refs", "transaction/src/entity_builder.rs"]}
{"id": "C52", "title": "Parsing EDN text does not panic", "statement": "Whatever text is given to the EDN parser, it answers with a value or an error and does not panic.", "quantifier": "all texts", "why_tests_cant": "all texts", "anchors": ["edn/src/lib.rs: grammar, the unwrap()s in its actions"]}
{"id": "C53", "title": "Ensuring a vocabulary makes it available, once", "statement": "After ensure_vocabulary succeeds, the store has the vocabulary with the version and with every attribute exactly as defined, nothing else was touched, and ensuring it again reports Existed and changes nothing. The outcome (installed, upgraded, missing attributes installed, existed) says what the store lacked. A conflicting or older definition is refused and nothing changes.", "quantifier": "all definitions, all stores reached by a history", "why_tests_cant": "all combinations of attribute flags, of partial vocabularies and of earlier versions", "anchors": ["src/vocabulary.rs: check_vocabulary, ensure_vocabulary, description_for_attributes, install_attributes_for, upgrade_vocabulary"]}
{"id": "C54", "title": "Several vocabularies are ensured together or not at all", "statement": "ensure_vocabularies checks every vocabulary before it writes anything: if one is refused, nothing is written. If all are there nothing changes. When it succeeds, the store provides every one of them, also those that were written first.", "quantifier": "all lists of definitions, all stores reached by a history", "why_tests_cant": "any number of vocabularies in any mixture of states", "anchors": ["src/vocabulary.rs: ensure_vocabularies, CheckedVocabularies"]}
{"id": "C55", "title": "A comparison in a query keeps the rows for which it holds", "statement": "Adding a comparison (<, <=, >, >=, !=, unpermute, differ, tx-before, tx-after) of variables of :find, inputs and constants to a query leaves exactly those rows of its result for which the comparison holds: numbers are compared by value, also a long with a double, instants by time, and entities by entid. Adding its negation leaves exactly the others.", "quantifier": "all queries with known attributes where compared values are concerned, all comparisons, all inputs, all stores reached by a history", "why_tests_cant": "any clauses around the comparison, any combination of types of the two sides, any data", "anchors": ["query-algebrizer/src/clauses/predicate.rs:35-214: apply_predicate, potential_types, apply_inequality, to_constraint", "query-algebrizer/src/clauses/resolve.rs:30-165", "query-algebrizer/src/types.rs:326: Inequality"]}
{"id": "C56", "title": "The entity builder says what EDN says", "statement": "A transaction put together by calls on a TermBuilder, an EntityBuilder or an InProgressBuilder has the same effect, the same report or the same error as the same assertions and retractions written in EDN, in order, where typed values are written as literals, and tempids, entids and idents in the place of a value as strings, numbers and keywords. Committing a builder that fails leaves no trace. A numbered tempid is like a named one.", "quantifier": "all programs of calls on a builder, all schemas, all states of a session", "why_tests_cant": "any sequence of calls, any schema (forwards and backwards attributes, lookup refs, nested maps), any state", "anchors": ["transaction/src/entity_builder.rs:64-318", "transaction/src/lib.rs:152-162: builder, transact_builder", "db/src/internal_types.rs:31-117: TransactableValue for ValueAndSpan and TypedValue"]}
{"id": "C57", "title": "Taking the output of a query apart", "statement": "However a program takes the output of a query apart - counting the rows of a relation, asking for the n-th row, iterating over borrowed or owned rows, converting to a vector or a tuple of bindings - it gets exactly the answers of the query in their order, each with one value per element of :find; len and is_empty agree with them. Asking for another shape, or for a tuple of another size, is an error and never a panic or a wrong value. A relation put together from rows by hand gives the rows back.", "quantifier": "all queries of every :find shape, all stores, all row indices, all tuple sizes, all lists of rows", "why_tests_cant": "any number of rows and columns, any index, any store; a test fixes one shape", "anchors": ["query-projector/src/relresult.rs:39-185", "query-projector/src/binding_tuple.rs", "query-projector/src/lib.rs:72-322: QueryOutput, QueryResults", "transaction/src/query.rs:93-117: IntoResult"]}
{"id": "C58", "title": "Aggregates are functions of the groups of answers", "statement": "A query whose :find has count, min, max or sum gives one row for each combination of values of the variables that are not aggregated, and no other rows. In it, count is the number of distinct combinations of values of the variables of :find and :with that belong to the row, sum their sum, and min and max are values that occur and that no other value is below or above. With a single function of a single variable, the result is that function of the answers of the query that asks for the variable, each counted once.", "quantifier": "all stores that histories lead to, all queries with such elements in any order and shape of :find, with any :with, all inputs, all plans of SQLite", "why_tests_cant": "any number of groups and rows, any clauses, duplicates that only :with keeps apart; a test fixes one store and one query", "anchors": ["query-projector-traits/aggregates.rs:22-232", "query-projector/src/project.rs:155-527", "query-projector/src/translate.rs:394-476", "edn/src/query.rs:532-544: Element"]}
{"id": "C59", "title": "Pretty-printed EDN is read back", "statement": "What Value::to_pretty writes, for any width, is read by the EDN parser as the value it was made from, under the same conditions on texts, doubles and instants as for Display (C46). This does not depend on where the layout algorithm breaks lines. A value that fits in the width is written on one line.", "quantifier": "all values whose parts are readable, all widths, all choices of the groups that are laid out flat", "why_tests_cant": "nesting, widths and line breaks are unbounded; the tests compare a few outputs with literals and never read them back", "anchors": ["edn/src/pretty_print.rs:22-107", "edn/src/lib.rs:75-238", "edn/src/types.rs:535-595"]}
{"id": "C60", "title": "A transaction is read as it is written", "statement": "edn::parse::entities, which Store::transact applies to its text, reads a transaction as the entities that are written in it: with any white space and comments, with the pairs of a map in any order, with an attribute forward or backward (then entity and value change places), with nested vectors and maps, lookup refs and functions. One text is the text of at most one list of entities. Whatever is read has only 64-bit entids and namespaced idents, no key twice in a map, and no lists or sets as values; every text is read, rejected or panics. Two texts a user would expect an error for: `:a/_` as an attribute panics, and the first of two equal keys of a map is dropped.", "quantifier": "all texts, all lists of entities and all ways of writing them, all depths of nesting", "why_tests_cant": "the texts are unbounded in length and nesting; the order of the alternatives of the grammar matters (a value before a backward attribute is first tried as an entity), and a test shows this for one text only", "anchors": ["edn/src/lib.rs:230-320", "edn/src/entities.rs:58-122", "transaction/src/lib.rs:219-229", "db/src/bootstrap.rs:370-381"]}
{"id": "C61", "title": "A query is read as it is written", "statement": "parse_query, which every q_* function applies to its text, reads a query as what is written in it: the parts in any order, with any white space and comments; :find in its four shapes with variables, (the ?x), aggregates and pull expressions; patterns with or without source, value and transaction, with a forward attribute or a backward one (then entity and value change places); or, or-join, not, not-join and `and` nested to any depth; type annotations, predicates and functions with nested vectors as arguments and all four bindings; :in, :with, :order, :limit. One text is the text of at most one query. Parts in any order and number are read if none is given twice and neither :find nor :where is missing, and rejected otherwise; a query followed by anything else is rejected. Every text is read, rejected or panics. Whatever text is read, in the query every variable begins with a question mark, no entity is a negative number, the limit is positive, :find, :where, clauses and bindings are not empty, the variables of a join are different and attributes to pull have a namespace and are forward. Two things a user would not expect: a keyword without a namespace in the place of a value is read as the transaction, and `:a/_` as an attribute panics.", "quantifier": "all queries of the parsed type, all ways of writing them, all depths of nesting", "why_tests_cant": "the alternatives of the grammar are tried in order and share their beginnings (or and or-join, the and an aggregate, a predicate and a function); a test shows for one text that the right one is chosen", "anchors": ["edn/src/lib.rs:322-525", "edn/src/query.rs:804-838", "edn/src/query.rs:976-1037"]}

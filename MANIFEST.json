{
 "claims": [
  {
   "property": "C01",
   "status": "proved",
   "theorems": [
    "C01_log_determines_datoms",
    "C01_log_determines_facts",
    "C01_uninstall_refuted"
   ],
   "note": "Refuted for histories that retract a :db/valueType."
  },
  {
   "property": "C02",
   "status": "proved",
   "theorems": [
    "C02_log_minimal",
    "C02_rows_are_changes"
   ],
   "note": ""
  },
  {
   "property": "C03",
   "status": "proved",
   "theorems": [
    "C03_cardinality_one"
   ],
   "note": ""
  },
  {
   "property": "C04",
   "status": "proved",
   "theorems": [
    "C04_values_unique"
   ],
   "note": "Uniqueness as the in-memory schema says; for a reopened store see C33."
  },
  {
   "property": "C05",
   "status": "proved",
   "theorems": [
    "C05_well_typed",
    "C05_literals_typed",
    "C05_asked_typed"
   ],
   "note": "Needs that no :db/valueType was retracted (C01_uninstall_refuted)."
  },
  {
   "property": "C06",
   "status": "proved",
   "theorems": [
    "C06_failed_transact",
    "C06_dropped_session"
   ],
   "note": "Tables, schema, partition map, generation. Caches are the subject of C37."
  },
  {
   "property": "C07",
   "status": "partial",
   "theorems": [
    "C07_early_errors_partial",
    "C07_failed_then_commit_refuted"
   ],
   "note": "Holds for errors before the first write; the full statement is false."
  },
  {
   "property": "C08",
   "status": "proved",
   "theorems": [
    "C08_tx_greater",
    "C08_tx_increases",
    "C08_instant"
   ],
   "note": ""
  },
  {
   "property": "C09",
   "status": "proved",
   "theorems": [
    "C09_assertions_hold",
    "C09_plain_assertion",
    "C09_upsert_drops_refuted",
    "C09_retract_other_refuted"
   ],
   "note": "Both exceptions are shown to be needed."
  },
  {
   "property": "C10",
   "status": "proved",
   "theorems": [
    "C10_changes_are_asked",
    "C10_wrong_value_refuted"
   ],
   "note": ""
  },
  {
   "property": "C11",
   "status": "proved",
   "theorems": [
    "C11_set_of_entities",
    "C11_anonymous_refuted"
   ],
   "note": "For all states, all inputs whose maps have a :db/id, and all inputs with the same set of entities: same acceptance, same connection, same report. With anonymous maps order and repetition matter (refuted)."
  },
  {
   "property": "C12",
   "status": "proved",
   "theorems": [
    "C12_noop"
   ],
   "note": ""
  },
  {
   "property": "C13",
   "status": "proved",
   "theorems": [
    "C13_tempids_resolved"
   ],
   "note": ""
  },
  {
   "property": "C14",
   "status": "proved",
   "theorems": [
    "C14_upsert",
    "C14_upserts_agree",
    "C14_unindexed_refuted"
   ],
   "note": ""
  },
  {
   "property": "C15",
   "status": "proved",
   "theorems": [
    "C15_panics",
    "C15_never_panics_refuted"
   ],
   "note": "Termination: the model is total and C50 shows that its fuel suffices."
  },
  {
   "property": "C16",
   "status": "proved",
   "theorems": [
    "C16_fresh_entids"
   ],
   "note": ""
  },
  {
   "property": "C17",
   "status": "partial",
   "theorems": [
    "C17_not_reused_partial",
    "C17_reused_refuted"
   ],
   "note": "For entids that are the entity of a logged row; false otherwise."
  },
  {
   "property": "C18",
   "status": "proved",
   "theorems": [
    "C18_lookup_entity",
    "C18_lookup_value"
   ],
   "note": ""
  },
  {
   "property": "C19",
   "status": "proved",
   "theorems": [
    "C19_allocated",
    "C19_reversed_refuted"
   ],
   "note": ""
  },
  {
   "property": "C20",
   "status": "proved",
   "theorems": [
    "C20_no_conflicts",
    "C20_upsert_conflict_refuted"
   ],
   "note": ""
  },
  {
   "property": "C21",
   "status": "proved",
   "theorems": [
    "C21_codec_roundtrip",
    "C21_codec_injective",
    "C21_codec_type",
    "C21_codec_refuted"
   ],
   "note": "Exact domain on which the codec round-trips; the unrestricted claim is refuted (nil UUID, NaN, unstorable keywords, pre-1970 fractional instants)."
  },
  {
   "property": "C22",
   "status": "proved",
   "theorems": [
    "C22_micros",
    "C22_micros_monotone",
    "C22_micros_refuted",
    "C22_millis_refuted"
   ],
   "note": "Exact characterisation; refuted before 1970 and for from_millis."
  },
  {
   "property": "C23",
   "status": "proved",
   "theorems": [
    "C23_reversed",
    "C23_reversed_refuted",
    "C23_reversed_add",
    "C23_reversed_retract_refuted"
   ],
   "note": ""
  },
  {
   "property": "C24",
   "status": "proved",
   "theorems": [
    "C24_allocation",
    "C24_allocation_panics",
    "C24_contains"
   ],
   "note": ""
  },
  {
   "property": "C25",
   "status": "proved",
   "theorems": [
    "C25_add_retract_alter"
   ],
   "note": ""
  },
  {
   "property": "C26",
   "status": "proved",
   "theorems": [
    "C26_schema_is_stored",
    "C26_reopening",
    "C26_reopening_succeeds",
    "C26_reopening_fails",
    "C26_reopening_refuted"
   ],
   "note": "For every history whose log is tidy (Spec_Schema); the exceptions are real: C26_reopening_refuted, C27_swap_refuted, C01_uninstall_refuted. Also says exactly when reopening succeeds."
  },
  {
   "property": "C27",
   "status": "proved",
   "theorems": [
    "C27_idents",
    "C27_swap_refuted"
   ],
   "note": "For every history whose log is tidy; false when a transaction moves an ident between entities."
  },
  {
   "property": "C28",
   "status": "proved",
   "theorems": [
    "C28_kept",
    "C28_narrowing_refuted"
   ],
   "note": "First half for every history without uninstalled attributes. Second half (\"exactly when no entity has two values\") is false: narrowing never succeeds (C28_kept) even if it could (C28_narrowing_refuted)."
  },
  {
   "property": "C29",
   "status": "proved",
   "theorems": [
    "C29_others_kept",
    "C29_uniqueness_lost_refuted"
   ],
   "note": "For tidy logs; false for altering an already unique attribute."
  },
  {
   "property": "C30",
   "status": "proved",
   "theorems": [
    "C30_installed_valid",
    "C30_defined_once_valid",
    "C30_reopens",
    "C30_altered_refuted"
   ],
   "note": "Installation is checked, alteration is not."
  },
  {
   "property": "C31",
   "status": "proved",
   "theorems": [
    "C31_rewound",
    "C31_transactions_refuted",
    "C31_fulltext_refuted",
    "C31_widening_refuted",
    "C31_schema_refuted",
    "C31_no_schema_refuted",
    "C31_second_refuted"
   ],
   "note": "Proved for moves that succeed, of histories of any length whose transactions are about data. The refutations show what goes wrong otherwise: fulltext values and widened attributes cannot be moved, the schema returned is stale or missing when schema transactions are moved, restored datoms carry a transaction id that does not exist, and a second move takes along what the first one moved."
  },
  {
   "property": "C32",
   "status": "proved",
   "theorems": [
    "C32_chunks",
    "C32_assertion",
    "C32_assertion_refuted"
   ],
   "note": "Exact condition of the code's own assertion; it does panic at full chunks when the row width divides the limit."
  },
  {
   "property": "C33",
   "status": "proved",
   "theorems": [
    "C33_unique_after_reopening",
    "C33_shared_refuted"
   ],
   "note": "For tidy logs; false after altering an already unique attribute."
  },
  {
   "property": "C34",
   "status": "proved",
   "theorems": [
    "C34_algebra",
    "C34_predicates",
    "C34_enumeration",
    "C34_unique_tag"
   ],
   "note": ""
  },
  {
   "property": "C35",
   "status": "proved",
   "theorems": [
    "C35_interning"
   ],
   "note": ""
  },
  {
   "property": "C36",
   "status": "proved",
   "theorems": [
    "C36_forward",
    "C36_reverse",
    "C36_replaced_refuted",
    "C36_not_there_refuted",
    "C36_restated_refuted",
    "C36_altered_refuted",
    "C36_undone_refuted",
    "C36_failed_refuted",
    "C36_registered_again_refuted"
   ],
   "note": "The cache agrees with the store after every history that meets the stated conditions (tame) on what happens to cached attributes; seven histories outside those conditions are shown to leave it stale."
  },
  {
   "property": "C37",
   "status": "proved",
   "theorems": [
    "C37_session_forward",
    "C37_session_reverse",
    "C37_committed",
    "C37_dropped",
    "C37_deleted_refuted",
    "C37_shared_refuted"
   ],
   "note": "A session reads its own writes through the cache, a commit publishes the set of cached attributes, a dropped session changes nothing; refuted for retracted cardinality-one values read in the session, and for a commit while a clone of the cache is alive."
  },
  {
   "property": "C38",
   "status": "proved",
   "theorems": [
    "C38_same_results",
    "C38_many_refuted",
    "C38_not_refuted",
    "C44_cached_listing",
    "C43_cached_empty"
   ],
   "note": "Queries of patterns, type annotations and comparisons give the same results with and without the cache after tame histories, if no cardinality-many attribute is cached forward; refuted for such attributes and for not."
  },
  {
   "property": "C39",
   "status": "proved",
   "theorems": [
    "C39_handed_over",
    "C39_attributes",
    "C39_calls",
    "C39_all_calls",
    "C39_lost_refuted",
    "C39_rolled_back_refuted",
    "C39_failed_refuted",
    "C39_handed_when"
   ],
   "note": "What a commit hands over (tx ids in order, attributes cover the rows added, none but mentioned ones), and what the service calls for every interleaving of registrations, commits and worker steps. The unconditional claim is false in three ways, each with a counterexample: registering or deregistering while a commit is queued loses its notifications; a savepoint rollback still reports the transaction; a failed transact leaves its attributes to the next one. C39_handed_when: something is handed over only by a commit that succeeds."
  },
  {
   "property": "C40",
   "status": "proved",
   "theorems": [
    "C40_serializable",
    "C40_one_connection",
    "C40_commits",
    "C40_stale_metadata_refuted"
   ],
   "note": "Any number of connections, all schedules. Serial, but with stale metadata in the other connections, so the combined effect is not what one connection would do."
  },
  {
   "property": "C41",
   "status": "proved",
   "theorems": [
    "C41_conjunctive",
    "C41_twins_refuted",
    "C41_integer_refuted",
    "C41_reference_refuted",
    "C41_ident_refuted"
   ],
   "note": "Patterns, type annotations and comparisons. Partial correctness (if the query returns a result) for safe queries; refuted where the attribute of a pattern is not known and values of different types are stored alike."
  },
  {
   "property": "C42",
   "status": "partial",
   "theorems": [
    "C42_regular_partial",
    "C42_branched_partial",
    "C42_not_refuted",
    "C42_or_types_refuted",
    "C42_or_join_refuted",
    "C42_or_emptied_refuted",
    "C42_or_hidden_refuted",
    "C42_or_constant_refuted"
   ],
   "note": "Proved for not and not-join at any depth, for or and or-join of alternatives that read the same table and bind the same variables in the same places (regular), nested in any way, and for top-level or with conjunctions of patterns, comparisons and negations that become a UNION, if each variable has one type and is in all alternatives (branched). Missing: a UNION within not or or, and variables that are not in all alternatives; five refutations show that the full statement is false there (types, or-join scope, an emptied alternative, names of nested tables, constant projections)."
  },
  {
   "property": "C43",
   "status": "proved",
   "theorems": [
    "C43_empty",
    "C43_cached_empty",
    "C43_or_refuted",
    "C43_limit_refuted"
   ],
   "note": "For safe queries with not and regular or; refuted for or-join in general and for limits that are not numbers."
  },
  {
   "property": "C44",
   "status": "proved",
   "theorems": [
    "C44_listing",
    "C44_branched_listing",
    "C44_cached_listing",
    "C44_order_refuted"
   ],
   "note": "Order, limit and the four shapes for safe queries ordered by variables of :find or inputs; refuted for other orders."
  },
  {
   "property": "C45",
   "status": "proved",
   "theorems": [
    "C45_pull",
    "C45_total",
    "C45_attributes",
    "C45_entity",
    "C45_after_wildcard_refuted",
    "C45_renamed_refuted",
    "C45_one_name_refuted"
   ],
   "note": "For every clean store and every unambiguous pull expression the result is exactly what was asked for; ambiguous expressions (names repeated, something after or renamed before a wildcard) are shown to lose what was asked for. Nested pulls do not exist in the code."
  },
  {
   "property": "C46",
   "status": "proved",
   "theorems": [
    "C46_roundtrip",
    "C46_exactly",
    "C46_reread",
    "C46_order",
    "C46_sets",
    "C46_injection_refuted",
    "C46_whole_doubles_refuted",
    "C46_others_refuted"
   ],
   "note": "Proved for all values made of readable parts, at any depth; for values with nothing inside them the condition is exact. The full statement is false: quotes in texts, doubles without a fraction, some symbols, years after 9999."
  },
  {
   "property": "C47",
   "status": "proved",
   "theorems": [
    "C47_faithful",
    "C47_injective",
    "C47_shared",
    "C47_keywords_refuted",
    "C47_infinite_refuted",
    "C47_collision_refuted"
   ],
   "note": "For every SQL query that the translation can produce: building it succeeds, reading its text with the lexical rules of SQLite and putting the arguments in place of the parameters gives exactly the words, names and values of the query, and no argument is named twice. Hence equal text and arguments mean equal queries. Doubles are written as number literals (how Rust prints and SQLite reads them is a parameter of the theorem), integers as integer literals, texts and UUIDs as arguments. Equal strings and UUIDs share an argument; equal keywords do not (refuted). An infinite double is written as a name (refuted), and the check against a parameter that could have been generated never fires (refuted)."
  },
  {
   "property": "C48",
   "status": "proved",
   "theorems": [
    "C48_uploads",
    "C48_downloads",
    "C48_merges",
    "C48_nothing",
    "C48_history",
    "C48_race_refuted",
    "C48_refused_refuted",
    "C48_bare_refuted",
    "C48_merge_refs_refuted"
   ],
   "note": "For every remote (any implementation of the five calls) and every state: the remote is changed only when it is empty or its head is the one last seen and the file has unsynced transactions; the file is changed only when the head is another one; transactions of the file are moved only when both sides have something new; nothing happens when there is nothing to do. On the remote of the tests, over any sequence of syncs by any clients, successful or not, transactions remain and the head descends from the earlier head. Refuted: two syncs at the same time lose a transaction; refused uploads count as done; a used file cannot be synced with a remote that has only the bootstrap transaction; a merge makes references point to other entities."
  },
  {
   "property": "C49",
   "status": "proved",
   "theorems": [
    "C49_upload_download",
    "C49_replicas",
    "C49_caught_up",
    "C49_pushed",
    "C49_next_entids_refuted",
    "C49_fulltext_refuted"
   ],
   "note": "By an invariant over any number of files that join, work, push and pull in any order: files that have seen the same head have the same facts, transactions (with the same ids) and schema; only the time of creation differs. Syncs are assumed to succeed (whether they do is not stated), and histories that would need a merge are left out. Refuted: the entids given next differ, so that an existing entity is overwritten; files with fulltext values cannot be uploaded."
  },
  {
   "property": "C50",
   "status": "proved",
   "theorems": [
    "C50_reading_terminates"
   ],
   "note": ""
  },
  {
   "property": "C51",
   "status": "proved",
   "theorems": [
    "C51_notation"
   ],
   "note": ""
  },
  {
   "property": "C52",
   "status": "proved",
   "theorems": [
    "C52_answers",
    "C52_no_panic",
    "C52_panics_refuted"
   ],
   "note": "The full statement is false; proved for texts with at most 15 letters and digits in a row and no digit before an r."
  },
  {
   "property": "C53",
   "status": "proved",
   "theorems": [
    "C53_check",
    "C53_ensured",
    "C53_existed",
    "C53_outcome",
    "C53_refused",
    "C53_no_history_refuted",
    "C53_version_refuted",
    "C53_adopted_refuted",
    "C53_existing_refuted"
   ],
   "note": "For all stores reached by transactions and all definitions: each result of the check is characterised; after ensuring, the store provides the vocabulary, only the entities it names changed, and ensuring again changes nothing. Definitions run no functions of their own before and after (quiet), names are storable and not those of the core. Refuted without the conditions on history, version and uniqueness; and a definition equal to the stored attribute can be refused."
  },
  {
   "property": "C54",
   "status": "proved",
   "theorems": [
    "C54_refused",
    "C54_existed",
    "C54_ensured"
   ],
   "note": "For every list of definitions: nothing is written when one is refused; nothing changes when all exist; after success every one is provided (also those written first), the outcomes say what was lacking, names that none uses mean what they meant, and ensuring again changes nothing. Definitions give distinct names, are acceptable as in C53, and run no functions of their own."
  },
  {
   "property": "C55",
   "status": "proved",
   "theorems": [
    "C55_picks",
    "C55_negated",
    "C41_conjunctive",
    "C42_regular_partial",
    "C55_open_refuted",
    "C55_fraction_refuted",
    "C55_order_refuted"
   ],
   "note": "If both queries return results, for compared variables that are in :find or inputs; comparisons of other variables are covered by C41/C42. Refuted for values of unknown attributes (types are not checked) and for instants with fractions of a microsecond; a comparison before its variable is bound is an error."
  },
  {
   "property": "C56",
   "status": "proved",
   "theorems": [
    "C56_builder",
    "C56_commit",
    "C56_long_refuted",
    "C56_numbered_refuted"
   ],
   "note": "For all programs of calls, at any point of a session. Refuted for numbered tempids (they collide with those of maps without :db/id) and for numbers passed as longs where a ref is expected."
  },
  {
   "property": "C57",
   "status": "proved",
   "theorems": [
    "C57_rows",
    "C57_answer",
    "C57_tuple",
    "C57_shape",
    "C57_counted",
    "C57_from",
    "C57_from_refuted"
   ],
   "note": "For all queries of the modelled fragment and every :find shape. Refuted for a relation made from no rows."
  },
  {
   "property": "C58",
   "status": "proved",
   "theorems": [
    "C58_groups",
    "C58_total",
    "C58_count",
    "C58_sum_refuted",
    "C58_count_refuted",
    "C58_input_refuted",
    "C58_input_group_refuted"
   ],
   "note": "Rows, groups, count, min, max and sum of longs for queries without a cache whose clauses are branched (C42); avg and sums of doubles are not computed in the model. What is aggregated must not be an input, and a group needs a variable that is not one. Four refutations: sum of nothing is an error, count of nothing is 0 or nothing, max of an input repeats rows, no grouping by inputs."
  },
  {
   "property": "C59",
   "status": "proved",
   "theorems": [
    "C59_layouts",
    "C59_widths",
    "C59_reread",
    "C59_line",
    "C59_injection_refuted"
   ],
   "note": "For every layout the crate pretty may choose and for every width; conditions on parts as in C46. The layout algorithm of the crate is not in the repository: C59_layouts does not depend on it, C59_widths and C59_line are about the renderer modelled here."
  },
  {
   "property": "C60",
   "status": "proved",
   "theorems": [
    "C60_reads",
    "C60_unambiguous",
    "C60_kept",
    "C60_answers",
    "C60_panics_refuted",
    "C60_duplicates_refuted"
   ],
   "note": "All ways of writing a transaction that Spec_TxText describes: numbers as base ten digits, white space between any two things, conditions on texts, doubles and instants as in C46. A function whose name begins with lookup-ref is left out of the ways of writing, though the grammar reads most of them. Refuted: that no text panics; that two pairs with the same key are both kept or rejected."
  },
  {
   "property": "C61",
   "status": "proved",
   "theorems": [
    "C61_reads",
    "C61_unambiguous",
    "C61_answers",
    "C61_kept",
    "C61_ends",
    "C61_complete",
    "C61_third_refuted",
    "C61_panics_refuted",
    "C61_words_refuted"
   ],
   "note": "All queries and ways of writing them that Spec_QueryText describes: atoms as Display prints them, white space between any two things, conditions on texts, doubles and instants as in C46. A function whose name begins with type, or an aggregate whose name begins with the or pull, is left out of the ways of writing. C61_answers and C61_kept are about all texts. Refuted: that the third thing of a pattern is its value; that no text panics; that an aggregate of any name is read as such."
  }
 ]
}

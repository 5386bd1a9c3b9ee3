{
 "claims": [
  {
   "property": "C01",
   "status": "proved",
   "theorems": [
    "C01_tokenize_maximal_runs",
    "C01_tokens_are_words"
   ],
   "note": "unicode.IsLetter/IsNumber are universally quantified predicates"
  },
  {
   "property": "C02",
   "status": "proved",
   "theorems": [
    "C02_tokenize_compositional",
    "C02_tokenize_rejoin"
   ],
   "note": ""
  },
  {
   "property": "C03",
   "status": "proved",
   "theorems": [
    "C03_lowercase_in_place",
    "C03_other_filters_pure"
   ],
   "note": ""
  },
  {
   "property": "C04",
   "status": "proved",
   "theorems": [
    "C04_stopwords_exact",
    "C04_stopwords_idempotent",
    "C04_get_words"
   ],
   "note": ""
  },
  {
   "property": "C05",
   "status": "proved",
   "theorems": [
    "C05_stemmer_every_schedule",
    "C05_stemmer_panics"
   ],
   "note": "porter2.Stem is an arbitrary function"
  },
  {
   "property": "C06",
   "status": "proved",
   "theorems": [
    "C06_preprocessing_function",
    "C06_preprocessing_same_words",
    "C06_stop_word_may_survive"
   ],
   "note": ""
  },
  {
   "property": "C07",
   "status": "proved",
   "theorems": [
    "C07_term_frequency",
    "C07_term_frequency_total",
    "C07_term_frequency_order_free"
   ],
   "note": ""
  },
  {
   "property": "C08",
   "status": "proved",
   "theorems": [
    "C08_flatten_exact",
    "C08_one_entry_per_leaf",
    "C08_flatten_order_independent"
   ],
   "note": ""
  },
  {
   "property": "C09",
   "status": "proved",
   "theorems": [
    "C09_flatten_some_leaf",
    "C09_order_independence_refuted"
   ],
   "note": "order independence for colliding paths is refuted by witnesses"
  },
  {
   "property": "C10",
   "status": "proved",
   "theorems": [
    "C10_get_id",
    "C10_get_id_non_string",
    "C10_number_terms"
   ],
   "note": "float formatting is an arbitrary function"
  },
  {
   "property": "C11",
   "status": "proved",
   "theorems": [
    "C11_set_contains",
    "C11_set_size"
   ],
   "note": ""
  },
  {
   "property": "C12",
   "status": "proved",
   "theorems": [
    "C12_lru_bounded_consistent",
    "C12_get_preserves_contents"
   ],
   "note": "over the pointer-level ring of container/list"
  },
  {
   "property": "C13",
   "status": "proved",
   "theorems": [
    "C13_lru_exact",
    "C13_pointers"
   ],
   "note": ""
  },
  {
   "property": "C14",
   "status": "proved",
   "theorems": [
    "C14_no_panic_positive",
    "C14_panic_nonpositive"
   ],
   "note": ""
  },
  {
   "property": "C15",
   "status": "proved",
   "theorems": [
    "C15_list_refines"
   ],
   "note": ""
  },
  {
   "property": "C16",
   "status": "proved",
   "theorems": [
    "C16_concurrent_gets_corrupt",
    "C16_sequential_gets_safe"
   ],
   "note": "expectation of thread safety refuted by a schedule"
  },
  {
   "property": "C17",
   "status": "proved",
   "theorems": [
    "C17_rcu_snapshots",
    "C17_rcu_get_returns_an_earlier_put",
    "C17_rcu_get_never_fails_again"
   ],
   "note": ""
  },
  {
   "property": "C18",
   "status": "proved",
   "theorems": [
    "C18_rcu_drained_is_exact",
    "C18_rcu_flush_publishes",
    "C18_rcu_writer_can_publish",
    "C18_rcu_put_blocks_only_when_full",
    "C18_rcu_put_can_be_unblocked"
   ],
   "note": ""
  },
  {
   "property": "C19",
   "status": "proved",
   "theorems": [
    "C19_syncmap_get_never_answers",
    "C19_syncmap_put_blocks_forever_after_1000",
    "C19_syncmap_put_accepted_before",
    "C19_syncmap_with_writer_is_frozen"
   ],
   "note": ""
  },
  {
   "property": "C20",
   "status": "proved",
   "theorems": [
    "C20_shard_routing",
    "C20_shard_never_panics",
    "C20_shard_nonpositive_panics",
    "C20_crc_is_32_bit"
   ],
   "note": ""
  },
  {
   "property": "C21",
   "status": "proved",
   "theorems": [
    "C21_shard_is_a_map_per_fragment",
    "C21_local_map_pointers_are_snapshots"
   ],
   "note": ""
  },
  {
   "property": "C22",
   "status": "proved",
   "theorems": [
    "C22_memory_postings_exact",
    "C22_get_index_agrees"
   ],
   "note": ""
  },
  {
   "property": "C23",
   "status": "proved",
   "theorems": [
    "C23_memory_get_fields"
   ],
   "note": ""
  },
  {
   "property": "C24",
   "status": "proved",
   "theorems": [
    "C24_memory_size_counts_calls",
    "C24_memory_length_sums_calls",
    "C24_size_is_document_count_iff_no_resave"
   ],
   "note": ""
  },
  {
   "property": "C25",
   "status": "proved",
   "theorems": [
    "C25_memory_number_field_term",
    "C25_frequency_at_most_size",
    "C25_frequency_vs_postings"
   ],
   "note": ""
  },
  {
   "property": "C26",
   "status": "proved",
   "theorems": [
    "C26_memory_frame"
   ],
   "note": ""
  },
  {
   "property": "C27",
   "status": "proved",
   "theorems": [
    "C27_order_irrelevant",
    "C27_fields_order_irrelevant"
   ],
   "note": ""
  },
  {
   "property": "C28",
   "status": "proved",
   "theorems": [
    "C28_postings_only_grow",
    "C28_still_returned"
   ],
   "note": ""
  },
  {
   "property": "C29",
   "status": "proved",
   "theorems": [
    "C29_value_semantics_without_mutation",
    "C29_returned_set_is_live",
    "C29_returned_index_is_live",
    "C29_client_set_mutation",
    "C29_client_tf_mutation"
   ],
   "note": "reference-level model of the store's maps"
  },
  {
   "property": "C30",
   "status": "proved",
   "theorems": [
    "C30_memory_answers_pointwise",
    "C30_search_never_stuck",
    "C30_search_terminates",
    "C30_search_never_panics",
    "C30_search_schedule_independent",
    "C30_search_can_return"
   ],
   "note": ""
  },
  {
   "property": "C31",
   "status": "proved",
   "theorems": [
    "C31_search_exact",
    "C31_memory_search_exact",
    "C31_batches_partition"
   ],
   "note": ""
  },
  {
   "property": "C32",
   "status": "proved",
   "theorems": [
    "C32_standard_search_terminates",
    "C32_standard_search_never_stuck",
    "C32_standard_search_exact",
    "C32_standard_search_any_arithmetic",
    "C32_every_order_possible",
    "C32_no_queries"
   ],
   "note": "sort.Slice is any permutation sorted by the comparison when it is a strict weak order"
  },
  {
   "property": "C33",
   "status": "proved",
   "theorems": [
    "C33_idf"
   ],
   "note": "over the reals"
  },
  {
   "property": "C34",
   "status": "proved",
   "theorems": [
    "C34_score_nonnegative",
    "C34_grows_with_frequency",
    "C34_shrinks_with_length",
    "C34_bounded",
    "C34_boost_scales",
    "C34_query_is_a_bag",
    "C34_formula"
   ],
   "note": "over the reals"
  },
  {
   "property": "C35",
   "status": "proved",
   "theorems": [
    "C35_two_queries_deterministic",
    "C35_three_queries_refuted"
   ],
   "note": "Flocq binary64; math.Log arbitrary except its value at 2 in the witness"
  },
  {
   "property": "C36",
   "status": "proved",
   "theorems": [
    "C36_saved_store_is_well_defined",
    "C36_missing_statistics_give_nan"
   ],
   "note": ""
  },
  {
   "property": "C37",
   "status": "proved",
   "theorems": [
    "C37_get_answers",
    "C37_ten_best",
    "C37_get_finishes"
   ],
   "note": ""
  },
  {
   "property": "C38",
   "status": "proved",
   "theorems": [
    "C38_found_exactly",
    "C38_status",
    "C38_statistics",
    "C38_rejected_changes_nothing"
   ],
   "note": "over the memory storage; requests handled one at a time"
  },
  {
   "property": "C39",
   "status": "proved",
   "theorems": [
    "C39_secure_save_replaces",
    "C39_secure_save_succeeds"
   ],
   "note": "process crashes; I/O errors other than missing directories are not modelled"
  },
  {
   "property": "C40",
   "status": "proved",
   "theorems": [
    "C40_crash_points",
    "C40_name_never_torn",
    "C40_gap_loses_file_refuted"
   ],
   "note": ""
  },
  {
   "property": "C41",
   "status": "proved",
   "theorems": [
    "C41_other_files_untouched",
    "C41_other_directories_untouched",
    "C41_temp_and_old_destroyed_refuted"
   ],
   "note": ""
  },
  {
   "property": "C42",
   "status": "proved",
   "theorems": [
    "C42_metrics_round_trip",
    "C42_metrics_exact"
   ],
   "note": "byte-level flatbuffers model; int32 conversion is wrap32; existence of the bytes for names below 2^30-100 bytes"
  },
  {
   "property": "C43",
   "status": "proved",
   "theorems": [
    "C43_counts_round_trip",
    "C43_counts_exact"
   ],
   "note": "every visiting order; exact for tables of 32-bit counts below 2^30 bytes"
  },
  {
   "property": "C44",
   "status": "proved",
   "theorems": [
    "C44_fields_round_trip",
    "C44_fields_exact"
   ],
   "note": "every visiting order of the map and of each TF map"
  },
  {
   "property": "C45",
   "status": "proved",
   "theorems": [
    "C45_index_round_trip",
    "C45_index_exact"
   ],
   "note": "every visiting order; exact when all set values are true (as in memory)"
  },
  {
   "property": "C58",
   "status": "proved",
   "theorems": [
    "C58_bytes_read_back"
   ],
   "note": "any program over the modelled builder API: strings, offset vectors and tables, with vtable sharing, padding and default slots"
  },
  {
   "property": "C46",
   "status": "proved",
   "theorems": [
    "C46_same_as_memory",
    "C46_session",
    "C46_bare_update_index_refuted"
   ],
   "note": "First session on an empty folder, every schedule: all getters except GetFields answer as a memory store run on the same calls. C46_session: the same between any two idle moments of any session. A bare UpdateIndex differs (refuted with a witness), as the property says."
  },
  {
   "property": "C52",
   "status": "proved",
   "theorems": [
    "C52_flushed_table",
    "C52_counts_are_current",
    "C52_waiting_is_last",
    "C52_reproduces_iff",
    "C52_untouched_field",
    "C52_flush_complete",
    "C52_tables_always_load",
    "C52_untouched_term_lost"
   ],
   "note": "Disk machine: every reachable state, every schedule and crash history; reopening is a complete run of NewDiskStore on the folder. Simple names, field not called docs (C57). The loss of an untouched term is exhibited by a concrete execution."
  },
  {
   "property": "C53",
   "status": "proved",
   "theorems": [
    "C53_metrics_survive",
    "C53_flush_complete",
    "C53_metrics_always_load",
    "C53_docs_field_refuted"
   ],
   "note": "Disk machine: every reachable state, every schedule and crash history. The docs exception is a concrete execution."
  },
  {
   "property": "C48",
   "status": "proved",
   "theorems": [
    "C48_conservation",
    "C48_saved_not_lost",
    "C48_quiet_reopen",
    "C48_merge_completes"
   ],
   "note": "T_DiskIndex.v; one client, every interleaving with the writers and the merger, any number of earlier crashes and reopenings; field names other than docs. Case: C48_case."
  },
  {
   "property": "C49",
   "status": "proved",
   "theorems": [
    "C49_load_twice",
    "C49_interrupted_load"
   ],
   "note": "T_DiskIndex.v; the interruption may be anywhere in the opening except between the two renames of that field. Case: C49_case."
  },
  {
   "property": "C50",
   "status": "proved",
   "theorems": [
    "C50_reopened_index",
    "C50_persistent",
    "C50_gap_crash",
    "C50_gap_crash_refuted"
   ],
   "note": "T_DiskIndex.v; C50_gap_crash_refuted is the reachable execution that loses a merged posting."
  },
  {
   "property": "C51",
   "status": "proved",
   "theorems": [
    "C51_never_opens_again",
    "C51_opening_ends",
    "C51_opening_outcome",
    "C51_crash_blocks_store",
    "C51_merge_race_panics"
   ],
   "note": "T_DiskIndex.v; process kill with partial writes, no power loss model."
  },
  {
   "property": "C47",
   "status": "proved",
   "theorems": [
    "C47_get_fields",
    "C47_restart_erases",
    "C47_evicted_erases",
    "C47_no_cache_panics",
    "C47_evicted_missed",
    "C47_evicted_field_lost",
    "C47_restart_field_lost"
   ],
   "note": "GetFields exact from an empty folder while the saved documents fit in the cache (any flush schedule); first save after a restart, or of an evicted document, erases the other fields; refutation witnesses; cacheSize <= 0 panics. Requested ids must not end in _temp/_old."
  },
  {
   "property": "C54",
   "status": "proved",
   "theorems": [
    "C54_flushed",
    "C54_latest",
    "C54_flush_complete",
    "C54_only_its_own_file",
    "C54_read_back",
    "C54_grouped",
    "C54_alias_refuted",
    "C54_data_race"
   ],
   "note": "File content after a flush, no step changes another document's file, read back after a restart for any cache size; ids ending in _temp/_old alias other documents' temporary files (witness), and the shared map allows a data race (witness)."
  },
  {
   "property": "C55",
   "status": "proved",
   "theorems": [
    "C55_no_deadlock",
    "C55_call_completes",
    "C55_channels_ready"
   ],
   "note": "T_DiskFair.v, fairness in S_DiskFair.v: strong fairness per goroutine; executions without crash and without a goroutine at a fatal point; one caller, good calls, cache_size > 0. C55_case: a fair execution exists."
  },
  {
   "property": "C56",
   "status": "proved",
   "theorems": [
    "C56_size_bounds",
    "C56_size_attained",
    "C56_length",
    "C56_no_phantom_posting",
    "C56_posting_kept",
    "C56_posting_lost",
    "C56_collide",
    "C56_completes",
    "C56_documents_kept",
    "C56_document_lost",
    "C56_serialised",
    "C56_one_goroutine",
    "C56_one_goroutine_memory"
   ],
   "note": "T_Concurrent.v, model M_Concurrent.v, vocabulary S_Concurrent.v. Memory and Disk (disk = true: its in-memory maps). Map accesses are atomic and sequentially consistent; the runtime's fatal error on simultaneous writes is only shown reachable (C56_collide), not modelled."
  },
  {
   "property": "C57",
   "status": "proved",
   "theorems": [
    "C57_clean",
    "C57_clean_same_target",
    "C57_clean_equal",
    "C57_join_nested",
    "C57_join_simple",
    "C57_faithful",
    "C57_read_what_was_written",
    "C57_inside",
    "C57_field_files_distinct",
    "C57_documents_distinct",
    "C57_document_temp_clash",
    "C57_kinds_distinct",
    "C57_postings_distinct",
    "C57_docs_clash",
    "C57_alias",
    "C57_outside"
   ],
   "note": "T_Path.v, model M_Path.v (filepath.Clean/Join for Unix from the published Go source), path semantics S_Path.v. Links and case-insensitive file systems are not modelled. The field called docs on reload: C53_docs_field_refuted."
  },
  {
   "property": "C59",
   "status": "proved",
   "theorems": [
    "C59_posting_reaches_disk",
    "C59_all_flushed",
    "C59_restart_after",
    "C59_documents_after"
   ],
   "note": "T_DiskDurable.v; vocabulary S_DiskDurable.v (ticking, no_saves_after, flushed) and S_DiskFair.v. Executions without a crash and without a goroutine at a fatal point; one caller, good calls, cache_size > 0. Document frequencies are excluded: they are not reproduced by a restart (C52). C59_case: such an execution exists (a save, a flush, then ticks for ever)."
  },
  {
   "property": "C60",
   "status": "proved",
   "theorems": [
    "C60_parallel_reads",
    "C60_parallel_reads_reopened",
    "C60_same_searches",
    "C60_restart_finds_same",
    "C60_restart_ranking_refuted"
   ],
   "note": "Get of the cache is one step (the race inside Get is C16); between a save and the restart everything flushed. The last theorem refutes the preservation of rankings."
  },
  {
   "property": "C61",
   "status": "proved",
   "theorems": [
    "C61_finds_stored",
    "C61_only_saved",
    "C61_statistics",
    "C61_counts",
    "C61_never_panics",
    "C61_can_return",
    "C61_no_race",
    "C61_read_race",
    "C61_iteration_race",
    "C61_torn"
   ],
   "note": "Memory storage; single map accesses atomic and memory sequentially consistent. The last three theorems are the negative parts: races on Go maps and a snapshot that no moment has."
  },
  {
   "property": "C62",
   "status": "proved",
   "theorems": [
    "C62_constants",
    "C62_log_exists",
    "C62_query_score",
    "C62_search",
    "C62_clear_winner_first",
    "C62_memory_index"
   ],
   "note": "math.Log enters through the hypothesis accurate_log; fused multiply-add (not used on amd64) is not modelled"
  },
  {
   "property": "C63",
   "status": "proved",
   "theorems": [
    "C63_found_exactly",
    "C63_get_answers",
    "C63_status",
    "C63_restart",
    "C63_durable",
    "C63_slash_id"
   ],
   "note": "POST requests one after the other; GET over the view of the store justified by C60_parallel_reads"
  },
  {
   "property": "C64",
   "status": "proved",
   "theorems": [
    "C64_finds_saved",
    "C64_finds_later",
    "C64_finds_unsaved",
    "C64_only_saved",
    "C64_statistics",
    "C64_counts",
    "C64_no_panic",
    "C64_can_return",
    "C64_stale_overwrites",
    "C64_map_race",
    "C64_torn_average"
   ],
   "note": "(a) finds_saved, finds_later; (b) only_saved; (c) statistics, counts; (d) no_panic, can_return; (h) finds_unsaved; (e) stale_overwrites; (f) torn_average; (g) map_race"
  },
  {
   "property": "C65",
   "status": "proved",
   "theorems": [
    "C65_ranking",
    "C65_get_finds",
    "C65_get_finds_updated",
    "C65_get_finds_stored",
    "C65_get_only_posted",
    "C65_answers",
    "C65_can_answer",
    "C65_no_panic"
   ],
   "note": "(a) ranking; (b) get_finds, get_finds_updated; (c) get_finds_stored; (d) get_only_posted, answers; (e) no_panic, can_answer"
  },
  {
   "property": "C66",
   "status": "proved",
   "theorems": [
    "C66_saved_not_lost",
    "C66_memory_on_disk",
    "C66_only_saved",
    "C66_reopened_index",
    "C66_quiet_reopen",
    "C66_persistent",
    "C66_size_bounds",
    "C66_length",
    "C66_maps_loaded",
    "C66_documents",
    "C66_cached_documents",
    "C66_no_deadlock",
    "C66_served",
    "C66_metrics_bounds",
    "C66_metrics_durable",
    "C66_metrics_always_load",
    "C66_frequencies",
    "C66_tables_always_load",
    "C66_document_durable",
    "C66_served_fairly",
    "C66_lost_until_restart",
    "C66_stale_metrics",
    "C66_field_lost"
   ],
   "note": "(a) saved_not_lost, memory_on_disk, persistent; (b) only_saved, reopened_index; (c) quiet_reopen; (d) size_bounds, length (maps_loaded: opening always yields such maps); (e) documents, cached_documents; (i) no_deadlock, served; (j) metrics_bounds, metrics_durable, frequencies, metrics_always_load, tables_always_load; (k) document_durable; (l) served_fairly (S_DiskMultiFair.v; T_DiskMulti8.v; Example C66_fair_run); (f) lost_until_restart; (g) stale_metrics; (h) field_lost"
  },
  {
   "property": "C67",
   "status": "proved",
   "theorems": [
    "C67_found_exactly",
    "C67_found_only",
    "C67_ids",
    "C67_statistics",
    "C67_restart",
    "C67_durable",
    "C67_numbers_match"
   ],
   "note": "(a) found_exactly, found_only; (b) ids; (c) statistics; (d) restart, durable (with C54_grouped: documents whose fields are saved one after the other are complete on disk for any cache size); float64: numbers_match. Hypotheses: usual_objects (no key twice, no dots, no empty top-level key); for restart also file names that are single path components and distinct ids."
  },
  {
   "property": "C68",
   "status": "proved",
   "theorems": [
    "C68_only_saved",
    "C68_statistics",
    "C68_bounds",
    "C68_no_panic",
    "C68_can_return",
    "C68_finds_unsaved",
    "C68_finds_cached",
    "C68_finds_saved"
   ],
   "note": "T_DiskQuery.v, T_DiskQuery2.v; vocabulary S_DiskQuery.v, S_DiskQuery2.v, S_DiskMulti.v, S_DiskMulti2.v. (a) only_saved; (b) statistics; (c) bounds (sizes within what the file format holds); (d) no_panic; (e) can_return; (f) finds_unsaved; (g) finds_cached, finds_saved. Documents whose name is a single path component and fields other than docs. Example C68_case meets the hypotheses with two searches and a request in progress, C68_case_unsaved those of (f) with a cache for one document, C68_case_cached and C68_case_saved those of (g) with another save in progress during the search."
  },
  {
   "property": "C69",
   "status": "proved",
   "theorems": [
    "C69_ranking",
    "C69_only_posted",
    "C69_answers",
    "C69_can_answer",
    "C69_no_panic",
    "C69_served",
    "C69_finds_stored",
    "C69_found_after_restart",
    "C69_finds_posted",
    "C69_posted_not_found",
    "C69_comes_to_rest",
    "C69_finite_work",
    "C69_gets_answered",
    "C69_gets_not_stuck",
    "C69_served_fairly"
   ],
   "note": "T_MultiServer.v; vocabulary S_MultiServer.v, S_DiskMulti.v, S_DiskQuery.v, S_Server.v; ms_adds names doc_bm25 (M_Search.v), which C33 specifies. (a) ranking, (b) only_posted, (c) answers, (d) can_answer, (e) no_panic, (f) served, (g) finds_stored, (h) found_after_restart, (i) finds_posted (S_MultiServer2.v, S_DiskQuery2.v: mu_room; T_MultiServer3.v), (j) posted_not_found (T_MultiServer4.v, a concrete execution), (k) comes_to_rest (S_MultiServer3.v: ms_works; T_MultiServer5.v; queries not on the field docs, which no GET request has), (l) finite_work, gets_not_stuck, gets_answered (T_MultiServer5.v; Example C69_case_run), (m) served_fairly (S_MultiServer4.v, S_DiskMultiFair.v: multi_fair; T_MultiServer6.v; Example C69_fair_run). Ids that are single path components. The descending order of (a) is for scores whose comparison is a strict weak order (no NaN). Examples C69_case (a GET request arrives and is answered while two POST handlers are in the middle of their calls) and C69_case_restart (two documents posted at once, a cache for one, kill, restart, found while the other is being posted again), C69_case_posted (posted alone, found while another is being posted), C69_case_rest."
  }
 ]
}
{
 "claims": [
  {
   "property": "C01",
   "status": "proved",
   "theorems": [
    "C01_no_sample_twice"
   ],
   "note": "All histories of next()/update_mixture on one QueryResult."
  },
  {
   "property": "C02",
   "status": "proved",
   "theorems": [
    "C02_rows_from_matching_key"
   ],
   "note": "Row-level containment for all histories."
  },
  {
   "property": "C03",
   "status": "proved",
   "theorems": [
    "C03_strict_exact"
   ],
   "note": "The mixture in force at a call is made explicit by 'working' (after a failed call the old mixture object stays in force, see C49)."
  },
  {
   "property": "C04",
   "status": "proved",
   "theorems": [
    "C04_best_effort_full"
   ],
   "note": "Stated for any mixture whose numbers sum to chunk_size (C13/C14)."
  },
  {
   "property": "C05",
   "status": "partial",
   "theorems": [
    "C05_arbitrary_everything_partial",
    "C05_even_exact",
    "C05_equal_keys",
    "C05_arbitrary_livelock_refuted"
   ],
   "note": "Safety for all numbers of keys; termination and completeness for odd numbers of keys; for even numbers an exact criterion for fixed chunk sizes (C05_even_exact: it ends iff the keys at odd positions of the shuffled order make as many chunks as those at even positions, or one more; otherwise no fuel is enough), which equal keys always meet (C05_equal_keys). The property itself fails when the criterion does (refuted with witness)."
  },
  {
   "property": "C06",
   "status": "proved",
   "theorems": [
    "C06_ranges_sorted"
   ],
   "note": ""
  },
  {
   "property": "C07",
   "status": "proved",
   "theorems": [
    "C07_component_exact"
   ],
   "note": ""
  },
  {
   "property": "C08",
   "status": "proved",
   "theorems": [
    "C08_gives_up",
    "C08_attempt_terminates"
   ],
   "note": "Non-empty mixtures; the arbitrary mixture's round robin is C05."
  },
  {
   "property": "C09",
   "status": "proved",
   "theorems": [
    "C09_key_ids"
   ],
   "note": ""
  },
  {
   "property": "C10",
   "status": "proved",
   "theorems": [
    "C10_mixture_ids"
   ],
   "note": ""
  },
  {
   "property": "C11",
   "status": "partial",
   "theorems": [
    "C11_resume_partial",
    "C11_failed_call_refuted",
    "C11_chunk_size_refuted",
    "C11_schedule_refuted"
   ],
   "note": "Resuming reproduces the original for every history without failed calls, where equal row numbers mean equal mixtures and arbitrary mixture objects do not change before saving; outside these, concrete counterexamples."
  },
  {
   "property": "C12",
   "status": "proved",
   "theorems": [
    "C12_consumers_partition"
   ],
   "note": "All schedules, any number of processes, fork at any reachable point; constant mixture after the fork. The generator section (private state, under _lock) is one step."
  },
  {
   "property": "C13",
   "status": "proved",
   "theorems": [
    "C13_static_exact",
    "C13_static_float",
    "C13_rejects",
    "C13_rejects_negative"
   ],
   "note": "Exact statement for rational arithmetic; C13_static_float holds for every rounding with relative error 2^-53 (float model; fl64 of FloatModel.v is shown to be such a rounding) with an explicit error bound; wrong weights are rejected."
  },
  {
   "property": "C14",
   "status": "proved",
   "theorems": [
    "C14_hierarchical",
    "C14_unchecked_weights_refuted"
   ],
   "note": "Trees with weights summing to one per level, property names not repeated along a path, leaves describing distinct keys; the refutation shows that the unchecked weight condition is needed."
  },
  {
   "property": "C15",
   "status": "proved",
   "theorems": [
    "C15_schedule",
    "C15_schedule_index"
   ],
   "note": "Every schedule, every sequence of feedback messages, also when the query's index is announced in between."
  },
  {
   "property": "C16",
   "status": "proved",
   "theorems": [
    "C16_same_data",
    "C16_same_data_run"
   ],
   "note": "For the whole life of a job: any requests, checkpoints and restarts; the query is an arbitrary sequence of answers."
  },
  {
   "property": "C17",
   "status": "proved",
   "theorems": [
    "C17_disjoint",
    "C17_all_delivered"
   ],
   "note": "distinct_source: the query never gives the same chunk twice (C01). Every chunk taken from the query is handed to a worker."
  },
  {
   "property": "C18",
   "status": "proved",
   "theorems": [
    "C18_lagging_served",
    "C18_kept",
    "C18_bounded"
   ],
   "note": "For every history of one process."
  },
  {
   "property": "C19",
   "status": "proved",
   "theorems": [
    "C19_agreement",
    "C19_ids"
   ],
   "note": "no_copy: first checkpoint of a job without a cached query and without a queryresult directory; the code raises then."
  },
  {
   "property": "C20",
   "status": "proved",
   "theorems": [
    "C20_resume",
    "C20_crash_safe",
    "C20_fresh_ids"
   ],
   "note": "The replay of the query result is C11; here the query is the same oracle before and after. Every reported status list covers the workers."
  },
  {
   "property": "C21",
   "status": "proved",
   "theorems": [
    "C21_once",
    "C21_order",
    "C21_file_order",
    "C21_errors_visible"
   ],
   "note": "For every chunk, shuffle, degree of parallelism and prefetch setting: every sample exactly once with its key id and consecutive indices, samples of a file in order; file after file for one reader; with one reader a failing read is raised. Hypotheses: reads do not fail, and for parallel reading / prefetching no sample equals the END_OF_STREAM text / None (C24, C27 refute the rest)."
  },
  {
   "property": "C22",
   "status": "partial",
   "theorems": [
    "C22_windows_partial",
    "C22_full_window",
    "C22_tokens_partial",
    "C22_zero_share_never_ends",
    "C22_livelock_refuted",
    "C22_float_share_refuted",
    "C22_zero_weight_refuted"
   ],
   "note": "Windows are characterised exactly (which samples in which window, when it stops), shares sum to the window, best effort delivers everything once. False of the code: a share that rounds to zero makes best effort run for ever; float rounding makes a share one too small and loses a sample; a key with weight 0 but with data makes configuring fail."
  },
  {
   "property": "C23",
   "status": "proved",
   "theorems": [
    "C23_resume"
   ],
   "note": "For all chunks, configurations and k; equality of the remaining samples, their indices and the way the iteration ends."
  },
  {
   "property": "C24",
   "status": "partial",
   "theorems": [
    "C24_distribution",
    "C24_interleavings",
    "C24_once_partial",
    "C24_progress",
    "C24_failed_reader_refuted",
    "C24_end_text_refuted",
    "C24_process_count_refuted"
   ],
   "note": "Distribution covers every workload once; for every interleaving the output is the round robin of what the processes delivered, complete if no process is killed or fails and no sample is the END_OF_STREAM text; no deadlock, bounded turns. False of the code: a failed or killed reader process is dropped silently; a sample equal to END_OF_STREAM cuts its process off."
  },
  {
   "property": "C25",
   "status": "proved",
   "theorems": [
    "C25_token_windows",
    "C25_windows_are_consecutive",
    "C25_windows_lose_only_tail",
    "C25_special_tokens",
    "C25_source_error"
   ],
   "note": "Synchronous iterator, any tokenizer that encodes texts independently (batch_encode_plus without padding/truncation, trusted), any sequence length >= 1 and batch size >= 1 (others are rejected by configure_result_streaming)."
  },
  {
   "property": "C26",
   "status": "partial",
   "theorems": [
    "C26_threaded_partial",
    "C26_threaded_failure_refuted"
   ],
   "note": "Proved for every schedule when reading samples does not fail, including progress. False when the sample source raises: the synchronous iterator raises, the threaded one hangs (refutation proved). Code under the lock is atomic; condition variables have no spurious-wakeup effect on the result (a wakeup re-checks)."
  },
  {
   "property": "C27",
   "status": "partial",
   "theorems": [
    "C27_prefetch_partial",
    "C27_first_none_refuted",
    "C27_first_error_refuted"
   ],
   "note": "Proved for every schedule when the first item is not None and reading it does not fail; both excluded cases silently end the stream (refutations proved)."
  },
  {
   "property": "C28",
   "status": "partial",
   "theorems": [
    "C28_text_lines",
    "C28_jsonl_partial",
    "C28_jsonl_untidy_raises",
    "C28_parquet_partial",
    "C28_web_partial",
    "C28_files",
    "C28_parquet_untidy_refuted"
   ],
   "note": "Exact for every file, layout and sorted non-overlapping range list. For other range lists jsonl raises after delivering exactly the ranges before the offending one (proved); the property as stated is false for parquet, which silently drops rows of unsorted or overlapping ranges (refuted by example). Web ranges must lie inside the file (IndexError otherwise)."
  },
  {
   "property": "C29",
   "status": "partial",
   "theorems": [
    "C29_int",
    "C29_int_range",
    "C29_bytes_partial",
    "C29_bytes_none",
    "C29_utf8",
    "C29_utf8_total",
    "C29_float",
    "C29_object",
    "C29_array",
    "C29_sequence",
    "C29_empty_bytes_refuted",
    "C29_cut_refuted",
    "C29_large_header_refuted"
   ],
   "note": "Round trip under every fragmentation and detection of every truncation proved for integers, strings (full UTF-8 codec modelled), doubles, pickled objects, arrays and non-empty byte strings; false as stated for byte strings: an empty one is read as None, a cut at the header boundary is returned as the message None, and a header with its top bit set is read as negative (refutations proved). dill/np.save are parameters with a round-trip hypothesis."
  },
  {
   "property": "C30",
   "status": "partial",
   "theorems": [
    "C30_exact",
    "C30_matching_partial",
    "C30_array_order_raises",
    "C30_parameters",
    "C30_unconditional_refuted",
    "C30_skipped_selects_all"
   ],
   "note": "The generated text is parsed back by a recursive-descent model of SQL's precedence and evaluated in three-valued logic. C30_exact is the full meaning of every chain of selects; the documented meaning holds when every select (or none) has a condition that is not skipped. Counterexamples: an unconditional select chained with others is forgotten; a condition on an unknown column selects everything; order comparisons on array columns raise. Text-level quoting of column names and DuckDB's implicit casts are not modelled."
  },
  {
   "property": "C31",
   "status": "proved",
   "theorems": [
    "C31_exact",
    "C31_ordered",
    "C31_cover"
   ],
   "note": "Window functions, GROUP BY and ORDER BY of the outer query written out per CTE; rows are distinct (primary key of the samples table); order of the group columns any strict total order."
  },
  {
   "property": "C32",
   "status": "partial",
   "theorems": [
    "C32_index_partial",
    "C32_errors",
    "C32_parallelism",
    "C32_terminates",
    "C32_value_order_refuted",
    "C32_separator_refuted"
   ],
   "note": "For every batch layout, thread count, interleaving and hash-map order: the index holds exactly the table's intervals under their combination, in the table's order when ascending; the call raises iff a row is unusable or the count negative. Partial because the statement is false of the code where values contain separators or two rows list the same values in different orders: both losses proved (_refuted)."
  },
  {
   "property": "C33",
   "status": "proved",
   "theorems": [
    "C33_roundtrip",
    "C33_any",
    "C33_query_index",
    "C33_whatever_is_there"
   ],
   "note": "Directory modelled as a map from relative paths (with the decimal names printed and parsed back) to contents; writes, listings and results in any order. Equality as Python dicts; key order kept. C33_any: for indexes with empty inner dicts exactly those vanish. C33_query_index: applies to every index the chunker builds (under C32's hypotheses). C33_whatever_is_there: whatever is at the path before; onto an existing directory a save fails."
  },
  {
   "property": "C34",
   "status": "partial",
   "theorems": [
    "C34_served_partial",
    "C34_served_exact_partial",
    "C34_served_with_put_crashes_partial",
    "C34_change_invalidates",
    "C34_same_text_and_version",
    "C34_remove_crash_serves_deleted_refuted",
    "C34_put_crash_serves_part_refuted",
    "C34_put_crash_blocks_query_refuted",
    "C34_overlap_serves_stale_refuted",
    "C34_own_directories"
   ],
   "note": "Proved for all histories with crashes anywhere except inside remove_dataset and (for exactness) while a result is written; completed changes invalidate everything in all cases. The code violates the full statement: a crash inside remove_dataset serves deleted samples, a crash while the index is written later serves a truncated result or blocks the query, and a registration overlapping a query caches a stale result under the new version (the _refuted theorems)."
  },
  {
   "property": "C35",
   "status": "proved",
   "theorems": [
    "C35_register",
    "C35_duplicate_refused",
    "C35_register_every_point",
    "C35_register_succeeds",
    "C35_remove_missing",
    "C35_remove",
    "C35_remove_every_point",
    "C35_always_consistent",
    "C35_lookups",
    "C35_failed_register_keeps_name_refuted",
    "C35_raising_register_keeps_name_refuted"
   ],
   "note": "Exactness of registering, removing and lookups, for all histories with crashes at any commit; also shown: a failed or raising registration leaves its name taken (the two _refuted theorems), although C35 does not promise otherwise. Casting to existing column types is a parameter."
  },
  {
   "property": "C36",
   "status": "partial",
   "theorems": [
    "C36_key_laws_partial",
    "C36_key_equality_refuted"
   ],
   "note": "Reflexivity and strict order proved; symmetry and hash coherence are false in the code (refuted with witnesses)."
  },
  {
   "property": "C37",
   "status": "proved",
   "theorems": [
    "C37_distribution_exact"
   ],
   "note": "Exact rationals for floats."
  },
  {
   "property": "C38",
   "status": "proved",
   "theorems": [
    "C38_merge"
   ],
   "note": ""
  },
  {
   "property": "C39",
   "status": "partial",
   "theorems": [
    "C39_averaging_accounts_partial",
    "C39_averaging_accounts_exactly_partial",
    "C39_ado_accounts_partial",
    "C39_stale_credit_partial",
    "C39_stale_feedback_refuted",
    "C39_refused_feedback_refuted"
   ],
   "note": "Proved for averaging and ADO and every history of messages with as many losses as counts, whatever their lengths: counts are the per-key sums, losses are the float sums (exact sums without rounding), arrays are as long as the widest message. Stale feedback leaves ADO's credit assignment h(t) alone in adjusted_v1/v2. The rest of the claim is false of the code: feedback of a stale mixture does change the mixture, and a refused message (more counts than losses) still adds its losses."
  },
  {
   "property": "C40",
   "status": "partial",
   "theorems": [
    "C40_averaging_exact",
    "C40_averaging_float",
    "C40_ado_float",
    "C40_averaging_filled",
    "C40_averaging_installed",
    "C40_ado_filled",
    "C40_ado_installed",
    "C40_large_chunk_refuted"
   ],
   "note": "For every history: the averaging mixture is exactly the share of the mean losses (no rounding) and a distribution up to rounding in single precision; whatever ADO returns is a distribution up to rounding, for every fit and derivative; after installation the rows always add up to the chunk size, are those of the returned mixture, and failures leave them unchanged. Partial because filling needs enough precision for the chunk size (2^17 rows with 100 keys in single precision): averaging computes in float32 and for large chunks the installation fails (C40_large_chunk_refuted)."
  },
  {
   "property": "C41",
   "status": "proved",
   "theorems": [
    "C41_request",
    "C41_exchange",
    "C41_handler_raises",
    "C41_unknown_task",
    "C41_task_numbers",
    "C41_truncated",
    "C41_truncated_restore_effect",
    "C41_feedback_unknown_job"
   ],
   "note": "Every request/response pair of the protocol is read back exactly as sent when sizes fit their headers; a handler that raises closes the connection; truncated requests are seen with missing fields = None, never with other values (so a truncated RESTORE erases the status, and feedback for an unknown job is acknowledged as success: stated as theorems). dill and np.save/np.load are round-trip parameters; the local server is a parameter."
  },
  {
   "property": "C42",
   "status": "partial",
   "theorems": [
    "C42_status_exact",
    "C42_single_partial",
    "C42_end_is_truthful",
    "C42_dataset_status",
    "C42_duplicate_refuted",
    "C42_pending_refuted",
    "C42_restore_refuted",
    "C42_dataset_runs_once"
   ],
   "note": "Status table is characterised exactly for every history and schedule; the English property holds for a single registration of an id; three counterexample theorems show where the code breaks it (duplicate registration, pending worker, restore)."
  },
  {
   "property": "C43",
   "status": "proved",
   "theorems": [
    "C43_at_most_once",
    "C43_refused_untouched",
    "C43_other_jobs",
    "C43_threads_refuted"
   ],
   "note": "For all sequential histories (the server serialises calls). C43_threads_refuted shows the unlocked variant, two threads interleaving inside one call, is not protected."
  },
  {
   "property": "C44",
   "status": "partial",
   "theorems": [
    "C44_largest_partial",
    "C44_monotone_partial",
    "C44_since_last_end",
    "C44_shared_refuted"
   ],
   "note": "Exact for every history in terms of the chunks started since any worker's stream last ended; the English property (largest ever, monotone) is false with several workers, C44_shared_refuted: one worker's end resets the client's shared mark."
  },
  {
   "property": "C45",
   "status": "proved",
   "theorems": [
    "C45_add_metadata",
    "C45_records_well_typed",
    "C45_builtin_schemas",
    "C45_slimpajama",
    "C45_missing_label_refuted",
    "C45_sample_id_overwritten_refuted"
   ],
   "note": "add_metadata stores exactly the well-typed records (for schemas with distinct names and options for enumerations), for any parser and any record sequence, and the built-in parsers have such schemas. Two gaps outside the statement are shown: the ImageNet parser records the text 'None' for a missing label, and a property named sample_id overwrites the sample number. STRING values are not type-checked by the code."
  },
  {
   "property": "C46",
   "status": "proved",
   "theorems": [
    "C46_inferred"
   ],
   "note": "Exact rational arithmetic."
  },
  {
   "property": "C47",
   "status": "proved",
   "theorems": [
    "C47_load",
    "C47_one_result_per_line",
    "C47_length_mismatch_raises",
    "C47_values",
    "C47_batch_size_irrelevant",
    "C47_bad_file_raises",
    "C47_seen",
    "C47_nul_refuted"
   ],
   "note": " C47_seen: in terms of the files' texts, each sample's line without trailing white space; for files without NUL characters (C47_nul_refuted: numpy's string arrays drop them; JSON text never contains a raw NUL)."
  },
  {
   "property": "C48",
   "status": "partial",
   "theorems": [
    "C48_next_partial",
    "C48_stream_partial",
    "C48_server_error_refuted",
    "C48_connection_refuted",
    "C48_no_connection_refuted"
   ],
   "note": "The client's stream is exactly the server's chunks as long as every exchange completes; lost connections and server-side errors end the stream silently, shown by the refuted theorems."
  },
  {
   "property": "C49",
   "status": "partial",
   "theorems": [
    "C49_installed_partial",
    "C49_after_failure_refuted"
   ],
   "note": "Positive part: a mixture installed before an attempt is the one the delivered chunk follows; after a failed attempt the code keeps the old mixture/loses state (machine-checked counterexample), so the full claim is false of the code."
  },
  {
   "property": "C50",
   "status": "partial",
   "theorems": [
    "C50_no_errors_partial",
    "C50_zero_entry_refuted"
   ],
   "note": "No arithmetic or lookup error for strict mixtures and for best-effort mixtures with positive entries; a zero entry in a best-effort mixture divides by zero (machine-checked counterexample). Arbitrary mixtures: see C05."
  },
  {
   "property": "C51",
   "status": "proved",
   "theorems": [
    "C51_uses_data"
   ],
   "note": "A best-effort query ends only when matching rows no longer fill a chunk."
  },
  {
   "property": "C52",
   "status": "partial",
   "theorems": [
    "C52_schedule_entry_partial",
    "C52_schedule_entry_refuted"
   ],
   "note": "As stated the property is false of the code: C52_schedule_entry_refuted gives machine-checked counterexamples (best-effort entry used strictly, inferring entry never informed, row numbers not adapted). C52_schedule_entry_partial proves what holds for strict entries."
  },
  {
   "property": "C53",
   "status": "partial",
   "theorems": [
    "C53_retry_refuted"
   ],
   "note": "False: after a rejection _nodes_reported keeps all nodes, every later report raises; proved for every later history, with reachable examples."
  },
  {
   "property": "C54",
   "status": "partial",
   "theorems": [
    "C54_restorable_partial",
    "C54_overlap_refuted"
   ],
   "note": "Proved if no other process of the job is copying the query result; refuted for two overlapping checkpoints and a crash."
  },
  {
   "property": "C55",
   "status": "partial",
   "theorems": [
    "C55_checkpoint_after_restart_refuted",
    "C55_local_job_refuted",
    "C20_resume"
   ],
   "note": "C20_resume covers restarted jobs once every worker has asked again; before that the writing process raises KeyError, and a local job with num_workers=0 is refused after a restart."
  },
  {
   "property": "C56",
   "status": "proved",
   "theorems": [
    "C56_jsonl",
    "C56_parquet",
    "C56_web"
   ],
   "note": "If the whole file can be parsed the parser sees 0..n-1 and record i is what reading [i,i+1) returns."
  },
  {
   "property": "C57",
   "status": "partial",
   "theorems": [
    "C57_same_rows_partial",
    "C57_past_end_refuted",
    "C57_unreachable_refuted"
   ],
   "note": "True for ranges inside the file and parsing functions that ignore a trailing newline. False beyond: the server path has one empty row too many after a final newline, and an unreachable server gives an empty read without an error."
  },
  {
   "property": "C58",
   "status": "proved",
   "theorems": [
    "C58_registry",
    "C58_create"
   ],
   "note": ""
  },
  {
   "property": "C59",
   "status": "partial",
   "theorems": [
    "C59_averaging_accepts_partial",
    "C59_ado_steady_partial",
    "C59_short_first_feedback_refuted",
    "C59_new_domain_refuted",
    "C59_fewer_domains_refuted"
   ],
   "note": "Averaging accepts every message once ids cover the reported keys; ADO accepts every message of a steady history (same keys every time). False of the code otherwise: keys that appear after a fit raise IndexError until the next refit, fewer keys raise IndexError with use_same_step_size (the default), and a first message shorter than the initial mixture stops ADO for good."
  },
  {
   "property": "C60",
   "status": "partial",
   "theorems": [
    "C60_minimum_partial",
    "C60_minimum_refuted"
   ],
   "note": "The probabilities are raised to delta_min and then normalised, so the claim is false of the code (1/101 < 1/100); proved for every history: at least delta/(1 + m delta) up to rounding, m the number of sampled domains."
  },
  {
   "property": "C61",
   "status": "proved",
   "theorems": [
    "C61_text_determines_selects",
    "C61_text_determines_plan",
    "C61_cache_serves_the_query"
   ],
   "note": "repr of strings, integers, lists and tuples is modelled as in CPython; str.isprintable on non-ASCII is any function; the repr of floats is a parameter assumed injective and made of number characters; values of other types (objects) in conditions are not modelled."
  },
  {
   "property": "C62",
   "status": "partial",
   "theorems": [
    "C62_training_partial",
    "C62_repeats_last_refuted",
    "C62_new_chunk_refuted",
    "C62_prefetched_refuted",
    "C62_drift_refuted",
    "C62_moved_on_refuted"
   ],
   "note": "Proved for every interleaving and any number of restarts, when checkpoints are taken at settled moments (all samples yielded were taken, no worker has fetched a chunk without yielding from it, the nodes of a group are at the same sample): nothing is lost and order is kept, up to seeing the last sample again after each restart. False of the code in general, each with a proved counterexample: the last sample is repeated; a worker that has fetched a new chunk reports its old index and the start of the new chunk is skipped; prefetched samples are lost; nodes of a group that drifted apart lose samples; a worker that moves on between two nodes' reports. The samples of a chunk are an arbitrary function of the chunk (C23 is about their order)."
  },
  {
   "property": "C63",
   "status": "partial",
   "theorems": [
    "C63_returned_partial",
    "C63_wait_ends",
    "C63_stuck_refuted",
    "C63_file_first_refuted",
    "C63_no_wait_refuted",
    "C63_killed_copy_refuted"
   ],
   "note": "Proved for every interleaving, any number of checkpoints, fresh and restored jobs: if all nodes wait for the disk and no writing process is killed, a call that returned means the checkpoint restores the state of the last report and (node (0,0)) mixtera.id holds its id; and, kills included, a wait for a checkpoint that was started ends with the process. False of the code, each proved: mixtera.id is emptied and overwritten before the checkpoint exists, so a crash leaves it naming an unrestorable one while an older one was complete; without wait_for_disk the call returns though nothing is ever written; a first checkpoint killed while copying the query result makes all later ones unrestorable though reported complete; when the last report is rejected the other nodes wait forever, whatever happens later."
  },
  {
   "property": "C64",
   "status": "partial",
   "theorems": [
    "C64_own_slot",
    "C64_no_slot_twice",
    "C64_every_slot_served",
    "C64_unsplit_partial",
    "C64_unsplit_refuted",
    "C64_end_refuted",
    "C64_nothing_dropped",
    "C64_dropped_refuted",
    "C64_misconfigured_refuted",
    "C64_sample_keys",
    "C64_split_agrees"
   ],
   "note": "Own slots, full coverage of the registered set-up, no dropped examples and unique keys are proved. False of the code and refuted: a single process without data loader workers and without a split dataset cannot iterate (AssertionError); iterating over the MixteraHFDataset object itself ends with an AssertionError when the data ends; a job with the wrong number of loader workers starts in some groups and fails in others; a dataset split over another number of ranks may stream the same slot in all of them and drop examples. The sharding calls of the datasets library are part of the model (trusted)."
  },
  {
   "property": "C65",
   "status": "partial",
   "theorems": [
    "C65_status_partial",
    "C65_after_end_refuted"
   ],
   "note": "Proved for data loader workers in any interleaving, and for loading in the main process until it stops iterating. False of the code after that, for every history: with the torch dataset the status is None, a checkpoint raises TypeError and no iteration can start again; with the Hugging Face dataset the status is uninitialised memory."
  },
  {
   "property": "C66",
   "status": "partial",
   "theorems": [
    "C66_told_partial",
    "C66_losses_only",
    "C66_step",
    "C66_repeat",
    "C66_other_jobs",
    "C66_remote",
    "C66_cut",
    "C66_after_end_refuted",
    "C66_schedule_refuted"
   ],
   "note": "Delivery, once, in order, for all interleavings is proved, also over the network. False of the code and refuted: once one data loader worker of the reporting process has ended, its reports raise an AssertionError and are lost although other workers still stream; a schedule forwards neither losses nor key ids, so a dynamic mixture in a schedule never adapts (for every history). That the server acknowledges reports for unknown jobs is C41_feedback_unknown_job."
  },
  {
   "property": "C67",
   "status": "partial",
   "theorems": [
    "C67_direct",
    "C67_search_partial",
    "C67_search_sound",
    "C67_hf_partial",
    "C67_no_library_refuted",
    "C67_nested_refuted",
    "C67_combined_refuted",
    "C67_deep_refuted"
   ],
   "note": "Proved: exact search results and termination on all finite object graphs below the recursion limit, through attributes and directly held containers; Hugging Face wrappers of one dataset. False of the code and refuted: without the datasets library wrapped datasets are never found; containers in containers are not searched; combined Hugging Face datasets are not searched; deep wrappers raise a RecursionError. Objects created by getattr during the search are not modelled."
  },
  {
   "property": "C68",
   "status": "partial",
   "theorems": [
    "C68_query_partial",
    "C68_dataset_partial",
    "C68_slow_query_refuted",
    "C68_lost_poll_refuted",
    "C68_restart_refuted"
   ],
   "note": "Proved for every history of the server (composed with C42): a client that reaches the server is told an outcome only if the last registration or restore of its job had ended with it (or after 1802 polls in progress), and waits only while none had ended. False of the code and refuted: a query that takes longer than half an hour is reported as failed; a poll whose connection closes without an answer counts as failure; after a server restart the client of a dataset registration waits forever."
  },
  {
   "property": "C69",
   "status": "proved",
   "theorems": [
    "C69_body_once",
    "C69_sent_once",
    "C69_error_lost_refuted",
    "C69_useless_connection_refuted"
   ],
   "note": "For all sequences of connection attempts and all bodies: the body runs exactly once, with a connection exactly if one of ten attempts succeeds; its value is returned; at most one further connection is made, which carries nothing and leaves every server state unchanged. The two _refuted theorems record related defects outside the statement: an error during the exchange is replaced by a RuntimeError of the generator, after a useless further connection. The semantics of tenacity's AttemptManager and of asynccontextmanager are modelled from their documentation."
  },
  {
   "property": "C70",
   "status": "proved",
   "theorems": [
    "C70_registration",
    "C70_succeeds",
    "C70_listing",
    "C70_listing_total",
    "C70_single_file",
    "C70_missing",
    "C70_row_is_sample",
    "C70_type_ids"
   ],
   "note": "The meaning of the bytes of a file (decompression, json, parquet, tar) and DuckDB's casts are parameters; no symbolic links; subdirectories are not data files."
  },
  {
   "property": "C71",
   "status": "partial",
   "theorems": [
    "C71_absolute_location_partial",
    "C71_bad_location_refuted",
    "C71_file_url_refuted",
    "C71_directory_entry_refuted"
   ],
   "note": "False of the code: a file:// location never registers a JSONL dataset, a subdirectory named like a data file makes registration fail, and a missing or relative location raises after the name was taken. Proved: absolute directories with data files can be registered."
  },
  {
   "property": "C72",
   "status": "partial",
   "theorems": [
    "C72_execute_partial",
    "C72_array_order_raises",
    "C72_delivers_matching_partial",
    "C72_delivers_everything_partial",
    "C72_ends_partial",
    "C72_cached_partial",
    "C72_separator_refuted",
    "C72_value_order_refuted"
   ],
   "note": "End-to-end composition of C30, C31, C32, C01, C02, C05, C34 over one samples table. Partial because the code violates it outside the hypotheses: values with separators are filed under other properties, and samples listing the same values in different orders overwrite each other (both proved as refutations); chains mixing selects with and without effective conditions (C30) are excluded; the endless round robin of C05 is characterised (C72_ends_partial: with a fixed chunk size everything is delivered after at most one call more than there are samples if the number of property combinations is odd or their shuffled order balanced, and otherwise the iteration never ends)."
  },
  {
   "property": "C73",
   "status": "partial",
   "theorems": [
    "C73_metadata_partial",
    "C73_chunk_contents_partial",
    "C73_everything_partial",
    "C73_registered_partial",
    "C73_removed",
    "C73_trailing_slash_refuted",
    "C73_ends_partial"
   ],
   "note": "End-to-end composition of C72, C21, C24, C28, C56, C57 and C70 over a file tree. Partial as C72; reading without a server connection and with files unchanged since registration; a file registered under a path with a trailing slash is accepted but unreadable (refuted). C73_ends_partial: with a fixed chunk size, when the iteration ends and that it has then delivered everything."
  },
  {
   "property": "C74",
   "status": "partial",
   "theorems": [
    "C74_chunks",
    "C74_mixture_order",
    "C74_executions_partial",
    "C74_saved",
    "C74_restart_partial",
    "C74_inferred_partial",
    "C74_inferred_refuted",
    "C74_cached"
   ],
   "note": "Proved: indexes equal as dicts give identical outcomes for every history (seed and shuffle any functions); two executions of a query on the same samples (any row order, batches, cores, interleavings, hash-map orders) build such indexes; saved and loaded indexes too, also after a restart in the middle; mixtures listing the same counts in any order give the same chunks. Partial: texts with separators or one set of values in two orders are excluded as in C32/C72, restarts as in C11. Refuted for InferringMixture: ties are broken by the index's hash-map order, so two executions can infer counts that differ (by at most one per key, proved)."
  },
  {
   "property": "C75",
   "status": "partial",
   "theorems": [
    "C75_every_point",
    "C75_refines",
    "C75_values_partial",
    "C75_builtin_parsers",
    "C75_builtin_conflict_refuted",
    "C75_silently_changed_refuted",
    "C75_enum_and_case_refuted"
   ],
   "note": "Proved for every reachable catalogue if each property declared before is declared alike (same name up to case, then same type, multiplicity, options); the values are then stored exactly and C35/C70/C71 hold with no assumption on casts. False in general: RedPajama and FineWeb datasets exclude each other (also after removal), lists go into a text column as their text, an enumeration gets no new options, names differing in case clash. DuckDB's casts are modelled from its documented behaviour; list printing/parsing and the unquoted names are parameters."
  },
  {
   "property": "C76",
   "status": "partial",
   "theorems": [
    "C76_unchanged_partial",
    "C76_adds_refuted"
   ],
   "note": "Nothing in the catalogue changes, False exactly for an empty name, fewer than two buckets, an empty batch or a numerical property, an exception otherwise: proved for all arguments. The positive half is false of the code and refuted: the column step gets the property's name where it needs a property object and raises, so the call never succeeds (after having run the whole calculation)."
  },
  {
   "property": "C77",
   "status": "proved",
   "theorems": [
    "C77_records",
    "C77_file"
   ],
   "note": "For every sample value: the outcome of parse is the documented record (a separate relation on JSON paths), or no documented record exists and the call raises without storing. str() of a label other than None is a parameter."
  },
  {
   "property": "C78",
   "status": "partial",
   "theorems": [
    "C78_up_partial",
    "C78_started_once",
    "C78_up_means_executed",
    "C78_agree_partial",
    "C78_comes_up",
    "C78_position_checked",
    "C78_restarted_refuted",
    "C78_before_restore_refuted",
    "C78_lost_restore_refuted",
    "C78_lost_answer_refuted"
   ],
   "note": "For a job id used for the first time on the server all clauses are proved for every interleaving (C78_started_once, C78_up_means_executed, C78_comes_up, C78_agree_partial). Missing because false: restarting a job id on a live server (stale status: C78_restarted/before_restore_refuted), a restore request that is lost silently (C78_lost_restore_refuted), and agreement when the answer to process 0's request is lost (C78_lost_answer_refuted)."
  },
  {
   "property": "C79",
   "status": "partial",
   "theorems": [
    "C79_names",
    "C79_creation_partial",
    "C79_own_segments_partial",
    "C79_same_number_refuted",
    "C79_unlinks_other_refuted",
    "C79_macos_refuted"
   ],
   "note": "Proved for all histories in which no two datasets of the machine share job, group and node, except on macOS. Refuted otherwise: the random number below 100 may coincide, an exiting process may unlink another dataset's segments, macOS truncates the names."
  },
  {
   "property": "C80",
   "status": "partial",
   "theorems": [
    "C80_decoded_partial",
    "C80_covers",
    "C80_read_partial",
    "C80_compressed_refuted"
   ],
   "note": "Proved for all samples without compressed members of unknown kind, composed with C28's reading of ranges. False of the code for those: the stream was read for decompression and is delivered at its end, so the contents are lost (C80_compressed_refuted, for every such member). gzip, int, json, numpy, pickle and image decoding are parameters; one BytesIO per member is assumed of wids."
  },
  {
   "property": "C81",
   "status": "partial",
   "theorems": [
    "C81_same_run",
    "C81_log_partial",
    "C81_crash_partial",
    "C81_texts_refuted",
    "C81_schedule_refuted",
    "C81_torn_refuted"
   ],
   "note": "Proved for mixtures whose keys have different texts and arbitrary mixture objects that stay arbitrary, and for crashes between writes. False of the code otherwise (refuted with witnesses): keys with equal texts are merged in the log, a schedule that was arbitrary is logged by reference and later shown with its new rows, and a crash inside a write loses the whole log because the file is truncated first. File contents are modelled as the JSON value, not its text; several processes sharing one query result are not covered here."
  },
  {
   "property": "C82",
   "status": "partial",
   "theorems": [
    "C82_forked_partial",
    "C82_second_pass_partial",
    "C82_spawned_refuted",
    "C82_spawned_late_refuted"
   ],
   "note": "Full for forked workers (any interleaving, any number of processes, one node and group, as local mode requires). False for spawned workers, for which the code has explicit support: every unpickled copy starts at chunk 0, so each worker delivers the whole query (C82_spawned_refuted), and a job that has delivered something fails with an AssertionError (C82_spawned_late_refuted). Mixtures constant."
  },
  {
   "property": "C83",
   "status": "partial",
   "theorems": [
    "C83_same_samples_partial",
    "C83_same_set_partial",
    "C83_cpu_count_refuted",
    "C83_moved_job_refuted"
   ],
   "note": "Holds for machines that start the same number of reader processes (one reader, or the same minimum of degree of parallelism and cores), for every history, chunk and argument, exceptions included; the shuffles are functions of their seeds and the nodes read the same files. On any machines the samples of a chunk are the same up to order. False of the code otherwise: the number of reader processes, hence the order, depends on the machine's cores (C83_cpu_count_refuted), and a restored job loses and repeats samples (C83_moved_job_refuted)."
  },
  {
   "property": "C84",
   "status": "partial",
   "theorems": [
    "C84_main_process_partial",
    "C84_workers_refuted"
   ],
   "note": "Proved when the training process streams itself (num_workers 0). Refuted with forked data loader workers: the report changes the training process's copy of the mixture, the workers go on with the copy made when they were started, for every interleaving and every report."
  },
  {
   "property": "C85",
   "status": "partial",
   "theorems": [
    "C85_samples",
    "C85_within_chunk_partial",
    "C85_reseeded_refuted",
    "C85_repeated_refuted"
   ],
   "note": "Proved: samples never depend on the consumer's generators; within a chunk the consumer's numbers are undisturbed. Refuted: starting a chunk reseeds random and numpy.random from the chunk's keys, so numbers drawn afterwards do not depend on the consumer's seed and repeat with every chunk of the same keys, in every worker."
  },
  {
   "property": "C86",
   "status": "partial",
   "theorems": [
    "C86_separate_partial",
    "C86_fixed_partial",
    "C86_shared_refuted"
   ],
   "note": "Proved for every interleaving when no other job is given the job's mixture object, and, shared or not, when all mixtures are static, hierarchical or arbitrary. Refuted when two jobs share an InferringMixture: executing the second one re-infers the shared object, and every later chunk of the first job follows the second job's distribution."
  },
  {
   "property": "C87",
   "status": "proved",
   "theorems": [
    "C87_wait_answer",
    "C87_wait_ends",
    "C87_job_lookup"
   ],
   "note": "Time in milliseconds, arbitrary non-negative durations of every step, a clock that is not set back; the table as seen by the threads of one process (worker processes have their own copy, see C82)."
  },
  {
   "property": "C88",
   "status": "partial",
   "theorems": [
    "C88_background_partial",
    "C88_answered_partial",
    "C88_unknown_job_refuted",
    "C88_property_refuted",
    "C88_slow_job_refuted"
   ],
   "note": "Proved for background computations and for queues of short requests about registered jobs. Missing because false of the code: requests that name an unregistered job (the event loop sleeps up to 60 s, C88_unknown_job_refuted) and property calculations (computed in the event loop while the client waits 10 s, C88_property_refuted). C88_slow_job_refuted: a chunk request for a job whose query is still executing (10 to 60 seconds) holds up all other clients as well."
  },
  {
   "property": "C89",
   "status": "partial",
   "theorems": [
    "C89_fitted_partial",
    "C89_no_smoothing_partial",
    "C89_data_partial",
    "C89_derivative",
    "C89_ignored_refuted",
    "C89_smoothing_refuted"
   ],
   "note": "Proved for every history and configuration: when fits happen, which laws they give (the exact points: padding for new domains, imputation, thinning, tokens) and where the derivative is taken. In the proved statements the ignored steps are those the code ignores (0-based number > ignore_initial_steps, one more than asked for) and smoothing is applied as the code does, before ignoring. False of the code: one step too many is ignored, so that an accepted configuration can fit nothing (C89_ignored_refuted); smoothing, on by default, runs over the ignored and not yet sampled steps too, changes the fit by losses that are to be ignored, and can make positive losses negative so that the update raises (C89_smoothing_refuted). The optimiser and savgol_filter are parameters; messages never get narrower (others make ADO fail: C59)."
  },
  {
   "property": "C90",
   "status": "partial",
   "theorems": [
    "C90_recursion_partial",
    "C90_average_partial",
    "C90_no_prior",
    "C90_vanilla_credit",
    "C90_fallback_refuted"
   ],
   "note": "Exact arithmetic only (every rounding is the identity). C90_recursion_partial: for every history of accepted messages the arrays and the answers of the object are those of SpecAdoAvg.v, for every variant; C90_average_partial: the closed form of the average, preferences and averages are distributions, as long as at every step since the first mixture some loss falls (and the third variant is not used); C90_vanilla_credit: closed form of the credit; C90_no_prior: a key outside the initial mixture is never preferred. Refuted: without falling losses the preference is prior/num_domains and sums to 1/n, so that mixture and average are not these averages. Missing: floating point, messages with fewer keys than before."
  },
  {
   "property": "C91",
   "status": "partial",
   "theorems": [
    "C91_unaffected_partial",
    "C91_complete_partial",
    "C91_every_step_partial",
    "C91_file_partial",
    "C91_recent_partial",
    "C91_unwritable_refuted",
    "C91_every_step_refuted",
    "C91_torn_refuted"
   ],
   "note": "C91_unaffected_partial: for all histories and all outcomes of the writes the algorithm is in the state it would have without log, and answers differ only where a write fails. C91_complete_partial: entries, fit lines and counts, for accepted well-formed messages, with any rounding; C91_every_step_partial: every step has an entry unless the third adjusted variant is used. C91_file_partial, C91_recent_partial: what the file holds, as long as no write is cut off (refused ones allowed in the first). Refuted: a failing write swallows the mixture although the algorithm has moved on; the third variant leaves out steps; a write that is cut off loses the log. The configuration in the file and the points of a fit line are not modelled."
  },
  {
   "property": "C92",
   "status": "partial",
   "theorems": [
    "C92_strict_needs",
    "C92_strict_partial",
    "C92_best_effort",
    "C92_stops",
    "C92_samples_strict_partial",
    "C92_samples_best_effort_partial",
    "C92_shared_refuted"
   ],
   "note": "Best effort: full (positive numbers that fill the chunk). Strict: exact if no property combination is equal to two keys of the mixture; C92_strict_needs is the necessary half for any keys. False of the code otherwise (C92_shared_refuted): the keys are served greedily in sorted order, a general key takes the samples a more special one needs, and no chunk comes although the samples for it are there. C92_samples_*: the same in terms of the samples of the table, under the hypotheses of C72."
  },
  {
   "property": "C93",
   "status": "partial",
   "theorems": [
    "C93_share_or_all",
    "C93_exact_unless_exhausted",
    "C93_exact_while_data_last_partial",
    "C93_changing_partial",
    "C93_samples_partial",
    "C93_samples_changing_partial",
    "C93_shared_refuted"
   ],
   "note": "For every history up to the first call without a chunk, with any mixtures, strict or best-effort: each key of the installed mixture gets at least its share or all its rows have been delivered (C93_share_or_all), so a chunk of a full-size mixture that differs from it shows an exhausted key (C93_exact_unless_exhausted). The last sentence (exactly as long as the data last) is proved for every history of mixtures, strict or best-effort, over rows and over samples, if no property combination is equal to two different keys of these mixtures (C93_changing_partial, C93_samples_changing_partial); for keys that share combinations it is false of the code: keys are served greedily in sorted order and a general key takes the rows of a special one (C93_shared_refuted)."
  },
  {
   "property": "C94",
   "status": "partial",
   "theorems": [
    "C94_reopened_partial",
    "C94_torn_creation_refuted"
   ],
   "note": "Proved for every history of openings, calls and crashes in which no opening is interrupted in the middle of the creation of the database. The full claim is false: a crash during the creation leaves a file with a prefix of the tables, which every later opening loads as it is (mixtera_data_collection.py 46-54, 88-118); from then on no version is ever read and no registration or removal ever succeeds (C94_torn_creation_refuted)."
  },
  {
   "property": "C95",
   "status": "partial",
   "theorems": [
    "C95_undone",
    "C95_registered_again_partial",
    "C95_columns_stay_refuted"
   ],
   "note": "C95_undone is the first half of the claim in full. The second half (the dataset can be registered again) is proved under the assumption that the database can cast the values to the existing columns: the columns that the failed attempt added to the samples table stay (mixtera_data_collection.py 281-318 before 321-381, 410-441 drops none; C95_columns_stay_refuted), and with another parser they can refuse the values (C75)."
  }
 ]
}
{
 "claims": [
  {
   "property": "C01",
   "status": "proved",
   "theorems": [
    "C01_store_is_insert_only_map",
    "C01_never_a_wrong_answer"
   ],
   "note": "Single-threaded histories; the exact form assumes the data file stays below 2^48 bytes, the second form only excludes wrong answers (an assertion abort is possible)."
  },
  {
   "property": "C02",
   "status": "proved",
   "theorems": [
    "C02_duplicate_insert_refused"
   ],
   "note": ""
  },
  {
   "property": "C03",
   "status": "proved",
   "theorems": [
    "C03_no_false_hits"
   ],
   "note": ""
  },
  {
   "property": "C04",
   "status": "proved",
   "theorems": [
    "C04_flush_invisible",
    "C04_flush_state"
   ],
   "note": ""
  },
  {
   "property": "C05",
   "status": "proved",
   "theorems": [
    "C05_reopen_preserves"
   ],
   "note": ""
  },
  {
   "property": "C06",
   "status": "proved",
   "theorems": [
    "C06_stopped_call_all_or_nothing",
    "C06_histories_with_stops"
   ],
   "note": "Any past (calls, stops, re-opens), any call, any point, any loss or tearing of unsynced data/key file contents, lost file creations/erasures; log appends survive as a prefix. Byte equality of both files."
  },
  {
   "property": "C07",
   "status": "proved",
   "theorems": [
    "C07_flushed_is_durable",
    "C06_histories_with_stops"
   ],
   "note": "Whatever is fetchable when flush returns without error is fetchable after any later calls and stops with (interrupted) recoveries."
  },
  {
   "property": "C08",
   "status": "proved",
   "theorems": [
    "C08_recovery_repeatable"
   ],
   "note": "Any number of interruptions, of recover() or of open()."
  },
  {
   "property": "C09",
   "status": "proved",
   "theorems": [
    "C09_clean_recover"
   ],
   "note": "Any contents with a valid data file header and a key file longer than its header."
  },
  {
   "property": "C10",
   "status": "proved",
   "theorems": [
    "C10_data_append_only"
   ],
   "note": "Any store state, any files, any failing operations, any point."
  },
  {
   "property": "C11",
   "status": "proved",
   "theorems": [
    "C11_index_in_range",
    "C11_growth_moves_one_bucket"
   ],
   "note": ""
  },
  {
   "property": "C12",
   "status": "proved",
   "theorems": [
    "C12_splits_lose_nothing"
   ],
   "note": "Stated on the raw bytes of the files of every reachable database."
  },
  {
   "property": "C13",
   "status": "proved",
   "theorems": [
    "C13_chains_finite"
   ],
   "note": "Chains on the raw bytes of the data file, plus termination of every fetch."
  },
  {
   "property": "C14",
   "status": "proved",
   "theorems": [
    "C14_search",
    "C14_insert",
    "C14_erase",
    "C14_at"
   ],
   "note": ""
  },
  {
   "property": "C15",
   "status": "proved",
   "theorems": [
    "C15_field_roundtrip",
    "C15_field_read"
   ],
   "note": ""
  },
  {
   "property": "C16",
   "status": "proved",
   "theorems": [
    "C16_dat_header",
    "C16_key_header",
    "C16_log_header"
   ],
   "note": ""
  },
  {
   "property": "C17",
   "status": "partial",
   "theorems": [
    "C17_open_checks_headers",
    "C17_verify_checks_headers",
    "C17_verify_changes_nothing",
    "C36_mismatched_log_refused",
    "C36_bad_log_refused",
    "C17_short_key_file_erased",
    "C36_foreign_log_refuted"
   ],
   "note": "Proved for open(), recover() and verify() for all file contents with complete headers (open also succeeds when no check fails; verify never changes a file). Refuted in two corners: a key file of at most 104 bytes is erased (C17_short_key_file_erased), a foreign log with key file size 0 is accepted (C36_foreign_log_refuted)."
  },
  {
   "property": "C18",
   "status": "proved",
   "theorems": [
    "C18_error_final",
    "C18_error_reported",
    "C18_recover_after_failure"
   ],
   "note": "Every set of failing operations with any partial effect; the returned error is that of the failing operation; recover() after process end or machine stop."
  },
  {
   "property": "C19",
   "status": "proved",
   "theorems": [
    "C19_visit_file",
    "C19_visit_database",
    "C19_visit_refused"
   ],
   "note": "visit() makes exactly the calls of the specification for every well formed data file; for every database reached by a history it presents the flushed values once each in the order they were flushed, up to the first callback error. C19_visit_refused: missing, short or bad data files."
  },
  {
   "property": "C20",
   "status": "proved",
   "theorems": [
    "C20_rekey_transparent",
    "C20_never_a_wrong_answer",
    "C20_rekey_files",
    "C20_rekey_zero_items_refuted"
   ],
   "note": "For every history of calls with any number of rekeys in it, and for all block sizes 104..65535, load factors of at least 1/65536, item counts giving at least one bucket, and buffer sizes: every call is answered as if the store had been closed and opened, up to an abort that only happens when the data file is within 8 GiB of 2^48 bytes. C20_rekey_zero_items_refuted: an item count of 0 is accepted too, but leaves a database that cannot be opened."
  },
  {
   "property": "C21",
   "status": "partial",
   "theorems": [
    "C21_rekey_stopped",
    "C21_recovery_stopped",
    "C21_data_kept",
    "C21_rekey_durable_refuted",
    "C21_recovery_repeatable_refuted"
   ],
   "note": "C21_rekey_stopped proves the claim for every interruption point up to successful return and every data file. Refuted beyond it: C21_rekey_durable_refuted (after rekey() has returned success the new key file may be lost, since it is not synced before the log is erased; recover() then reports success and no value is found; the data file is kept, C21_data_kept) and C21_recovery_repeatable_refuted (a recovery stopped halfway cannot be repeated, or leaves the partial key file; the data file is restored all the same, C21_recovery_stopped)."
  },
  {
   "property": "C22",
   "status": "partial",
   "theorems": [
    "C22_verify_partial",
    "C22_verify_116",
    "C22_both_algorithms",
    "C22_verify_refuted",
    "C22_verify_rekeyed_refuted",
    "C22_spill_bytes_refuted"
   ],
   "note": "Refuted: C22_verify_refuted shows that the fast algorithm reports invalid_spill_size for healthy databases with block sizes 104..115 that have a spill record, C22_verify_rekeyed_refuted that both algorithms reject healthy databases whose block size was changed by rekey(), and C22_spill_bytes_refuted that the total of spill bytes of the fast algorithm is arbitrary. C22_verify_partial shows that without rekey the first is the only wrong result for any buffer size, C22_verify_116 gives acceptance and true statistics for all block sizes from 116, C22_both_algorithms the exact behaviour of each algorithm."
  },
  {
   "property": "C23",
   "status": "partial",
   "theorems": [
    "C23_no_orphans_partial",
    "C23_records_partial",
    "C23_sizes_refuted",
    "C23_entries_refuted"
   ],
   "note": "Refuted: success of verify() does not mean that every value can be fetched. The algorithm for large buffers never compares sizes (C23_sizes_refuted), the one for small buffers accepts additional entries pointing into values (C23_entries_refuted). True for every content of the files: after success the data file is a sequence of records and every key is known to the opened store (no key is orphaned); with the algorithm for small buffers and equal key and value counts every key fetches a value stored under it."
  },
  {
   "property": "C24",
   "status": "proved",
   "theorems": [
    "C24_linearizable",
    "C24_insert_then_fetch",
    "C24_no_invented_value",
    "C24_quiet_store",
    "C24_no_deadlock",
    "C24_bucket_in_use_stays"
   ],
   "note": "For every number of threads and every interleaving of their fetches and inserts with flushes, at the granularity of single file operations and lock-protected sections. Assumes the store is used sequentially before and operations do not fail. Sizes are not bounded: progress (C24_no_deadlock, C24_quiet_store) is stated for a data file that is not within 8 GiB of 2^48 bytes, where the code aborts. C25_no_race justifies treating file operations as atomic."
  },
  {
   "property": "C25",
   "status": "proved",
   "theorems": [
    "C25_bucket_not_written",
    "C25_no_race",
    "C25_waits_exactly"
   ],
   "note": "For every interleaving. 'Could be affected' is: has decided to read a bucket of the key file before the new buckets were published."
  },
  {
   "property": "C26",
   "status": "proved",
   "theorems": [
    "C26_one_list",
    "C26_only_open",
    "C26_closed_never_touched",
    "C26_turn_flushed",
    "C26_move_terminates",
    "C26_no_lost_wakeup"
   ],
   "note": "Transition system of all threads in the functions of context, with the doubly linked lists at pointer level. While being flushed an open store is on neither list but held by exactly one thread."
  },
  {
   "property": "C27",
   "status": "proved",
   "theorems": [
    "C27_allocations",
    "C27_alloc_step",
    "C27_clear",
    "C27_size_wraps_refuted"
   ],
   "note": "operator new is an oracle that returns any free, aligned block or fails; C27_size_wraps_refuted shows that the bound on sizes is needed."
  },
  {
   "property": "C28",
   "status": "proved",
   "theorems": [
    "C28_pool_is_map"
   ],
   "note": ""
  },
  {
   "property": "C29",
   "status": "partial",
   "theorems": [
    "C29_aligned",
    "C29_misaligned",
    "C29_all_alignments_refuted"
   ],
   "note": "Refuted: XXH64 tests the alignment the wrong way round, so input that is not aligned to 8 bytes is read with unaligned loads (C29_all_alignments_refuted; C29_misaligned says exactly when). Proved for every aligned input, length, seed and byte order; inputs shorter than 2^64 bytes."
  },
  {
   "property": "C30",
   "status": "partial",
   "theorems": [
    "C30_create_good",
    "C30_new_is_empty",
    "C30_bad_arguments",
    "C30_existing_file",
    "C30_failure_undone",
    "C30_accepted_arguments_refuted"
   ],
   "note": "Refuted: key sizes above 65535, load factors below 1/65536 and NaN are accepted by create() but open() refuses the files (or behaviour is undefined): C30_accepted_arguments_refuted. Proved for arguments in the ranges of the header fields; rejection, existing files and clean-up after failures proved for all arguments."
  },
  {
   "property": "C31",
   "status": "proved",
   "theorems": [
    "C31_growth",
    "C31_load_bounded",
    "C31_load_across_sessions_refuted"
   ],
   "note": "Exact growth per session and the load bound for single-session databases; the load bound is shown to fail across sessions (C31_load_across_sessions_refuted)."
  },
  {
   "property": "C32",
   "status": "proved",
   "theorems": [
    "C32_buffered_read",
    "C32_buffered_write"
   ],
   "note": ""
  },
  {
   "property": "C33",
   "status": "proved",
   "theorems": [
    "C33_read",
    "C33_write",
    "C33_read_is_model",
    "C33_write_is_model",
    "C33_terminates",
    "C33_retry"
   ],
   "note": "System calls are an oracle: any sequence of partial counts and errno values. C33_terminates assumes that every call that transfers nothing is interrupted at most finitely often."
  },
  {
   "property": "C34",
   "status": "proved",
   "theorems": [
    "C34_key_file_blocks"
   ],
   "note": "For every reachable database and every content of uninitialised memory."
  },
  {
   "property": "C35",
   "status": "proved",
   "theorems": [
    "C35_appends_at_end"
   ],
   "note": "Every flush from every reachable state, with or without failing operations."
  },
  {
   "property": "C36",
   "status": "partial",
   "theorems": [
    "C36_mismatched_log_refused",
    "C36_bad_log_refused",
    "C36_foreign_log_refuted"
   ],
   "note": "Refuted: a log whose header has another uid and key file size 0 is accepted and the key file erased (C36_foreign_log_refuted). Proved for logs recording a key file size, and for logs whose own header is invalid."
  },
  {
   "property": "C37",
   "status": "proved",
   "theorems": [
    "C37_least_power_of_two"
   ],
   "note": ""
  },
  {
   "property": "C38",
   "status": "partial",
   "theorems": [
    "C38_truncated",
    "C38_truncated_refuted"
   ],
   "note": "Refuted: C38_truncated_refuted shows a truncated data file on which visit() throws std::logic_error (visit.ipp does not test the error after preparing the value). C38_truncated states exactly what is reported for every cut of the last record."
  },
  {
   "property": "C39",
   "status": "partial",
   "theorems": [
    "C39_never_reported_refuted",
    "C39_duplicates_refuted"
   ],
   "note": "Refuted: verify() never reports duplicate_value, for any files (C39_never_reported_refuted), and both algorithms accept files with two records of one key (C39_duplicates_refuted)."
  },
  {
   "property": "C40",
   "status": "partial",
   "theorems": [
    "C40_torn_log_refuted",
    "C06_stopped_call_all_or_nothing"
   ],
   "note": "Refuted: an unsynced log region read back as zeros makes recovery overwrite bucket 0 (C40_torn_log_refuted). Holds when log appends survive as a prefix (C06)."
  },
  {
   "property": "C41",
   "status": "proved",
   "theorems": [
    "C41_visit_progress"
   ],
   "note": "For every database reached by a history and every callback."
  },
  {
   "property": "C42",
   "status": "proved",
   "theorems": [
    "C42_rekey_progress"
   ],
   "note": "For every database reached by a history (with rekeys), all rekey arguments that make a usable key file."
  },
  {
   "property": "C43",
   "status": "partial",
   "theorems": [
    "C26_scheduler_starved_refuted",
    "C26_someone_serves"
   ],
   "note": "Refuted: C26_scheduler_starved_refuted. stop_all() overlapping two threads that enter run() leaves a running thread but none that moves waiting stores; no store is ever flushed again. True without stop_all(): C26_someone_serves."
  },
  {
   "property": "C44",
   "status": "proved",
   "theorems": [
    "C44_durably_linearizable",
    "C44_always_reopens",
    "C44_saved_survives",
    "C44_found_until_stop",
    "C44_no_invented_value"
   ],
   "note": "Assumes, as C06 does, that appends to the log file survive a stop as a prefix and that I/O operations do not fail while the machine runs."
  },
  {
   "property": "C45",
   "status": "proved",
   "theorems": [
    "C45_read",
    "C45_write",
    "C45_read_is_model",
    "C45_write_is_model",
    "C45_trunc_is_model"
   ],
   "note": "System calls are an oracle: any sequence of partial counts and error codes. trunc() for shortening a file."
  },
  {
   "property": "C46",
   "status": "proved",
   "theorems": [
    "C46_safely_linearizable",
    "C46_always_reopens",
    "C46_refused_after_error",
    "C46_saved_survives",
    "C46_found_until_stop",
    "C46_no_error_without_cause",
    "C46_failed_insert_leaves_nothing"
   ],
   "note": "Assumes, as C44 does, that appends to the log file survive a stop as a prefix. Which operations fail, and what part of their effect they have had, is not restricted (for the log file: a prefix)."
  },
  {
   "property": "C47",
   "status": "proved",
   "theorems": [
    "C47_comes_to_rest",
    "C47_rest_is_done",
    "C47_can_finish",
    "C47_failing_comes_to_rest",
    "C47_failing_rest_is_done"
   ],
   "note": "Well-founded measure on the positions of all threads and of the flush; the deadlock-freedom of C24 turned into: where nothing goes on, everything is done. Without new calls means that any number of calls may be under way. Fairness is not assumed: every schedule comes to rest. A flush that has failed is not retried by the code, so flush() being called again is not counted. Where the data file is within 8 GiB of 2^48 bytes the code may abort instead. Needs the spill chains to be finite, which the store invariant gives."
  },
  {
   "property": "C48",
   "status": "proved",
   "theorems": [
    "C48_counts",
    "C48_finish_waits",
    "C48_earlier_given_back",
    "C48_no_lost_wakeup",
    "C48_returns",
    "C48_locks_never_wait"
   ],
   "note": "Transition system with the condition variable and spurious wake-ups; histories give for each thread the age of its lock."
  },
  {
   "property": "C49",
   "status": "partial",
   "theorems": [
    "C49_locks_counted",
    "C49_scoped_locks_safe",
    "C49_moved_lock_refuted",
    "C49_assigned_lock_refuted"
   ],
   "note": "Refuted: the move constructor and swap of genlock do not copy gen_, so the lock is given back with an uninitialized number (C49_moved_lock_refuted), and move assignment keeps the number of an older lock, which makes prev_ pass below zero (C49_assigned_lock_refuted). The store never moves a genlock. Proved for genlocks that are not moved, swapped or released."
  },
  {
   "property": "C50",
   "status": "partial",
   "theorems": [
    "C50_descriptors_owned",
    "C50_no_leak",
    "C50_move_hands_over",
    "C50_open_reports",
    "C50_open_error_refuted",
    "C50_erase_missing_refuted"
   ],
   "note": "Refuted in two corners: when posix_fadvise fails, posix_file::open reports a stale errno or none and leaves the object open (C50_open_error_refuted); erasing a missing file is an error although the documentation says it is not (C50_erase_missing_refuted). Ownership of descriptors is proved without restriction."
  },
  {
   "property": "C51",
   "status": "partial",
   "theorems": [
    "C51_stopped_create_partial",
    "C51_created_is_durable",
    "C51_torn_create_refuted"
   ],
   "note": "Refuted: the header and the first bucket of the key file are written without a sync in between, so after a stop the header may be complete and the bucket garbage; open() then accepts the files and fetch() finds a key never inserted. Proved when the changes of each file reach the disk in order."
  },
  {
   "property": "C52",
   "status": "partial",
   "theorems": [
    "C52_in_bounds_partial",
    "C52_checks_change_nothing",
    "C52_cyclic_chain_refuted",
    "C52_recover_overflow_refuted"
   ],
   "note": "Refuted: a spill chain leading back to itself makes fetch and insert run for ever, and recovery copies an overlong log record past the end of the block. Proved: no call on a store that open() accepted accesses memory outside a bucket's block, whatever reads answer and whatever fails; the checked functions behave exactly as the model's."
  },
  {
   "property": "C53",
   "status": "partial",
   "theorems": [
    "C53_same_result",
    "C53_progress",
    "C53_healthy",
    "C53_bounded_refuted"
   ],
   "note": "Refuted: after many short sessions the amount the normal algorithm reports can exceed the total (C53_bounded_refuted). Proved for any files and buffer sizes: one total, amounts that never decrease, the same result as without the calls, and the bound if the fast algorithm runs or the values are no more than the load factor lets one expect. The estimate's floating-point arithmetic is modelled exactly; 64 bits are assumed to hold the total."
  },
  {
   "property": "C54",
   "status": "partial",
   "theorems": [
    "C54_no_race_partial",
    "C54_no_race_before_failure",
    "C54_ec_refuted"
   ],
   "note": "Refuted: after a flush has failed, a later flush whose File::size() fails too writes ec_ while fetch() or insert() copies it (C54_ec_refuted). Proved: there is no other data race, and none at all as long as no file operation of a flush has failed; in particular the offsets written into the pool at basic_store.ipp:641 do not race with readers. Assumes what the documentation demands of close(), and C26: one thread at a time flushes a store. File contents are covered by C25."
  },
  {
   "property": "C55",
   "status": "proved",
   "theorems": [
    "C55_no_circle",
    "C55_order",
    "C55_given_back"
   ],
   "note": "For the four mutexes of the library. Waiting on condition variables and for a generation to end is the subject of C24, C26, C47 and C48."
  },
  {
   "property": "C56",
   "status": "proved",
   "theorems": [
    "C56_reads_inside",
    "C56_reads_right",
    "C56_writes_inside",
    "C56_writes_right"
   ],
   "note": "For writing, callers must not write more than they prepared (ostream checks nothing, example C56_overfull); the callers in the library fill exactly what they prepare."
  },
  {
   "property": "C57",
   "status": "partial",
   "theorems": [
    "C57_same_result",
    "C57_fetches",
    "C57_overhead_and_load",
    "C57_waste_partial",
    "C57_waste_refuted"
   ],
   "note": "Refuted: the fast algorithm computes the bytes of all spill records from whichever bucket was read last, so its waste can exceed the whole data file (C57_waste_refuted). avg_fetch, overhead and actual_load are proved for both algorithms, waste for the normal one and for the fast one when the whole key file is read at once."
  },
  {
   "property": "C58",
   "status": "proved",
   "theorems": [
    "C58_lookups",
    "C58_lookups_keep_files",
    "C58_flush",
    "C58_flush_keeps_header",
    "C58_close",
    "C58_recover",
    "C58_open",
    "C58_rekey"
   ],
   "note": "create() is the subject of C30 and C51."
  },
  {
   "property": "C59",
   "status": "proved",
   "theorems": [
    "C59_attributes",
    "C59_headers",
    "C59_rekey"
   ],
   "note": "Stops of the machine inside rekey() are the subject of C21."
  },
  {
   "property": "C60",
   "status": "proved",
   "theorems": [
    "C60_memory",
    "C60_memory_after_stops"
   ],
   "note": "Between calls; during a flush see C24 and C44. That a flush with an I/O error keeps its batch is part of C18 and C46."
  },
  {
   "property": "C61",
   "status": "proved",
   "theorems": [
    "C61_flush_operations",
    "C61_log_size",
    "C61_carried_out"
   ],
   "note": "Reads and writes of the data file are not bounded here; the hypothesis 8 <= block_size holds for every store that open() accepts."
  },
  {
   "property": "C62",
   "status": "proved",
   "theorems": [
    "C62_fetch_reads",
    "C62_insert_reads",
    "C62_pending"
   ],
   "note": "Between calls; during a flush buckets may also come from the cache."
  },
  {
   "property": "C63",
   "status": "partial",
   "theorems": [
    "C63_only_delays",
    "C63_when",
    "C63_not_at_first",
    "C63_burst_refuted"
   ],
   "note": "Refuted as documented: what is compared with burst_size is not the data waiting but an estimate of the work, the values and three blocks for each (seven for a batch saved), so callers are delayed long before burst_size bytes are waiting when values are small (C63_burst_refuted). With this estimate in place of the data the claim is proved (C63_when)."
  },
  {
   "property": "C64",
   "status": "proved",
   "theorems": [
    "C64_sizes"
   ],
   "note": "Sizes between calls; with 2^32 pairs or more and a small load factor the assertion of bucket_index() would fail in a debug build, which is why the last part has a hypothesis."
  },
  {
   "property": "C65",
   "status": "proved",
   "theorems": [
    "C65_memory",
    "C65_pair_kept",
    "C65_block_kept"
   ],
   "note": "Sizes must be sane (no size near 2^64, see C27_size_wraps_refuted); inserting a key that is already in the pool fails an assertion."
  },
  {
   "property": "C66",
   "status": "proved",
   "theorems": [
    "C66_files",
    "C66_store",
    "C66_visit",
    "C66_unused",
    "C66_all_occur"
   ],
   "note": "Errors of the operating system and short_read are not limited to functions. That a code occurs is shown for answers of file operations chosen to be like those of damaged files, not by running on files."
  },
  {
   "property": "C67",
   "status": "partial",
   "theorems": [
    "C67_repair",
    "C67_short",
    "C67_log_in_the_way_refuted"
   ],
   "note": "Refuted: open() creates the log before it checks the headers and leaves it behind, so after the key file has been deleted rekey() reports log_file_exists and recover() and open() report a missing file, for every refused key file. Proved when the user deletes that log as well, and when open() itself erases a key file no longer than a header."
  },
  {
   "property": "C68",
   "status": "partial",
   "theorems": [
    "C68_fetch",
    "C68_insert",
    "C68_files",
    "C68_close",
    "C68_fetch_refuted",
    "C68_create_refuted"
   ],
   "note": "Refuted: no function clears ec, so while it holds an error every function but close returns after its first file operation: a saved key is not delivered and the old error (for instance key_not_found) is reported again, and create leaves an empty data file. Proved: such a call always reports an error, never delivers a wrong value, never stores anything, and leaves existing files alone; close works but keeps the error."
  },
  {
   "property": "C69",
   "status": "partial",
   "theorems": [
    "C69_calm_never_hangs",
    "C69_insert_refuted",
    "C69_fetch_refuted"
   ],
   "note": "Refuted: fetch() calls the callback while it holds m_ shared when the value is still in a pool or in a cached bucket, so a callback that inserts a new key or calls set_burst() never returns, and one that fetches hangs for ever when a flush starts to wait for m_ in between (boost::shared_mutex lets no more readers in). Proved: callbacks that use the store only when given a value from the files never hang, to any depth and with any other threads."
  },
  {
   "property": "C70",
   "status": "partial",
   "theorems": [
    "C70_open_has_three",
    "C70_failed_open",
    "C70_closed",
    "C70_destroyed",
    "C70_reopen_posix",
    "C70_failed_close_refuted",
    "C70_reopen_win32_refuted"
   ],
   "note": "Refuted: close() that reports an error of a flush or of the last commit returns before it gives up its state, so all three files stay open until the store is opened again or destroyed; with win32_file (share mode 0) no later open() of that store can succeed. Everything else is proved."
  },
  {
   "property": "C71",
   "status": "partial",
   "theorems": [
    "C71_win32",
    "C71_second_open_refuted",
    "C71_saved_pair_lost_refuted"
   ],
   "note": "Refuted for posix_file: nothing stops a second store from opening the files (the documentation only forbids it); it takes the log of the first for a left-over and erases it, both stores then accept the same key, and a saved pair can be lost when both flush although all calls report success. Proved for win32_file, whose files cannot be opened twice."
  },
  {
   "property": "C72",
   "status": "partial",
   "theorems": [
    "C72_visit_during_flush_partial",
    "C72_visit_fails_refuted"
   ],
   "note": "Refuted: when a write of the flush is seen in part (the file grows while a long write is under way), visit() reports short_read or throws std::logic_error although the database is sound. Proved for all interleavings: that is the only way to fail, and the pairs shown are right in any case; with whole writes there is no failure. win32_file refuses to open the file of an open store, so the question does not arise."
  },
  {
   "property": "C73",
   "status": "partial",
   "theorems": [
    "C73_backup_partial",
    "C73_torn_copy_refuted"
   ],
   "note": "Refuted when a write of the flush is seen in part: the copy then ends within a record and rekey() reports short_read, although all saved pairs are in it. Proved for all copies made between operations of the flush."
  },
  {
   "property": "C74",
   "status": "partial",
   "theorems": [
    "C74_codes",
    "C74_equality",
    "C74_missing_file",
    "C74_condition",
    "C74_messages_partial",
    "C74_success_message_refuted"
   ],
   "note": "Refuted in one point: the code error::success (and any number outside the enumeration) has the message of key_not_found, because the default label of message() stands there. The rest is proved."
  },
  {
   "property": "C75",
   "status": "proved",
   "theorems": [
    "C75_older_key",
    "C75_any_tail",
    "C75_order_matters"
   ],
   "note": "The copies serve for fetch(); verify() reports the pairs the older key file does not have as orphaned, and rekey() of the data file alone (C73) would recover them."
  },
  {
   "property": "C76",
   "status": "partial",
   "theorems": [
    "C76_visit_then_rekey_partial",
    "C76_empty_refuted"
   ],
   "note": "Refuted for a database without values: visit shows 0, rekey with the count 0 exits with success, but open() refuses the key file, which has no buckets (C20). Otherwise proved, up to the abort of rekey() when the data file comes near its limit."
  },
  {
   "property": "C77",
   "status": "partial",
   "theorems": [
    "C77_recover",
    "C77_rekey",
    "C77_verify",
    "C77_visit",
    "C77_visit_stderr_refuted",
    "C77_info_status_refuted"
   ],
   "note": "Refuted for info, which exits with success even if the files do not exist, and for visit, which shows errors of opening the file and reading its header on standard output."
  },
  {
   "property": "C78",
   "status": "proved",
   "theorems": [
    "C78_info",
    "C78_decimal",
    "C78_hex",
    "C78_histogram",
    "C78_plain_decimal",
    "C78_log2"
   ],
   "note": "A number from 1000 on is shown with commas, so that the tool does not accept it as --count; they have to be removed."
  },
  {
   "property": "C79",
   "status": "partial",
   "theorems": [
    "C79_display",
    "C79_visit",
    "C79_verify_refuted",
    "C79_first_call",
    "C79_clock",
    "C79_clock_busy_refuted"
   ],
   "note": "Refuted for verify with the normal algorithm, whose amounts may exceed the total (C53): the difference wraps around, and the remaining time does not fit its type, which is undefined. For rekey the hypotheses of C79_display are what C42 proves. The thread of the clock spins in the last tenth of every second. The quotient of the rate is exact in the model and in double precision in the code."
  },
  {
   "property": "C80",
   "status": "partial",
   "theorems": [
    "C80_one_reading",
    "C80_ends",
    "C80_calls",
    "C80_oversize_refuted"
   ],
   "note": "Refuted in two corners: a size of 2^32 or more is not an error (a release build takes it modulo 2^32 and goes on, possibly to success; a debug build fails an assertion, which is not modelled), and part of a value makes visit() throw instead of reporting an error (C38)."
  },
  {
   "property": "C81",
   "status": "partial",
   "theorems": [
    "C81_ends",
    "C81_success_whole",
    "C81_failure_undone",
    "C81_oversize_refuted"
   ],
   "note": "Refuted in one corner: a size of 2^32 or more is not an error (a release build takes it modulo 2^32 and goes on, possibly to success; a debug build fails an assertion, which is not modelled). A data file within 8 GiB of 2^48 bytes may instead fail an assertion (EAssert). recover() after a failure may report no_key_file or ENoEnt in the theorem, although the files are as claimed."
  },
  {
   "property": "C82",
   "status": "proved",
   "theorems": [
    "C82_cut",
    "C82_where",
    "C82_joined",
    "C82_extended"
   ],
   "note": "As everywhere, a data file within 8 GiB of 2^48 bytes may make rekey() fail an assertion instead."
  },
  {
   "property": "C83",
   "status": "proved",
   "theorems": [
    "C83_possible",
    "C83_turns",
    "C83_no_second_chance",
    "C83_flush"
   ],
   "note": "C83_no_second_chance shows what the simulation cannot produce: an operation that fails and a later one that succeeds."
  },
  {
   "property": "C84",
   "status": "partial",
   "theorems": [
    "C84_retry_partial",
    "C84_failed_flush_partial",
    "C84_failed_is_stopped_partial",
    "C84_large_refuted"
   ],
   "note": "Refuted for logs of more than 1024 blocks: recover.ipp:150-168 does not test the error of b.read(), so a read error in the middle of the log makes it write one bucket over another, which the next attempt does not repair when the log ends inside that record (C84_large_refuted; the log there repeats one bucket, it is not shown to come from a flush). Proved when in each attempt the log file has at most 1024 blocks besides the header, or is of any size and no read of one of its records fails."
  },
  {
   "property": "C85",
   "status": "proved",
   "theorems": [
    "C85_never_zero",
    "C85_zero_seed",
    "C85_zero_state",
    "C85_distinct",
    "C85_fill",
    "C85_item",
    "C85_last_item"
   ],
   "note": "C85_last_item: operator[](2^64-1) throws, because the seed wraps around to 0. That different items have different keys is not claimed: it does not follow from different states."
  },
  {
   "property": "C86",
   "status": "partial",
   "theorems": [
    "C86_round_partial",
    "C86_unique",
    "C86_negative",
    "C86_negative_refuted"
   ],
   "note": "Refuted for round() of negative durations (C86_negative_refuted): duration_cast truncates towards zero, so -1.6 becomes -1; C86_negative: they are always rounded up. Proved for floor() and ceil() of all durations and for round() of those that are not negative, which are the only ones pretty_time() rounds."
  },
  {
   "property": "C87",
   "status": "proved",
   "theorems": [
    "C87_fails",
    "C87_hands_on",
    "C87_flush",
    "C87_visit",
    "C87_executions",
    "C87_success",
    "C87_refusal",
    "C87_flushed",
    "C87_visited"
   ],
   "note": "A failure is an error code of the operating system other than 'no such file' for opening or erasing a log and a read beyond the end of the file, to which the code gives a meaning. create(), recover() and open() may go on after a failure and then report another error. The errors of closing a file and those that the destructor of the store drops are not covered."
  },
  {
   "property": "C88",
   "status": "proved",
   "theorems": [
    "C88_no_trace",
    "C88_fetch",
    "C88_insert",
    "C88_verify"
   ],
   "note": "One thread, as in C01; C88_verify is for block sizes from 116 on, as smaller ones can make verify() fail by itself (C22). Failures while several threads use the store are the subject of C46, those of a flush of C18."
  }
 ]
}
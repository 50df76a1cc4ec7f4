{
 "claims": [
  {
   "property": "C01",
   "status": "proved",
   "theorems": [
    "C01_ring_is_bounded_fifo",
    "C01_overflow_counts_refused_writes"
   ],
   "note": "buffer sizes 2..2^31 (the 32-bit index arithmetic); includes conf()"
  },
  {
   "property": "C02",
   "status": "proved",
   "theorems": [
    "C02_iteration_yields_contents",
    "C02_positions",
    "C02_good_iff_stored",
    "C02_good_beyond_memory"
   ],
   "note": "exact characterisation; C02_good_beyond_memory records that good() also accepts some out-of-range indices"
  },
  {
   "property": "C03",
   "status": "proved",
   "theorems": [
    "C03_every_schedule_is_a_queue",
    "C03_received_is_prefix_of_accepted",
    "C03_linearisable",
    "C03_assert_only_on_empty",
    "C03_overflow_counts_refusals"
   ],
   "note": "interleavings of single accesses; acquire loads may return stale values; slot accesses in step order (race freedom is part of the theorem)"
  },
  {
   "property": "C04",
   "status": "proved",
   "theorems": [
    "C04_binary_search"
   ],
   "note": "sizes up to 2^31"
  },
  {
   "property": "C05",
   "status": "proved",
   "theorems": [
    "C05_fixed_rate_agrees",
    "C05_with_errors_is_binary_search",
    "C05_boundary_key",
    "C05_empty_buffer_reads_dead_slot",
    "C05_gap_refuted"
   ],
   "note": "positive theorem on equally spaced data; boundary key, empty buffer and gap are refuted by witnesses"
  },
  {
   "property": "C06",
   "status": "proved",
   "theorems": [
    "C06_sound_configurations",
    "C06_conf_reports_failure",
    "C06_other_configurations_corrupt"
   ],
   "note": "Block-level model of free_memory/allocate_memory/conf/destructor: live blocks with their allocator, dangling records_, deallocator mismatch. Proved for every sequence of the four sound configurations, with any allocation failing; and proved that each other configuration damages or leaks memory. alignment that is not a power of two and overflow of size*sizeof(T) are not modelled."
  },
  {
   "property": "C07",
   "status": "proved",
   "theorems": [
    "C07_skip_list_is_ordered_set"
   ],
   "note": "folly::ConcurrentSkipList itself is not modelled: its documented behaviour as an ordered set is the model of insert/first/last/lower_bound/pop_back"
  },
  {
   "property": "C08",
   "status": "proved",
   "theorems": [
    "C08_default_cleanup_discards_newest_of_skip_list",
    "C08_ring_pop_discards_oldest",
    "C08_skip_list_pop_keeps_oldest"
   ],
   "note": "pop() on both buffers, and the consequence for the default clean-up on a skip list"
  },
  {
   "property": "C09",
   "status": "proved",
   "theorems": [
    "C09_answer_has_no_hole",
    "C09_binary_search_ring",
    "C09_fixed_rate_ring_flagged",
    "C09_fixed_rate_ring_gap_free"
   ],
   "note": "window_bytes is the independent specification; three theorems, one per search that can serve the request; C09_answer_has_no_hole states completeness in terms of times only (Complete_spec.v)"
  },
  {
   "property": "C10",
   "status": "proved",
   "theorems": [
    "C10_binary_search_ring",
    "C10_fixed_rate_ring_flagged",
    "C10_fixed_rate_ring_gap_free",
    "C10_skip_list",
    "C10_reversed_window_refuted"
   ],
   "note": "right_answer is the independent specification; C10_reversed_window_refuted is the witness for begin > end"
  },
  {
   "property": "C11",
   "status": "proved",
   "theorems": [
    "C11_data_request_header",
    "C11_empty_fragment_header"
   ],
   "note": "holds for every buffer implementation; also for the always-empty handler"
  },
  {
   "property": "C12",
   "status": "proved",
   "theorems": [
    "C12_no_removal_while_reading",
    "C12_counter_is_exact",
    "C12_no_new_reader_while_requested",
    "C12_no_lost_wakeup",
    "C12_cleanup_can_finish"
   ],
   "note": "any number of threads (below 2^31), spurious wake-ups included; what happens inside the guarded sections is left open"
  },
  {
   "property": "C13",
   "status": "proved",
   "theorems": [
    "C13_exactly_one_place",
    "C13_none_disappears_during_a_run",
    "C13_answers_belong_to_their_request"
   ],
   "note": "any number of workers, arbitrary evolution of the buffer; a push that times out counts as answered (the fragment is dropped with a warning)"
  },
  {
   "property": "C14",
   "status": "proved",
   "theorems": [
    "C14_pass_is_per_entry",
    "C14_pass_is_executed",
    "C14_timeout_after_exact_number_of_checks",
    "C14_time_outs_in_every_execution",
    "C14_configured_count"
   ],
   "note": "per-entry pass theorem, exact number of checks, and an invariant of every interleaved execution"
  },
  {
   "property": "C15",
   "status": "proved",
   "theorems": [
    "C15_all_answered_when_nothing_is_late",
    "C15_no_late_decisions",
    "C15_stop_completes",
    "C15_late_retry_refuted",
    "C15_late_request_refuted"
   ],
   "note": "the two loss windows are C15_late_retry_refuted and C15_late_request_refuted; outside them everything is answered and stop terminates"
  },
  {
   "property": "C16",
   "status": "proved",
   "theorems": [
    "C16_cleanup_removes_oldest",
    "C16_exact_share_without_recording",
    "C16_share_accuracy"
   ],
   "note": "for every buffer behaving like a FIFO (ring_like, shown for the rings); the share is computed in modelled binary32 arithmetic, accuracy bound proved"
  },
  {
   "property": "C17",
   "status": "proved",
   "theorems": [
    "C17_cleanup_keeps_an_element",
    "C17_full_share_crashes"
   ],
   "note": "share below one proved safe for every fill level; share one is refuted by C17_full_share_crashes"
  },
  {
   "property": "C18",
   "status": "proved",
   "theorems": [
    "C18_recording_is_gapless",
    "C18_file_in_sequence",
    "C18_recording_catches_up",
    "C18_no_null_dereference",
    "C18_element_is_not_torn",
    "C18_start_race_refuted"
   ],
   "note": "three-thread interleaving of single accesses; the excluded start race is refuted by C18_start_race_refuted; the element is read in one step in the model, C18_element_is_not_torn shows that reading it in many makes no difference"
  },
  {
   "property": "C19",
   "status": "proved",
   "theorems": [
    "C19_gap_stalls_recording_and_cleanup"
   ],
   "note": "all continuations without expiry; reachability shown by C19_gap_reached"
  },
  {
   "property": "C20",
   "status": "proved",
   "theorems": [
    "C20_has_error",
    "C20_has_any_error",
    "C20_effect_of_one_call",
    "C20_one_interval_per_name"
   ],
   "note": "per-name interval semantics; calls are atomic in this model; has_error is read without the lock in the code, see C83"
  },
  {
   "property": "C21",
   "status": "proved",
   "theorems": [
    "C21_gaps_are_flagged",
    "C21_requests_are_served_exactly",
    "C21_no_crash_before_a_refusal",
    "C21_after_a_refused_arrival_refuted"
   ],
   "note": "All histories of arrivals, clean-ups, requests and restarts on rings up to 2^24; the refuted theorem exhibits the failure after a refused arrival."
  },
  {
   "property": "C22",
   "status": "proved",
   "theorems": [
    "C22_wib_counts_discontinuities",
    "C22_wib2_counts_across_runs",
    "C22_last_discontinuity_is_registered",
    "C22_emulator_stamps_consecutively",
    "C22_daphne_never_flags",
    "C22_daphne_emulator_stamps",
    "C22_ssp_publishes_the_last"
   ],
   "note": "WIB (reset at start), WIB2 (never reset), DAPHNE (never flags), SSP, emulator mode; the counter is a 32-bit int; log output is modelled by a report count."
  },
  {
   "property": "C23",
   "status": "proved",
   "theorems": [
    "C23_forwarded_once_and_only_errors",
    "C23_forwarding_rule",
    "C23_rate_limit",
    "C23_error_count"
   ],
   "note": "Any push failures; rate limit for every set of error bits; get_info zeroing of the count is not modelled."
  },
  {
   "property": "C24",
   "status": "proved",
   "theorems": [
    "C24_flags_exactly_repeats"
   ],
   "note": "Characterisation: backwards timestamps are never flagged."
  },
  {
   "property": "C25",
   "status": "proved",
   "theorems": [
    "C25_queue_of_the_standard_library",
    "C25_queue_emptied_in_order",
    "C25_nothing_lost_with_the_heap",
    "C25_nothing_lost",
    "C25_fault_only_for_zero_window"
   ],
   "note": "All executions incl. failing pushes, resets and concurrent read-outs, over any priority queue meeting the contract pq_ok; the contract is proved of the heap of libstdc++ (GCC 13), and C25_nothing_lost_with_the_heap is about the buffer on that heap. 'Sent' means the push was attempted; a push that times out loses the object (code reports it)."
  },
  {
   "property": "C26",
   "status": "proved",
   "theorems": [
    "C26_windows_with_the_heap",
    "C26_windows",
    "C26_no_late_primitives",
    "C26_sends_exactly_when_due",
    "C26_set_is_completed"
   ],
   "note": "Under the stated clock and no-overflow assumptions (predicate orderly); completeness of every set, disjoint aligned windows, due rule, and termination of the sending loop. C26_windows_with_the_heap: on the heap of libstdc++, with no contract assumed."
  },
  {
   "property": "C27",
   "status": "proved",
   "theorems": [
    "C27_acceptance",
    "C27_wrap_around"
   ],
   "note": "Exact rule for all 64-bit values, including the wrap-around rejection."
  },
  {
   "property": "C28",
   "status": "proved",
   "theorems": [
    "C28_counters",
    "C28_sequence_numbers",
    "C28_reset_discards"
   ],
   "note": "Values modulo 2^64; a push and its counter increment are one step, so a read-out between them is reported one read-out later."
  },
  {
   "property": "C29",
   "status": "proved",
   "theorems": [
    "C29_stored_primitives",
    "C29_lone_hits_are_lost",
    "C29_continued_hit_stored_once",
    "C29_channel_dies"
   ],
   "note": "All histories of blocks; characterises what the code does, including hits that are lost (findings in DESIGN.md)."
  },
  {
   "property": "C30",
   "status": "proved",
   "theorems": [
    "C30_split_at_block_boundaries",
    "C30_old_format_damaged_refuted",
    "C30_no_marker_reads_past_the_end",
    "C30_empty_old_block_swallows_the_next"
   ],
   "note": "Byte-level model over any heap content, any file of well-formed blocks (>= 2 hits each) in both formats, any number of turns. C30_old_format_damaged_refuted shows that the natural claim (blocks unchanged) fails for the old format. Offsets are unbounded in the model (code: int)."
  },
  {
   "property": "C31",
   "status": "proved",
   "theorems": [
    "C31_reported_size",
    "C31_store_in_bounds_iff",
    "C31_store_overwrites_second_hit",
    "C31_short_block_damages_the_heap"
   ],
   "note": "Byte-level; all counts and objects. The reported size holds modulo 2^16 hits."
  },
  {
   "property": "C32",
   "status": "proved",
   "theorems": [
    "C32_raw_tp",
    "C32_raw_tp_unique",
    "C32_ssp",
    "C32_wib2_daphne",
    "C32_distinct",
    "C32_fake_timestamps"
   ],
   "note": "Raw WIB TP, SSP, WIB2 and DAPHNE; field positions of the external structs are parameters. The WIB header codec is outside /repo and not modelled; PACMAN has no setter (see C57)."
  },
  {
   "property": "C33",
   "status": "proved",
   "theorems": [
    "C33_kth_return",
    "C33_deadline_moves_forward",
    "C33_calls_in_an_interval",
    "C33_single_slack_refuted",
    "C33_returns_at_the_deadline"
   ],
   "note": "Any non-decreasing clock below 2^62 ns, any period. The bound originally expected (slack counted once) is refuted by C33_single_slack_refuted. The floating point division in adjust is the subject of C77."
  },
  {
   "property": "C34",
   "status": "proved",
   "theorems": [
    "C34_words",
    "C34_zero_or_table_entry",
    "C34_rate_zero",
    "C34_always_some_zero"
   ],
   "note": "Exact output stream for all table contents; the random draws of generate() are arbitrary table contents."
  },
  {
   "property": "C35",
   "status": "proved",
   "theorems": [
    "C35_one_task_at_a_time",
    "C35_ready_means_finished",
    "C35_no_task_race",
    "C35_accepted_task_runs",
    "C35_lost_wakeup_refuted",
    "C35_refused_although_ready_refuted",
    "C35_idle_accepts",
    "C35_destroyed_means_finished"
   ],
   "note": "All interleavings of the worker with one controlling thread, sequentially consistent atomics, spurious wake-ups allowed. Findings: lost wake-up, and a task refused although readiness was reported."
  },
  {
   "property": "C36",
   "status": "proved",
   "theorems": [
    "C36_slots",
    "C36_rate_zero",
    "C36_small_file_faults",
    "C36_empty_population_faults"
   ],
   "note": "Exact content of every slot for all files, dropout tables, error tables, queue behaviours and run lengths. Findings: a file smaller than one element, or an empty dropout population with a non-zero rate, is read out of bounds; failed pushes are counted as packets."
  },
  {
   "property": "C37",
   "status": "proved",
   "theorems": [
    "C37_written",
    "C37_always_prefix",
    "C37_failure_is_sticky",
    "C37_flush_durable",
    "C37_direct_broken_by_flush",
    "C37_compressed",
    "C37_read",
    "C37_round_trip",
    "C37_not_open"
   ],
   "note": "Device, boost stream buffer and codecs are environment (assumptions listed in File_model.v). Finding: flush() at an unaligned position breaks a writer that uses O_DIRECT."
  },
  {
   "property": "C38",
   "status": "proved",
   "theorems": [
    "C38_read",
    "C38_second_read_throws",
    "C38_limit_enforced_refuted"
   ],
   "note": "Finding: the input limit only causes a warning."
  },
  {
   "property": "C39",
   "status": "proved",
   "theorems": [
    "C39_accounting"
   ],
   "note": "All arrival/timeout/clean-up/monitoring sequences from every reachable buffer state. Findings: null pointer post-processed when a clean-up empties the buffer between write and back; refused payloads cause the previous element to be post-processed twice."
  },
  {
   "property": "C40",
   "status": "proved",
   "theorems": [
    "C40_paired_and_exactly_once",
    "C40_drain_ends",
    "C40_rest_is_discarded",
    "C40_late_request_survives_refuted",
    "C40_counter",
    "C40_counter_lost_refuted",
    "C40_setup"
   ],
   "note": "All interleavings of senders, stop, time-sync start, monitoring and the request thread. Findings: the start of the time-sync thread can reset the counters after requests were issued; a request that arrives after its queue was cleared is issued in the next run."
  },
  {
   "property": "C41",
   "status": "proved",
   "theorems": [
    "C41_turn",
    "C41_consecutive"
   ],
   "note": "All DAQ times and run lengths; trigger ids below 2^31 for consecutiveness over a run (the counter is a 32-bit int)."
  },
  {
   "property": "C42",
   "status": "proved",
   "theorems": [
    "C42_exact",
    "C42_concurrent"
   ],
   "note": "Exact result without interference, and the guarantees while another thread inserts between the rounds. The skip list is modelled by its ordered-set contract."
  },
  {
   "property": "C43",
   "status": "proved",
   "theorems": [
    "C43_exactly_the_accepted",
    "C43_independent",
    "C43_stop_drains",
    "C43_setup",
    "C43_second_conf_refuted",
    "C43_stale_pointer_refuted"
   ],
   "note": "All action sequences and interleavings, any number of tasks and queue sizes. Findings: a second conf leaves queues without a thread and, for processors that add their task in conf, runs the task twice; items are pointers whose target may be overwritten before the task reads it."
  },
  {
   "property": "C44",
   "status": "proved",
   "theorems": [
    "C44_contiguous",
    "C44_progress",
    "C44_bytes_reported",
    "C44_no_crash",
    "C44_write_pointer_aligned",
    "C44_no_aligned_element_hangs",
    "C44_later_recordings_lost",
    "C44_failed_write_reported_refuted",
    "C44_no_alignment_crashes"
   ],
   "note": "All interleavings; ::write copies byte by byte, interleaved with arrivals and clean-ups. Assumes the payload fills the element and timestamps are positive and non-decreasing. Findings: endless search when no stored element is aligned, failed writes unnoticed, later recordings write to a closed descriptor. C44_no_alignment_crashes: with the default alignment 0 nothing is written and the process ends."
  },
  {
   "property": "C45",
   "status": "proved",
   "theorems": [
    "C45_collection",
    "C45_induction",
    "C45_every_channel_once",
    "C45_out_of_range",
    "C45_offline_numbers",
    "C45_offline_numbers_shared",
    "C45_collection_only",
    "C45_all",
    "C45_message",
    "C45_message_induction",
    "C45_load_beyond_frame",
    "C45_message_fits"
   ],
   "note": "frame layout of detdataformats is the independent specification (wib_adc); AVX2 instructions modelled bytewise. C45_message_fits: sizes of the expanded messages for any memory."
  },
  {
   "property": "C46",
   "status": "proved",
   "theorems": [
    "C46_range",
    "C46_one_sample",
    "C46_convergence",
    "C46_convergence_bound",
    "C46_vectorised"
   ],
   "note": "exact convergence time; 16-bit arithmetic explicit"
  },
  {
   "property": "C47",
   "status": "proved",
   "theorems": [
    "C47_vectorised_equals_scalar",
    "C47_wide_noise_differs",
    "C47_scalar_hit_list"
   ],
   "note": "window level, from any state in range; C47_wide_noise_differs is a witness from a fresh start that the threshold condition is needed; C47_scalar_hit_list says what the scalar code writes"
  },
  {
   "property": "C48",
   "status": "proved",
   "theorems": [
    "C48_primitives",
    "C48_start_time",
    "C48_output_fits",
    "C48_scalar_hits",
    "C48_zero_charge_hit_lost"
   ],
   "note": "end to end from the bytes of the superchunks to the primitives, against a specification over the integers; the start pedestals are those of C49; sending of the primitives is C25-C28"
  },
  {
   "property": "C49",
   "status": "proved",
   "theorems": [
    "C49_pedestal_source",
    "C49_own_sample_iff"
   ],
   "note": "exact source of each pedestal; C49_own_sample_iff shows only the first 16 channels are right for all messages"
  },
  {
   "property": "C50",
   "status": "proved",
   "theorems": [
    "C50_empty_answers"
   ],
   "note": "Requests whose fragment queue times out get no fragment (only a warning); all others exactly one."
  },
  {
   "property": "C51",
   "status": "proved",
   "theorems": [
    "C51_run",
    "C51_file",
    "C51_second_run_refuted"
   ],
   "note": "All event sequences and failure points, and any number of runs. Finding: with O_DIRECT (default) a second run loses data when the first did not end on a block boundary."
  },
  {
   "property": "C52",
   "status": "proved",
   "theorems": [
    "C52_init_iff",
    "C52_conf_effect",
    "C52_conf_iff",
    "C52_retry",
    "C52_configured_stays",
    "C52_history",
    "C52_scrap",
    "C52_crash_iff",
    "C52_start_unconfigured"
   ],
   "note": "Exact characterisations of init, conf (outcome, effect on links and files), retry after failure, scrap, and of the commands with undefined behaviour, plus an invariant over all command histories. JSON parsing and settings other than the file are not modelled."
  },
  {
   "property": "C53",
   "status": "proved",
   "theorems": [
    "C53_choice_of_name",
    "C53_choice_of_queue",
    "C53_wib_wins"
   ],
   "note": "Exact characterisation over all strings; markers as substrings in the specification. Which queue the chosen implementation then reads is decided by appfwk's queue_index (not in the repository)."
  },
  {
   "property": "C54",
   "status": "proved",
   "theorems": [
    "C54_statistics_add_up"
   ],
   "note": "counters are unbounded integers; each classification updates its counters in one step"
  },
  {
   "property": "C55",
   "status": "proved",
   "theorems": [
    "C55_window_end_equal_to_newest"
   ],
   "note": "for the binary-search ring; execution example on a skip list"
  },
  {
   "property": "C56",
   "status": "proved",
   "theorems": [
    "C56_skip_list_loses_straddling_element"
   ],
   "note": "exact content of the truncated answer"
  },
  {
   "property": "C57",
   "status": "proved",
   "theorems": [
    "C57_pacman_answer_depends_on_garbage"
   ],
   "note": "key is a universally quantified number"
  },
  {
   "property": "C58",
   "status": "proved",
   "theorems": [
    "C58_ssp_fragments_are_truncated"
   ],
   "note": "header length is a parameter of the theorem (sizeof of an external struct)"
  },
  {
   "property": "C59",
   "status": "proved",
   "theorems": [
    "C59_time_over_threshold",
    "C59_merged_peak_time"
   ],
   "note": "Exact values modulo 2^64."
  },
  {
   "property": "C60",
   "status": "proved",
   "theorems": [
    "C60_noise_estimate_not_negative",
    "C60_zero_reached"
   ],
   "note": "inductive invariant on the three estimates and their accumulators; C60_zero_reached is a witness that the bound is attained"
  },
  {
   "property": "C61",
   "status": "proved",
   "theorems": [
    "C61_filter_in_range",
    "C61_undershoot_hit"
   ],
   "note": "positive range theorem and a witness, on both versions of the code"
  },
  {
   "property": "C62",
   "status": "proved",
   "theorems": [
    "C62_same_element_iff",
    "C62_sw_tp_mismatch",
    "C62_recorder_iff"
   ],
   "note": "Exact characterisation for emulator/readout and recorder/readout pairs over all names."
  },
  {
   "property": "C63",
   "status": "proved",
   "theorems": [
    "C63_wiring",
    "C63_types_agree",
    "C63_names_distinct",
    "C63_declared",
    "C63_spsc",
    "C63_source_configured",
    "C63_handler_kinds",
    "C63_tp_requests_unserved",
    "C63_recording_files"
   ],
   "note": "For the four front-end types the command line accepts, any number of links. C63_wiring gives the exact queues each module opens against an independent wiring table; C63_tp_requests_unserved is the finding about the trigger primitive handlers. Capacities, addresses and the commands other than init and the fake card's conf are not modelled."
  },
  {
   "property": "C64",
   "status": "proved",
   "theorems": [
    "C64_exactly_once_in_order",
    "C64_silent_when_stopped",
    "C64_packets_processed",
    "C64_start_during_run_refuted",
    "C64_stop",
    "C64_delivered",
    "C64_every_push_delivered"
   ],
   "note": "Transition system of command thread, worker and producers; the queue is atomic and unbounded, set_work is accepted only when idle (C35). C64_start_during_run_refuted shows that the proviso of the packet count is needed. Callbacks are assumed not to throw."
  },
  {
   "property": "C65",
   "status": "proved",
   "theorems": [
    "C65_every_primitive",
    "C65_from_samples",
    "C65_consecutive",
    "C65_windows",
    "C65_latency",
    "C65_recent_not_sent",
    "C65_end_of_run_discards",
    "C65_one_set_per_superchunk",
    "C65_counters",
    "C65_no_undefined_behaviour",
    "C65_superchunk_completes",
    "C65_induction_queue_fills"
   ],
   "note": "Composes Hits (C48) and Tp (C25-C28) with the commands and the monitoring of WIBFrameProcessor. (1) C65_every_primitive, C65_from_samples; (2) C65_windows; (3) C65_latency, C65_one_set_per_superchunk; (4) C65_recent_not_sent, C65_end_of_run_discards; (5) C65_counters; (6) C65_no_undefined_behaviour, C65_superchunk_completes, C65_induction_queue_fills. C65_consecutive shows that consecutive superchunks meet the conditions on times. A start sent during a run is not modelled."
  },
  {
   "property": "C66",
   "status": "proved",
   "theorems": [
    "C66_link_taps",
    "C66_link_response",
    "C66_unit_gain",
    "C66_integer_taps",
    "C66_even_taps_asymmetric",
    "C66_hit_finder_parameters",
    "C66_between_samples",
    "C66_no_wrap"
   ],
   "note": "C66_link_taps for every arithmetic within relative error 1e-6 (standard model of rounding, no overflow or underflow); C66_link_response, C66_between_samples, C66_no_wrap, C66_hit_finder_parameters for the resulting coefficients; C66_unit_gain, C66_integer_taps for every design in exact arithmetic; C66_even_taps_asymmetric and Example C66_one_tap_undefined are findings. Uses the real numbers of the standard library and so its axioms (classical logic, functional extensionality, decidability of sigma types)."
  },
  {
   "property": "C67",
   "status": "proved",
   "theorems": [
    "C67_what_the_task_reads",
    "C67_keeping_up",
    "C67_no_null",
    "C67_end_of_run",
    "C67_queue_as_long_as_buffer",
    "C67_refused_payload_processed_twice",
    "C67_emptied_buffer_crashes"
   ],
   "note": "C67_what_the_task_reads (exact characterisation), C67_keeping_up (queue shorter than the buffer; the defaults are 10000 and 100000), C67_no_null, C67_end_of_run, for every schedule of the steps of the consumer, the task, the clean-up and the commands. C67_queue_as_long_as_buffer (the bound is sharp, for every buffer of at least three places), C67_refused_payload_processed_twice and C67_emptied_buffer_crashes are findings. One task; a read of the task is one step."
  },
  {
   "property": "C68",
   "status": "proved",
   "theorems": [
    "C68_commands_in_order",
    "C68_between_runs",
    "C68_run_has_its_threads",
    "C68_run_consumes",
    "C68_start_hands_over",
    "C68_stop_returns",
    "C68_stop_waits_for_input",
    "C68_start_in_a_run",
    "C68_conf_in_use",
    "C68_destroy_in_a_run",
    "C68_stop_between_runs",
    "C68_start_without_buffer",
    "C68_recordings",
    "C68_restart_without_consumer",
    "C68_record_ignored"
   ],
   "note": "All schedules by an invariant (Life_proofs*.v); stop_returns by a measure that each round of turns decreases. The out-of-order commands, the quick restart, the ignored record and the endless stop are findings, each a theorem. Threads interleave at loop iterations; the content of payloads, requests and files is not in this model (other claims); the lost wake-up of a worker is the subject of C35 (Thread_model.v), so a worker that was given work takes it up here."
  },
  {
   "property": "C69",
   "status": "proved",
   "theorems": [
    "C69_requests_get_the_emulated_data",
    "C69_no_crash",
    "C69_lossless_runs_have_no_gaps",
    "C69_missing_slots_are_counted",
    "C69_leftover_element_refuted"
   ],
   "note": "Composition of the models of C36 (emulator), C32 (time stamps in bytes) and C21 (link), by an invariant over the history (Chain_proofs2.v). The calls are atomic steps; the threads inside them are the subject of C03, C16 and C35. The source queue is a FIFO of any capacity whose push may fail at any time. Emulator mode of the link itself (which overwrites the times again, C22) is off. The leftover element is a finding (C69_leftover_element_refuted)."
  },
  {
   "property": "C70",
   "status": "proved",
   "theorems": [
    "C70_good_settings_are_sound",
    "C70_commands_in_order",
    "C70_between_runs",
    "C70_raw_runs",
    "C70_tps_runs",
    "C70_stop_returns",
    "C70_run_produces",
    "C70_run_without_producer",
    "C70_restart_without_producer_refuted",
    "C70_start_hands_over",
    "C70_total",
    "C70_before_the_first_start",
    "C70_new_packets",
    "C70_start_in_a_run",
    "C70_conf_in_a_run",
    "C70_destroy_in_a_run"
   ],
   "note": "threads interleave at the push, the counter increments and the rate limiter; runs are counted from the start command; production bound for settings without dropouts"
  },
  {
   "property": "C71",
   "status": "proved",
   "theorems": [
    "C71_commands_in_order",
    "C71_order",
    "C71_recording",
    "C71_prefix",
    "C71_no_warning",
    "C71_other_files",
    "C71_run_records",
    "C71_start_hands_over",
    "C71_stop_returns",
    "C71_stop_returns_woken",
    "C71_after_failure",
    "C71_total",
    "C71_since",
    "C71_start_before_conf",
    "C71_conf_in_a_run",
    "C71_destroy_in_a_run",
    "C71_start_ignored_refuted",
    "C71_stop_hangs_refuted",
    "C71_since_refuted",
    "C71_start_before_conf_refuted",
    "C71_old_tail_refuted"
   ],
   "note": "C71_start_ignored_refuted, C71_stop_hangs_refuted, C71_since_refuted, C71_start_before_conf_refuted and C71_old_tail_refuted are witnesses of what does not hold; the input queue is unbounded and its operations atomic; compressors as in C31 (one function of everything written)"
  },
  {
   "property": "C72",
   "status": "proved",
   "theorems": [
    "C72_newest_kept",
    "C72_requests_reach_back",
    "C72_depth",
    "C72_standard_settings",
    "C72_cleanup_leaves",
    "C72_removes_iff",
    "C72_full_limit_never_cleans",
    "C72_accepted_iff",
    "C72_rejected_settings_used_refuted"
   ],
   "note": "C72_newest_kept holds in the middle of a clean-up; the depth in closed form is C72_depth; requests at link level (C21), schedules at the level of single accesses (C18); C72_removes_iff: with the generated shares a ring of at most ten places is never cleaned"
  },
  {
   "property": "C73",
   "status": "proved",
   "theorems": [
    "C73_sizes",
    "C73_depth",
    "C73_cleanup_works",
    "C73_postprocessing",
    "C73_wib_recording_refuted",
    "C73_waiting"
   ],
   "note": "Factors are positive integers. C73_wib_recording_refuted is a finding: the generated alignment of 0 makes zero-copy recording divide by zero."
  },
  {
   "property": "C74",
   "status": "proved",
   "theorems": [
    "C74_addressed",
    "C74_registered",
    "C74_stop_order",
    "C74_links_drained",
    "C74_commands_finish",
    "C74_lost_start_mixes_runs_refuted",
    "C74_time_syncs_mix_runs_refuted"
   ],
   "note": "The dispatching of the application framework is assumed as stated in Commands_model.v; what the single modules do between start and stop is C64, C68, C70. The two _refuted theorems are the exceptions named in the statement."
  },
  {
   "property": "C75",
   "status": "proved",
   "theorems": [
    "C75_names_distinct",
    "C75_names_shared",
    "C75_generated_names",
    "C75_only_last_task_named",
    "C75_balanced",
    "C75_refused_mask_ends"
   ],
   "note": "At most ten post-processing tasks per link (the code adds at most a few). That snprintf truncates, that an empty CPU list means all CPUs and that the numbers of the links are below 2^31 is assumed as stated in Names_model.v."
  },
  {
   "property": "C76",
   "status": "proved",
   "theorems": [
    "C76_nothing_refused",
    "C76_standard_paces",
    "C76_emulated_link_keeps_up",
    "C76_every_recent_tick"
   ],
   "note": "The pace is a hypothesis in numbers of elements between clean-ups; C77 derives it from times. Clean-ups are atomic with respect to arrivals (C20 and C72 treat the interleaving of single steps) and not held up by a recording."
  },
  {
   "property": "C77",
   "status": "proved",
   "theorems": [
    "C77_period",
    "C77_exact_period_refuted",
    "C77_arrivals_between_cleanups",
    "C77_wib_link_keeps_up"
   ],
   "note": "Exact binary64 arithmetic for positive whole rates and factors. Every operation happens at one instant; the duration of a clean-up is part of T. The waiting time D in the source queue and the time T between clean-ups (a 50 ms sleep plus the clean-up itself) are hypotheses."
  },
  {
   "property": "C78",
   "status": "proved",
   "theorems": [
    "C78_binary_search_ring",
    "C78_fixed_rate_ring",
    "C78_until_a_second_gap",
    "C78_at_most_one_race",
    "C78_newest_read_unsynchronised_refuted",
    "C78_second_gap_refuted",
    "C78_skip_list",
    "C78_skip_list_undisturbed",
    "C78_skip_list_one_moment_refuted"
   ],
   "note": "Memory model: loads of writeIndex_ are coherent; slots are known as far as an acquire load (or, on the hardware, any load) has synchronised. The walk through the error map is one step (its nodes: C83). Clean-ups are excluded while a request runs (C12)."
  },
  {
   "property": "C79",
   "status": "proved",
   "theorems": [
    "C79_bookkeeping",
    "C79_exact_while_stored",
    "C79_what_a_look_gives",
    "C79_no_element",
    "C79_taken_up_again",
    "C79_never_stored_refuted",
    "C79_removed_element_used_refuted"
   ],
   "note": "Each load and store a step, sequentially consistent. The element is read in one step; its construction is open between KWrite and KPublish. A removed element of any type but the raw trigger primitives stays readable (trivial destructor)."
  },
  {
   "property": "C80",
   "status": "proved",
   "theorems": [
    "C80_ring_link",
    "C80_list_link",
    "C80_list_windows_inside_an_element",
    "C80_list_bounded_by_clean_up"
   ],
   "note": "Composition of the models of C36 (emulator), C32 (time stamps), C22 (time stamp check), C16/C42 (clean-ups) and C09/C10/C56 (requests), by an invariant over the history that is proved once for every buffer (Pds_proofs.v) and instantiated for the ring and the skip list (Pds_proofs2.v). The calls are atomic steps; no element arrives during a clean-up (C42 has them). Skip list: windows not reversed, fewer than 2^31 calls. Empty fragments for windows inside an element are a finding (C80_list_windows_inside_an_element)."
  },
  {
   "property": "C81",
   "status": "proved",
   "theorems": [
    "C81_requests_get_the_emulated_data",
    "C81_no_crash",
    "C81_reported_errors_are_the_emulated_ones",
    "C81_forwarded_frames",
    "C81_missing_slots_are_counted",
    "C81_frame_header"
   ],
   "note": "Composition of the models of C36 (emulator), C34 (error words), C22/C23 (checks), C16/C42 and C09/C10, by an invariant over the history (Protowib_proofs2.v). Each call is one step. The accessors of the frame struct are assumed lawful (Protowib_spec.v); C81_frame_header proves it for the layout of detdataformats. Forwarded frames are for the histories without restart."
  },
  {
   "property": "C82",
   "status": "proved",
   "theorems": [
    "C82_frames_of_the_file",
    "C82_objects_alive",
    "C82_one_object_lost_per_frame"
   ],
   "note": "Refinement of a device of frame numbers by the model of heap objects, unique_ptr, queue and ring (Tpmem_proofs.v). Each call is one step; unsynchronised looks are C79. Objects made by malloc are released with operator delete (not allowed by the standard, free() on GNU/Linux); blocks of fewer than two hits are C31."
  },
  {
   "property": "C83",
   "status": "proved",
   "theorems": [
    "C83_registry_content",
    "C83_answer",
    "C83_when_freed_memory_is_read",
    "C83_only_lookups_can",
    "C83_lookup_is_safe_refuted",
    "C83_lookup_sees_the_error_refuted",
    "C83_nodes",
    "C83_calls_end"
   ],
   "note": "Invariant over any number of writing and reading threads, one access to the tree a step (Walk_proofs.v); the map has at most one node since only one name is ever registered. C83_lookup_is_safe_refuted and C83_lookup_sees_the_error_refuted are the findings."
  },
  {
   "property": "C84",
   "status": "proved",
   "theorems": [
    "C84_every_size",
    "C84_memory_overrun",
    "C84_size_zero_refuted",
    "C84_occupancy_of_large_buffers_refuted",
    "C84_generated_sizes"
   ],
   "note": "Refinement of the ring by a bounded queue for every size, with its own invariant (Size_proofs.v). The _refuted theorems and C84_generated_sizes are findings about builds without assertions and about sizes above 2^31."
  },
  {
   "property": "C85",
   "status": "proved",
   "theorems": [
    "C85_look_exact",
    "C85_accessor_kept",
    "C85_cleanups_kept_out",
    "C85_photon_detectors",
    "C85_head_never_null",
    "C85_photon_detectors_refuted",
    "C85_one_removal_is_enough_refuted"
   ],
   "note": "folly's list is taken by its contract (a removed node lives until no accessor is open, and is freed when the last one closes), each of its operations as one step. The _refuted theorems show that the wrong reads occur."
  }
 ]
}
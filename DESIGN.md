# Formal model of DUNE-DAQ/readout

The model is written in Rocq/Coq 8.16.1 under `rocq/theories` (logical name `Verif`).
`properties.jsonl` is the list of claims, `MANIFEST.json` maps each claim to theorems,
`seeded/LOG.jsonl` records which wrong programs the theorems reject.
The code was read as text; nothing was built or run.

Build: `cd rocq && coq_makefile -f _CoqProject -o Makefile && make -j4`.

## 1. Layout

For each component `X`:

* `X_model.v`: the code, function by function, as total Gallina definitions; every definition
  cites the file and lines it models and says where it simplifies. No proofs.
* `X_spec.v`: the small independent specification the property is stated against (where one is needed).
* `X_proofs*.v`: lemmas (small components keep them in `X_props.v`).
* `X_props.v`: the property theorems (`Cnn_...`), each followed by `Print Assumptions`
  and by an `Example` with a non-trivial instance of its hypotheses.

Theorem names: `Cnn_*` belongs to property `Cnn`. A name ending in `_refuted` (or a theorem that
states a crash, loss or difference) is a counterexample: the natural reading of the property is false of
the code and the theorem proves a witness or characterises the failure. The property text then states the
exact behaviour. No theorem is `_partial` at present.

## 2. Conventions

* Integers are `Z`; where the C++ type can wrap, the wrap is written out (`u64`, `u32`, `i16`, ...).
* Undefined behaviour (null dereference, out of range access, use after free, popping an empty buffer)
  is the distinct outcome `Crash`, never a default value.
* Loops are structural recursions, or recursions on fuel; where fuel is used the theorems show that the
  chosen fuel is enough or quantify over it.
* Concurrency is a transition system; a schedule is an arbitrary list of actions, an action that is not
  enabled changes nothing, and theorems quantify over all lists. The granularity is given per component.
* External code (folly, boost, appfwk queues, std containers, file system, clocks, random numbers) is
  modelled by its contract; draws, clock values, push failures, file contents and heap contents are
  universally quantified.

## 3. Trusted base

1. The Coq 8.16.1 kernel and its `vm_compute`. No native compilation, no plugin, no switched-off check.
2. Axioms: none of our own. `Print Assumptions` answers "Closed under the global context" for every theorem of the
   table in section 7 (the table was generated from that output) except those of C66, which is about real numbers
   and uses the axioms of the standard library's Reals: `ClassicalDedekindReals.sig_forall_dec`,
   `ClassicalDedekindReals.sig_not_dec`, `FunctionalExtensionality.functional_extensionality_dep` and
   `Classical_Prop.classic`. `coqchk -o` lists seven declarations
   `Coq.ssr.ssrunder.Under_rel.*`; they belong to a standard library module that is loaded, and no theorem uses them.
3. The models: that each definition says what the cited lines do. This is by reading only.
4. The compiler and the machine: x86-64, little endian, gcc/clang two's complement narrowing, IEEE
   binary32/64 with round to nearest, AVX2 instructions as in Intel's manual.
5. The contracts of external code, per component in section 4.

## 4. What is modelled, component by component

| component | code | properties | simplifications and contracts |
|---|---|---|---|
| Base, Bytes | machine integers, byte memory | - | little endian; access outside a block is `Crash` |
| Ring | `models/IterableQueueModel.hpp` (queue operations, iterator) | C01, C02 | sequential view; sizes 2..2^31 |
| Spsc | same, producer and consumer threads | C03 | one step per shared access; acquire loads may return stale values; slots are accessed in step order (races are an error state) |
| Alloc | same, constructors, `allocate_memory`, `free_memory`, `conf` | C06 | blocks with their allocator; alignments that are not a power of two and size overflow left out |
| Search | `BinarySearchQueueModel.hpp`, `FixedRateQueueModel.hpp` | C04, C05 | sizes up to 2^31 |
| SkipList | `SkipListLatencyBufferModel.hpp` | C07, C08 | `folly::ConcurrentSkipList` as an ordered set |
| Elem, Lb | element types of `ReadoutTypes.hpp`, `NDReadoutTypes.hpp`, buffer interface | C09-C11 | frames are (timestamp, bytes) |
| Request | `DefaultRequestHandlerModel.hpp` `data_request`, headers; `EmptyFragmentRequestHandlerModel.hpp` | C09-C11, C56-C58 | one request sees one state of the buffer (justified by C12) |
| Registry | `FrameErrorRegistry.hpp` | C20 | calls atomic; `has_error` takes no lock in the code (see Walk) |
| Float, Cleanup | `cleanup`, `float * size_t` | C16, C17, C08 | binary32 rounding modelled; no overflow or underflow |
| Record | `record`, `cleanup_check` | C18, C19 | three threads, one step per shared access; an element is read in one step (harmless: `C18_element_is_not_torn`); writes succeed |
| Guard | locks, counter, condition variable | C12 | any number of threads; sections without wait or pop are one step; spurious wake-ups |
| Flow | life of a request: pool, waiting list, start/stop, monitoring | C13-C15, C54, C55 | buffer changes arbitrarily between steps; unbounded counters; waits that only delay are left out |
| Check | the frame processors' checks | C22-C24 | `get_info` zeroing left out |
| Link | consumer + ring + registry + clean-up + requests | C21 | one call is one step |
| Loops | `ReadoutModel.hpp` consume, request and time-sync loops | C39-C41, C50 | threads interleave call by call |
| Post | `TaskRawDataProcessorModel.hpp` | C43 | `folly::ProducerConsumerQueue` as a FIFO with size-1 places |
| Daphne | `DAPHNEListRequestHandler.hpp` | C42 | ordered set |
| Zcopy | `ZeroCopyRecordingRequestHandlerModel.hpp` | C44 | byte-by-byte `::write`; payload fills the element |
| Thread | `ReusableThread.hpp` | C35 | one controlling thread; sequentially consistent atomics (the default in the code) |
| Rate | `RateLimiter.hpp` | C33 | clock is an oracle; the division in `adjust` left out |
| Ebg | `ErrorBitGenerator.hpp` | C34 | tables arbitrary |
| Emu | `SourceEmulatorModel.hpp` `run_produce` | C36 | rate limiting left out |
| File | `BufferedFileWriter.hpp`, `BufferedFileReader.hpp`, `FileSourceBuffer.hpp`, `RecorderModel.hpp` | C37, C38, C51 | device with capacity and O_DIRECT alignment rule; boost stream buffer; compressor as a function of the whole content |
| Codec | timestamp fields | C32 | positions of external structs are parameters; WIB1 header codec is not in /repo |
| Rawtp | `RawWIBTp.hpp`, `TPEmulatorModel.hpp` parser | C30, C31 | offsets unbounded |
| Stitch | `RAWWIBTriggerPrimitiveProcessor.hpp` | C29, C59 | - |
| Tp | `TPHandler.hpp` | C25-C28 | priority queue by the contract `pq_ok`, which Heap proves |
| Heap | the `std::priority_queue` of `TPHandler.hpp` 105-115 | C25, C26 | libstdc++ (GCC 13) binary heap in a vector: push_heap, pop_heap, adjust_heap; moves are copies, no allocation failure |
| Expand | `tpg/FrameExpand.*`, `ProcessingInfo.hpp` | C45, C49 | AVX2 instructions bytewise |
| Frugal | pedestal tracking | C46, C60 | - |
| Hits | `ProcessNaive.hpp`, `ProcessAVX2.hpp`, decoder in `WIBFrameProcessor.hpp` | C47, C48, C61 | filter taps are parameters of the theorems (with their sum); their design is Fir |
| Pipe | `ReadoutModel::run_consume`, start/stop, `TaskRawDataProcessorModel` with pointers into the ring of `IterableQueueModel` | C67 | one task; calls on queues and ring are atomic; a read of the task is one step; no reconfiguration between runs |
| Life | commands of `DataLinkHandler`; conf/start/stop/record and destructors of `ReadoutModel`, `DefaultRequestHandlerModel`, `TaskRawDataProcessorModel` with all threads, `ReusableThread` | C68 | threads interleave at loop iterations; outcomes of iterations (room in the buffer, data there yet) arbitrary; commands one at a time; file and payload contents elsewhere |
| Chain | `SourceEmulatorModel::run_produce`, source queue, `ReadoutModel` with `FixedRateQueueModel` and `DefaultRequestHandlerModel` for WIB2 elements as bytes | C69 | composition of Emu, Codec, Link; calls are atomic; queue push may fail at any time; link not in emulator mode |
| Pds | the same for DAPHNE elements: `DAPHNEFrameProcessor`, `BinarySearchQueueModel` with the default handler or `SkipListLatencyBufferModel` with `DAPHNEListRequestHandler` | C80 | as Chain; no arrivals during a clean-up (Daphne has them) |
| Protowib | the same for WIB (ProtoDUNE) elements with error words: `WIB_SUPERCHUNK_STRUCT`, `WIBFrameProcessor` with `frame_error_check` and `get_info` | C81 | as Chain; the accessors of `WIBFrame` (external) are arbitrary functions, assumed lawful |
| Tpmem | heap objects of raw trigger primitives: `TPEmulatorModel::run_produce`, source queue, `run_consume`, `stop`, `IterableQueueModel` with destructors | C82 | calls are atomic; object numbers are not reused; `operator delete` on `malloc`ed memory acts like `free` |
| Feed | commands and destruction of `FakeCardReader` with the producer threads of `SourceEmulatorModel` and `TPEmulatorModel`, `ReusableThread`, packet counters | C70 | threads interleave at the steps named in `Feed_model.v`; what a turn of the loop makes is Emu_model and Rawtp_model; rate limiter only as an object; commands one at a time |
| Recorder | commands and destruction of `DataRecorder`/`RecorderModel` with worker and monitoring, `BufferedFileWriter` (File_model) on several files, `ReusableThread` with its lost wake-up | C71 | input queue atomic and unbounded; file system answers to remove and open are arguments of conf; `m_time_point_last_info` left out |
| Keep | `DefaultRequestHandlerModel::conf` (pop settings) over the clean-up of Record_model and Link_model | C72 | sizes below 2^24 where shares are computed |
| Settings | numeric link settings of `app_confgen.py` with the defaults of `readoutconfig.jsonnet`, alignment check of `ZeroCopyRecordingRequestHandlerModel::conf` | C73 | slow-down factor a positive integer; timeouts, thread counts, software TP and error settings left out |
| Commands | conf, start, stop, scrap and record commands of `app_confgen.py`, `register_command` of the modules; the application in its runs | C74 | dispatching by the framework assumed (patterns in order, modules of one pattern in any order); modules reduced to starting, stopping and what they push and pop; full queues, outside requests and exceptions left out |
| Names | `ReusableThread::set_name` and its callers, `TaskRawDataProcessorModel::conf` (names), element ids of `app_confgen.py`, `scripts/performance/balancer.py` | C75 | snprintf modelled as truncation to 15 characters; psutil's `cpu_affinity` is an arbitrary function (which masks are accepted); printing, memory and connection reports, processes that end meanwhile left out |
| Sustain | no model of its own: Link, Chain, Keep and Settings together | C76 | the pace is counted in elements between clean-ups, not in time |
| Pace | `RateLimiter::adjust`, the rate in `SourceEmulatorModel::start`; histories in time | C77 | binary64 exact, rates and factors positive integers; every operation at one instant, the clock reads whole ns |
| Busy | `data_request` with every access to shared memory a step of its own, interleaved with the consumer (`run_consume`, `add_error`, `write`) | C78 | values of `writeIndex_` coherent; `has_error` one step; clean-ups excluded (C12) |
| Look | `check_waiting_requests` 446-448 with `back`, `write`, `popFront` one access a step | C79 | the slot read in one step |
| Walk | `FrameErrorRegistry` down to the nodes of its `std::map`, any number of threads, `has_error` without the lock | C83 | one name, so at most one node; sequentially consistent steps; freed blocks are not used again |
| Size | `IterableQueueModel`: every configured size, assertions on or off, the bytes asked for | C84 | the allocation succeeds; no reconfiguration, no preallocation |
| Lend | the pointer of `SkipListLatencyBufferModel::back` (159-163) in `check_waiting_requests` 446-448, with `write`, `pop` and `daphne_cleanup_request` 59-99 one list operation a step, and folly's deferred freeing of removed nodes | C85 | folly's list by its contract |
| Busylist | the same for `SkipListLatencyBufferModel` | C78 | operations of folly's list atomic |
| Fir | `DesignFIR.cpp`, its use in `WIBFrameProcessor::start` | C66 | doubles are reals, every operation rounds its exact result with a bounded relative error; no overflow, underflow or negative number of taps |
| Swtpg | `WIBFrameProcessor.hpp` start, stop, get_info, `find_collection_hits` around Hits and Tp | C65 | no start during a run; time stamp checks in Check |
| Factory | `CreateReadout.hpp`, `CreateSourceEmulator.hpp`, `DataRecorder.cpp` init | C53, C62 | objects by their kind |
| Card | `FakeCardReader.cpp` | C52 | settings other than the file left out |
| Gen | `python/readout/app_confgen.py` `generate`, queue opening in `init` of the modules | C63 | capacities, addresses, numbers left out |
| Consumer | `DummyConsumer.cpp` and the three consumers | C64 | queue atomic and unbounded |

Not modelled: JSON parsing and schemas, logging, operational
monitoring output other than the counters named above, thread affinity as seen by the kernel, performance, the scripts other than `balancer.py` and test
applications, `FragmentConsumer::validate` (unreachable: its first statement is `return`; what it would check is proved of the fragments by C09_answer_has_no_hole), the external packages.

## 5. Findings

Behaviour of the code that a user would not expect. Each is proved of the model by the theorems named.

Buffers
* `good()` accepts some out-of-range indices (C02_good_beyond_memory).
* Fixed-rate search differs from binary search at the boundary key, on an empty buffer and after a gap (C05).
* Some allocation settings mix allocators or leak; reconfiguration is sound for four configurations only (C06).
* The skip list's `pop` drops the newest element, so the default clean-up on a skip list drops new data (C08).

Requests
* Requests on a skip list lose the element that straddles the window begin (C56).
* PACMAN requests are searched with an indeterminate key (C57). SSP fragments are truncated (C58).
* A window with begin after end is answered with data or flags that match no reading of the request (C10_reversed_window_refuted).
* Requests can be lost around stop in two windows (C15_late_retry_refuted, C15_late_request_refuted); a request that
  arrives after its queue was drained is answered in the next run (C40_late_request_survives_refuted).
* Starting the time-sync thread can reset request counters (C40_counter_lost_refuted).
* A refused arrival (buffer full) leaves a gap that is not flagged (C21_after_a_refused_arrival_refuted).

Clean-up and recording
* A clean-up share of 100 % pops an empty buffer (C17_full_share_crashes).
* A recording started while a clean-up is pending can miss elements (C18_start_race_refuted); a timestamp gap stalls it (C19).
* Zero-copy recording searches forever if no stored element is aligned, ignores failed writes and writes later
  recordings to a closed descriptor (C44).
* `BufferedFileWriter::flush` at an unaligned position breaks O_DIRECT writers; a second recorder run loses data; the file
  source limit only warns (C37, C38, C51).

Frame checks and processing
* WIB2 timestamp state is never reset; DAPHNE and SSP never flag gaps; PACMAN's comparison of an unsigned difference flags
  only repeats (C22, C24).
* A null pointer can be post-processed if a clean-up empties the buffer between write and back; a refused element causes the
  previous one to be post-processed twice (C39). A second `conf` leaves queues without a thread and duplicates the hit-finding task; items
  are pointers whose target may be overwritten (C43).
* WIB processors need the `errored_frames` queue at init even if unused; enabling software TPG without `tp_out`/`tpset_out`
  dereferences a null pointer (visible in `Gen_model.processor_uses`; not a theorem).

Trigger primitives
* Stitching loses lone hits and stores sums of peak times (C29, C59); old-format files are damaged by the parser (C30).
* Initial pedestals come from the wrong channels (C49). The noise estimate, hence the threshold, can reach zero (C60).
* Scalar and vector code differ for wide noise (C47_wide_noise_differs). A deep undershoot is reported as a pulse (C61).
  Hits with zero charge are dropped by the decoder (C48). The vector code reads 8 bytes past a frame (Expand_model.v).
* TP acceptance wraps around near 2^64 (C27_wrap_around).
* At most one TPSet is sent per superchunk: windows shorter than 300 clocks can fall behind without bound (C65_one_set_per_superchunk).
  Whatever was accepted with the last superchunks of a run is never sent: stop does not flush, start discards (C65_recent_not_sent,
  C65_end_of_run_discards, C65_end_of_run_example). The queue of induction frames is never read and full after 199999 superchunks
  (C65_induction_queue_fills).

Threads, sources, modules
* `ReusableThread` can lose a wake-up and can refuse a task after reporting readiness (C35).
* The rate limiter allows twice the expected slack (C33_single_slack_refuted).
* The filter design is not symmetric for an even number of taps and undefined for one tap; the link uses seven (C66).
* Post-processing tasks hold pointers into the ring: with a queue at least as long as the buffer a task may silently read newer data than it was
  called for (C67_queue_as_long_as_buffer); the configuration does not check this. A clean-up that empties the buffer between write and
  `back()` makes the task follow a null pointer (C67_emptied_buffer_crashes).
* Commands out of order are not refused (C68): a start in a run ends the process with `std::terminate` (assignment to a joinable
  `std::thread`, C68_start_in_a_run); a conf in a run or during a recording frees the buffer under a thread that uses it
  (C68_conf_in_use); destroying a running module hangs or terminates (C68_destroy_in_a_run); a stop between runs throws
  `std::system_error` (C68_stop_between_runs).
* A failed allocation in conf is caught and only reported; the next start returns, and the first payload taken crashes
  (C68_start_without_buffer, C68_no_buffer_example).
* `ReusableThread::set_work` may return false because the worker has marked its work executed but not yet unassigned; `start` and
  `record` ignore the result. A start right after a stop can leave the run without a consumer, so that no payload is ever taken
  (C68_restart_without_consumer); a record command can come to nothing without a report (C68_record_ignored).
* `stop` waits for the consumer to find its input empty: while payloads keep arriving it does not return (C68_stop_waits_for_input).
* A start with bad arguments throws after everything was started: the run is on (C68_bad_start_example).
* Neither start nor stop empties the source queue: an element left in it is delivered first in the next run, with the late time of the
  run before, and requests for data that are all in the buffer are answered "not found" (C69_leftover_element_refuted).
* A file smaller than one element, or an empty dropout population, is read out of bounds; failed pushes are counted (C36).
* A fake card started right after a stop can leave a link without a producer for the whole run, without any report
  (C70_restart_without_producer_refuted, C70_run_without_producer). Out of order: a start in a run destroys the rate limiter in use
  (C70_start_in_a_run), scrap and conf in a run destroy the file buffer in use (C70_conf_in_a_run), destroying a running card never
  ends (C70_destroy_in_a_run).
* A recorder started right after a stop can ignore the start: the run records nothing (C71_start_ignored_refuted). A start that meets
  the worker between its test and its wait is never noticed, and the stop hangs (C71_stop_hangs_refuted). A start before any conf
  flushes a file descriptor that was never assigned (C71_start_before_conf_refuted); a conf in a run uses the writer from two threads
  (C71_conf_in_a_run); destroying a running recorder ends only if a write fails (C71_destroy_in_a_run).
* After a failed write, or a failed conf, every run of a recorder takes one payload, loses it and ends, until the next conf
  (C71_after_failure). Under O_DIRECT a run that does not end on a whole block makes the next run fail (ex_after_failure).
* A conf that names the file of the recording before erases it; if it cannot be removed the end of a longer one stays
  (C71_old_tail_refuted).
* `get_info` of the recorder reads and then resets the packets since the last call: a packet counted in between is in no report
  (C71_since_refuted). `m_time_point_last_info` is written by worker and monitoring without synchronisation (read, not modelled).
* The fake card crashes when started unconfigured and rejects a retry of a partly failed conf (C52).
* A software TP queue can never be fed by the fake card (C62_sw_tp_mismatch).
* Generated trigger primitive handlers serve no requests: the queue entries are named `requests`/`fragments`, which the readout never
  looks up; the n handlers list the same single-consumer queue (C63_tp_requests_unserved).
* `m_error_count` of `ErroredFrameConsumer` and `m_run_marker` of the consumers are not initialised (read; the former is never reported,
  the latter is quantified over in C64).
* `pop_limit_pct` = 1.0 passes the range check, and nothing is ever cleaned up: the link keeps the first n-1 elements of the run and
  never holds anything newer (C72_full_limit_never_cleans). An out-of-range setting is reported but the new share is
  used with the old limit, 0 in a new handler: a share of 2.0 crashes the first clean-up (C72_rejected_settings_used_refuted).
* `latency_buffer_alignment_size` is 0 by default and `app_confgen.py` leaves it so, but turns recording on for every data handler: the
  WIB handler reports "not 4k aligned" and a record command divides by zero once there is data (C44_no_alignment_crashes,
  C73_wib_recording_refuted). With an alignment the generated size for factor 1 still fails the check (500000 is no multiple of 64).
* With the generated shares a buffer of at most ten elements (slow-down factor above 45454) is never cleaned up (C72_removes_iff,
  C73_cleanup_works). From a factor of 50 on the default post-processing queue is as long as the buffer (C73_postprocessing).
* The generated stop command stops the trigger primitive handlers after the consumer of time syncs: their last time syncs stay in the queue
  and are counted in the next run (C74_time_syncs_mix_runs_refuted). scrap is sent to the consumers, which do not register it
  (C74_registered). A start that fails to hand over the reading thread lets the data of the run be read in the next one
  (C74_lost_start_mixes_runs_refuted). The pattern `data_recorder_.*` matches no generated module.
* Thread names are cut to 15 characters: the post-processing threads of links 1 and 10 to 19 are all called `postprocess-0-1`
  (C75_names_shared), the threads of a data handler and of the software trigger primitive handler of the same number have equal names
  (C75_generated_names), and of several post-processing threads only the last is named (`m_post_process_threads.back()` in the loop;
  C75_only_last_task_named). `balancer.py` therefore cannot pin these apart; it also takes the pinning away from every thread that
  the file does not list (C75_balanced) and prints the logical CPU count as the physical one.
- C77: the period of the DAPHNE source (200 kHz) is one ns too short for some slow-down factors (3, 6, 11, 12, ...), because three roundings of doubles precede a truncation (`C77_exact_period_refuted`).
- C45: the offline numbers of `collection_index_to_offline` and `induction_index_to_offline` overlap (0 to 39), so a number alone does not tell the wire (`C45_offline_numbers_shared`). Nothing in the repository calls the two functions.
- C78: `back()` (`IterableQueueModel.hpp` 406-419) and the iterator's `good()` load `writeIndex_` relaxed. For every buffer that is neither empty nor full a request can read the newest element without synchronising with the thread that stored it: a data race by the rules of C++, harmless on x86 (`C78_newest_read_unsynchronised_refuted`).
- C78: `has_error` takes no lock and `add_error` erases the old entry before it inserts the new one (`FrameErrorRegistry.hpp` 46-47, 63-65). A request that looks in between uses the fixed-rate lookup on a buffer with a gap and can be answered as served with the frames missing (`C78_second_gap_refuted`). The unlocked walk through the `std::map` while another thread erases from it is itself a race (a freed node may be read, C83); the model of C78 takes the look as one step.
- C79: `check_waiting_requests` calls `back()` with neither the consumer nor the clean-up kept out. A look that begins with the buffer empty can return a pointer to a place where nothing was ever constructed (`C79_never_stored_refuted`); on links of raw trigger primitives the element can be destroyed while its timestamp is read through its `unique_ptr` (`C79_removed_element_used_refuted`).
- C80: on a "pds_list" link every request for a window inside one element (192 ticks) is counted as served and its fragment is empty and without the error bit, though all its frames are stored (`C80_list_windows_inside_an_element`; the cause is C56).
- C82: `unpack_tpframe_version_1` and `_2` call `rwtp.release()` on the object made in `run_produce` (`TPEmulatorModel.hpp` 143, 186, 220): one `RawWIBTp` (40 bytes) per frame is never released, at 66 kHz about 2.6 MB per second and link (`C82_one_object_lost_per_frame`). The frames themselves are made by `malloc` and released by `delete`, which the standard does not allow.
- C83: `has_error` walks the `std::map` without the lock. A discontinuity registered by the consumer thread while a request thread is between two looks at the node makes the request thread read a freed node (`C83_lookup_is_safe_refuted`); while the entry is being renewed `has_error` can answer no though an error is on record before and after (`C83_lookup_sees_the_error_refuted`).
- C84: the only check of the buffer size is an assertion. In a build without assertions the size 0 (generated for slow-down factors above 500000) is accepted and the first element is constructed outside the memory (`C84_size_zero_refuted`, `C84_generated_sizes`); the size 1 gives a buffer that refuses everything. Sizes of 2^32 and more are cut to their lower half, and a product of size and element size beyond 2^64 asks for too little memory (`C84_memory_overrun`). With more than 2^31 slots the occupancy is misreported (`C84_occupancy_of_large_buffers_refuted`).
- C85: `SkipListLatencyBufferModel::back()` returns a raw pointer and closes its accessor; `check_waiting_requests` then reads through it with the clean-ups not kept out. On skip-list links with the default clean-up, which removes the newest elements, one removal in between makes it read freed memory (`C85_one_removal_is_enough_refuted`); on photon-detector links it takes an element 10000000 ticks newer as well (`C85_photon_detectors_refuted`).

## 6. Assumptions that limit the claims

* Data races on ordinary memory outside the ring (C03) and the error map (C83) are not detected: statistics.
* Recording reads an element in one step (C18); `C18_element_is_not_torn` shows that no other thread touches the element meanwhile.
* Unbounded counters in Flow (std::atomic<int>), unbounded offsets in Rawtp (int), unbounded queues in Loops and Consumer.
* C26 assumes that the clock does not go back and no overflow (predicate `orderly`); C33 a non-decreasing clock below 2^62 ns.
* C25-C28 and C65 take the priority queue contract `pq_ok` as a hypothesis. It is proved of libstdc++'s heap (Heap: `ordered_ok`), and
  `C25_nothing_lost_with_the_heap` and `C26_windows_with_the_heap` run the buffer on that heap without the hypothesis. Another
  standard library would have to be checked again.
* Weak memory is modelled only for the ring (C03); all other atomics use the sequentially consistent default in the code.

## 7. Theorems and their assumptions

Output of `Print Assumptions` for every property theorem ("none" is "Closed under the global context").

| property | theorem | file | axioms |
|---|---|---|---|
| C01 | `C01_ring_is_bounded_fifo` | Ring_props.v | none |
| C01 | `C01_overflow_counts_refused_writes` | Ring_props.v | none |
| C02 | `C02_iteration_yields_contents` | Ring_props.v | none |
| C02 | `C02_positions` | Ring_props.v | none |
| C02 | `C02_good_iff_stored` | Ring_props.v | none |
| C02 | `C02_good_beyond_memory` | Ring_props.v | none |
| C03 | `C03_every_schedule_is_a_queue` | Spsc_props.v | none |
| C03 | `C03_received_is_prefix_of_accepted` | Spsc_props.v | none |
| C03 | `C03_linearisable` | Spsc_props.v | none |
| C03 | `C03_assert_only_on_empty` | Spsc_props.v | none |
| C03 | `C03_overflow_counts_refusals` | Spsc_props.v | none |
| C04 | `C04_binary_search` | Search_props.v | none |
| C05 | `C05_fixed_rate_agrees` | Search_props.v | none |
| C05 | `C05_with_errors_is_binary_search` | Search_props.v | none |
| C05 | `C05_boundary_key` | Search_props.v | none |
| C05 | `C05_empty_buffer_reads_dead_slot` | Search_props.v | none |
| C05 | `C05_gap_refuted` | Search_props.v | none |
| C06 | `C06_sound_configurations` | Alloc_props.v | none |
| C06 | `C06_conf_reports_failure` | Alloc_props.v | none |
| C06 | `C06_other_configurations_corrupt` | Alloc_props.v | none |
| C07 | `C07_skip_list_is_ordered_set` | SkipList_props.v | none |
| C08 | `C08_default_cleanup_discards_newest_of_skip_list` | Cleanup_props.v | none |
| C08 | `C08_ring_pop_discards_oldest` | SkipList_props.v | none |
| C08 | `C08_skip_list_pop_keeps_oldest` | SkipList_props.v | none |
| C09 | `C09_answer_has_no_hole` | Complete_props.v | none |
| C09 | `C09_binary_search_ring` | Request_props.v | none |
| C09 | `C09_fixed_rate_ring_flagged` | Request_props.v | none |
| C09 | `C09_fixed_rate_ring_gap_free` | Request_props.v | none |
| C10 | `C10_binary_search_ring` | Request_props.v | none |
| C10 | `C10_fixed_rate_ring_flagged` | Request_props.v | none |
| C10 | `C10_fixed_rate_ring_gap_free` | Request_props.v | none |
| C10 | `C10_skip_list` | Request_props.v | none |
| C10 | `C10_reversed_window_refuted` | Request_props.v | none |
| C11 | `C11_data_request_header` | Request_props.v | none |
| C11 | `C11_empty_fragment_header` | Request_props.v | none |
| C12 | `C12_no_removal_while_reading` | Guard_props.v | none |
| C12 | `C12_counter_is_exact` | Guard_props.v | none |
| C12 | `C12_no_new_reader_while_requested` | Guard_props.v | none |
| C12 | `C12_no_lost_wakeup` | Guard_props.v | none |
| C12 | `C12_cleanup_can_finish` | Guard_props.v | none |
| C13 | `C13_exactly_one_place` | Flow_props.v | none |
| C13 | `C13_none_disappears_during_a_run` | Flow_props.v | none |
| C13 | `C13_answers_belong_to_their_request` | Flow_props.v | none |
| C14 | `C14_pass_is_per_entry` | Flow_props.v | none |
| C14 | `C14_pass_is_executed` | Flow_props.v | none |
| C14 | `C14_timeout_after_exact_number_of_checks` | Flow_props.v | none |
| C14 | `C14_time_outs_in_every_execution` | Flow_props.v | none |
| C14 | `C14_configured_count` | Settings_props.v | none |
| C15 | `C15_all_answered_when_nothing_is_late` | Flow_props.v | none |
| C15 | `C15_no_late_decisions` | Flow_props.v | none |
| C15 | `C15_stop_completes` | Flow_props.v | none |
| C15 | `C15_late_retry_refuted` | Flow_props.v | none |
| C15 | `C15_late_request_refuted` | Flow_props.v | none |
| C16 | `C16_cleanup_removes_oldest` | Cleanup_props.v | none |
| C16 | `C16_exact_share_without_recording` | Cleanup_props.v | none |
| C16 | `C16_share_accuracy` | Cleanup_props.v | none |
| C17 | `C17_cleanup_keeps_an_element` | Cleanup_props.v | none |
| C17 | `C17_full_share_crashes` | Cleanup_props.v | none |
| C18 | `C18_recording_is_gapless` | Record_props.v | none |
| C18 | `C18_file_in_sequence` | Record_props.v | none |
| C18 | `C18_recording_catches_up` | Record_props.v | none |
| C18 | `C18_no_null_dereference` | Record_props.v | none |
| C18 | `C18_element_is_not_torn` | Record_props.v | none |
| C18 | `C18_start_race_refuted` | Record_props.v | none |
| C19 | `C19_gap_stalls_recording_and_cleanup` | Record_props.v | none |
| C20 | `C20_has_error` | Registry_props.v | none |
| C20 | `C20_has_any_error` | Registry_props.v | none |
| C20 | `C20_effect_of_one_call` | Registry_props.v | none |
| C20 | `C20_one_interval_per_name` | Registry_props.v | none |
| C21 | `C21_gaps_are_flagged` | Link_props.v | none |
| C21 | `C21_requests_are_served_exactly` | Link_props.v | none |
| C21 | `C21_no_crash_before_a_refusal` | Link_props.v | none |
| C21 | `C21_after_a_refused_arrival_refuted` | Link_props.v | none |
| C22 | `C22_wib_counts_discontinuities` | Check_props.v | none |
| C22 | `C22_wib2_counts_across_runs` | Check_props.v | none |
| C22 | `C22_last_discontinuity_is_registered` | Check_props.v | none |
| C22 | `C22_emulator_stamps_consecutively` | Check_props.v | none |
| C22 | `C22_daphne_never_flags` | Check_props.v | none |
| C22 | `C22_daphne_emulator_stamps` | Check_props.v | none |
| C22 | `C22_ssp_publishes_the_last` | Check_props.v | none |
| C23 | `C23_forwarded_once_and_only_errors` | Check_props.v | none |
| C23 | `C23_forwarding_rule` | Check_props.v | none |
| C23 | `C23_rate_limit` | Check_props.v | none |
| C23 | `C23_error_count` | Check_props.v | none |
| C24 | `C24_flags_exactly_repeats` | Check_props.v | none |
| C25 | `C25_queue_of_the_standard_library` | Heap_props.v | none |
| C25 | `C25_queue_emptied_in_order` | Heap_props.v | none |
| C25 | `C25_nothing_lost_with_the_heap` | Heap_props.v | none |
| C25 | `C25_nothing_lost` | Tp_props.v | none |
| C25 | `C25_fault_only_for_zero_window` | Tp_props.v | none |
| C26 | `C26_windows_with_the_heap` | Heap_props.v | none |
| C26 | `C26_windows` | Tp_props.v | none |
| C26 | `C26_no_late_primitives` | Tp_props.v | none |
| C26 | `C26_sends_exactly_when_due` | Tp_props.v | none |
| C26 | `C26_set_is_completed` | Tp_props.v | none |
| C27 | `C27_acceptance` | Tp_props.v | none |
| C27 | `C27_wrap_around` | Tp_props.v | none |
| C28 | `C28_counters` | Tp_props.v | none |
| C28 | `C28_sequence_numbers` | Tp_props.v | none |
| C28 | `C28_reset_discards` | Tp_props.v | none |
| C29 | `C29_stored_primitives` | Stitch_props.v | none |
| C29 | `C29_lone_hits_are_lost` | Stitch_props.v | none |
| C29 | `C29_continued_hit_stored_once` | Stitch_props.v | none |
| C29 | `C29_channel_dies` | Stitch_props.v | none |
| C30 | `C30_split_at_block_boundaries` | Rawtp_props.v | none |
| C30 | `C30_old_format_damaged_refuted` | Rawtp_props.v | none |
| C30 | `C30_no_marker_reads_past_the_end` | Rawtp_props.v | none |
| C30 | `C30_empty_old_block_swallows_the_next` | Rawtp_props.v | none |
| C31 | `C31_reported_size` | Rawtp_props.v | none |
| C31 | `C31_store_in_bounds_iff` | Rawtp_props.v | none |
| C31 | `C31_store_overwrites_second_hit` | Rawtp_props.v | none |
| C31 | `C31_short_block_damages_the_heap` | Rawtp_props.v | none |
| C32 | `C32_raw_tp` | Codec_props.v | none |
| C32 | `C32_raw_tp_unique` | Codec_props.v | none |
| C32 | `C32_ssp` | Codec_props.v | none |
| C32 | `C32_wib2_daphne` | Codec_props.v | none |
| C32 | `C32_distinct` | Codec_props.v | none |
| C32 | `C32_fake_timestamps` | Codec_props.v | none |
| C33 | `C33_kth_return` | Rate_props.v | none |
| C33 | `C33_deadline_moves_forward` | Rate_props.v | none |
| C33 | `C33_calls_in_an_interval` | Rate_props.v | none |
| C33 | `C33_single_slack_refuted` | Rate_props.v | none |
| C33 | `C33_returns_at_the_deadline` | Rate_props.v | none |
| C34 | `C34_words` | Ebg_props.v | none |
| C34 | `C34_zero_or_table_entry` | Ebg_props.v | none |
| C34 | `C34_rate_zero` | Ebg_props.v | none |
| C34 | `C34_always_some_zero` | Ebg_props.v | none |
| C35 | `C35_one_task_at_a_time` | Thread_props.v | none |
| C35 | `C35_ready_means_finished` | Thread_props.v | none |
| C35 | `C35_no_task_race` | Thread_props.v | none |
| C35 | `C35_accepted_task_runs` | Thread_props.v | none |
| C35 | `C35_lost_wakeup_refuted` | Thread_props.v | none |
| C35 | `C35_refused_although_ready_refuted` | Thread_props.v | none |
| C35 | `C35_idle_accepts` | Thread_props.v | none |
| C35 | `C35_destroyed_means_finished` | Thread_props.v | none |
| C36 | `C36_slots` | Emu_props.v | none |
| C36 | `C36_rate_zero` | Emu_props.v | none |
| C36 | `C36_small_file_faults` | Emu_props.v | none |
| C36 | `C36_empty_population_faults` | Emu_props.v | none |
| C37 | `C37_written` | File_props.v | none |
| C37 | `C37_always_prefix` | File_props.v | none |
| C37 | `C37_failure_is_sticky` | File_props.v | none |
| C37 | `C37_flush_durable` | File_props.v | none |
| C37 | `C37_direct_broken_by_flush` | File_props.v | none |
| C37 | `C37_compressed` | File_props.v | none |
| C37 | `C37_read` | File_props.v | none |
| C37 | `C37_round_trip` | File_props.v | none |
| C37 | `C37_not_open` | File_props.v | none |
| C38 | `C38_read` | File_props.v | none |
| C38 | `C38_second_read_throws` | File_props.v | none |
| C38 | `C38_limit_enforced_refuted` | File_props.v | none |
| C39 | `C39_accounting` | Loops_props.v | none |
| C40 | `C40_paired_and_exactly_once` | Loops_props.v | none |
| C40 | `C40_drain_ends` | Loops_props.v | none |
| C40 | `C40_rest_is_discarded` | Loops_props.v | none |
| C40 | `C40_late_request_survives_refuted` | Loops_props.v | none |
| C40 | `C40_counter` | Loops_props.v | none |
| C40 | `C40_counter_lost_refuted` | Loops_props.v | none |
| C40 | `C40_setup` | Loops_props.v | none |
| C41 | `C41_turn` | Loops_props.v | none |
| C41 | `C41_consecutive` | Loops_props.v | none |
| C42 | `C42_exact` | Daphne_props.v | none |
| C42 | `C42_concurrent` | Daphne_props.v | none |
| C43 | `C43_exactly_the_accepted` | Post_props.v | none |
| C43 | `C43_independent` | Post_props.v | none |
| C43 | `C43_stop_drains` | Post_props.v | none |
| C43 | `C43_setup` | Post_props.v | none |
| C43 | `C43_second_conf_refuted` | Post_props.v | none |
| C43 | `C43_stale_pointer_refuted` | Post_props.v | none |
| C44 | `C44_contiguous` | Zcopy_props.v | none |
| C44 | `C44_progress` | Zcopy_props.v | none |
| C44 | `C44_bytes_reported` | Zcopy_props.v | none |
| C44 | `C44_no_crash` | Zcopy_props.v | none |
| C44 | `C44_write_pointer_aligned` | Zcopy_props.v | none |
| C44 | `C44_no_aligned_element_hangs` | Zcopy_props.v | none |
| C44 | `C44_later_recordings_lost` | Zcopy_props.v | none |
| C44 | `C44_failed_write_reported_refuted` | Zcopy_props.v | none |
| C44 | `C44_no_alignment_crashes` | Zcopy_props.v | none |
| C45 | `C45_collection` | Expand_props.v | none |
| C45 | `C45_induction` | Expand_props.v | none |
| C45 | `C45_every_channel_once` | Expand_props.v | none |
| C45 | `C45_out_of_range` | Expand_props.v | none |
| C45 | `C45_offline_numbers` | Expand_props.v | none |
| C45 | `C45_offline_numbers_shared` | Expand_props.v | none |
| C45 | `C45_collection_only` | Expand_props.v | none |
| C45 | `C45_all` | Expand_props.v | none |
| C45 | `C45_message` | Expand_props.v | none |
| C45 | `C45_message_induction` | Expand_props.v | none |
| C45 | `C45_load_beyond_frame` | Expand_props.v | none |
| C45 | `C45_message_fits` | Expand_props.v | none |
| C46 | `C46_range` | Frugal_props.v | none |
| C46 | `C46_one_sample` | Frugal_props.v | none |
| C46 | `C46_convergence` | Frugal_props.v | none |
| C46 | `C46_convergence_bound` | Frugal_props.v | none |
| C46 | `C46_vectorised` | Frugal_props.v | none |
| C47 | `C47_vectorised_equals_scalar` | Hits_props.v | none |
| C47 | `C47_wide_noise_differs` | Hits_props.v | none |
| C47 | `C47_scalar_hit_list` | Hits_props2.v | none |
| C48 | `C48_primitives` | Hits_props.v | none |
| C48 | `C48_start_time` | Hits_props.v | none |
| C48 | `C48_output_fits` | Hits_props.v | none |
| C48 | `C48_scalar_hits` | Hits_props.v | none |
| C48 | `C48_zero_charge_hit_lost` | Hits_props.v | none |
| C49 | `C49_pedestal_source` | Expand_props.v | none |
| C49 | `C49_own_sample_iff` | Expand_props.v | none |
| C50 | `C50_empty_answers` | Loops_props.v | none |
| C51 | `C51_run` | File_props.v | none |
| C51 | `C51_file` | File_props.v | none |
| C51 | `C51_second_run_refuted` | File_props.v | none |
| C52 | `C52_init_iff` | Card_props.v | none |
| C52 | `C52_conf_effect` | Card_props.v | none |
| C52 | `C52_conf_iff` | Card_props.v | none |
| C52 | `C52_retry` | Card_props.v | none |
| C52 | `C52_configured_stays` | Card_props.v | none |
| C52 | `C52_history` | Card_props.v | none |
| C52 | `C52_scrap` | Card_props.v | none |
| C52 | `C52_crash_iff` | Card_props.v | none |
| C52 | `C52_start_unconfigured` | Card_props.v | none |
| C53 | `C53_choice_of_name` | Factory_props.v | none |
| C53 | `C53_choice_of_queue` | Factory_props.v | none |
| C53 | `C53_wib_wins` | Factory_props.v | none |
| C54 | `C54_statistics_add_up` | Flow_props.v | none |
| C55 | `C55_window_end_equal_to_newest` | Flow_props.v | none |
| C56 | `C56_skip_list_loses_straddling_element` | Request_props.v | none |
| C57 | `C57_pacman_answer_depends_on_garbage` | Request_props.v | none |
| C58 | `C58_ssp_fragments_are_truncated` | Request_props.v | none |
| C59 | `C59_time_over_threshold` | Stitch_props.v | none |
| C59 | `C59_merged_peak_time` | Stitch_props.v | none |
| C60 | `C60_noise_estimate_not_negative` | Frugal_props.v | none |
| C60 | `C60_zero_reached` | Frugal_props.v | none |
| C61 | `C61_filter_in_range` | Hits_props.v | none |
| C61 | `C61_undershoot_hit` | Hits_props.v | none |
| C62 | `C62_same_element_iff` | Factory_props.v | none |
| C62 | `C62_sw_tp_mismatch` | Factory_props.v | none |
| C62 | `C62_recorder_iff` | Factory_props.v | none |
| C63 | `C63_wiring` | Gen_props.v | none |
| C63 | `C63_types_agree` | Gen_props.v | none |
| C63 | `C63_names_distinct` | Gen_props.v | none |
| C63 | `C63_declared` | Gen_props.v | none |
| C63 | `C63_spsc` | Gen_props.v | none |
| C63 | `C63_source_configured` | Gen_props.v | none |
| C63 | `C63_handler_kinds` | Gen_props.v | none |
| C63 | `C63_tp_requests_unserved` | Gen_props.v | none |
| C63 | `C63_recording_files` | Gen_props.v | none |
| C64 | `C64_exactly_once_in_order` | Consumer_props.v | none |
| C64 | `C64_silent_when_stopped` | Consumer_props.v | none |
| C64 | `C64_packets_processed` | Consumer_props.v | none |
| C64 | `C64_start_during_run_refuted` | Consumer_props.v | none |
| C64 | `C64_stop` | Consumer_props.v | none |
| C64 | `C64_delivered` | Consumer_props.v | none |
| C64 | `C64_every_push_delivered` | Consumer_props.v | none |
| C65 | `C65_every_primitive` | Swtpg_props.v | none |
| C65 | `C65_from_samples` | Swtpg_props.v | none |
| C65 | `C65_consecutive` | Swtpg_props.v | none |
| C65 | `C65_windows` | Swtpg_props.v | none |
| C65 | `C65_latency` | Swtpg_props.v | none |
| C65 | `C65_recent_not_sent` | Swtpg_props.v | none |
| C65 | `C65_end_of_run_discards` | Swtpg_props.v | none |
| C65 | `C65_one_set_per_superchunk` | Swtpg_props.v | none |
| C65 | `C65_counters` | Swtpg_props.v | none |
| C65 | `C65_no_undefined_behaviour` | Swtpg_props.v | none |
| C65 | `C65_superchunk_completes` | Swtpg_props.v | none |
| C65 | `C65_induction_queue_fills` | Swtpg_props.v | none |
| C66 | `C66_link_taps` | Fir_props.v | `ClassicalDedekindReals.sig_forall_dec`, `ClassicalDedekindReals.sig_not_dec`, `Classical_Prop.classic`, `FunctionalExtensionality.functional_extensionality_dep` |
| C66 | `C66_link_response` | Fir_props.v | `ClassicalDedekindReals.sig_forall_dec`, `ClassicalDedekindReals.sig_not_dec`, `Classical_Prop.classic`, `FunctionalExtensionality.functional_extensionality_dep` |
| C66 | `C66_unit_gain` | Fir_props.v | `ClassicalDedekindReals.sig_forall_dec`, `ClassicalDedekindReals.sig_not_dec`, `FunctionalExtensionality.functional_extensionality_dep` |
| C66 | `C66_integer_taps` | Fir_props.v | `ClassicalDedekindReals.sig_forall_dec`, `ClassicalDedekindReals.sig_not_dec`, `Classical_Prop.classic`, `FunctionalExtensionality.functional_extensionality_dep` |
| C66 | `C66_even_taps_asymmetric` | Fir_props.v | `ClassicalDedekindReals.sig_forall_dec`, `ClassicalDedekindReals.sig_not_dec`, `Classical_Prop.classic`, `FunctionalExtensionality.functional_extensionality_dep` |
| C66 | `C66_hit_finder_parameters` | Fir_props.v | `ClassicalDedekindReals.sig_forall_dec`, `ClassicalDedekindReals.sig_not_dec`, `Classical_Prop.classic`, `FunctionalExtensionality.functional_extensionality_dep` |
| C66 | `C66_between_samples` | Fir_props.v | `ClassicalDedekindReals.sig_forall_dec`, `ClassicalDedekindReals.sig_not_dec`, `Classical_Prop.classic`, `FunctionalExtensionality.functional_extensionality_dep` |
| C66 | `C66_no_wrap` | Fir_props.v | `ClassicalDedekindReals.sig_forall_dec`, `ClassicalDedekindReals.sig_not_dec`, `Classical_Prop.classic`, `FunctionalExtensionality.functional_extensionality_dep` |
| C67 | `C67_what_the_task_reads` | Pipe_props.v | none |
| C67 | `C67_keeping_up` | Pipe_props.v | none |
| C67 | `C67_no_null` | Pipe_props.v | none |
| C67 | `C67_end_of_run` | Pipe_props.v | none |
| C67 | `C67_queue_as_long_as_buffer` | Pipe_props.v | none |
| C67 | `C67_refused_payload_processed_twice` | Pipe_props.v | none |
| C67 | `C67_emptied_buffer_crashes` | Pipe_props.v | none |
| C68 | `C68_commands_in_order` | Life_props.v | none |
| C68 | `C68_between_runs` | Life_props.v | none |
| C68 | `C68_run_has_its_threads` | Life_props.v | none |
| C68 | `C68_run_consumes` | Life_props.v | none |
| C68 | `C68_start_hands_over` | Life_props.v | none |
| C68 | `C68_stop_returns` | Life_props.v | none |
| C68 | `C68_stop_waits_for_input` | Life_props.v | none |
| C68 | `C68_start_in_a_run` | Life_props.v | none |
| C68 | `C68_conf_in_use` | Life_props.v | none |
| C68 | `C68_destroy_in_a_run` | Life_props.v | none |
| C68 | `C68_stop_between_runs` | Life_props.v | none |
| C68 | `C68_start_without_buffer` | Life_props.v | none |
| C68 | `C68_recordings` | Life_props.v | none |
| C68 | `C68_restart_without_consumer` | Life_props.v | none |
| C68 | `C68_record_ignored` | Life_props.v | none |
| C69 | `C69_requests_get_the_emulated_data` | Chain_props.v | none |
| C69 | `C69_no_crash` | Chain_props.v | none |
| C69 | `C69_lossless_runs_have_no_gaps` | Chain_props.v | none |
| C69 | `C69_missing_slots_are_counted` | Chain_props.v | none |
| C69 | `C69_leftover_element_refuted` | Chain_props.v | none |
| C70 | `C70_good_settings_are_sound` | Feed_props.v | none |
| C70 | `C70_commands_in_order` | Feed_props.v | none |
| C70 | `C70_between_runs` | Feed_props.v | none |
| C70 | `C70_raw_runs` | Feed_props.v | none |
| C70 | `C70_tps_runs` | Feed_props.v | none |
| C70 | `C70_stop_returns` | Feed_props.v | none |
| C70 | `C70_run_produces` | Feed_props.v | none |
| C70 | `C70_run_without_producer` | Feed_props.v | none |
| C70 | `C70_restart_without_producer_refuted` | Feed_props.v | none |
| C70 | `C70_start_hands_over` | Feed_props.v | none |
| C70 | `C70_total` | Feed_props.v | none |
| C70 | `C70_before_the_first_start` | Feed_props.v | none |
| C70 | `C70_new_packets` | Feed_props.v | none |
| C70 | `C70_start_in_a_run` | Feed_props.v | none |
| C70 | `C70_conf_in_a_run` | Feed_props.v | none |
| C70 | `C70_destroy_in_a_run` | Feed_props.v | none |
| C71 | `C71_commands_in_order` | Recorder_props.v | none |
| C71 | `C71_order` | Recorder_props.v | none |
| C71 | `C71_recording` | Recorder_props.v | none |
| C71 | `C71_prefix` | Recorder_props.v | none |
| C71 | `C71_no_warning` | Recorder_props.v | none |
| C71 | `C71_other_files` | Recorder_props.v | none |
| C71 | `C71_run_records` | Recorder_props.v | none |
| C71 | `C71_start_hands_over` | Recorder_props.v | none |
| C71 | `C71_stop_returns` | Recorder_props.v | none |
| C71 | `C71_stop_returns_woken` | Recorder_props.v | none |
| C71 | `C71_after_failure` | Recorder_props.v | none |
| C71 | `C71_total` | Recorder_props.v | none |
| C71 | `C71_since` | Recorder_props.v | none |
| C71 | `C71_start_before_conf` | Recorder_props.v | none |
| C71 | `C71_conf_in_a_run` | Recorder_props.v | none |
| C71 | `C71_destroy_in_a_run` | Recorder_props.v | none |
| C71 | `C71_start_ignored_refuted` | Recorder_props.v | none |
| C71 | `C71_stop_hangs_refuted` | Recorder_props.v | none |
| C71 | `C71_since_refuted` | Recorder_props.v | none |
| C71 | `C71_start_before_conf_refuted` | Recorder_props.v | none |
| C71 | `C71_old_tail_refuted` | Recorder_props.v | none |
| C72 | `C72_newest_kept` | Keep_props.v | none |
| C72 | `C72_requests_reach_back` | Keep_props.v | none |
| C72 | `C72_depth` | Keep_props.v | none |
| C72 | `C72_standard_settings` | Keep_props.v | none |
| C72 | `C72_cleanup_leaves` | Keep_props.v | none |
| C72 | `C72_removes_iff` | Keep_props.v | none |
| C72 | `C72_full_limit_never_cleans` | Keep_props.v | none |
| C72 | `C72_accepted_iff` | Keep_props.v | none |
| C72 | `C72_rejected_settings_used_refuted` | Keep_props.v | none |
| C73 | `C73_sizes` | Settings_props.v | none |
| C73 | `C73_depth` | Settings_props.v | none |
| C73 | `C73_cleanup_works` | Settings_props.v | none |
| C73 | `C73_postprocessing` | Settings_props.v | none |
| C73 | `C73_wib_recording_refuted` | Settings_props.v | none |
| C73 | `C73_waiting` | Settings_props.v | none |
| C74 | `C74_addressed` | Commands_props.v | none |
| C74 | `C74_registered` | Commands_props.v | none |
| C74 | `C74_stop_order` | Commands_props.v | none |
| C74 | `C74_links_drained` | Commands_props.v | none |
| C74 | `C74_commands_finish` | Commands_props.v | none |
| C74 | `C74_lost_start_mixes_runs_refuted` | Commands_props.v | none |
| C74 | `C74_time_syncs_mix_runs_refuted` | Commands_props.v | none |
| C75 | `C75_names_distinct` | Names_props.v | none |
| C75 | `C75_names_shared` | Names_props.v | none |
| C75 | `C75_generated_names` | Names_props.v | none |
| C75 | `C75_only_last_task_named` | Names_props.v | none |
| C75 | `C75_balanced` | Names_props.v | none |
| C75 | `C75_refused_mask_ends` | Names_props.v | none |
| C76 | `C76_nothing_refused` | Sustain_props.v | none |
| C76 | `C76_standard_paces` | Sustain_props.v | none |
| C76 | `C76_emulated_link_keeps_up` | Sustain_props.v | none |
| C76 | `C76_every_recent_tick` | Sustain_props.v | none |
| C77 | `C77_period` | Pace_props.v | none |
| C77 | `C77_exact_period_refuted` | Pace_props.v | none |
| C77 | `C77_arrivals_between_cleanups` | Pace_props.v | none |
| C77 | `C77_wib_link_keeps_up` | Pace_props.v | none |
| C78 | `C78_binary_search_ring` | Busy_props.v | none |
| C78 | `C78_fixed_rate_ring` | Busy_props.v | none |
| C78 | `C78_until_a_second_gap` | Busy_props.v | none |
| C78 | `C78_at_most_one_race` | Busy_props.v | none |
| C78 | `C78_newest_read_unsynchronised_refuted` | Busy_props.v | none |
| C78 | `C78_second_gap_refuted` | Busy_props.v | none |
| C78 | `C78_skip_list` | Busylist_props.v | none |
| C78 | `C78_skip_list_undisturbed` | Busylist_props.v | none |
| C78 | `C78_skip_list_one_moment_refuted` | Busylist_props.v | none |
| C79 | `C79_bookkeeping` | Look_props.v | none |
| C79 | `C79_exact_while_stored` | Look_props.v | none |
| C79 | `C79_what_a_look_gives` | Look_props.v | none |
| C79 | `C79_no_element` | Look_props.v | none |
| C79 | `C79_taken_up_again` | Look_props.v | none |
| C79 | `C79_never_stored_refuted` | Look_props.v | none |
| C79 | `C79_removed_element_used_refuted` | Look_props.v | none |
| C80 | `C80_ring_link` | Pds_props.v | none |
| C80 | `C80_list_link` | Pds_props.v | none |
| C80 | `C80_list_windows_inside_an_element` | Pds_props.v | none |
| C80 | `C80_list_bounded_by_clean_up` | Pds_props.v | none |
| C81 | `C81_requests_get_the_emulated_data` | Protowib_props.v | none |
| C81 | `C81_no_crash` | Protowib_props.v | none |
| C81 | `C81_reported_errors_are_the_emulated_ones` | Protowib_props.v | none |
| C81 | `C81_forwarded_frames` | Protowib_props.v | none |
| C81 | `C81_missing_slots_are_counted` | Protowib_props.v | none |
| C81 | `C81_frame_header` | Protowib_props.v | none |
| C82 | `C82_frames_of_the_file` | Tpmem_props.v | none |
| C82 | `C82_objects_alive` | Tpmem_props.v | none |
| C82 | `C82_one_object_lost_per_frame` | Tpmem_props.v | none |
| C83 | `C83_registry_content` | Walk_props.v | none |
| C83 | `C83_answer` | Walk_props.v | none |
| C83 | `C83_when_freed_memory_is_read` | Walk_props.v | none |
| C83 | `C83_only_lookups_can` | Walk_props.v | none |
| C83 | `C83_lookup_is_safe_refuted` | Walk_props.v | none |
| C83 | `C83_lookup_sees_the_error_refuted` | Walk_props.v | none |
| C83 | `C83_nodes` | Walk_props.v | none |
| C83 | `C83_calls_end` | Walk_props.v | none |
| C84 | `C84_every_size` | Size_props.v | none |
| C84 | `C84_memory_overrun` | Size_props.v | none |
| C84 | `C84_size_zero_refuted` | Size_props.v | none |
| C84 | `C84_occupancy_of_large_buffers_refuted` | Size_props.v | none |
| C84 | `C84_generated_sizes` | Size_props.v | none |
| C85 | `C85_look_exact` | Lend_props.v | none |
| C85 | `C85_accessor_kept` | Lend_props.v | none |
| C85 | `C85_cleanups_kept_out` | Lend_props.v | none |
| C85 | `C85_photon_detectors` | Lend_props.v | none |
| C85 | `C85_head_never_null` | Lend_props.v | none |
| C85 | `C85_photon_detectors_refuted` | Lend_props.v | none |
| C85 | `C85_one_removal_is_enough_refuted` | Lend_props.v | none |

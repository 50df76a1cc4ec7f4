{"id": "C01", "title": "Latency ring is a bounded FIFO", "statement": "For every buffer size n >= 2 and every sequence of write, read, pop, flush, front, back, occupancy, isEmpty and isFull calls made by one thread, the iterable latency buffer answers exactly as an ideal first-in-first-out queue that holds at most n-1 elements: a write is refused (and counted as overflow) iff n-1 elements are stored and otherwise changes nothing but the tail, read/pop remove the oldest element, front/back return the oldest/newest element (null iff empty), flush empties it, and elements are never reordered, duplicated, altered or lost.", "quantifier": "all sizes n>=2, all element values, all finite sequences of buffer operations (including arbitrarily many index wrap-arounds)", "why_tests_cant": "Unit tests exercise a few sizes and short sequences; the claim covers every position of the read/write indices relative to the wrap point after any history.", "anchors": ["include/readout/models/IterableQueueModel.hpp: write, read, popFront, pop, isEmpty, isFull, occupancy, front, back, flush, capacity"]}
{"id": "C02", "title": "Buffer iteration visits exactly the stored elements, oldest first", "statement": "Starting from begin() and repeatedly advancing, the ring iterator yields exactly the stored elements from oldest to newest and then compares equal to end(); an iterator position reports good() iff it designates a currently stored element, and dereferencing a good iterator never touches a slot outside the stored range.", "quantifier": "all ring sizes, all reachable ring states (any wrap position), all iterator positions", "why_tests_cant": "The wrapped/unwrapped case split in good() depends on every combination of read index, write index and position; tests see only some.", "anchors": ["include/readout/models/IterableQueueModel.hpp: Iterator::operator++, Iterator::good, begin, end"]}
{"id": "C03", "title": "Single-producer/single-consumer safety under every interleaving", "statement": "With one producer thread calling write and one consumer thread calling read/pop/front on the same ring, under every interleaving of their individual index loads, slot accesses and index stores: the sequence of values obtained by the consumer is a prefix of the sequence of accepted writes, no slot is read while it holds no value or while the producer constructs into it, a write refused as full was issued when no free slot was visible, and a consumer that finds the queue empty does so only when all earlier published elements were consumed. The overflow counter shows exactly how many writes were refused (as a wrapping int).", "quantifier": "all interleavings of the atomic steps of producer and consumer, all sizes, all values, unbounded executions", "why_tests_cant": "Races show only for particular schedules; tests cannot enumerate interleavings.", "anchors": ["include/readout/models/IterableQueueModel.hpp: write, read, popFront, readIndex_, writeIndex_"]}
{"id": "C04", "title": "Binary search finds the newest element not newer than the key", "statement": "On a ring whose elements are in non-decreasing timestamp order, lower_bound(key) terminates and returns end() iff the buffer is empty or the key precedes the oldest element; otherwise it returns the position of the last stored element whose timestamp is <= key. It only ever reads stored slots.", "quantifier": "all ring sizes and wrap positions, all sorted contents, all keys", "why_tests_cant": "Off-by-one errors in index wrap-around and termination of the search loop depend on occupancy, size and wrap position jointly.", "anchors": ["include/readout/models/BinarySearchQueueModel.hpp: lower_bound"]}
{"id": "C05", "title": "Arithmetic lookup agrees with binary search on gap-free data", "statement": "If the buffer is non-empty and consecutive elements are exactly (tick difference x frames per element) apart, then for every key from the oldest timestamp up to but excluding the timestamp one element after the newest, the fixed-rate lower_bound returns the same position as the binary search; for keys older than the oldest or beyond one element after the newest it returns end(). At the single key equal to one element after the newest it returns a position that is neither end() nor a stored element. With one gap in the data the two searches can disagree.", "quantifier": "all ring sizes, wrap positions, occupancies, base timestamps and keys (without 64-bit wrap of the timestamps)", "why_tests_cant": "Agreement must hold for every key and wrap position; the boundary key is easy to miss in tests.", "anchors": ["include/readout/models/FixedRateQueueModel.hpp: lower_bound", "include/readout/models/BinarySearchQueueModel.hpp: lower_bound"]}
{"id": "C06", "title": "Reconfiguration keeps the buffer backed by live, matching memory", "statement": "After conf() of the ring with a given (numa, intrinsic allocator, alignment) combination the buffer either is empty and backed by a live allocation that the later free_memory releases with the matching deallocation function, or conf reports failure and the old memory is not used or freed again. The combinations for which this holds are exactly characterised; the remaining ones leave a freed block in use, free a block twice, or release it with the wrong function.", "quantifier": "all configuration combinations and all sequences of reconfigurations", "why_tests_cant": "The failing combinations are configuration dependent and manifest as heap corruption later; history of configurations matters.", "anchors": ["include/readout/models/IterableQueueModel.hpp: conf, allocate_memory, free_memory"]}
{"id": "C07", "title": "Skip-list buffer is an ordered set keyed by timestamp", "statement": "For every sequence of write, read, pop, flush, front, back, occupancy and lower_bound calls the skip-list latency buffer behaves as a finite set of elements ordered by timestamp without duplicates: a write of an already present timestamp is refused and leaves the stored element unchanged, front/back return the smallest/largest timestamp, lower_bound returns the first element not older than the key (end() iff none), occupancy is the number of distinct timestamps, and read returns the smallest element without removing it.", "quantifier": "all operation sequences and all timestamps in any arrival order", "why_tests_cant": "Requires every arrival order, including duplicates and reordering.", "anchors": ["include/readout/models/SkipListLatencyBufferModel.hpp: write, put, read, front, back, lower_bound, pop, flush, occupancy"]}
{"id": "C08", "title": "What pop() discards differs between buffer types", "statement": "pop(k) on the ring discards the k oldest elements, whereas pop(k) on the skip-list buffer discards the k newest ones; consequently the default clean-up, which is meant to discard the oldest data, discards the newest data when it runs on a skip-list buffer (as used for PACMAN) and leaves the oldest in place.", "quantifier": "all contents and all k", "why_tests_cant": "Concerns every content and size, and an interface contract shared by two implementations.", "anchors": ["include/readout/models/SkipListLatencyBufferModel.hpp: pop", "include/readout/models/IterableQueueModel.hpp: pop", "include/readout/models/DefaultRequestHandlerModel.hpp: cleanup", "src/pacman/PACMANListRequestHandler.hpp"]}
{"id": "C09", "title": "A served request returns exactly the frames of its window", "statement": "On a ring with elements in increasing timestamp order, each element holding equally spaced frames, and non-overlapping consecutive elements, if a data request [begin,end) with begin <= end is found (oldest <= begin and end <= newest), the fragment payload is, in time order and without repetition, exactly the bytes of all stored frames with begin <= timestamp < end and nothing else. If moreover the stored data has no gap, the fragment has none: it holds one frame for every expected time of the window, so that in a window of at least one frame length the first frame lies less than one frame after the begin and the last at most one frame before the end.", "quantifier": "all buffer contents meeting the ordering assumptions (with or without gaps), all wrap positions, all windows including empty ones and ones cutting elements at either end", "why_tests_cant": "Combines search, iteration and partial-element selection; the claim is over every window/content combination.", "anchors": ["include/readout/models/DefaultRequestHandlerModel.hpp: data_request", "include/readout/models/BinarySearchQueueModel.hpp: lower_bound", "include/readout/models/FixedRateQueueModel.hpp: lower_bound"]}
{"id": "C10", "title": "Request classification is total and exclusive", "statement": "Every data request is classified exactly one way by the buffer content: empty buffer -> not found; window inside [oldest,newest] -> found; window begins before the oldest -> not found (old window); otherwise window ends after the newest -> retry while running and not found once the run has stopped. The 'uncategorised' outcome is unreachable. A not-found result carries no payload and sets the data-not-found error bit; a found result does not set it. A reversed window (begin > end) is classified the same way on the binary-search ring, but can be put off as a retry on the fixed-rate ring and the skip list.", "quantifier": "all buffer contents, all windows (also malformed ones with begin > end), both run states", "why_tests_cant": "Needs all combinations of window and buffer bounds.", "anchors": ["include/readout/models/DefaultRequestHandlerModel.hpp: data_request"]}
{"id": "C11", "title": "Fragment headers mirror the request", "statement": "Every fragment produced for a request (found, not found, timed out, end of run, or by the always-empty handler) carries the request's trigger number, trigger timestamp, window, run number and sequence number and the link's configured identity.", "quantifier": "all requests and all outcomes", "why_tests_cant": "All code paths and all field values.", "anchors": ["include/readout/models/DefaultRequestHandlerModel.hpp: create_fragment_header, create_empty_fragment", "include/readout/models/EmptyFragmentRequestHandlerModel.hpp: issue_request"]}
{"id": "C12", "title": "Clean-up never runs while a request reads the buffer", "statement": "For any number of request threads, a clean-up thread and a recording thread, under every interleaving, no element is removed by the clean-up while any request is extracting data or while the recorder locates its start position, and the running-request counter equals the number of threads inside these sections (in particular it never goes negative).", "quantifier": "all interleavings, any number of concurrent requests, unbounded executions", "why_tests_cant": "Mutual exclusion must hold for every schedule, including spurious wake-ups.", "anchors": ["include/readout/models/DefaultRequestHandlerModel.hpp: cleanup_check, issue_request, record"]}
{"id": "C13", "title": "Each accepted request is answered at most once, and exactly once in an undisturbed run", "statement": "Under every interleaving of request workers, the waiting-list thread and stop, a request handed to the request handler leads to at most one pushed fragment, and at every moment a not-yet-answered request is in exactly one place (queued for a worker, being processed, or on the waiting list); no request disappears while the run is active.", "quantifier": "all interleavings, any number of requests, all found/not-found/not-yet outcomes", "why_tests_cant": "Conservation must hold at every instant of every schedule.", "anchors": ["include/readout/models/DefaultRequestHandlerModel.hpp: issue_request, check_waiting_requests, stop"]}
{"id": "C14", "title": "Waiting requests time out after the configured number of checks", "statement": "A request on the waiting list is, at each periodic check, either re-issued (when the newest timestamp strictly exceeds its window end), answered with an empty fragment once it has been re-checked retry_count times or the run stopped, or kept with its retry count raised by one; hence while the buffer does not advance it is answered after exactly retry_count+1 checks. Every other waiting request is treated in the same pass independently of the list order. The configured retry_count is a signed 32-bit number; with a negative one no request is answered by time-out before 2^64 - 2^31 checks.", "quantifier": "all waiting lists, all retry counts, any number of passes and any evolution of the newest timestamp", "why_tests_cant": "The swap-with-last removal inside an index loop must be right for all lists and all combinations of decisions.", "anchors": ["include/readout/models/DefaultRequestHandlerModel.hpp: check_waiting_requests"]}
{"id": "C15", "title": "Requests around stop can be lost", "statement": "There is an execution in which a request that was accepted before stop is never answered: a worker decides 'retry later' while the run is active, the waiting-list thread then finds an empty list and exits, and the request is put on the list afterwards. Likewise a request taken from the request queue after the worker pool was joined is never answered. Outside these two windows every accepted request is answered by the time stop completes.", "quantifier": "all interleavings of stop with workers, waiting-list thread and requester thread", "why_tests_cant": "The losing schedules are rare and timing dependent.", "anchors": ["include/readout/models/DefaultRequestHandlerModel.hpp: stop, issue_request, check_waiting_requests", "include/readout/models/ReadoutModel.hpp: stop, run_requests"]}
{"id": "C16", "title": "Clean-up removes the oldest data, at most the configured share, and never unrecorded data", "statement": "A clean-up on the ring is effective only if the occupancy exceeds the limit; it then removes a (possibly empty) prefix of the oldest elements, no more than the configured share of the occupancy, and during a recording every removed element is older than the next timestamp to record. Without recording it removes exactly the configured share.", "quantifier": "all buffer contents, limits, shares in [0,1] and recording positions", "why_tests_cant": "Quantifies over contents and recording progress.", "anchors": ["include/readout/models/DefaultRequestHandlerModel.hpp: cleanup"]}
{"id": "C17", "title": "Clean-up leaves at least one element unless the share is 100%", "statement": "If the share of elements to pop is below the full occupancy, the buffer is non-empty after clean-up and the error registry is trimmed to the new oldest timestamp; with a share of 100% (accepted by the configuration check) the clean-up empties the buffer and then dereferences the null front pointer.", "quantifier": "all contents and all accepted configurations", "why_tests_cant": "Boundary value of a configuration parameter over all contents.", "anchors": ["include/readout/models/DefaultRequestHandlerModel.hpp: cleanup, conf"]}
{"id": "C18", "title": "Recording writes each element once, in order, without holes", "statement": "While a recording is active, for buffers with increasing timestamps and non-zero element duration, the recording writes elements in strictly increasing timestamp order, never writes an element twice, and under every interleaving of arrivals, clean-ups and recording rounds the clean-up never removes an element of the recorded interval before it was written; what was written is exactly the accepted elements from the one that was oldest when the recording began up to the recording position. The single exception is a clean-up that has already decided to remove the oldest element when the recording picks it as its starting point and removes it afterwards: then nothing is recorded at all.", "quantifier": "all arrival sequences, all clean-up and recording-round schedules, all buffer sizes", "why_tests_cant": "Interplay of three threads over unbounded histories.", "anchors": ["include/readout/models/DefaultRequestHandlerModel.hpp: record, cleanup"]}
{"id": "C19", "title": "A recording can stall on a timestamp gap", "statement": "If data has a gap right after the last recorded element and a clean-up then removes everything older than the gap, every further recording round finds no start position, nothing more is ever written, and every later clean-up removes nothing, so the buffer fills up until the recording ends.", "quantifier": "existence of a reachable state, and all continuations from it while the recording is active", "why_tests_cant": "Requires a specific interleaving and then a for-all-continuations argument.", "anchors": ["include/readout/models/DefaultRequestHandlerModel.hpp: record, cleanup", "include/readout/models/BinarySearchQueueModel.hpp: lower_bound"]}
{"id": "C20", "title": "Error registry remembers the latest interval per error name", "statement": "has_error(name) holds iff an error of that name was added after the last trimming whose timestamp exceeded its end; adding an error replaces the previous interval of that name only; trimming with timestamp t removes exactly the errors that end before t and leaves all others unchanged.", "quantifier": "all names, intervals and histories of add/remove calls", "why_tests_cant": "All histories.", "anchors": ["include/readout/FrameErrorRegistry.hpp: add_error, remove_errors_until, has_error"]}
{"id": "C21", "title": "Gaps present in the buffer are always flagged, unless data was dropped because the buffer was full", "statement": "For WIB-type links with increasing timestamps: whenever two consecutive stored elements are not exactly one element apart, the error registry reports MISSING_FRAMES, so that requests use the search that tolerates gaps and served requests return exactly the frames of their window; this holds after any history of arrivals, clean-ups and requests as long as no arrival was refused because the buffer was full. After a refused arrival it can fail: a request may then be answered with frames from the wrong place.", "quantifier": "all histories of arrivals (with arbitrary gaps), clean-ups and requests", "why_tests_cant": "End-to-end invariant over unbounded histories of four components.", "anchors": ["src/wib/WIBFrameProcessor.hpp: timestamp_check", "include/readout/models/ReadoutModel.hpp: run_consume", "include/readout/models/DefaultRequestHandlerModel.hpp: cleanup, data_request", "include/readout/models/FixedRateQueueModel.hpp: lower_bound"]}
{"id": "C22", "title": "Timestamp check counts exactly the discontinuities", "statement": "After any sequence of superchunks the timestamp error counter equals the number of superchunks whose first timestamp differs from the previous one's by anything but one superchunk duration (modulo 2^64; the first superchunk is compared with zero), a continuity problem is reported at most once per run and exactly when the count has exceeded 1000, and the published DAQ time is the last superchunk's timestamp. In emulator mode the frames are rewritten so that all timestamps are consecutive and no discontinuity is ever counted. DAPHNE never counts one and in emulator mode stamps its elements 192 ticks apart; SSP only publishes the time of the last element.", "quantifier": "all sequences of superchunks and timestamps, WIB, WIB2, DAPHNE, SSP", "why_tests_cant": "All sequences, including 64-bit wrap-around.", "anchors": ["src/wib/WIBFrameProcessor.hpp: timestamp_check", "src/wib2/WIB2FrameProcessor.hpp: timestamp_check"]}
{"id": "C23", "title": "Errored-frame forwarding is rate limited per error bit", "statement": "For every frame sequence: each frame is forwarded at most once; only frames with a non-zero error field are forwarded; per error bit the number of frames counted towards forwarding never exceeds the threshold plus one per started block of 10000 frames; the total error count equals the number of set error bits. A frame whose every error bit already reached the threshold is not forwarded.", "quantifier": "all frame sequences, all thresholds", "why_tests_cant": "Counter behaviour over unbounded sequences.", "anchors": ["src/wib/WIBFrameProcessor.hpp: frame_error_check"]}
{"id": "C24", "title": "PACMAN timestamp check flags only repeated timestamps", "statement": "Of any sequence of PACMAN messages, the continuity check flags exactly those whose timestamp equals the previous one; timestamps that go backwards are never flagged although the check is written as 'difference <= 0'.", "quantifier": "all message sequences", "why_tests_cant": "Unsigned arithmetic over all pairs of timestamps.", "anchors": ["src/pacman/PACMANFrameProcessor.hpp: timestamp_check"]}
{"id": "C25", "title": "TP buffering loses nothing and sends in time order", "statement": "For every sequence of add_tp and try_sending_tpsets calls: each accepted trigger primitive is, at any time, either still buffered or has been sent exactly once to the TP stream and exactly once inside a TPSet; each TPSet lists its primitives in non-decreasing start time and contains only primitives that start before its end time; rejected primitives are never sent.", "quantifier": "all call sequences, all TP times and clock values", "why_tests_cant": "Multiset conservation over all histories.", "anchors": ["include/readout/utils/TPHandler.hpp: add_tp, try_sending_tpsets"]}
{"id": "C26", "title": "TPSets are aligned, disjoint, increasing and complete when time does not go back", "statement": "If the time argument never decreases, TP timestamps do not overflow and timeout and window are positive: every TPSet window is aligned to a multiple of the window size, contains all its primitives, its windows are strictly increasing and disjoint, sequence numbers count up by one, and no primitive accepted after a TPSet was sent belongs to that TPSet's window or an earlier one.", "quantifier": "all call sequences with a non-decreasing clock", "why_tests_cant": "Requires relating late arrivals to all earlier windows over all histories.", "anchors": ["include/readout/utils/TPHandler.hpp: add_tp, try_sending_tpsets"]}
{"id": "C27", "title": "TP acceptance rule", "statement": "A primitive is accepted iff it started less than the timeout before the current time (as 64-bit arithmetic); for start times near 2^64 the sum wraps and a fresh primitive is rejected.", "quantifier": "all 64-bit start times, timeouts and clock values", "why_tests_cant": "64-bit boundary behaviour.", "anchors": ["include/readout/utils/TPHandler.hpp: add_tp"]}
{"id": "C28", "title": "TP counters", "statement": "Between two read-outs of the counters, the reported numbers equal the number of primitives and TPSets successfully pushed in between, for every history including failed pushes; reset discards buffered primitives and restarts sequence numbers at 0.", "quantifier": "all call sequences with arbitrary push failures", "why_tests_cant": "All histories of pushes, failures and read-outs.", "anchors": ["include/readout/utils/TPHandler.hpp: get_and_reset_num_sent_tps, get_and_reset_num_sent_tpsets, reset"]}
{"id": "C29", "title": "Hit stitching of raw TP blocks", "statement": "Hits that neither continue nor are continued produce no stored trigger primitive; a continued hit is emitted once, when the following block delivers the non-continuing continuation for the same channel; after a channel has received a continuation that itself continues, no later hit of that channel is ever stitched, whatever follows.", "quantifier": "all sequences of raw TP blocks per channel", "why_tests_cant": "State persists over unbounded block sequences.", "anchors": ["src/wib/RAWWIBTriggerPrimitiveProcessor.hpp: tp_stitch"]}
{"id": "C30", "title": "Raw TP file parsing", "statement": "For a well-formed buffer of consecutive raw TP blocks the TP emulator's parser splits it at the block boundaries into the original blocks in file order and starts again at the first block after the last one. New-format blocks are emitted byte for byte; old-format blocks are emitted with header, closing subframe and hits reordered and with the first word of the second hit overwritten by the hit count. On a buffer without end marker it reads past the end, and an old-format block without hits is taken for a new-format block.", "quantifier": "all block counts, all hit counts, all buffers", "why_tests_cant": "All inputs, including malformed ones.", "anchors": ["src/wib/TPEmulatorModel.hpp: unpack functions"]}
{"id": "C31", "title": "Raw TP object size and hit count", "statement": "For a raw TP object allocated for n hits, the reported frame size is 24+12n for every n set through the API; storing the hit count writes inside the allocation only if n >= 2, in which case it overwrites hit data.", "quantifier": "all hit counts", "why_tests_cant": "Memory layout claim for all n.", "anchors": ["include/readout/RawWIBTp.hpp", "src/wib/TPEmulatorModel.hpp"]}
{"id": "C32", "title": "Timestamp codecs round-trip", "statement": "For each front-end format, setting the timestamp and reading it back returns the same 64-bit value and changes no other header bit; distinct timestamps give distinct encodings; faking timestamps of an aggregated object gives frame i the value first + i*offset modulo the field width.", "quantifier": "all 64-bit timestamps, all header contents, all frames of an element (raw WIB TP, SSP, WIB2)", "why_tests_cant": "2^64 inputs and all neighbouring header bits.", "anchors": ["include/readout/RawWIBTp.hpp: get_timestamp, set_timestamp", "include/readout/ReadoutTypes.hpp"]}
{"id": "C33", "title": "Rate limiter never exceeds the configured rate", "statement": "For every clock behaviour (non-decreasing), the k-th return of limit() after initialisation happens no earlier than the k-th period boundary counted from the last deadline reset, and deadlines never move backwards; after falling behind by more than the allowed slack the schedule restarts from the current time, so over any interval of length T at most (T + 2*slack)/period + 4 calls return (the slack counts twice because the clock is not read while the limiter is behind).", "quantifier": "all non-decreasing clock sequences, all periods, any number of calls", "why_tests_cant": "Depends on all timing behaviours.", "anchors": ["include/readout/utils/RateLimiter.hpp: init, limit"]}
{"id": "C34", "title": "Error bit generator stays in range and alternates as configured", "statement": "For every table content (every outcome of the random draws) and every number of next() calls, the generator's three table indices stay inside their tables, each returned word is zero or an entry of the generated error table, an error phase of configured length n > 0 yields exactly n copies of one table entry, and with error rate zero every returned word is zero. A phase of configured length zero still takes one call, so even with error rate one some returned words are zero.", "quantifier": "all random draws, any number of calls", "why_tests_cant": "Arbitrary draws and unbounded call sequences.", "anchors": ["include/readout/utils/ErrorBitGenerator.hpp: next, generate"]}
{"id": "C35", "title": "Reusable thread runs each accepted task at most once, never two at a time", "statement": "With one controlling thread, under every interleaving: set_work succeeds only when the previous task finished, each accepted task is started at most once, an accepted task is never overwritten before it ran, and get_readiness is true only when no accepted task is pending or running. Because the wake-up is sent without holding the worker's mutex, there is an execution in which an accepted task is never started.", "quantifier": "all interleavings of controller and worker, any number of tasks", "why_tests_cant": "Schedules; the lost wake-up needs one precise interleaving.", "anchors": ["include/readout/utils/ReusableThread.hpp: set_work, thread_worker, get_readiness"]}
{"id": "C36", "title": "Source emulator replays the file cyclically with a regular clock", "statement": "For every dropout pattern and file with at least one full element, the i-th slot of the emulator carries timestamp t0 + i*12*tick (mod 2^64), a payload is produced exactly for the slots whose cyclic dropout entry allows it, and the k-th produced payload is a copy of file element k mod (number of complete elements), never reading outside the file buffer; a file smaller than one element makes it read out of bounds.", "quantifier": "all files, dropout patterns and run lengths", "why_tests_cant": "Unbounded runs, all file sizes.", "anchors": ["include/readout/models/SourceEmulatorModel.hpp: run_produce"]}
{"id": "C37", "title": "What is written through the file writer is what is read back", "statement": "For every sequence of writes followed by close (without compression or with a lossless codec), reading the file in elements of any fixed size returns exactly the concatenated bytes cut into elements, then reports end of data; a partial element at the end is reported as failure. Opening does not truncate: if the file existed and was longer, the old tail follows the new data. If the device refuses a write, that write and all later ones report failure and the file holds a prefix of the data. Under O_DIRECT, a flush away from a block boundary makes the next write longer than the buffer fail.", "quantifier": "all write sequences, element sizes and previous file contents", "why_tests_cant": "All sequences of writes and prior contents.", "anchors": ["include/readout/utils/BufferedFileWriter.hpp: open, write, close, flush", "include/readout/utils/BufferedFileReader.hpp: open, read, close"]}
{"id": "C38", "title": "File source buffer holds the whole file and counts its complete elements", "statement": "For every file, limit and chunk size: the first read succeeds iff the file can be opened; a file over the limit or with an incomplete last element only causes a warning (the limit is not enforced); the reported number of elements is the number of complete chunks, zero for a non-positive chunk size, and the buffer holds all bytes of the file. A second read on the same object throws and changes nothing.", "quantifier": "all sizes", "why_tests_cant": "All sizes incl. boundary and zero chunk size.", "anchors": ["include/readout/utils/FileSourceBuffer.hpp: read"]}
{"id": "C39", "title": "Payload accounting of the readout", "statement": "For every sequence of arrivals, refusals and queue timeouts: total payloads counted equals payloads taken from the input queue; the overwritten counter equals the number of refused writes; each accepted payload is stored exactly once and in arrival order after pre-processing; a payload refused because the buffer is full is nevertheless counted, and the previous newest element is post-processed again in its place; if a clean-up empties the buffer before the newest element is looked up, a null pointer is post-processed.", "quantifier": "all arrival sequences and buffer states", "why_tests_cant": "Histories of arrivals and clean-ups.", "anchors": ["include/readout/models/ReadoutModel.hpp: run_consume, get_info"]}
{"id": "C40", "title": "Requests are answered on the paired response queue", "statement": "A request taken from the i-th request queue is always issued with the i-th response queue, requests of one queue are issued in order, each exactly once, and the request total equals the number issued (fake triggers included) since the time-sync thread began; nothing is discarded before the run stops, and requests still queued then are discarded without any response, except those that arrive after their queue has been cleared, which stay for the next run.", "quantifier": "all numbers of queues, all request sequences and run lengths", "why_tests_cant": "All schedules and queue contents.", "anchors": ["include/readout/models/ReadoutModel.hpp: run_requests, setup_request_response_queues"]}
{"id": "C41", "title": "Time sync and fake triggers", "statement": "A time-sync message is sent only with a non-zero DAQ time, equal to the last processed timestamp; a fake trigger has trigger number one higher than the previous one, window begin = max(0, max(0, t-500 us) - 100 ticks), width 300000, is issued to every response queue, and its window begin never exceeds the DAQ time it is based on.", "quantifier": "all 64-bit DAQ times and all run lengths", "why_tests_cant": "All timestamps incl. small ones near zero.", "anchors": ["include/readout/models/ReadoutModel.hpp: run_timesync"]}
{"id": "C42", "title": "DAPHNE list clean-up bounds the time span", "statement": "The DAPHNE skip-list clean-up terminates and removes only the oldest elements: afterwards either nothing was removed (span was within the limit) or the span between oldest and newest is below the limit, at least one element (the newest) remains and every kept element is within the limit of the newest.", "quantifier": "all contents of the skip list", "why_tests_cant": "All contents; termination.", "anchors": ["src/daphne/DAPHNEListRequestHandler.hpp: cleanup"]}
{"id": "C43", "title": "Post-processing sees every element once per task, in order", "statement": "For every sequence of items and every queue size: each post-processing task receives a subsequence of the items in order, namely exactly those accepted by its own queue; an item is missed by a task iff that task's queue was full when it was offered, independently of other tasks; stopping drains what was queued.", "quantifier": "all item sequences, numbers of tasks, queue sizes and consumer speeds", "why_tests_cant": "All interleavings of producer and task threads.", "anchors": ["include/readout/models/TaskRawDataProcessorModel.hpp: postprocess_item, run_post_processing_thread"]}
{"id": "C44", "title": "Zero-copy recording writes contiguous chunks in buffer order", "statement": "Under every interleaving of arrivals, clean-ups and the recording thread, as long as no write is cut short and some stored element is aligned when the recording begins: the file is a contiguous piece of the stream of accepted elements, starting with the first aligned stored element; an element of it that was removed, or that the progress marker allows to be removed, is completely in the file; after the end the file holds whole elements; each undisturbed pass comes within one chunk of the newest element or writes at least 99 chunks; no memory outside the buffer is read; write addresses stay aligned. Exceptions: if no stored element is aligned the recording never ends and the buffer fills; a failed write counts as a success; only the first recording reaches the file; without an alignment (the default) no byte is ever written and the process ends as soon as the recording finds data.", "quantifier": "all element, chunk and alignment sizes, ring sizes, arrival schedules, interleavings and results of write", "why_tests_cant": "Pointer arithmetic over all wrap positions and interleavings.", "anchors": ["include/readout/models/ZeroCopyRecordingRequestHandlerModel.hpp: record"]}
{"id": "C45", "title": "ADC expansion places every channel where the channel map says", "statement": "For every frame content, entry i of the collection (induction) registers equals the 12-bit ADC value of the online channel given by collection_index_to_channel(i) (induction_index_to_channel(i)); together the two maps list every one of the 256 channels exactly once, so no ADC is lost or duplicated. Indices out of range map to -1. The offline numbers are those of the wires of the channels, block by block and plane by plane; they are different within each table, but collection and first induction plane share 40 numbers. The collection-only expansion gives the same registers, and the message layout lets get16/get256 find each channel and tick. The 32-byte loads reach 8 bytes past the end of a frame (past the superchunk for its last frame), but the result never depends on those bytes.", "quantifier": "all 464-byte frames (all ADC values), all register positions, all integer indices", "why_tests_cant": "Frame contents are 2^3072; tests check a few patterns.", "anchors": ["src/wib/tpg/FrameExpand.hpp: expand_two_segments, get_block_divided_adcs, get_frame_divided_adcs", "src/wib/tpg/FrameExpand.cpp: collection_index_to_channel, induction_index_to_channel"]}
{"id": "C46", "title": "Frugal pedestal tracking stays inside the data range", "statement": "For every sample sequence, the tracked pedestal moves by at most one per sample and only towards the sample, never leaves the range spanned by its start value and the samples seen, and its accumulator stays within +-limit. With constant input s the pedestal m equals s after n samples exactly if n >= (limit+1)*|s-m| - sign(s-m)*accumulator, so after at most (limit+1) x distance + limit samples, and then stays. The vectorised update is the scalar one on selected lanes and the identity on the others.", "quantifier": "all sample sequences and start values", "why_tests_cant": "Unbounded sequences.", "anchors": ["src/wib/tpg/ProcessNaive.hpp: frugal_accum_update", "src/wib/tpg/ProcessAVX2.hpp: frugal_accum_update_avx2"]}
{"id": "C47", "title": "Vectorised and scalar hit finding agree", "statement": "For every superchunk and every channel state in range, as long as the eighth filter tap is zero, the threshold factor is 5, no filter output lies between the largest threshold the vectorised code can hold (5*102*64) and the scalar threshold, and no pulse stays over threshold for 32767 ticks, the vectorised processing leaves the state of all 96 channels as the scalar processing does and the primitives decoded from its output are those of the scalar hits with non-zero charge (end tick, charge, time over threshold). The hit list of the scalar code holds exactly its hits, channel by channel in the order of the ticks, zero charges included, and its end mark, in at most 4612 words. Without the condition on the threshold they differ: on a channel with very wide noise the vectorised code reports hits the scalar code does not.", "quantifier": "all superchunk contents, channel states, filter taps and exponents in range", "why_tests_cant": "All contents and states; equality of two implementations.", "anchors": ["src/wib/tpg/ProcessNaive.hpp: process_window_naive", "src/wib/tpg/ProcessAVX2.hpp: process_window_avx2"]}
{"id": "C48", "title": "Every pulse over threshold becomes one trigger primitive", "statement": "After start, for every sequence of superchunks (under the range conditions of C47 and with filter outputs that fit 16 bits), the primitives made for an entry of the channel map in a superchunk are exactly one for each maximal run of ticks over threshold that ends in it and has non-zero charge, also for runs that began in earlier superchunks: channel from the channel map, start at the clock of the first tick over threshold (two ticks after the last sample the filter saw), duration 25 clocks per tick, integral the sum of the filter outputs over 2^e, clipped at 32767. No other primitives are made, decoding never reads beyond the written list, and the list always fits the buffer. A run whose charge rounds to zero is silently lost.", "quantifier": "all sequences of superchunks, all channels", "why_tests_cant": "Unbounded histories; all contents.", "anchors": ["src/wib/WIBFrameProcessor.hpp: find_collection_hits", "src/wib/tpg/ProcessAVX2.hpp: process_window_avx2", "src/wib/tpg/ProcessingInfo.hpp: ProcessingInfo"]}
{"id": "C49", "title": "Initial pedestals are taken from the wrong channels", "statement": "The pedestal initialisation is meant to take, for each collection channel, its first sample; given the memory layout of the expanded message it instead initialises the channels of register r with the samples of register 0 at tick r, so for every message in which these differ the initial pedestal of some channel is another channel's sample; only the first register (16 channels) is initialised correctly.", "quantifier": "all messages", "why_tests_cant": "Holds for all contents; index layout claim.", "anchors": ["src/wib/tpg/ProcessingInfo.hpp: setState", "src/wib/tpg/FrameExpand.hpp: expand_message_adcs_inplace", "src/wib/WIBFrameProcessor.hpp: find_collection_hits"]}
{"id": "C50", "title": "Always-empty handler answers every request immediately", "statement": "The empty-fragment request handler pushes exactly one fragment without payload and with the data-not-found bit for each request, in request order, whatever the buffer holds.", "quantifier": "all request sequences and buffer states", "why_tests_cant": "All sequences.", "anchors": ["include/readout/models/EmptyFragmentRequestHandlerModel.hpp: issue_request"]}
{"id": "C51", "title": "Raw recorder module writes the input stream in order", "statement": "The recorder module writes the payloads popped from its queue in order and without loss to the file until a write fails or it is stopped; the processed-packet counters equal the number of payloads popped. Over several runs without reconfiguration the file is the concatenation of all of them, unless O_DIRECT is used and a run did not end at a block boundary: then the next run loses data.", "quantifier": "all input sequences, timeouts and write failures", "why_tests_cant": "All sequences and failure points.", "anchors": ["include/readout/models/RecorderModel.hpp: do_work"]}
{"id": "C52", "title": "Fake card configuration", "statement": "The fake card reader initialises iff its output queues have distinct names and each instance name has an emulator. A conf command on an unconfigured module configures its links in order and stops at the first one that is unknown, configured already or unreadable; it succeeds iff there is no such link and every link ends up configured, and the links before the failing one stay configured with their files. A list containing one of those is rejected from then on, while the list of the missing links is accepted. Once configured, conf commands change nothing until scrap. Scrap makes every link configurable but keeps its data. In every history the module counts as configured only if every link is. Undefined behaviour occurs exactly at a start when some link has no data (never configured, unreadable or empty file) or at a conf of an unconfigured link during a run.", "quantifier": "all queue lists, all sequences of conf/scrap/start/stop commands with arbitrary link lists and files", "why_tests_cant": "All command histories.", "anchors": ["plugins/FakeCardReader.cpp: init, do_conf, do_scrap, do_start, do_stop", "include/readout/models/SourceEmulatorModel.hpp: conf, scrap, start", "src/wib/TPEmulatorModel.hpp: conf, scrap, start"]}
{"id": "C53", "title": "Front-end selection by queue name", "statement": "The readout implementation is chosen from the first queue called raw_input whose instance name has a marker, and is the one whose marker comes first in the order wib2, wib, pds_queue, pds_list, sw_tp, ssp, raw_tp, pacman; other queues do not matter. Initialisation fails iff no queue called raw_input has a marker. A trigger-primitive queue whose name also contains 'wib' is treated as raw WIB data.", "quantifier": "all queue lists and names", "why_tests_cant": "All strings.", "anchors": ["src/CreateReadout.hpp: createReadout", "plugins/DataLinkHandler.cpp: init"]}
{"id": "C54", "title": "Reported request statistics add up", "statement": "In every history of requests, checks of the waiting list and counter read-outs, each completed classification increments exactly one of found / old-window / delayed / uncategorised / empty-buffer outcomes, the bad counter increases exactly for requests answered with an empty fragment, and counters read and reset lose or double count nothing.", "quantifier": "all histories including concurrent read-and-reset", "why_tests_cant": "All histories.", "anchors": ["include/readout/models/DefaultRequestHandlerModel.hpp: data_request, check_waiting_requests, get_info"]}
{"id": "C55", "title": "Waiting on a window end equal to the newest timestamp", "statement": "A request whose window end equals the newest stored timestamp is servable immediately when issued, but if it was put on the waiting list it is not re-issued until strictly newer data arrives, so with no further data it is answered with an empty fragment although all requested data is present.", "quantifier": "all windows and buffers with window end = newest", "why_tests_cant": "Boundary between two comparison conventions over all contents.", "anchors": ["include/readout/models/DefaultRequestHandlerModel.hpp: data_request, check_waiting_requests"]}
{"id": "C56", "title": "Skip-list requests lose the element that straddles the window begin", "statement": "On the skip-list buffer a served request [begin,end) returns exactly the window frames of the elements that start at or after begin; frames inside the window that belong to an element starting before begin are silently missing although the request is reported as found.", "quantifier": "all skip-list contents with regular elements, all windows", "why_tests_cant": "A missing prefix shows only for particular alignments of window and elements.", "anchors": ["include/readout/models/SkipListLatencyBufferModel.hpp: lower_bound", "include/readout/models/DefaultRequestHandlerModel.hpp: data_request", "src/daphne/DAPHNEListRequestHandler.hpp"]}
{"id": "C57", "title": "PACMAN requests are searched with an indeterminate key", "statement": "For PACMAN links the search key does not depend on the requested window (setting the timestamp of the key is a no-op), so the answer depends on the previous memory contents g of the key: the request returns the messages of the window that are not older than g, and is delayed (or answered empty after stop) when g is newer than everything stored.", "quantifier": "all contents, windows and memory contents of the key", "why_tests_cant": "A test sees one arbitrary memory content.", "anchors": ["include/readout/NDReadoutTypes.hpp: PACMAN_MESSAGE_STRUCT::set_first_timestamp, operator<", "include/readout/models/DefaultRequestHandlerModel.hpp: data_request"]}
{"id": "C58", "title": "SSP fragments are truncated", "statement": "For SSP links every event returned in a fragment is cut to the first 1012 bytes of header plus data, so the last sizeof(header) data bytes of every event are in no fragment.", "quantifier": "all SSP buffer contents and windows", "why_tests_cant": "Holds for all contents.", "anchors": ["include/readout/ReadoutTypes.hpp: SSP_FRAME_STRUCT", "include/readout/models/DefaultRequestHandlerModel.hpp: data_request"]}
{"id": "C59", "title": "Content of stitched trigger primitives", "statement": "The time over threshold stored for a stitched raw hit is its end tick minus its absolute start time modulo 2^64, so it is the duration of the hit only if the block timestamp is zero; if the continuation has the higher peak, the peak time stored for a merged hit is the sum of the two absolute peak times.", "quantifier": "all blocks, timestamps and hits", "why_tests_cant": "Wrong for all values but one; a test fixes one block timestamp.", "anchors": ["src/wib/RAWWIBTriggerPrimitiveProcessor.hpp: tp_stitch"]}
{"id": "C60", "title": "The noise estimate of the hit finder is never negative", "statement": "For every start pedestal and every sequence of 12-bit samples, the estimated 75th percentile is never below the estimated 25th percentile (so the hit threshold is never negative), the pedestal is at most one count outside the two, and scalar and vectorised tracking keep identical estimates. The distance can become zero, and with it the threshold.", "quantifier": "all start pedestals and sample sequences", "why_tests_cant": "Unbounded sequences; the shortest sequence that reaches zero has about a hundred samples.", "anchors": ["src/wib/tpg/ProcessNaive.hpp: process_window_naive", "src/wib/tpg/ProcessAVX2.hpp: process_window_avx2", "src/wib/tpg/ProcessingInfo.hpp: setState"]}
{"id": "C61", "title": "A deep undershoot is reported as a pulse", "statement": "Samples are clipped from above before filtering but not from below. With non-negative taps of sum 2^e the filter output fits 16 bits as long as no sample is more than 32768/2^e (512) counts below the pedestal; beyond that it wraps around and a negative pulse is reported as a hit although no sample ever exceeded the pedestal.", "quantifier": "all sample sequences, filter taps and exponents", "why_tests_cant": "Range claim over all sequences.", "anchors": ["src/wib/tpg/ProcessNaive.hpp: process_window_naive", "src/wib/tpg/ProcessAVX2.hpp: process_window_avx2"]}
{"id": "C62", "title": "Both ends of a queue agree on the data type", "statement": "If the fake card has an emulator and the data link handler a readout for a queue of a given name, both use the same element type exactly if the name contains wib, pds_queue or pds_list, or contains raw_tp and none of pds, sw_tp, ssp. A software trigger primitive queue can never be fed correctly by the fake card. The data recorder agrees with the readout exactly if the name contains wib, pds_queue or pds_list, or none of pds, sw_tp, ssp, raw_tp.", "quantifier": "all queue names", "why_tests_cant": "All strings: the selection is by substring search in different orders in three places.", "anchors": ["src/CreateSourceEmulator.hpp: createSourceEmulator", "src/CreateReadout.hpp: createReadout", "plugins/DataRecorder.cpp: init"]}
{"id": "C63", "title": "Generated configurations are consistent", "statement": "For every accepted front-end type and all numbers of data and trigger primitive links, the generated fake application is consistent: queue, module and per-module queue names are distinct; every named queue is declared; every module initialises and opens exactly the intended queues in the declared directions; all modules that open a queue agree on its message type; no single-producer single-consumer queue has two writers or two readers; every handler gets the implementation of its front end; the conf command of the fake card is accepted and gives every link its file; no two handlers with recording enabled share a file. The trigger primitive handlers however serve no requests: the request queue they list is never read.", "quantifier": "all accepted front-end types, all numbers of data links and trigger primitive links", "why_tests_cant": "Names depend on unbounded link numbers and are matched by substring search elsewhere.", "anchors": ["python/readout/app_confgen.py: generate", "plugins/DataLinkHandler.cpp: init", "plugins/FakeCardReader.cpp: init, do_conf", "include/readout/models/ReadoutModel.hpp: init, setup_request_response_queues", "src/wib/WIBFrameProcessor.hpp: init"]}
{"id": "C64", "title": "Consumer modules lose nothing across runs", "statement": "For every schedule of pushes, start and stop commands and worker steps, every element pushed to a consumer's queue reaches its callback exactly once, in order, over any number of runs; callbacks happen only between a start and the return of the next stop; after stop has cleared the run marker there is at most one more callback and stop returns once the worker has taken four more steps; during a run everything waiting or pushed at any moment of it is delivered within four worker steps per element; the reported packet count is the number of callbacks since the last start (modulo int wrap-around) if no start is sent during a run.", "quantifier": "all schedules of producers, command thread and worker, any number of runs", "why_tests_cant": "Races between stop and the worker; unbounded histories.", "anchors": ["plugins/DummyConsumer.cpp: do_start, do_stop, do_work", "plugins/FragmentConsumer.cpp", "plugins/TimeSyncConsumer.cpp", "plugins/ErroredFrameConsumer.cpp"]}
{"id": "C65", "title": "Software trigger primitives end to end", "statement": "For a WIB link with software trigger primitive generation, in every interleaving of commands, post-processing and monitoring and whichever pushes fail: (1) the primitives found since the start are, per channel, exactly those the samples call for, each is accepted exactly if it began less than the timeout before its superchunk, and each accepted one is in the buffer or was sent exactly once; (2) with time stamps that do not go back, the sets sent have aligned, disjoint, increasing windows, consecutive sequence numbers and contain exactly the accepted primitives of their window; (3) if successive superchunks are at most one window apart, every accepted primitive is sent at the latest with the first superchunk more than two windows plus the timeout after its start, whereas at most one set is sent per superchunk, so shorter windows can fall behind without bound; (4) no set is sent before its window is the timeout old, so primitives accepted with the last superchunk are always unsent at its end, and are discarded by the next start; (5) the dropped and hit counters report what happened since the last read-out; (6) there is no undefined behaviour for a non-zero window; the induction queue fills up and is never read.", "quantifier": "all superchunk contents and numbers, all interleavings, push outcomes, timeouts and window sizes, any number of runs", "why_tests_cant": "Composition of hit finding, buffering and commands over unbounded streams and schedules.", "anchors": ["src/wib/WIBFrameProcessor.hpp: start, stop, get_info, find_collection_hits", "include/readout/utils/TPHandler.hpp", "src/wib/tpg/ProcessAVX2.hpp: process_window_avx2"]}
{"id": "C66", "title": "The designed filter is the intended low pass whatever the rounding", "statement": "The filter coefficients a WIB link computes in floating point at every start are 1, 6, 15, 20, 15, 6, 1 on every machine whose operations are good to one part in a million: their gain is exactly the multiplier 64, the response to a sinusoid is 64 cos^6(w/2), the filtered signal stays between 64 times the smallest and the largest of the seven samples, and it fits 16 bits while no sample is more than 512 below the pedestal. In exact arithmetic the design has gain one for every number of taps and cutoff, is symmetric for every odd number of taps, and its integer coefficients are non-negative and add up to the multiplier within half a unit per tap when the main lobe covers the taps. An even number of taps is not symmetric, and a single tap is undefined (0/0).", "quantifier": "all roundings within the error bound, all numbers of taps, cutoffs and multipliers, all sample sequences", "why_tests_cant": "Real analysis over all cutoffs, and all rounding behaviours of the machine; a test sees one machine and a few designs.", "anchors": ["src/wib/tpg/DesignFIR.cpp: hamming, sinc, firwin, firwin_int", "src/wib/WIBFrameProcessor.hpp: start"]}
{"id": "C67", "title": "Post-processing reads the payload it was called for", "statement": "Post-processing tasks are handed pointers into the latency buffer, which the consumer keeps overwriting and the clean-up keeps emptying. In every schedule, what a task reads is the payload it was called for if fewer payloads than the buffer has places were stored since, and otherwise a definite newer one. With a post-processing queue shorter than the buffer a task always reads the right payload until the first warning that post-processing does not keep up; with a queue as long as the buffer or longer it may, for every buffer of at least three places, read another without any warning. A null pointer or crash needs a clean-up that empties the buffer. When stop returns after runs without warning, refused payload or emptying clean-up, every payload that had arrived when stop was sent was stored and processed exactly once, in order. A refused payload makes the previous one be processed twice.", "quantifier": "all buffer and queue sizes, all schedules of arrivals, consumer, task, clean-up and commands, any number of runs", "why_tests_cant": "Race between a slow task and the buffer's wrap-around over unbounded histories.", "anchors": ["include/readout/models/ReadoutModel.hpp: start, stop, run_consume", "include/readout/models/TaskRawDataProcessorModel.hpp: postprocess_item, run_post_processing_thread, stop", "include/readout/models/IterableQueueModel.hpp: write, back, popFront, flush", "src/wib/WIBFrameProcessor.hpp: conf"]}
{"id": "C68", "title": "The life of a readout module under its commands", "statement": "For every sequence of conf, start, stop, record, scrap and destruction in the supported order (start between runs with a buffer, stop in a run, conf between runs and recordings, destruction between runs) and every interleaving of the module's threads, no command ends the process and only a start with bad arguments throws (and leaves the run on). Between runs no thread is at work besides a recording, the buffer is empty and arriving payloads wait for the next run; during a run every thread is at its work and queued payloads are consumed, provided the start could hand the work over, which it can if the threads have gone to sleep since the last run; a start right after a stop may silently leave the run without a consumer for good. A stop returns if nothing arrives any more and every thread gets its turns; it does not return as long as there is a payload whenever the consumer looks. There is at most one recording at a time and none when a stop returns, but a record command may come to nothing without report. Out of order: a start in a run ends the process, a conf in a run or recording frees memory in use, the destruction of a running module never ends, a stop between runs throws, and after a failed buffer allocation, which conf only reports, a start returns but no payload is taken without a crash.", "quantifier": "all command sequences, all schedules of seven or more threads, any number of runs, tasks, links, payloads and requests", "why_tests_cant": "Start/stop races among many threads over unbounded histories; liveness of stop needs all fair schedules.", "anchors": ["plugins/DataLinkHandler.cpp: do_conf, do_scrap, do_start, do_stop, do_record", "include/readout/models/ReadoutModel.hpp: conf, start, stop, run_consume, run_timesync, run_requests", "include/readout/models/DefaultRequestHandlerModel.hpp: start, stop, record, issue_request, periodic_cleanups, check_waiting_requests", "include/readout/models/TaskRawDataProcessorModel.hpp: start, stop, run_post_processing_thread", "include/readout/utils/ReusableThread.hpp"]}
{"id": "C69", "title": "A link fed by the emulator answers with the emulated data", "statement": "For a WIB2-type link behind the source emulator, after every interleaving of production (with any dropout table, file, start time and lost pushes), consumption, clean-ups, requests and restarts with drained queue in which the ring refused nothing: every request gets the answer that follows from the times of the received elements still buffered, and a served request [begin, end) gets, byte by byte, the frames of the file (taken cyclically) whose emulated time lies in the window, among all received in this run, with that time in their timestamp fields and nothing else changed. Without dropouts and lost pushes those are the frames of all ticks of the window without a gap. The link counts exactly the places where slots are missing (plus the first element). No such history crashes. An element left in the source queue at a restart breaks the answers of the next run.", "quantifier": "all files, dropout tables, ticks, start times, ring sizes, schedules and request windows, any number of runs", "why_tests_cant": "Composition of emulator, queue, buffer, error registry, clean-up and search over unbounded histories.", "anchors": ["include/readout/models/SourceEmulatorModel.hpp: run_produce", "include/readout/models/ReadoutModel.hpp: run_consume, start, stop", "include/readout/ReadoutTypes.hpp: WIB2_SUPERCHUNK_STRUCT", "include/readout/models/DefaultRequestHandlerModel.hpp: data_request, cleanup", "src/wib2/WIB2FrameProcessor.hpp: timestamp_check"]}
{"id": "C70", "title": "The life of a fake card under its commands", "statement": "For every sequence of conf, scrap, start, stop and destruction in the supported order (start between runs and configured, scrap and destruction between runs, conf between runs or when already configured, stop at any time) and every interleaving of command thread, producer threads and monitoring, the process is not brought down and only a conf throws. Between runs nothing is offered to any queue. Every run of a source emulator offers exactly the slots of its file, dropout table and times from their beginning, only the error bits go on from run to run; every run of a TP emulator offers the frames of its file from the first. Provided that a producer given work takes it up (no lost wake-up, C35), a stop returns once every thread had 6n+2 turns and in a run a link whose work was handed over offers a payload at least every fifth turn (without dropouts), one whose work was not handed over offers nothing; a start hands over the work of all links if every producer had a turn since the last stop returned, and may silently fail to otherwise. Before the first start nothing is offered and every count reported is zero. The reported total is what was offered since the start of the run, and the reported new packets add up to all that was offered, up to the payload being offered and int wrap-around. Out of order: a start in a run destroys rate limiters in use, scrap and conf in a run destroy file buffers in use, the destruction of a running card never ends.", "quantifier": "all command sequences, numbers of links, settings and files, schedules of command, producer and monitoring threads, queue outcomes, any number of runs", "why_tests_cant": "Start/stop races among threads over unbounded histories; liveness of stop needs all fair schedules.", "anchors": ["plugins/FakeCardReader.cpp: do_conf, do_scrap, do_start, do_stop", "include/readout/models/SourceEmulatorModel.hpp: conf, scrap, start, stop, get_info, run_produce", "src/wib/TPEmulatorModel.hpp: start, stop, run_produce", "include/readout/utils/ReusableThread.hpp: set_work, thread_worker"]}
{"id": "C71", "title": "The life of a recorder under its commands", "statement": "For every sequence of conf, start, stop and destruction in the supported order (conf and destruction between runs, start between runs after a conf, stop at any time) and every interleaving of command thread, worker and monitoring, the process is not brought down and only a conf throws. Payloads are taken in the order offered. If no warning was given, the file of a recording holds exactly the payloads taken since the conf, over all runs, compressed as configured, once the recording is over, and uncompressed already between runs (followed, if the old file could not be removed, by what it overhangs); with a warning, uncompressed, a prefix of them; no warning is given while the device has room and whole blocks are flushed under O_DIRECT; files no conf names are untouched. If the worker waits whenever a start is issued, what is offered in a run is taken until a write fails and a stop returns after a bounded number of steps of its own and of the worker; without that condition a start may be ignored (a run that records nothing) or its wake-up lost (the stop hangs until a spurious wake-up, after which it returns). After a failed write or conf each run takes and loses at most one payload until the next conf. The reported total is the number taken in the run or one less; the numbers reported per call never add up to more than was taken and can fall short only by payloads counted between reading and reset. A start before any conf can never be stopped, a conf in a run races on the writer, a destruction in a run ends only if a write fails.", "quantifier": "all command sequences, settings, file systems, payloads, device sizes and block sizes, schedules of command, worker and monitoring threads, any number of runs and recordings", "why_tests_cant": "Start/stop races among threads over unbounded histories with failing devices; liveness of stop needs all fair schedules.", "anchors": ["include/readout/models/RecorderModel.hpp: do_conf, do_start, do_stop, do_work, get_info", "plugins/DataRecorder.cpp", "include/readout/utils/BufferedFileWriter.hpp: open, write, flush, close", "include/readout/utils/ReusableThread.hpp: set_work, get_readiness, thread_worker"]}
{"id": "C72", "title": "How far back a request can reach", "statement": "Under every schedule of arrivals, clean-up and recording steps the newest K accepted elements are in the buffer, K being the fewest a clean-up leaves; after every history without a refused arrival a request that begins no earlier than the oldest of the newest K elements of the run and ends no later than the newest is found at once and answered with exactly the frames of its window. K follows from the configured shares, up to single-precision rounding, as buffer size times limit share times what a clean-up leaves: 72 percent of the size less one with the generated settings, a tenth less one with the defaults. An undisturbed clean-up leaves exactly that. A clean-up ever removes something if and only if some fill level above the limit has a positive share; otherwise (a limit share of 1.0, which is accepted, or a buffer of at most ten places) the buffer takes its first n-1 elements and never anything again. Settings reported as out of range are used all the same and can crash the first clean-up.", "quantifier": "all schedules, histories, buffer sizes below 2^24, shares, windows", "why_tests_cant": "Depth of the buffer at every moment of every interleaving, and rounding for every size.", "anchors": ["include/readout/models/DefaultRequestHandlerModel.hpp: conf, cleanup_check, cleanup, data_request", "python/readout/app_confgen.py: pop_limit_pct, pop_size_pct", "schema/readout/readoutconfig.jsonnet: pop_limit_pct, pop_size_pct"]}
{"id": "C73", "title": "What the generated settings give", "statement": "For every slow-down factor the configuration generator gives buffer and request handler of every link the same size, three seconds worth of elements at the slowed-down rate, and settings the handler accepts without an error; the buffer can be made if and only if the factor is at most 250000. Under every schedule a generated link keeps its newest elements, 2.16 seconds worth less three elements. Its clean-up ever removes something if and only if the factor is at most 45454; otherwise the link keeps the first elements of the run and refuses all later ones. A post-processing task is sure to read the payload it was called for, until a warning, if and only if the factor is below 50 (for factors up to 166666). A recording of a generated WIB link is reported as not aligned at conf, never writes a byte and ends the process as soon as it finds data. A request that times out on a generated link was checked exactly 101 times.", "quantifier": "all positive slow-down factors, all schedules and histories of the link", "why_tests_cant": "Depends on rounding for every factor and on every interleaving of arrivals, clean-up, post-processing and recording.", "anchors": ["python/readout/app_confgen.py: generate (latency_buffer_size, pop_limit_pct, pop_size_pct)", "schema/readout/readoutconfig.jsonnet: latency_buffer_alignment_size, postprocess_queue_sizes", "include/readout/models/ZeroCopyRecordingRequestHandlerModel.hpp: conf, record", "include/readout/models/DefaultRequestHandlerModel.hpp: conf, cleanup", "include/readout/models/TaskRawDataProcessorModel.hpp: postprocess_item"]}
{"id": "C74", "title": "The commands of a generated configuration", "statement": "For every front end and number of links: the generated start and stop reach every module exactly once, conf every module but the consumers exactly once, record exactly the data handlers; every module knows the commands it is sent, except that scrap is also sent to the consumers, which do not know it. The stop reaches every writer of a queue before every reader of it, except that the trigger primitive handlers, which send time syncs, are stopped after the consumer of time syncs. Hence, whatever the threads do between the commands and over any number of runs: a handler whose starts gave it its reading thread takes in each run exactly what was put into its input queue in that run, in order, and between runs all modules are idle and that queue is empty; and a command under way can always be finished. A handler that did not get its reading thread, and the consumer of time syncs, may take data of one run in the next.", "quantifier": "all front ends, numbers of links, orders within one pattern, schedules of the modules' threads, any number of runs", "why_tests_cant": "Ordering of concurrent modules over unbounded histories and for every number of links.", "anchors": ["python/readout/app_confgen.py: generate (conf, start, stop, scrap, record)", "plugins/DataLinkHandler.cpp: register_command, do_start, do_stop", "plugins/FakeCardReader.cpp: do_stop", "plugins/DummyConsumer.cpp: do_stop, do_work", "include/readout/models/ReadoutModel.hpp: stop, run_consume"]}
{"id": "C75", "title": "Names of the worker threads and pinning by name", "statement": "The name of a worker thread, as tools that pin threads see it, tells its role and its link as long as the number of the link has at most 6 digits (consumer, timesync, requests, fakeprod), 5 (recording), 7 (cleanup), 3 (fakeprod-tp) or 1 (post-processing); with more digits it is the name of the same thread of the link whose number lacks the last digit. In a generated application with fewer than 100000 links exactly the data handler and the software trigger primitive handler of the same number have threads with equal names. Of the post-processing threads of a link only the last has a name. The balancer gives every thread of every process whose name contains the given one the mask the pin file has for its application and thread name, and all CPUs if it has none, and changes nothing else; the first refused mask ends it and leaves all later threads as they were.", "quantifier": "all roles, numbers of links, numbers of tasks, processes, threads, command lines and pin files", "why_tests_cant": "Collisions appear only for numbers and combinations that a test does not try; the balancer ranges over all sets of processes and files.", "anchors": ["include/readout/utils/ReusableThread.hpp: set_name", "include/readout/models/TaskRawDataProcessorModel.hpp: conf", "include/readout/models/ReadoutModel.hpp: conf", "include/readout/models/DefaultRequestHandlerModel.hpp: conf", "python/readout/app_confgen.py: generate (element_id)", "scripts/performance/balancer.py"]}
{"id": "C76", "title": "A link whose clean-up keeps pace loses nothing", "statement": "If in every stretch without a clean-up at most m elements arrive, one clean-up can take away m elements above the limit and there is room for m above the limit, then no element is ever refused, whatever requests, restarts and clean-ups happen. With the generated shares (0.8, 0.1) and a buffer of n this holds for m = 8 % of n less one, with the default ones (0.5, 0.8) for m = 40 % of n less one. So a link of a generated configuration (any slow-down factor up to 250000) behind an emulated source, over any number of runs that start with an empty queue, with no recording and a clean-up for every 8 % of the buffer, refuses nothing, and every window that begins at or after one of the newest 72 % (of n, less one) elements of the run and ends no later than the newest is answered with exactly the frames of the window; if the source drops nothing and no push is lost these are the frames of all its ticks, without gaps, with the bytes of the file and their times.", "quantifier": "all histories of produced, lost, dropped and received elements, requests, clean-ups and restarts; all buffer sizes below 2^24; all slow-down factors up to 250000; all windows", "why_tests_cant": "Loss depends on the worst interleaving of arrivals and clean-ups over unbounded histories, and on rounding for every buffer size.", "anchors": ["include/readout/models/DefaultRequestHandlerModel.hpp: cleanup_check, cleanup, data_request", "include/readout/models/ReadoutModel.hpp: run_consume", "include/readout/models/IterableQueueModel.hpp: write, pop", "include/readout/models/SourceEmulatorModel.hpp: run_produce", "python/readout/app_confgen.py: pop_limit_pct, pop_size_pct"]}
{"id": "C77", "title": "The pace of an emulated link in time", "statement": "The time between two elements of an emulated source is 1000000 * factor / rate ns rounded down, for every whole rate (kHz) and factor with 1000000 * factor below 2^51, except that it may be one ns shorter if the exact value is a whole number (rate 200, factor 3: 14999 ns). If clean-ups are never more than T apart, no element waits longer than D in the queue and the producing thread keeps to its limiter, then at most (T + D + 20 ms) / period + 5 elements reach the link between two clean-ups, under every schedule. So a link of a generated configuration behind a WIB or WIB2 source refuses nothing and serves the newest 72 % of its buffer whenever T + D is at most 220 ms less 37 us times the slow-down factor.", "quantifier": "all rates and factors, clocks, schedules, waiting times, histories with any number of runs", "why_tests_cant": "Depends on all timing behaviours of four threads and on double rounding for every factor.", "anchors": ["include/readout/utils/RateLimiter.hpp: adjust, init, limit", "include/readout/models/SourceEmulatorModel.hpp: start, run_produce", "src/CreateSourceEmulator.hpp: rates", "include/readout/models/DefaultRequestHandlerModel.hpp: periodic_cleanups, cleanup", "python/readout/app_confgen.py: slowdown, latency_buffer_size"]}
{"id": "C78", "title": "A request answered while data keep arriving", "statement": "A request is served while the link keeps receiving, and looks at the state of the buffer many times. For every way in which arrivals (and the records of gaps) fall between its looks, with a ring buffer and on hardware where a load never runs ahead of what it saw: the request gets the answer, counters and error bit that follow from what the buffer held at one moment of the request, and a served one exactly the frames of the window, to which nothing that arrived later belongs. With the fixed-rate lookup this holds as long as the buffer has no gap whenever none is on record; it fails for a request that falls between the removal and the renewal of that record when a second gap is found. By the rules of the language alone a request can race with the storing of the newest element, since the look at the newest element does not synchronise; this is the only race on the buffer. With the skip-list buffer, where late data may arrive in any order, the answer follows from the oldest element of one moment and the newest of a later one, and a served request is given every element that starts in the window and was there when the newest was looked up, besides only such as arrived meanwhile; if nothing of the window arrives meanwhile, exactly the stored ones.", "quantifier": "all buffer sizes, contents, windows, schedules of arrivals between the accesses of one request, all values loads may return", "why_tests_cant": "The number of interleavings and of values weakly ordered loads may return is unbounded, and x86 machines never show most of them.", "anchors": ["include/readout/models/DefaultRequestHandlerModel.hpp: data_request", "include/readout/models/IterableQueueModel.hpp: front, back, occupancy, write, Iterator", "include/readout/models/BinarySearchQueueModel.hpp: lower_bound", "include/readout/models/FixedRateQueueModel.hpp: lower_bound", "include/readout/models/SkipListLatencyBufferModel.hpp", "include/readout/FrameErrorRegistry.hpp: add_error, has_error"]}
{"id": "C79", "title": "What a check of the waiting requests sees", "statement": "The thread that checks the waiting requests looks at the newest element of the buffer while data keep arriving and clean-ups remove elements; nothing keeps these apart. For every interleaving: as long as the element that was the newest when the look began is stored, the look gives exactly its timestamp; in general it gives the timestamp of an element that was received, no older than that one, so with data in time order a waiting request is taken up again only if an element newer than its window has been received, and always if one had been when the look began; it finds no element exactly if what had been received was removed meanwhile (or whole rounds of the buffer later). It can give anything else only if the buffer had never held an element when the look began, if a whole round of the buffer was written during the look, or, for raw trigger primitives, if the element was removed during the look; the first and the last do occur: in every buffer of three places or more a place where nothing was ever stored, or the freed frame of a removed raw trigger primitive, can be read.", "quantifier": "all buffer sizes of two or more, element types, interleavings of arrivals, removals and looks", "why_tests_cant": "The wrong reads need two arrivals and a removal within the few nanoseconds between two loads; no test can aim at them or show their absence otherwise.", "anchors": ["include/readout/models/DefaultRequestHandlerModel.hpp: check_waiting_requests, cleanup", "include/readout/models/IterableQueueModel.hpp: back, write, popFront", "include/readout/ReadoutTypes.hpp: RAW_WIB_TRIGGERPRIMITIVE_STRUCT"]}
{"id": "C80", "title": "Photon detector links fed by the emulator", "statement": "A link of photon detector (DAPHNE) elements fed by the source emulator behaves, under every interleaving of produced, dropped, lost and received elements, clean-ups, requests and restarts that find the source queue empty, like a device that holds the numbers of emulated elements. With the ring of n entries: no history crashes it; an element is refused exactly when n - 1 are stored; a clean-up of more than the limit takes the configured share from the oldest on and nothing that is still to be recorded; every request, also one with a reversed window, gets the answer that follows from the times of the stored elements, and a served one exactly the stored frames of its window, byte by byte as emulated, whatever elements are missing. With the skip list the same, but: nothing is refused; a clean-up removes exactly what is ten million ticks or more older than the newest element, once the stored data span more than that, so that afterwards the number stored is bounded; and a served request gets only the frames of its window in elements that begin in it, so that a window inside one element is served with an empty fragment though its data are stored.", "quantifier": "all emulated files, tick differences, dropout patterns, histories of any length, buffer sizes up to 2^24, clean-up settings and windows", "why_tests_cant": "The answers depend on the whole history of losses, clean-ups and restarts, and on every byte of the emulated file.", "anchors": ["include/readout/models/SourceEmulatorModel.hpp: run_produce", "include/readout/ReadoutTypes.hpp: DAPHNE_SUPERCHUNK_STRUCT", "include/readout/models/ReadoutModel.hpp: run_consume, stop", "include/readout/models/BinarySearchQueueModel.hpp", "include/readout/models/SkipListLatencyBufferModel.hpp", "src/daphne/DAPHNEListRequestHandler.hpp: cleanup", "src/daphne/DAPHNEFrameProcessor.hpp: timestamp_check", "src/CreateReadout.hpp: pds_queue, pds_list"]}
{"id": "C81", "title": "WIB links fed by the emulator, errors included", "statement": "A link of WIB (ProtoDUNE) data is fed by the source emulator, frame errors switched on. After every interleaving of emulator slots (dropouts and lost pushes included), consumption, clean-ups, requests, reports and stop/start (the source queue empty at each start) in which the latency buffer refused nothing: (a) every data request gets the answer that follows from the times of the received elements of this run, and a served one exactly the frames of its window, which are the bytes of the file with the emulated time (25 ticks per frame) and the next error word of the generator written into them; the error words of a later run continue where the run before stopped; (b) no call crashes; (c) the frame errors reported by get_info since the start add up to exactly the error bits set by the emulator in the elements received since the start; (d) in the first run, the frames handed to the errored-frame queue are received frames, each at most once, in order, all with an error, and within the rate limit of each error bit; (e) the counted discontinuities are exactly the places where slots are missing (plus one for the first element). Of the frame struct (not in the repository) it is only assumed that time and error word can be written and read back; its header layout meets this.", "quantifier": "for all files, dropout and error tables, start times, buffer capacities, thresholds, errored-frame queues and all histories of calls", "why_tests_cant": "error words, dropouts, loss, clean-up, reports and restarts interleave; a test sees one table and one order", "anchors": ["include/readout/models/SourceEmulatorModel.hpp:153-221", "include/readout/ReadoutTypes.hpp:83-148", "src/wib/WIBFrameProcessor.hpp:157-170", "src/wib/WIBFrameProcessor.hpp:249", "src/wib/WIBFrameProcessor.hpp:282-364", "include/readout/models/ReadoutModel.hpp:225-262"]}
{"id": "C82", "title": "The memory of raw trigger primitives", "statement": "Raw trigger primitive frames are heap objects of their own that are handed from the emulator through the source queue into the latency buffer. For every file of well-formed blocks (two hits or more), whatever memory contains before, and every interleaving of production (pushes may time out, with the frame left with the emulator or destroyed), consumption (frames may be refused by a full buffer), clean-ups within what is stored, walks over the buffer and stop/start: the processor and whoever walks over the buffer see exactly the frames of the file in order; no frame is used after it was released or released twice; at any time the frames alive are those waiting, those stored and the one whose push just timed out, and destroying emulator, queue and buffer releases them all. One further object per frame made is never released: the memory of the emulator grows without bound.", "quantifier": "for all files of well-formed blocks, buffer sizes 2 to 2^31, contents of fresh memory and histories of calls", "why_tests_cant": "a double release or a use after release shows only in some orders of timeouts, refusals, clean-ups and restarts; a lost object of 40 bytes per frame shows only in long runs", "anchors": ["src/wib/TPEmulatorModel.hpp: run_produce, unpack_tpframe_version_1, unpack_tpframe_version_2", "include/readout/ReadoutTypes.hpp: RAW_WIB_TRIGGERPRIMITIVE_STRUCT", "include/readout/models/ReadoutModel.hpp: run_consume, stop", "include/readout/models/IterableQueueModel.hpp: write, popFront, flush, free_memory"]}
{"id": "C83", "title": "Looking for an error while the registry is being changed", "statement": "Request threads ask the error registry for missing frames without taking its lock, while other threads add errors and trim. For every number of threads and every interleaving of single accesses to the map: whenever no adding or trimming call is under way the registry holds exactly the interval in force after the completed calls, with no memory lost; a question that is answered gives what the map held at its first access, which is the truth if no call was under way then; a question reads freed memory exactly if some call frees the entry it has found while it is still looking at it, and nothing else ever does. Two things go wrong: one further discontinuity registered while a question is being answered is enough to make it read freed memory; and while an error is being renewed the answer can be no, though the error is on record before and after. Every call ends: the holder of the lock within four steps of its own, the next one five after that, an undisturbed question within four.", "quantifier": "for all numbers of threads, intervals, trimming times and interleavings", "why_tests_cant": "the window is a few instructions wide and the damage (reading a freed node) is mostly silent; a test cannot show that the described cases are the only ones", "anchors": ["include/readout/FrameErrorRegistry.hpp: add_error, remove_errors_until, has_error", "include/readout/models/DefaultRequestHandlerModel.hpp: data_request, cleanup", "src/wib/WIBFrameProcessor.hpp: timestamp_check", "src/wib2/WIB2FrameProcessor.hpp: timestamp_check"]}
{"id": "C84", "title": "What every configured buffer size gives", "statement": "For every configured 64-bit size of the latency ring, every element size and every history of writes, reads and pops: with assertions compiled in, sizes below 2 end the process. Otherwise, if the size is at least 1 and size times element size is below 2^64, the buffer is a first-in-first-out queue that accepts an element exactly while it holds less than size - 1 elements for sizes up to 2^32, less than size modulo 2^32 - 1 elements above that (2^32 - 1 for multiples of 2^32); so a remainder of 1 refuses everything. In general some history puts an element outside the memory if and only if there is memory for fewer elements than slots are used and more than one slot is used; without assertions this is so for size 0 at the first element. The number of stored elements is reported correctly if at most 2^31 slots are used, and wrongly after 2^31 elements otherwise. The configuration generator gives size 1 for slow-down factors above 250000 and 0 above 500000.", "quantifier": "all configured sizes, element sizes and histories of calls, with and without assertions", "why_tests_cant": "sizes of 2^31 and more cannot be tried, and an overrun by one element is mostly silent", "anchors": ["include/readout/models/IterableQueueModel.hpp: IterableQueueModel, allocate_memory, conf, write, read, pop, occupancy", "schema/readout/readoutconfig.jsonnet: latency_buffer_size", "python/readout/app_confgen.py: generate (latency_buffer_size)"]}
{"id": "C85", "title": "What a check of the waiting requests sees on a skip list", "statement": "On a link that buffers in a skip list the thread that checks the waiting requests takes a pointer to the newest element and reads its timestamp after the buffer's protection of it has ended, while elements arrive and clean-ups remove them. For every interleaving: it reads the timestamp of the element that was the newest when it asked, or finds no element if none was stored; it reads freed memory exactly if at some moment before the read that element was no longer stored and no thread was inside an operation of the list. A pointer used within the protection, as the request's iterators do, never reads freed memory. Nor does one used while clean-ups are kept out, as a data request does, whatever arrives. On photon-detector links the wrong read needs an element 10000000 ticks or more newer stored between the look and the read (and can then occur), and the clean-up never dereferences a missing head, whatever arrives meanwhile; on the other skip-list links a single removal by a clean-up in between is always enough.", "quantifier": "all interleavings of arrivals, clean-ups, requests and looks, all timestamps", "why_tests_cant": "The wrong read needs a clean-up to fall between two instructions of another thread; a test can neither aim at it nor show its absence for the iterators.", "anchors": ["include/readout/models/SkipListLatencyBufferModel.hpp: back, pop, write, Iterator", "include/readout/models/DefaultRequestHandlerModel.hpp: check_waiting_requests, cleanup", "src/daphne/DAPHNEListRequestHandler.hpp: daphne_cleanup_request"]}

{"id": "C01", "title": "Circular buffer: single-element operations are a bounded FIFO", "statement": "After circular_buf_init over a region of n>=1 elements, any sequence of circular_buf_putc, circular_buf_getc, circular_buf_reset, is_circular_buf_empty, is_circular_buf_full and circular_buf_capacity behaves like a FIFO queue of capacity n-1: putc returns 0 and appends iff fewer than n-1 elements are stored (else -1 and no change), getc returns 0 and the oldest element iff the queue is non-empty (else -1), empty/full/capacity report the queue's state.", "quantifier": "every region size n (1..INT_MAX), every initial content of the region, every finite sequence of operations and data values", "why_tests_cant": "tests use one size (64) and a handful of sequences; wrap-around positions and sizes are unbounded", "anchors": ["gel/collections/circular_buffer.c:circular_buf_putc", "gel/collections/circular_buffer.c:circular_buf_getc", "gel/collections/circular_buffer.c:is_circular_buf_full", "gel/collections/circular_buffer.c:is_circular_buf_empty", "gel/collections/circular_buffer.c:circular_buf_reset", "gel/collections/circular_buffer.c:circular_buf_init", "gel/collections/circular_buffer.c:circular_buf_capacity"]}
{"id": "C02", "title": "Circular buffer: circular_buf_size is the number of stored elements", "statement": "circular_buf_size returns the number of elements currently stored in the buffer.", "quantifier": "every region size, every reachable buffer state", "why_tests_cant": "the result depends on where head and tail are; only an exhaustive argument covers the full-buffer corner for every size", "anchors": ["gel/collections/circular_buffer.c:circular_buf_size"]}
{"id": "C03", "title": "Circular buffer: circular_buf_puts appends as much as fits", "statement": "circular_buf_puts(data,len) appends the first min(len, free space) elements of data in order, keeps everything already stored, and returns that number.", "quantifier": "every region size, every reachable state, every data and every len", "why_tests_cant": "the outcome depends on the head/tail geometry and on exact equality of len with the free space; the state space is unbounded", "anchors": ["gel/collections/circular_buffer.c:circular_buf_puts", "gel/collections/circular_buffer.c:advance_pointer"]}
{"id": "C04", "title": "Circular buffer: bulk reads return the oldest elements and consume exactly those", "statement": "circular_buf_gets(len) delivers the oldest min(len, stored) elements in order, removes exactly them and returns their number; circular_buf_drop removes the same elements without delivering; circular_buf_peek delivers the same elements and changes nothing.", "quantifier": "every region size, every reachable state, every len", "why_tests_cant": "depends on wrap position and on len vs. fill level for every size", "anchors": ["gel/collections/circular_buffer.c:_circular_buf_get", "gel/collections/circular_buffer.c:circular_buf_gets", "gel/collections/circular_buffer.c:circular_buf_peek", "gel/collections/circular_buffer.c:circular_buf_drop", "gel/collections/circular_buffer.c:retreat_pointer"]}
{"id": "C05", "title": "Circular buffer: no operation ever touches memory outside the region", "statement": "In every history of operations, every read or write of the buffer region stays inside its n elements, head and tail stay below n, and a bulk read never delivers more elements to the caller than min(requested, n).", "quantifier": "every region size 1..INT_MAX, every finite history of all operations with any lengths (including lengths that trigger other defects)", "why_tests_cant": "out-of-bounds accesses in rare geometries are silent; tests cannot enumerate all histories", "anchors": ["gel/collections/circular_buffer.c:circular_buf_puts", "gel/collections/circular_buffer.c:_circular_buf_get", "gel/collections/circular_buffer.c:circular_buf_putc", "gel/collections/circular_buffer.c:circular_buf_getc"]}
{"id": "C06", "title": "Circular buffer: one producer and one consumer need no lock", "statement": "With one thread only calling circular_buf_putc and another only calling circular_buf_getc, in every interleaving of their individual shared-memory accesses the values returned by successful getc calls are exactly a prefix of the values accepted by successful putc calls, nothing is lost or duplicated, at most n-1 elements are ever in flight, and the two threads never access the same buffer cell at the same time.", "quantifier": "every region size n>=1, every pair of call sequences, every interleaving of atomic loads and stores (sequentially consistent)", "why_tests_cant": "schedules cannot be enumerated by tests; the README claims thread safety in a producer/consumer scenario", "anchors": ["gel/collections/circular_buffer.c:circular_buf_putc", "gel/collections/circular_buffer.c:circular_buf_getc", "gel/collections/circular_buffer.c:advance_pointer", "gel/collections/circular_buffer.c:retreat_pointer", "README.md:Circular buffer"]}
{"id": "C07", "title": "Circular buffer: circular_buf_puts terminates while a consumer runs", "statement": "A call to circular_buf_puts by the producer returns after finitely many of its own steps whatever the consumer thread does.", "quantifier": "every region size, every state, every schedule of a concurrent consumer", "why_tests_cant": "needs an adversarial schedule inside one call", "anchors": ["gel/collections/circular_buffer.c:circular_buf_puts"]}
{"id": "C08", "title": "Typed queue: bounded FIFO across index wrap-around", "statement": "For a queue declared with a power-of-two NUM_ITEMS (at most 32768), any sequence of enqueue, dequeue, drop, is_empty and is_full after init behaves like a FIFO of capacity NUM_ITEMS, however many operations have been executed (the 16-bit indices wrap).", "quantifier": "every power-of-two capacity 1..32768, every item type, every finite operation sequence", "why_tests_cant": "index wrap after 65536 operations combined with every fill level; tests sample one pattern", "anchors": ["gel/collections/queue.h:NAME_init", "gel/collections/queue.h:NAME_enqueue", "gel/collections/queue.h:NAME_dequeue", "gel/collections/queue.h:NAME_drop", "gel/collections/queue.h:NAME_is_empty", "gel/collections/queue.h:NAME_is_full"]}
{"id": "C09", "title": "Typed queue: NAME_count is the number of queued items", "statement": "NAME_count returns the number of items currently queued.", "quantifier": "every capacity, every reachable state (including after the indices wrap)", "why_tests_cant": "the wrong value appears only after 65536 enqueues with specific fill levels", "anchors": ["gel/collections/queue.h:NAME_count"]}
{"id": "C10", "title": "Typed queue: any NUM_ITEMS works", "statement": "The queue is a FIFO for every NUM_ITEMS, not only powers of two (nothing in the header restricts it).", "quantifier": "every capacity, every operation sequence", "why_tests_cant": "tests only instantiate 8 and 16", "anchors": ["gel/collections/queue.h:QUEUE_DECLARATION", "gel/collections/queue.h:NAME_enqueue", "gel/collections/queue.h:NAME_dequeue"]}
{"id": "C11", "title": "Typed stack: bounded LIFO with removal from the bottom", "statement": "For every NUM_ITEMS below 65536, any sequence of push, pop, dequeue, is_empty and is_full after init behaves like a list used as a stack of capacity NUM_ITEMS: push appends on top unless full, pop removes and returns the top, dequeue removes the bottom element and keeps the order of the others.", "quantifier": "every capacity, every item type, every finite operation sequence", "why_tests_cant": "unbounded sequences and capacities; there are no tests for stack.h", "anchors": ["gel/collections/stack.h:NAME_init", "gel/collections/stack.h:NAME_push", "gel/collections/stack.h:NAME_pop", "gel/collections/stack.h:NAME_dequeue", "gel/collections/stack.h:NAME_is_empty", "gel/collections/stack.h:NAME_is_full"]}
{"id": "C12", "title": "Typed stack: peek shows the top element", "statement": "NAME_peek returns POP_RESULT_SUCCESS and the top element (the one the next pop would return) without removing it.", "quantifier": "every capacity, every reachable non-empty state", "why_tests_cant": "the slot actually read may contain stale data equal to the expected value by accident", "anchors": ["gel/collections/stack.h:NAME_peek"]}
{"id": "C13", "title": "Intrusive list: insertion and removal edit exactly one position", "statement": "On a well-formed list, list_add inserts the node right after the head, list_add_tail right before the head, list_del removes exactly the given node; all other nodes keep their order, nodes of other lists are untouched, and the result is well formed in both directions.", "quantifier": "every heap, every list length, every position", "why_tests_cant": "pointer structures of arbitrary length and aliasing with other lists", "anchors": ["gel/collections/listx.h:list_add", "gel/collections/listx.h:list_add_tail", "gel/collections/listx.h:__list_add", "gel/collections/listx.h:list_del", "gel/collections/listx.h:__list_del", "gel/collections/listx.h:INIT_LIST_HEAD"]}
{"id": "C14", "title": "Intrusive list: traversals visit every node exactly once in order", "statement": "list_for_each visits exactly the nodes of the list from first to last and list_for_each_prev exactly the same nodes in reverse, and both terminate.", "quantifier": "every well-formed list of any length", "why_tests_cant": "termination and completeness for every length", "anchors": ["gel/collections/listx.h:list_for_each", "gel/collections/listx.h:list_for_each_prev"]}
{"id": "C15", "title": "Intrusive list: queries", "statement": "list_empty is true iff the list has no nodes; list_is_last is true iff the node is the last one; list_next/list_prev return the successor/predecessor (NULL for an empty list).", "quantifier": "every well-formed list of any length and every node", "why_tests_cant": "unbounded structures", "anchors": ["gel/collections/listx.h:list_empty", "gel/collections/listx.h:list_is_last", "gel/collections/listx.h:list_next", "gel/collections/listx.h:list_prev"]}
{"id": "C16", "title": "Debounce: a reading changes only after debounce+1 consecutive contrary samples", "statement": "When debounce_filter (constant debounce d) changes the value of input i, that input had the new value in that call and in the d calls before it, and the reading was the opposite level throughout.", "quantifier": "every input history, every channel, every d in 0..INT_MAX, every word width", "why_tests_cant": "quantifies over all histories (glitch patterns) and all d", "anchors": ["gel/debounce/debounce.c:debounce_filter", "gel/debounce/debounce.c:debounce_filter_single", "gel/debounce/debounce.h:debounce_read"]}
{"id": "C17", "title": "Debounce: debounce+1 consecutive equal samples are always accepted", "statement": "After d+1 consecutive calls with the same level on input i the reading of input i is that level.", "quantifier": "every history before, every channel, every d in 0..INT_MAX, every word width", "why_tests_cant": "all histories and all d", "anchors": ["gel/debounce/debounce.c:debounce_filter", "gel/debounce/debounce.c:debounce_filter_single"]}
{"id": "C18", "title": "Debounce: the returned mask is exactly the set of changed readings", "statement": "debounce_filter returns a bitmap whose bit i is set iff the reading of input i changed in this call; debounce_value and debounce_read always agree with each other.", "quantifier": "every filter state, every input word, every debounce", "why_tests_cant": "2^32 inputs times all states", "anchors": ["gel/debounce/debounce.c:debounce_filter", "gel/debounce/debounce.c:debounce_filter_single", "gel/debounce/debounce.h:debounce_value"]}
{"id": "C19", "title": "Debounce: channels are independent", "statement": "The readings of input i depend only on the samples of input i, never on the other inputs.", "quantifier": "every two histories that agree on channel i", "why_tests_cant": "relational property over pairs of histories", "anchors": ["gel/debounce/debounce.c:debounce_filter"]}
{"id": "C20", "title": "Debounce: debounce_filter_set restarts the reading", "statement": "After debounce_filter_set(v) the readings are v and a later change of an input again needs debounce+1 consecutive contrary samples.", "quantifier": "every history before the call", "why_tests_cant": "depends on leftover internal counters from the history", "anchors": ["gel/debounce/debounce.c:debounce_filter_set"]}
{"id": "C21", "title": "Pulse counter: counts exactly the debounced trailing edges", "statement": "From zero-initialised memory, after any history the count of channel i equals (mod 2^32) the number of debounced high-to-low (COUNT_HIGH_PULSE) or low-to-high (COUNT_LOW_PULSE) transitions since its last pulse_clear, pulse_level is the debounced level, and pulse_filter returns 1 iff some count was incremented by that call.", "quantifier": "every input history, channel, debounce, pulse type and initial level", "why_tests_cant": "all histories; wrap of the counter", "anchors": ["gel/debounce/pulsecounter.c:pulse_filter", "gel/debounce/pulsecounter.c:pulse_filter_init", "gel/debounce/pulsecounter.c:pulse_level", "gel/debounce/pulsecounter.h:pulse_count", "gel/debounce/pulsecounter.h:pulse_clear"]}
{"id": "C22", "title": "Pulse counter: pulse_filter_init fully initialises the structure", "statement": "After pulse_filter_init on arbitrary memory the filter behaves as after initialising zeroed memory (the first accepted change needs debounce+1 samples).", "quantifier": "every initial memory content", "why_tests_cant": "depends on uninitialised memory that tests always find zeroed (static storage)", "anchors": ["gel/debounce/pulsecounter.c:pulse_filter_init"]}
{"id": "C23", "title": "CRC-32 table implementation equals polynomial division", "statement": "crc32(buf,len,init) equals the bit-serial MSB-first CRC register with polynomial 0x04C11DB7, no reflection and no final xor: shifting every message bit through the register one at a time gives the same value.", "quantifier": "every message of every length and every 32-bit initial value", "why_tests_cant": "256 table constants times unbounded messages", "anchors": ["gel/crc/crc32.c:crc32", "gel/crc/crc32.c:crc32_table"]}
{"id": "C24", "title": "CRC-16/CCITT table implementation equals polynomial division", "statement": "crc16_ccitt(block,len,crc) equals the bit-serial MSB-first CRC register with polynomial 0x1021, no reflection and no final xor.", "quantifier": "every message of every length and every 16-bit initial value", "why_tests_cant": "256 table constants times unbounded messages", "anchors": ["gel/crc/crc16-ccitt.c:crc16_ccitt", "gel/crc/crc16-ccitt.c:crc16_ccitt_table"]}
{"id": "C25", "title": "CRCs can be computed in segments", "statement": "Splitting a block into segments and passing the previous CRC as the initial value gives the CRC of the whole block, for both crc32 and crc16_ccitt.", "quantifier": "every split of every message, every initial value", "why_tests_cant": "unbounded messages and splits", "anchors": ["gel/crc/crc32.c:crc32", "gel/crc/crc16-ccitt.c:crc16_ccitt", "gel/crc/crc16-ccitt.h"]}
{"id": "C26", "title": "CRC-32 detects every burst error of at most 32 bits", "statement": "Two messages of equal length that differ, and whose differing bits all lie within a window of 32 consecutive bits, never have the same crc32 (same init).", "quantifier": "every message, every length, every burst position and pattern", "why_tests_cant": "2^32 patterns times unbounded positions", "anchors": ["gel/crc/crc32.c:crc32"]}
{"id": "C27", "title": "CRC-16 detects every burst of at most 16 bits and every odd number of bit errors", "statement": "Two equal-length messages whose differing bits lie within 16 consecutive bits, or that differ in an odd number of bits, never have the same crc16_ccitt.", "quantifier": "every message, every length, every error pattern of these classes", "why_tests_cant": "unbounded messages and error patterns", "anchors": ["gel/crc/crc16-ccitt.c:crc16_ccitt"]}
{"id": "C28", "title": "CRCs detect every double-bit error within the polynomial's period", "statement": "Flipping any two distinct bits less than 32767 bit positions apart changes crc16_ccitt, and flipping any two distinct bits less than 2^32-1 bit positions apart changes crc32.", "quantifier": "every message, every pair of bit positions at that distance", "why_tests_cant": "needs the multiplicative order of the polynomial", "anchors": ["gel/crc/crc32.c:crc32", "gel/crc/crc16-ccitt.c:crc16_ccitt"]}
{"id": "C29", "title": "Serializer: unsigned round trips", "statement": "For 8, 16, 32 and 64 bit unsigned integers, little and big endian, deserialising what was serialised yields the original value, and serialising what was deserialised reproduces the bytes.", "quantifier": "every value of each width, every buffer content and position", "why_tests_cant": "2^64 values", "anchors": ["gel/serializer/serializer.h:serialize_uint16_le", "gel/serializer/serializer.h:serialize_uint32_le", "gel/serializer/serializer.h:serialize_uint64_le", "gel/serializer/serializer.h:serialize_uint16_be", "gel/serializer/serializer.h:serialize_uint32_be", "gel/serializer/serializer.h:serialize_uint64_be", "gel/serializer/serializer.h:deserialize_uint32_le", "gel/serializer/serializer.h:deserialize_uint64_be"]}
{"id": "C30", "title": "Serializer: byte layout and frame", "statement": "Each serialize_uintN writes exactly N/8 bytes, returns N/8, leaves every other byte of the buffer unchanged; byte k of the little-endian form is the k-th base-256 digit and the big-endian form is its reverse.", "quantifier": "every value, every buffer content", "why_tests_cant": "2^64 values; frame over arbitrary buffers", "anchors": ["gel/serializer/serializer.h:serialize_uint8", "gel/serializer/serializer.h:serialize_uint16_le", "gel/serializer/serializer.h:serialize_uint32_le", "gel/serializer/serializer.h:serialize_uint64_le", "gel/serializer/serializer.h:serialize_uint16_be", "gel/serializer/serializer.h:serialize_uint32_be", "gel/serializer/serializer.h:serialize_uint64_be"]}
{"id": "C31", "title": "Serializer: signed values round-trip through the unsigned writers", "statement": "Writing the two's complement bits of a signed N-bit value with serialize_uintN and reading them with deserialize_intN returns the value, including negatives (with the compiler's wrapping signed conversions).", "quantifier": "every signed value of 8, 16, 32, 64 bits, both byte orders", "why_tests_cant": "2^64 values, sign boundary", "anchors": ["gel/serializer/serializer.h:deserialize_int8", "gel/serializer/serializer.h:deserialize_int16_le", "gel/serializer/serializer.h:deserialize_int32_le", "gel/serializer/serializer.h:deserialize_int64_le", "gel/serializer/serializer.h:deserialize_int16_be", "gel/serializer/serializer.h:deserialize_int32_be", "gel/serializer/serializer.h:deserialize_int64_be"]}
{"id": "C32", "title": "Serializer: deserialisers have no undefined behaviour", "statement": "No deserialiser executes an operation that ISO C leaves undefined (a left shift of a signed value into or past the sign bit), for any input bytes.", "quantifier": "every byte sequence", "why_tests_cant": "undefined behaviour is invisible in a test that happens to work", "anchors": ["gel/serializer/serializer.h:deserialize_int32_le", "gel/serializer/serializer.h:deserialize_int64_le", "gel/serializer/serializer.h:deserialize_int32_be", "gel/serializer/serializer.h:deserialize_int64_be"]}
{"id": "C33", "title": "Scheduler: the active entry is the enabled active one with the smallest weekly timespan", "statement": "scheduler_get_active_entry_number returns -1 iff no enabled entry is active at the given time; otherwise it returns the index of an enabled active entry whose weekly timespan is minimal among all enabled active entries. scheduler_is_active and scheduler_current_value agree with it.", "quantifier": "every table content and size, every time of day and weekday", "why_tests_cant": "unbounded combinations of overlapping entries", "anchors": ["gel/scheduler/scheduler.c:scheduler_get_active_entry_number", "gel/scheduler/scheduler.c:scheduler_is_active", "gel/scheduler/scheduler.c:scheduler_current_value", "gel/scheduler/scheduler.c:total_week_timespan"]}
{"id": "C34", "title": "Scheduler: ties are broken by the largest value", "statement": "Among enabled active entries with the same minimal weekly timespan the returned one has the largest value (the first index among equals).", "quantifier": "every table, every time, every int value", "why_tests_cant": "depends on the exact int values and their order in the table", "anchors": ["gel/scheduler/scheduler.c:scheduler_get_active_entry_number"]}
{"id": "C35", "title": "Scheduler: an entry is active exactly during its interval", "statement": "A same-day entry (end <= 24h) is active at a time of an included weekday iff start <= time < end; an entry whose end exceeds 24h and starts on an included day stays active after midnight of the following day until end-24h.", "quantifier": "every entry, every weekday and second", "why_tests_cant": "86400*7 instants times all entries", "anchors": ["gel/scheduler/scheduler.c:is_entry_active", "gel/scheduler/scheduler.c:is_day_included", "gel/scheduler/scheduler.c:to_seconds"]}
{"id": "C36", "title": "Scheduler: remaining duration", "statement": "scheduler_get_schedule_remaining_duration returns 0 when the entry is not active and otherwise the number of seconds until the entry stops being active; scheduler_get_current_remaining_duration does so for the selected entry.", "quantifier": "every table, entry and time", "why_tests_cant": "all instants times all entries", "anchors": ["gel/scheduler/scheduler.c:scheduler_get_schedule_remaining_duration", "gel/scheduler/scheduler.c:scheduler_get_current_remaining_duration"]}
{"id": "C37", "title": "Scheduler: the active-entries map shows the enabled active entries", "statement": "Bit i of scheduler_get_active_entries_map is set iff entry i is enabled and active now.", "quantifier": "every table of up to 16 entries, every time", "why_tests_cant": "all tables and instants", "anchors": ["gel/scheduler/scheduler.c:scheduler_get_active_entries_map", "gel/scheduler/scheduler.c:scheduler_disable_schedule_entry"]}
{"id": "C38", "title": "Scheduler: overlap detection", "statement": "scheduler_are_there_overlapping_entries counts exactly the enabled entries that share a day with the given entry and are active at some common instant with it.", "quantifier": "every table and candidate entry", "why_tests_cant": "all interval pairs", "anchors": ["gel/scheduler/scheduler.c:scheduler_are_there_overlapping_entries"]}
{"id": "C39", "title": "Scheduler: entry serialization round trip", "statement": "scheduler_entry_deserialize(scheduler_entry_serialize(e)) = e and both report 11 bytes; bytes after the 11th are untouched.", "quantifier": "every entry (every int value), every buffer", "why_tests_cant": "2^32 values per field", "anchors": ["gel/scheduler/scheduler.c:scheduler_entry_serialize", "gel/scheduler/scheduler.c:scheduler_entry_deserialize"]}
{"id": "C40", "title": "Scheduler: table accessors", "statement": "scheduler_set_entry / scheduler_disable_schedule_entry change exactly the addressed entry and fail with -1 and no change when the index is out of range; scheduler_get_next_enabled_entry returns the smallest enabled index >= start and scheduler_get_first_available_entry the smallest disabled index, or -1; scheduler_init clears every field of every entry.", "quantifier": "every table, index and entry", "why_tests_cant": "unbounded tables and indices", "anchors": ["gel/scheduler/scheduler.c:scheduler_set_entry", "gel/scheduler/scheduler.c:scheduler_disable_schedule_entry", "gel/scheduler/scheduler.c:scheduler_get_next_enabled_entry", "gel/scheduler/scheduler.c:scheduler_get_first_available_entry", "gel/scheduler/scheduler.c:scheduler_init", "gel/scheduler/scheduler.c:scheduler_get_entry"]}
{"id": "C41", "title": "Wear leveling: read returns the last written data", "statement": "While the device works, after any sequence of wearleveling_write calls of full-block data, wearleveling_read returns the data of the last write; a write of unchanged data performs no device write.", "quantifier": "every number of blocks 1..255, every initial device content, every write history", "why_tests_cant": "unbounded histories and marker wrap-around", "anchors": ["gel/wearleveling/wearleveling.c:wearleveling_read", "gel/wearleveling/wearleveling.c:wearleveling_write"]}
{"id": "C42", "title": "Wear leveling: data survives a restart", "statement": "Starting from an erased device, after any history of writes and restarts, wearleveling_init followed by wearleveling_read returns the data of the last completed write.", "quantifier": "every block count, every write/restart history", "why_tests_cant": "only histories that stop exactly on the last block fail; tests never re-init", "anchors": ["gel/wearleveling/wearleveling.c:wearleveling_init", "gel/wearleveling/wearleveling.c:search_last"]}
{"id": "C43", "title": "Wear leveling: a crash during a write leaves the old or the new data", "statement": "If power is lost at any point during wearleveling_write on a device that stores the marker after the data, the next init and read yield either the complete old or the complete new data.", "quantifier": "every crash point of every write in every history", "why_tests_cant": "all crash points of all histories", "anchors": ["gel/wearleveling/wearleveling.c:wearleveling_write", "gel/wearleveling/wearleveling.c:wearleveling_init", "gel/wearleveling/wearleveling.c:search_last"]}
{"id": "C44", "title": "Wear leveling: writes are spread evenly", "statement": "Device writes go to the blocks in round-robin order, so after any number of writes without restart the write counts of any two blocks differ by at most one.", "quantifier": "every block count, every number of writes", "why_tests_cant": "unbounded histories", "anchors": ["gel/wearleveling/wearleveling.c:wearleveling_write"]}
{"id": "C45", "title": "Wear leveling: a failed device write does not lose the stored data", "statement": "If write_block reports an error, wearleveling_write returns that error and a following wearleveling_read still returns the previously stored data.", "quantifier": "every state, every failing write", "why_tests_cant": "fault injection at every write of every history", "anchors": ["gel/wearleveling/wearleveling.c:wearleveling_write"]}
{"id": "C46", "title": "Wear leveling: an unreadable device is reported", "statement": "If read_marker fails during wearleveling_init the memory is not used with a wrong active block.", "quantifier": "every block at which reading fails and every error code", "why_tests_cant": "fault injection; the function returns void", "anchors": ["gel/wearleveling/wearleveling.c:wearleveling_init", "gel/wearleveling/wearleveling.c:search_last"]}
{"id": "C47", "title": "Event log: load_last_events returns the requested window of the history", "statement": "After any sequence of successful circular_event_log_new_event calls, load_last_events(number, jump) delivers, in chronological order, the (up to) number events that precede the last jump ones among the last max_events events, and returns how many it delivered.", "quantifier": "every log size, every history length (any number of wrap-arounds), every number and jump", "why_tests_cant": "all geometries of window vs. wrap point", "anchors": ["gel/circular_event_log/circular_event_log.c:circular_event_log_new_event", "gel/circular_event_log/circular_event_log.c:circular_event_log_load_last_events", "gel/circular_event_log/circular_event_log.c:nth_last_event"]}
{"id": "C48", "title": "Event log: total_events is min(saved, max_events)", "statement": "circular_event_log_total_events returns the number of events saved so far capped at max_events.", "quantifier": "every log size and history length", "why_tests_cant": "unbounded histories", "anchors": ["gel/circular_event_log/circular_event_log.c:circular_event_log_total_events"]}
{"id": "C49", "title": "Event log: a failed save changes nothing", "statement": "If save_new_event fails, new_event returns its code and the log content, position and total are unchanged, so later loads are unaffected.", "quantifier": "every state, every failure pattern in the history", "why_tests_cant": "fault patterns over unbounded histories", "anchors": ["gel/circular_event_log/circular_event_log.c:circular_event_log_new_event"]}
{"id": "C50", "title": "Event log: load errors are reported", "statement": "If the storage callback reports an error during load_last_events, the function returns a non-positive value instead of a count of events.", "quantifier": "every state, window and failing call", "why_tests_cant": "fault injection at the second of two callback calls", "anchors": ["gel/circular_event_log/circular_event_log.c:circular_event_log_load_last_events"]}
{"id": "C51", "title": "Event log: every request size is safe", "statement": "load_last_events never asks the storage for events outside 0..max_events-1 and never for more than max_events in total, for every number and jump.", "quantifier": "every size_t number and jump", "why_tests_cant": "overflowing size_t sums need extreme arguments", "anchors": ["gel/circular_event_log/circular_event_log.c:circular_event_log_load_last_events"]}
{"id": "C52", "title": "Keypad: KEY_PRESS is reported exactly when an idle key's bitmap appears", "statement": "keypad_routine reports KEY_PRESS with code c only if the current bitmap equals the bitvalue of a key with code c that was not pressed before; with a single configured key it is reported on the first call with that bitmap after a call without it.", "quantifier": "every key table, every history of timestamps and bitmaps", "why_tests_cant": "all histories of a multi-key state machine", "anchors": ["gel/keypad/keypad.c:keypad_routine"]}
{"id": "C53", "title": "Keypad: clicks and long clicks respect their thresholds", "statement": "With click <= longclick and timestamps advancing by less than half the timer range, KEY_CLICK is reported only when the key has been down for more than click time units since its KEY_PRESS, and KEY_LONGCLICK only when it has been down for more than longclick since its KEY_PRESS.", "quantifier": "every single-key history with advancing timestamps (including timestamp wrap-around)", "why_tests_cant": "all histories and wrap positions", "anchors": ["gel/keypad/keypad.c:keypad_routine", "gel/timer/timecheck.h:is_strictly_expired"]}
{"id": "C54", "title": "Keypad: event order", "statement": "For each press of a single key the events come in the order PRESS, then optionally CLICK and any number of PRESSING, then optionally LONGCLICK and any number of LONGPRESS, then RELEASE or a new PRESS; PRESSING, LONGPRESS, CLICK and LONGCLICK never occur before PRESS or after RELEASE.", "quantifier": "every single-key history", "why_tests_cant": "regular-language property over all histories", "anchors": ["gel/keypad/keypad.c:keypad_routine"]}
{"id": "C55", "title": "Keypad: repeat period", "statement": "Two consecutive repeat events (KEY_PRESSING or KEY_LONGPRESS) of a held key are more than press_period time units apart.", "quantifier": "every single-key history with advancing timestamps", "why_tests_cant": "all histories", "anchors": ["gel/keypad/keypad.c:keypad_routine"]}
{"id": "C56", "title": "Keypad: keypad_get_key_state reports whether the key is down", "statement": "After a call of keypad_routine, keypad_get_key_state of a key is 1 iff the bitmap passed equals the key's bitvalue.", "quantifier": "every key table and history", "why_tests_cant": "stale states appear only with several keys in particular orders", "anchors": ["gel/keypad/keypad.c:keypad_get_key_state", "gel/keypad/keypad.c:keypad_routine"]}
{"id": "C57", "title": "Keypad: reset", "statement": "After keypad_reset_keys every key is up, no event is pending, and a call with no key pressed reports KEY_NOTHING; keys beyond the terminator are untouched.", "quantifier": "every table state", "why_tests_cant": "all prior states", "anchors": ["gel/keypad/keypad.c:keypad_reset_keys"]}
{"id": "C58", "title": "Time comparison survives counter wrap-around", "statement": "For two instants less than half the counter range apart, time_after, time_before and time_after_or_equal applied to the wrapped counters order them like the true instants.", "quantifier": "every counter width, every pair of instants at such a distance, every wrap position", "why_tests_cant": "2^64 x 2^64 pairs", "anchors": ["gel/timer/timecheck.h:time_after", "gel/timer/timecheck.h:time_after_or_equal", "gel/timer/timecheck.h:time_before"]}
{"id": "C59", "title": "Time interval", "statement": "time_interval(a,b) is the distance of two instants less than half the range apart, in either order.", "quantifier": "every counter width and such pair", "why_tests_cant": "2^128 pairs", "anchors": ["gel/timer/timecheck.h:time_interval"]}
{"id": "C60", "title": "Expiry tests", "statement": "is_expired(start,now,delay) is true iff now >= start+delay in true time and is_strictly_expired iff now > start+delay, as long as now and start+delay are less than half the range apart.", "quantifier": "every width, start, now and delay", "why_tests_cant": "all triples", "anchors": ["gel/timer/timecheck.h:is_loosely_expired", "gel/timer/timecheck.h:is_strictly_expired", "gel/timer/timecheck.h:is_expired"]}
{"id": "C61", "title": "Custom timestamp types are supported", "statement": "With GEL_CUSTOM_TIMESTAMP_TYPE set to a narrower unsigned type the comparisons keep working.", "quantifier": "every timestamp type width up to long, every pair of instants", "why_tests_cant": "depends on C promotion rules and wrap positions", "anchors": ["gel/timer/timecheck.h:GEL_CUSTOM_TIMESTAMP_TYPE", "gel/timer/timecheck.h:time_after"]}
{"id": "C62", "title": "Stopwatch: elapsed time is the total counted time", "statement": "After any history of start, pause, stop, restart, set, change and set_elapsed calls at non-decreasing times, stopwatch_get_elapsed equals the time spent counting since the last stop/restart (plus an explicitly set elapsed value).", "quantifier": "every history, every wrap position, each counting stretch shorter than half the range", "why_tests_cant": "all histories, wrap positions", "anchors": ["gel/timer/stopwatch.c:stopwatch_get_elapsed", "gel/timer/stopwatch.c:stopwatch_start", "gel/timer/stopwatch.c:stopwatch_pause", "gel/timer/stopwatch.c:stopwatch_stop", "gel/timer/stopwatch.c:stopwatch_restart", "gel/timer/stopwatch.c:stopwatch_change", "gel/timer/stopwatch.c:stopwatch_set_elapsed"]}
{"id": "C63", "title": "Stopwatch: state machine and return codes", "statement": "start fails (-1, no change) exactly when counting, pause exactly when not counting, set and set_elapsed exactly when not stopped; stop fails exactly when already stopped.", "quantifier": "every state and argument", "why_tests_cant": "documented contract over all states", "anchors": ["gel/timer/stopwatch.c:stopwatch_start", "gel/timer/stopwatch.c:stopwatch_stop", "gel/timer/stopwatch.c:stopwatch_pause", "gel/timer/stopwatch.c:stopwatch_set", "gel/timer/stopwatch.h"]}
{"id": "C64", "title": "Stopwatch: reached iff nothing remains", "statement": "For a stopwatch that is counting or paused, stopwatch_is_timer_reached is 1 iff stopwatch_get_remaining is 0 iff elapsed >= total; remaining = total - elapsed otherwise.", "quantifier": "every state with periods and stretches below half the range", "why_tests_cant": "all states and instants", "anchors": ["gel/timer/stopwatch.c:stopwatch_is_timer_reached", "gel/timer/stopwatch.c:stopwatch_get_remaining"]}
{"id": "C65", "title": "Stopwatch: any period and any duration work", "statement": "The elapsed time never decreases while counting and a period is not reported as reached early, for every period and every duration representable in unsigned long.", "quantifier": "every period and duration up to the full range", "why_tests_cant": "needs durations of at least half the counter range", "anchors": ["gel/timer/stopwatch.c:stopwatch_get_elapsed", "gel/timer/stopwatch.c:stopwatch_is_timer_reached", "gel/timer/timecheck.h:time_interval"]}
{"id": "C66", "title": "Timer: one-shot fires exactly once", "statement": "A running non-autoreload timer invokes its callback at the first gel_timer_manage_callback at or after its deadline, never before, and never again until it is resumed.", "quantifier": "every polling schedule, period and wrap position", "why_tests_cant": "all polling schedules", "anchors": ["gel/timer/timer.c:gel_timer_manage_callback", "gel/timer/timer.c:gel_timer_init"]}
{"id": "C67", "title": "Timer: autoreload", "statement": "An autoreload timer fires at a poll iff at least one period elapsed since the previous fire (or start), and keeps running.", "quantifier": "every polling schedule and period", "why_tests_cant": "all polling schedules", "anchors": ["gel/timer/timer.c:gel_timer_manage_callback", "gel/timer/timer.c:gel_timer_set_autoreload"]}
{"id": "C68", "title": "Timer: pause, resume, reset and period change", "statement": "Paused time does not count towards the deadline; reset restarts the period keeping the running/paused state; change_period sets the new period and restarts likewise; both are ignored when stopped.", "quantifier": "every state and instant", "why_tests_cant": "all histories", "anchors": ["gel/timer/timer.c:gel_timer_pause", "gel/timer/timer.c:gel_timer_resume", "gel/timer/timer.c:gel_timer_reset", "gel/timer/timer.c:gel_timer_change_period", "gel/timer/timer.c:gel_timer_stop"]}
{"id": "C69", "title": "Timer: the callback may control its own timer", "statement": "Changes that the callback makes to its own timer (for instance restarting it or changing its period) are in effect after gel_timer_manage_callback returns.", "quantifier": "every callback behaviour", "why_tests_cant": "quantifies over callbacks", "anchors": ["gel/timer/timer.c:gel_timer_manage_callback"]}
{"id": "C70", "title": "Page manager: navigation behaves like a page stack", "statement": "Starting from an initialised manager whose first page was shown with pman_change_page, change pushes, back pops, swap replaces the top, rebase replaces the whole stack, and the current page is always the top of that stack; back on the only page does nothing.", "quantifier": "every sequence of navigation calls within the configured depth, every page set", "why_tests_cant": "unbounded navigation histories", "anchors": ["gel/pagemanager/page_manager.c:pman_change_page_extra", "gel/pagemanager/page_manager.c:pman_back", "gel/pagemanager/page_manager.c:pman_swap_page_extra", "gel/pagemanager/page_manager.c:pman_rebase_page_extra", "gel/pagemanager/page_manager.c:pman_init"]}
{"id": "C71", "title": "Page manager: page lifecycle", "statement": "Every page shown is created once, opened and closed alternately, and destroyed at most once, after being closed; at any time only the current page is open and exactly the pages on the stack are alive.", "quantifier": "every navigation history", "why_tests_cant": "temporal property over all histories", "anchors": ["gel/pagemanager/page_manager.c:pman_change_page_extra", "gel/pagemanager/page_manager.c:pman_back", "gel/pagemanager/page_manager.c:pman_swap_page_extra", "gel/pagemanager/page_manager.c:pman_rebase_page_extra", "gel/pagemanager/page_manager.c:pman_reset_to_page"]}
{"id": "C72", "title": "Page manager: reset_to_page", "statement": "pman_reset_to_page returns to the nearest page below the current one with the given id, destroying everything above it; if there is none, found is 0 and the manager is left uninitialised with every page destroyed exactly once, and can be reused.", "quantifier": "every stack and id", "why_tests_cant": "unbounded stacks; interaction with later calls", "anchors": ["gel/pagemanager/page_manager.c:pman_reset_to_page"]}
{"id": "C73", "title": "Page manager: rebase or swap may be the first navigation", "statement": "Showing the first page with pman_rebase_page or pman_swap_page (on zeroed memory after pman_init) is equivalent to showing it with pman_change_page.", "quantifier": "every page and later navigation", "why_tests_cant": "depends on later calls", "anchors": ["gel/pagemanager/page_manager.c:pman_rebase_page_extra", "gel/pagemanager/page_manager.c:pman_swap_page_extra", "gel/pagemanager/page_manager.c:pman_init"]}
{"id": "C74", "title": "Page manager: behaviour does not depend on NDEBUG", "statement": "Compiling with NDEBUG (assert disabled) does not change the effect of calls that do not violate an assertion.", "quantifier": "every navigation history", "why_tests_cant": "tests are built without NDEBUG", "anchors": ["gel/pagemanager/page_manager.c:pman_change_page_extra"]}
{"id": "C75", "title": "Page manager: depth limit", "statement": "A change_page beyond PMAN_NAVIGATION_DEPTH stacked pages aborts through assert and never overwrites memory or silently drops a page.", "quantifier": "every depth and history", "why_tests_cant": "unbounded histories and depths", "anchors": ["gel/pagemanager/page_manager.c:pman_change_page_extra", "gel/collections/stack.h:NAME_push"]}
{"id": "C76", "title": "Parameter: parameter_operator never leaves the range", "statement": "For integer parameters with min <= max, if the value is in [min,max] before parameter_operator(mod) it is in [min,max] afterwards (whenever the C arithmetic is defined), for every mod and step including arithmetic wrap-around; and for mod != 0 even if it was outside before.", "quantifier": "every type, limits, step, value and mod", "why_tests_cant": "all values of all types", "anchors": ["gel/parameter/parameter.c:parameter_operator", "gel/parameter/parameter.c:APPLY_OPERATOR", "gel/parameter/parameter.c:CHECK_RANGE_AGAINST"]}
{"id": "C77", "title": "Parameter: parameter_operator steps and wraps to the opposite limit", "statement": "parameter_operator(mod) adds step*mod if the mathematical result is inside [min,max]; otherwise it sets min when mod>0 and max when mod<0.", "quantifier": "every type, limits, step, value and mod", "why_tests_cant": "arithmetic overflow corner cases", "anchors": ["gel/parameter/parameter.c:parameter_operator", "gel/parameter/parameter.c:APPLY_OPERATOR"]}
{"id": "C78", "title": "Parameter: get_handle returns the num-th accessible parameter", "statement": "parameter_get_handle(ps,length,num,al) returns the num-th parameter (in table order) whose access level is 0 or shares a bit with al, or NULL if there are fewer; runtime hooks run before the check.", "quantifier": "every table, access mask and index", "why_tests_cant": "unbounded tables", "anchors": ["gel/parameter/parameter.c:parameter_get_handle"]}
{"id": "C79", "title": "Parameter: get_count agrees with get_handle", "statement": "parameter_get_count(ps,length,al) is the number of indices for which parameter_get_handle returns a parameter.", "quantifier": "every table and access mask", "why_tests_cant": "unbounded tables; depends on access level 0", "anchors": ["gel/parameter/parameter.c:parameter_get_count", "gel/parameter/parameter.c:parameter_get_handle"]}
{"id": "C80", "title": "Parameter: reset_to_defaults resets every parameter", "statement": "After parameter_reset_to_defaults every parameter of the table has its default value and no other memory changed.", "quantifier": "every table of parameters with distinct storage", "why_tests_cant": "unbounded tables", "anchors": ["gel/parameter/parameter.c:parameter_reset_to_defaults", "gel/parameter/parameter.c:SET_DEFAULT"]}
{"id": "C81", "title": "Parameter: check_ranges repairs exactly the out-of-range parameters", "statement": "parameter_check_ranges returns the number of out-of-range parameters, sets exactly those to their default and leaves the others unchanged; if the defaults are in range a second call returns 0.", "quantifier": "every table of integer parameters with distinct storage and static limits", "why_tests_cant": "unbounded tables, all values", "anchors": ["gel/parameter/parameter.c:parameter_check_ranges", "gel/parameter/parameter.c:CHECK_RANGE"]}
{"id": "C82", "title": "Parameter: floating point parameters are range checked", "statement": "After parameter_check_ranges every float/double parameter lies within its limits (if its default does).", "quantifier": "every IEEE value including NaN", "why_tests_cant": "NaN corner cases", "anchors": ["gel/parameter/parameter.c:parameter_check_ranges", "gel/parameter/parameter.c:CHECK_RANGE"]}
{"id": "C83", "title": "Parameter: conversion to long", "statement": "parameter_to_long returns the parameter's value for every integer type whose values fit in long.", "quantifier": "every type and value", "why_tests_cant": "all values of all types", "anchors": ["gel/parameter/parameter.c:parameter_to_long"]}
{"id": "C84", "title": "Parameter: copy and clone", "statement": "parameter_copy_value copies the value iff the types match (else -1 and no change); parameter_clone and parameter_clone_with_buffer produce a handle with the same attributes and value whose later changes do not affect the source.", "quantifier": "every handle type and value", "why_tests_cant": "all values and types", "anchors": ["gel/parameter/parameter.c:parameter_copy_value", "gel/parameter/parameter.c:parameter_clone", "gel/parameter/parameter.c:parameter_clone_with_buffer"]}
{"id": "C85", "title": "Parameter: total number of values", "statement": "parameter_get_total_values returns max-min+1, the number of representable values in the range, for every integer type.", "quantifier": "every type and limits", "why_tests_cant": "extreme limits", "anchors": ["gel/parameter/parameter.c:parameter_get_total_values", "gel/parameter/parameter.c:GET_RANGE"]}
{"id": "C86", "title": "Parameter: the PARAMETER macros store the limits given", "statement": "For every integer type the limits, default and step passed to PARAMETER/PARAMETER_STEP/PARAMETER_FULL are stored unchanged when representable in the parameter's type.", "quantifier": "every type and constant", "why_tests_cant": "64-bit constants and negative values", "anchors": ["gel/parameter/parameter.h:_PARAMETER_LIMIT_VALUE_OPTION", "gel/parameter/parameter.h:CAST64"]}
{"id": "C87", "title": "PID: the integral term is the sum of the last N errors", "statement": "With thresholds disabled, pid_compute_i is Ki times the sum of the errors of the last GEL_PID_INTEGRAL_HISTORY_SIZE inputs.", "quantifier": "every history size, every input history", "why_tests_cant": "unbounded histories; depends on zero errors", "anchors": ["gel/pid/pid.c:pid_add_input", "gel/pid/pid.c:pid_compute_i"]}
{"id": "C88", "title": "PID: the derivative compares with the error DELTA inputs ago", "statement": "pid_compute_d uses the difference between the current error and the error GEL_PID_DERIVATIVE_DELTA inputs before (or the oldest available one), 0 before the second input, and 0 when the derivative threshold is enabled and exceeded.", "quantifier": "every DELTA, every input history with a fixed set point", "why_tests_cant": "unbounded histories, ring wrap", "anchors": ["gel/pid/pid.c:pid_add_input", "gel/pid/pid.c:pid_compute_d"]}
{"id": "C89", "title": "PID: threshold and auto-clear semantics", "statement": "An error beyond the enabled integral threshold of its sign contributes 0 to the integral; with auto-clear enabled a sign change of the error discards all earlier contributions.", "quantifier": "every history and configuration", "why_tests_cant": "unbounded histories", "anchors": ["gel/pid/pid.c:pid_add_input", "gel/pid/pid.c:pid_clear_integral_history"]}
{"id": "C90", "title": "Watcher: immediate callbacks", "statement": "watcher_process_changes invokes the callback of a watcher without delay exactly once iff its memory differs from the value at the previous processing (or init), in list order, and returns 1 iff some watched memory changed.", "quantifier": "every list, every memory history (callbacks that do not write watched memory)", "why_tests_cant": "unbounded lists and histories", "anchors": ["gel/data_structures/watcher.c:watcher_process_changes", "gel/data_structures/watcher.c:watcher_list_init"]}
{"id": "C91", "title": "Watcher: delayed callbacks wait for stability", "statement": "A delayed watcher's callback fires at the first processing at which the memory is unchanged and at least delay has passed since the last detected change, exactly once per burst of changes.", "quantifier": "every history of values and timestamps (advancing by less than half the range)", "why_tests_cant": "all histories, wrap positions", "anchors": ["gel/data_structures/watcher.c:watcher_process_changes", "gel/timer/timecheck.h:is_loosely_expired"]}
{"id": "C92", "title": "Watcher: check_for_changes is a pure query", "statement": "watcher_check_for_changes returns 1 iff some watched memory differs from its recorded value, without changing anything or calling back.", "quantifier": "every list and memory", "why_tests_cant": "unbounded lists", "anchors": ["gel/data_structures/watcher.c:watcher_check_for_changes"]}
{"id": "C93", "title": "Watcher: clear_changes suppresses pending notifications", "statement": "After watcher_clear_changes no callback fires until watched memory changes again.", "quantifier": "every history, including delayed changes already detected", "why_tests_cant": "depends on pending delayed state", "anchors": ["gel/data_structures/watcher.c:watcher_clear_changes"]}
{"id": "C94", "title": "Watcher: changes made by a callback are noticed", "statement": "If a callback modifies watched memory, that modification is reported by this or a later processing.", "quantifier": "every callback behaviour", "why_tests_cant": "quantifies over callbacks", "anchors": ["gel/data_structures/watcher.c:watcher_process_changes"]}
{"id": "C95", "title": "struct_update: applying an update writes exactly the captured field", "statement": "struct_update_apply writes the bytes captured when the update was created at the field's offset, whatever happened to the source variable since, changes no other byte, is repeatable, and updates of disjoint fields commute.", "quantifier": "every structure content, offset, size and data", "why_tests_cant": "all layouts and contents", "anchors": ["gel/data_structures/struct_update.c:struct_update_from_data", "gel/data_structures/struct_update.c:struct_update_apply", "gel/data_structures/struct_update.c:struct_update_free"]}
{"id": "C96", "title": "maybe: monad laws", "statement": "return/bind/map/with_default of the generated maybe type satisfy the monad and functor laws and is_just distinguishes the two cases.", "quantifier": "every element type, value and function", "why_tests_cant": "quantifies over functions", "anchors": ["gel/data_structures/maybe.h:MAYBE_DEFINITION"]}
{"id": "C97", "title": "State machine: event dispatch", "statement": "name_sm_send_event calls the manager of the current state, moves to the returned state and reports 1 iff the result is non-negative, otherwise keeps the state and reports 0; if managers only return valid states no call through an invalid table slot ever happens.", "quantifier": "every manager table, every event history", "why_tests_cant": "unbounded histories", "anchors": ["gel/state_machine/state_machine.h:DEFINE_STATE_MACHINE"]}
{"id": "C98", "title": "Serializer: PACK/UNPACK macros truncate and read back", "statement": "PACK_UINT16_BE and PACK_UINT8 store the value modulo 2^16 and 2^8 (most significant byte first), touch only their own bytes and return the field size; the matching UNPACK yields that truncated value, for every (also negative) integer expression; UNPACK_UINT8, UNPACK_UINT16_BE and UNPACK_UINT32_BE read 1, 2 and 4 bytes as a big endian number.", "quantifier": "every integer value, every buffer content and position", "why_tests_cant": "quantifies over all values and buffers", "anchors": ["gel/serializer/serializer.h:PACK_UINT16_BE", "gel/serializer/serializer.h:PACK_UINT8", "gel/serializer/serializer.h:UNPACK_UINT16_BE", "gel/serializer/serializer.h:UNPACK_UINT8", "gel/serializer/serializer.h:UNPACK_UINT32_BE"]}
{"id": "C99", "title": "Watcher: trigger_all calls everything once", "statement": "watcher_trigger_all (and watcher_trigger_all_cb) invokes the callback of every watcher of the list exactly once, in list order, with its memory and data pointers, stopping at the terminator; watcher_trigger_cb invokes the callback of the given watcher only.", "quantifier": "every list and memory, whatever the callbacks write", "why_tests_cant": "lists and callbacks are unbounded", "anchors": ["gel/data_structures/watcher.c:56-78"]}
{"id": "C100", "title": "Intrusive list: the current node may be removed while traversing", "statement": "If the body of list_for_each, list_for_each_prev or list_for_each_entry removes the node it is looking at with list_del (without freeing it), every node is still visited exactly once in order and the list is left with exactly the nodes not removed.", "quantifier": "every well-formed list, every choice of removed nodes", "why_tests_cant": "every length and every subset of removed nodes", "anchors": ["gel/collections/listx.h:list_for_each", "gel/collections/listx.h:list_for_each_prev", "gel/collections/listx.h:list_for_each_entry", "gel/collections/listx.h:list_del"]}
{"id": "C101", "title": "PID: the proportional term follows the present error", "statement": "After any calls pid_compute_p is the gain Kp of the last pid_ctrl_tune times the difference between the set point last given and the input last given (0 if none), cut to an integer, whatever the histories, thresholds and clears in between.", "quantifier": "every history of calls without integer overflow, every float gain", "why_tests_cant": "unbounded histories, all float gains", "anchors": ["gel/pid/pid.c:pid_compute_p", "gel/pid/pid.c:pid_current_error"]}
{"id": "C102", "title": "Parameter: conversion to bool", "statement": "parameter_to_bool returns 1 for integer parameters with a non zero value, negative ones included, and 0 for zero or a null handle.", "quantifier": "every integer type and value", "why_tests_cant": "all values of all types", "anchors": ["gel/parameter/parameter.c:parameter_to_bool", "gel/parameter/parameter.c:parameter_to_index"]}
{"id": "C103", "title": "Parameter: PARAMETER_C99 stores the limits given", "statement": "For every integer type the limits, default and step passed to PARAMETER_C99 are stored unchanged when representable in the parameter's type.", "quantifier": "every type and constant", "why_tests_cant": "64-bit constants and negative values", "anchors": ["gel/parameter/parameter.h:PARAMETER_C99"]}
{"id": "C104", "title": "Wear leveling: failing reads and too many blocks are refused", "statement": "If the block read inside wearleveling_write fails, its code is returned, no device write happens and the active block and marker stay; wearleveling_read returns the code of the block read; initialising with 256 blocks or more fails the assertion.", "quantifier": "every device, every error code, every state", "why_tests_cant": "all error codes and device behaviours", "anchors": ["gel/wearleveling/wearleveling.c:wearleveling_write", "gel/wearleveling/wearleveling.c:wearleveling_read", "gel/wearleveling/wearleveling.c:wearleveling_init"]}
{"id": "C105", "title": "PID: the output is the sum of the three terms", "statement": "pid_compute returns the sum of the proportional term of the present error, the integral gain times the sum of the recorded errors and the derivative term, each cut to an integer, when these sums fit an int.", "quantifier": "every history of calls without integer overflow, every history length and every float gain", "why_tests_cant": "unbounded histories, all float gains", "anchors": ["gel/pid/pid.c:pid_compute"]}
{"id": "C106", "title": "PID: every size_t threshold works as a limit", "statement": "With an integral threshold enabled, an error whose magnitude is below the threshold passed to pid_set_integral_low_threshold or pid_set_integral_high_threshold enters the integral.", "quantifier": "every threshold of type size_t and every history of calls", "why_tests_cant": "2^64 thresholds and unbounded histories", "anchors": ["gel/pid/pid.c:pid_add_input", "gel/pid/pid.c:pid_set_integral_low_threshold", "gel/pid/pid.c:pid_set_integral_high_threshold"]}
{"id": "C107", "title": "Parameter: conversion to an index", "statement": "parameter_to_index returns the value of an integer parameter that is not negative, and 0 for floating point parameters and null handles.", "quantifier": "every integer type and non negative value", "why_tests_cant": "all values of all types", "anchors": ["gel/parameter/parameter.c:parameter_to_index"]}
{"id": "C108", "title": "Parameter: stepping floating point parameters", "statement": "parameter_operator on a float or double parameter with finite value and step stores value + step * mod, each operation rounded to nearest even in the type, if that is within the limits, else the lower limit when stepping up and the upper limit when stepping down; for mod other than 0 and ordered limits the result is always within the limits; only the parameter's bytes change.", "quantifier": "every finite value and step, every limits other than NaN, every int mod", "why_tests_cant": "2^64 and more bit patterns", "anchors": ["gel/parameter/parameter.c:parameter_operator", "gel/parameter/parameter.c:APPLY_OPERATOR"]}
{"id": "C109", "title": "Keypad: keys that are not pressed do not interfere", "statement": "In a terminated key table in which every key but one starts idle and has a bitmap that none of the calls passes, the remaining key behaves exactly as in a table of its own: the events are the same, the index reported is that of the key in the table, and the other keys stay idle and keep their bitmap and code.", "quantifier": "for all tables, positions of the key, states of the key, and all sequences of calls (any times, thresholds and bitmaps not belonging to other keys) and resets", "why_tests_cant": "tables, positions and histories are unbounded", "anchors": ["gel/keypad/keypad.c:keypad_routine", "gel/keypad/keypad.c:keypad_reset_keys"]}
{"id": "C110", "title": "Keypad: one key at a time", "statement": "From the press of a key until its release (or a reset of the table) no event of another key is reported; click, repeat, long click and release events are only reported for the key that is pressed and not released.", "quantifier": "for all terminated tables of idle keys (bitmaps may coincide), clocks, and all sequences of calls and resets with arbitrary times, thresholds and bitmaps", "why_tests_cant": "interleavings of several keys over unbounded histories", "anchors": ["gel/keypad/keypad.c:keypad_routine"]}
{"id": "C111", "title": "struct_update: any interleaving of making, applying and freeing updates", "statement": "On any history of making, applying and freeing updates and of writes to the program's variables, wherever malloc places the blocks, the variables hold what they would if every update simply remembered the bytes it was made of; there is exactly one heap block per update not yet freed (nothing leaks), no allowed operation is undefined, and an update just freed can be neither applied nor freed.", "quantifier": "every initial memory, every history of operations, every choice of blocks by malloc", "why_tests_cant": "unbounded histories and allocator behaviours", "anchors": ["gel/data_structures/struct_update.c:struct_update_from_data", "gel/data_structures/struct_update.c:struct_update_apply", "gel/data_structures/struct_update.c:struct_update_free"]}
{"id": "C112", "title": "struct_update: STRUCT_UPDATE_ARRAY captures length elements", "statement": "STRUCT_UPDATE_ARRAY(object, field, array, length) captures exactly length elements of the array, for every expression length.", "quantifier": "every length expression (additive and multiplicative expressions over size_t), element size and array", "why_tests_cant": "all expressions the macro may be given", "anchors": ["gel/data_structures/struct_update.h:37"]}
{"id": "C113", "title": "Watcher: lists made with the macros watch what was asked for", "statement": "A list made with WATCHER, WATCHER_ARRAY, WATCHER_DELAYED, WATCHER_DELAYED_ARRAY and WATCHER_NULL, once initialised, watches all the bytes of each array with the delay given, with and without GEL_WATCHER_REDUCE_RAM_FOOTPRINT.", "quantifier": "every list of requests, memory contents and history of processings", "why_tests_cant": "all sizes, delays and histories", "anchors": ["gel/data_structures/watcher.h:16-30", "gel/data_structures/watcher.c:watcher_process_changes"]}
{"id": "C114", "title": "PID: the output is exact for gains and errors that fit", "statement": "With gains that are exactly P/2^p, I/2^i and D/2^d, pid_compute returns the truncated proportional product plus the truncated integral product plus the truncated derivative product, computed without rounding error, for every error an int can hold; in particular the gains 1, 0, 0 return the error itself.", "quantifier": "All integer numerators and scale exponents, all histories of calls.", "why_tests_cant": "Float has 24 bits of precision; tests with small numbers never see the rounding at 2^24 or the undefined conversion near INT_MAX.", "anchors": ["gel/pid/pid.c:73-127"]}
{"id": "C115", "title": "Parameters: floating point values without rounding step like integers", "statement": "If value, step and limits of a float or double parameter are multiples of a power of two and products and sums fit the mantissa, parameter_operator stores exactly value + mod * step when that lies within the limits, the minimum when it does not and mod is positive, the maximum when mod is negative.", "quantifier": "All float and double parameters, exponents, values and mods meeting the precision bounds.", "why_tests_cant": "There are 2^32 floats and 2^64 doubles per operand, subnormal ones included; exactness depends on alignment of exponents.", "anchors": ["gel/parameter/parameter.c:44-57", "gel/parameter/parameter.c:298-347"]}
{"id": "C116", "title": "Parameters: operations in a row add up", "statement": "n calls of parameter_operator with d steps each leave the same value as a single call with n * d steps, as long as start and end are within the limits.", "quantifier": "All parameter types, numbers of calls n, steps d, values and limits.", "why_tests_cant": "The number of calls is unbounded, and for floating point the accumulated error depends on the step; a test with a step of 0.25 passes while 0.1 fails.", "anchors": ["gel/parameter/parameter.c:44-57", "gel/parameter/parameter.c:298-347"]}
{"id": "C117", "title": "Parameters: string conversion prints the value", "statement": "parameter_to_string_format hands sprintf exactly the value of the parameter: every integer, negative ones included, as its promoted type, every float converted to a double of the same value; a null handle prints nothing.", "quantifier": "All types, values, memories, buffers and formats (sprintf is an arbitrary function of its argument).", "why_tests_cant": "All values of ten types; the other conversions of the same file (to_long, to_index) read int8_t with the wrong sign.", "anchors": ["gel/parameter/parameter.c:234-279"]}
{"id": "C118", "title": "Parameters: number of values of a floating point range", "statement": "For float and double limits that are multiples of a power of two not above 1, parameter_get_total_values returns the integer part of the difference of the limits plus one.", "quantifier": "All limits, static or dynamic, whose difference fits the mantissa.", "why_tests_cant": "The limits range over 2^64 doubles; the result goes through two roundings and a conversion.", "anchors": ["gel/parameter/parameter.c:60-65", "gel/parameter/parameter.c:500-549"]}
{"id": "C119", "title": "PID: the output grows with the error", "statement": "With the same non-negative gains, if the error, the accumulated sum and the error difference of one controller are each at most those of another, its pid_compute is at most the other's, in spite of all float rounding.", "quantifier": "All pairs of histories of inputs, setpoints and settings, all non-negative finite gains.", "why_tests_cant": "A property of pairs of executions and of rounding at every point of the float range; a test compares a few values.", "anchors": ["gel/pid/pid.c:73-127"]}
{"id": "C120", "title": "PID: the output is accurate up to float rounding", "statement": "With gains P/2^q, I/2^q and K/2^q, pid_compute differs from the exact P*error + I*sum + K*difference over 2^q by at most 3 (truncation of three terms) plus 3/2^24 of the size of the products, whenever it is defined.", "quantifier": "All histories, all finite float gains with a common scale q.", "why_tests_cant": "The error bound holds over 2^32 gains times 2^32 errors per term; the worst case lies at particular mantissas.", "anchors": ["gel/pid/pid.c:73-127"]}
{"id": "C121", "title": "Circular buffer: bulk calls of two threads keep the stream intact", "statement": "A producer calling circular_buf_putc and circular_buf_puts (of no more than the room there is) and a consumer calling circular_buf_getc, gets, peek and drop (of no more than the capacity) exchange one stream: puts stores everything and returns its length, putc fails only if the buffer was full when it was called, every read returns the next elements of the stream, at least as many of those asked for as were there when it was called, and no element is lost, duplicated or overwritten.", "quantifier": "All interleavings of single loads and stores of the two threads, all region sizes up to INT_MAX, unbounded call histories.", "why_tests_cant": "The number of interleavings is exponential in the number of memory accesses; the wrap-around of a bulk copy meets the other thread's pointer update only in rare schedules.", "anchors": ["gel/collections/circular_buffer.c:13-64", "gel/collections/circular_buffer.c:107-124", "gel/collections/circular_buffer.c:138-212"]}
{"id": "C122", "title": "Circular buffer: bulk copies never race", "statement": "Under the conditions of the previous property the producer never stores to the cell the consumer is about to load.", "quantifier": "All interleavings, region sizes and call histories.", "why_tests_cant": "Data races depend on timing that a test does not control.", "anchors": ["gel/collections/circular_buffer.c:31-64", "gel/collections/circular_buffer.c:138-200"]}
{"id": "C123", "title": "Circular buffer: calls are wait-free", "statement": "Under the same conditions every putc or puts of n elements returns after at most 9 n + 4 of its own memory accesses, and every read after at most 6 n + 7, whatever the other thread does meanwhile.", "quantifier": "All interleavings, region sizes, lengths and call histories.", "why_tests_cant": "A test can only observe that some call returned in some schedule; see C07 for a schedule in which puts of more than fits spins for ever.", "anchors": ["gel/collections/circular_buffer.c:31-64", "gel/collections/circular_buffer.c:138-212"]}
{"id": "C124", "title": "Circular buffer: an uninterrupted call of a thread is the sequential call", "statement": "If no access of the other thread falls between the first and the last access of a putc, puts, getc, gets, peek or drop, the call leaves the buffer and returns the result that the sequential description (C01-C05) gives it, defects included.", "quantifier": "All buffer states (consistent or not), calls and arguments for which the sequential call is defined.", "why_tests_cant": "Compares two descriptions of the code, one by whole calls and one by single memory accesses, in every state.", "anchors": ["gel/collections/circular_buffer.c:13-64", "gel/collections/circular_buffer.c:107-124", "gel/collections/circular_buffer.c:138-212"]}
{"id": "C125", "title": "CRC-32: errors of few bits are detected", "statement": "Two messages of the same length that differ in at least one bit have different CRC-32 values if they differ in at most 3 bits, all within 91639 consecutive bit positions, or at most 4 within 3006, 5 within 300, 6 within 203 or 7 within 123. None of these lengths can be increased by one.", "quantifier": "All messages of any length, all positions of the differing bits, all initial values.", "why_tests_cant": "There are some 10^14 error patterns of three bits in the window alone, times all messages, positions and initial values.", "anchors": ["gel/crc/crc32.c:crc32", "gel/crc/crc32.c:crc32_table"]}
{"id": "C126", "title": "CRC-16: errors of up to three bits are detected", "statement": "Two messages of the same length that differ in 1 to 3 bits, all within 32767 consecutive bit positions, have different CRC-16 values; there are messages that differ in 4 bits within 17 positions and have the same value for every initial value.", "quantifier": "All messages of any length, all positions of the differing bits, all initial values.", "why_tests_cant": "As for CRC-32: the error patterns are too many to enumerate against every message.", "anchors": ["gel/crc/crc16-ccitt.c:crc16_ccitt", "gel/crc/crc16-ccitt.c:crc16_ccitt_table"]}
{"id": "C127", "title": "Circular buffer: exact behaviour of every history", "statement": "Every history of putc, puts, getc, gets, peek, drop, size, is_empty, is_full, capacity and reset calls returns exactly what a ring of n cells returns in which one cell is always unused: as the bounded FIFO, except that on a full buffer size counts and bulk reads also deliver the unused cell, reading all n cells removes nothing, and a puts of exactly one element more than fits, on a buffer that is not full and whose oldest element is at position 2 or later, overwrites the unused cell, reports success and leaves the buffer empty.", "quantifier": "All region sizes 1..INT_MAX, initial contents and legal call histories, the calls excluded in C02-C04 and everything after them included.", "why_tests_cant": "The defective calls change which stale elements later calls deliver; the combinations are unbounded.", "anchors": ["gel/collections/circular_buffer.c:13-64", "gel/collections/circular_buffer.c:81-131", "gel/collections/circular_buffer.c:138-212"]}
{"id": "C128", "title": "Debounce: exact behaviour of any mixture of calls and arguments", "statement": "After debounce_filter_init and debounce_filter_set with a word, in every history of debounce_filter, debounce_filter_single and debounce_filter_set calls, each with its own debounce argument, no call leaves the filter memory and each input behaves as this automaton. A sample equal to the reading ends the counting. A contrary sample when nothing is being counted starts the count with the argument of that call (as an unsigned number, so a negative argument is a very long one) and a contrary sample while counting lowers the count by one, whatever its argument; when the count is 0 the reading changes. debounce_filter_set changes the reading and leaves the count. debounce_read and debounce_value report the readings, and every filter call returns exactly the set of inputs whose reading it changed.", "quantifier": "for every word width, every initial memory and word, every history of calls with legal inputs and every integer debounce argument in each call", "why_tests_cant": "The state of 32 independent counters under calls with changing arguments and forced values has far too many combinations to sample; the theorem gives the exact result of each of them.", "anchors": ["gel/debounce/debounce.c:debounce_filter", "gel/debounce/debounce.c:debounce_filter_single", "gel/debounce/debounce.c:debounce_filter_set", "gel/debounce/debounce.c:debounce_filter_init", "gel/debounce/debounce.h:debounce_read"]}
{"id": "C129", "title": "Pulse counter: exact behaviour from any memory with any arguments", "statement": "pulse_filter_init in any memory followed by any history of pulse_filter (each call with its own debounce argument) and pulse_clear calls never leaves the structure. Each input is debounced by the automaton of the debounce filter, started from the initial level with whatever its filter cell held before initialisation, and pulse_count is the number of counted transitions (high to low for COUNT_HIGH_PULSE, low to high for COUNT_LOW_PULSE) since the last clear, as an int. A pulse_filter call returns 1 exactly if some input counts a pulse in it.", "quantifier": "for every word width, every memory content, initial word and pulse type, every history of calls and every integer argument", "why_tests_cant": "The effect of 32 stale counters and of changing arguments over unboundedly many calls cannot be enumerated.", "anchors": ["gel/debounce/pulsecounter.c:pulse_filter_init", "gel/debounce/pulsecounter.c:pulse_filter", "gel/debounce/pulsecounter.c:pulse_level", "gel/debounce/pulsecounter.h:pulse_count", "gel/debounce/pulsecounter.h:pulse_clear"]}
{"id": "C130", "title": "Keypad: exact behaviour of a whole table", "statement": "On a terminated table of idle keys, with fixed thresholds, every history of keypad_routine calls with any bitmaps and of keypad_reset_keys behaves as this automaton. At any time at most one key is current. If there is none, a call concerns the last key with the bitmap of the call, which becomes current with KEY_PRESS; a call with the bitmap of no key reports nothing. While a key is current every call concerns it and no other, being down exactly if the bitmap is its own, and it goes through the phases of a single key (press, click, repeats, long click, release) until its KEY_RELEASE. Every call reports the code of the key concerned. keypad_get_key_state of the current key is whether it is down; a key listed before it shows 1 as soon as its bitmap is passed and keeps showing 1 until it has been pressed and released itself or reset; keys listed after the current one are not looked at.", "quantifier": "for all tables (equal bit maps allowed), codes, thresholds with click <= longclick below half the clock range, all bitmaps, and all histories in which the clock never goes back and never advances too far between two calls", "why_tests_cant": "The interplay of several keys, of their times and of the wrapping clock over unboundedly many calls cannot be enumerated.", "anchors": ["gel/keypad/keypad.c:keypad_routine", "gel/keypad/keypad.c:keypad_reset_keys", "gel/keypad/keypad.c:keypad_get_key_state"]}
{"id": "C131", "title": "Scheduler: exact selection for all values", "statement": "scheduler_get_active_entry_number looks only at the enabled active entries with the smallest weekly timespan. In table order each of them replaces the one selected so far if its value exceeds the low byte of that one's value (300 counts as 44, -1 as 255); the last one selected is returned, -1 if there is none.", "quantifier": "for all tables of up to INT_MAX entries with any values, days and times", "why_tests_cant": "C34 is false for values outside 0..255; which entry wins then depends on the order and the low bytes of all tied values, far too many combinations to test.", "anchors": ["gel/scheduler/scheduler.c:scheduler_get_active_entry_number", "gel/scheduler/scheduler.c:is_entry_active", "gel/scheduler/scheduler.c:total_week_timespan"]}
{"id": "C132", "title": "Wear leveled memory: exact behaviour from any device contents", "statement": "Initialisation takes as active the last block of the first run of consecutive markers (modulo 256); if the run covers all blocks, block 0 with the marker of the last block. A write of data equal to those of the active block returns 0 and changes nothing. Any other write goes to the block after the active one, modulo the number of blocks, with the marker after the last one, modulo 256, and makes that block active; if the device refuses it, only the active block and the marker in memory move on and the error is returned. An interrupted write leaves the torn data in that block with its old marker. The read returns the data of the active block, hence always data that were in a block at first, or of some write, or left by an interrupted one.", "quantifier": "for all numbers of blocks below 256 and block sizes, all initial markers and data, and all histories of writes, refused writes, restarts and interrupted writes", "why_tests_cant": "The content of up to 255 blocks and wrapping markers over unboundedly many operations has too many combinations; C42, C43 and C45 are false and this says exactly what happens instead.", "anchors": ["gel/wearleveling/wearleveling.c:wearleveling_init", "gel/wearleveling/wearleveling.c:wearleveling_write", "gel/wearleveling/wearleveling.c:wearleveling_read"]}
{"id": "C133", "title": "Wear leveled memory: after a fall-back single writes are never persistent", "statement": "After a restart that happened while the last block was active (which falls back to the data of block 0), sessions that each write once and restart all end up with the same old data: whatever was written is lost at every restart, for ever.", "quantifier": "for every number of blocks from 2 to 255, every block size, every history before the fall-back and every number of later sessions with any data", "why_tests_cant": "That data are lost in every later session, however many there are, cannot be observed by a finite number of tests.", "anchors": ["gel/wearleveling/wearleveling.c:wearleveling_init", "gel/wearleveling/wearleveling.c:wearleveling_write"]}
{"id": "C134", "title": "Page manager: exact behaviour of every history in both builds", "statement": "After pman_init on any memory, every history of pman_change_page, pman_back, pman_swap_page, pman_rebase_page, pman_reset_to_page, pman_page_update and pman_process_page_event (with or without extra argument) makes exactly the callback calls, with the arguments, order and results, of this machine: a page in front (at first whatever the memory holds), a pile of pages and a flag, at first down. A change with the flag up closes the front page, puts it on the pile (abort if full; with NDEBUG not at all) and shows the new page; with the flag down it just replaces the front page and raises the flag. Swap and rebase close and destroy the front page (rebase also destroys the pile) and leave the flag as it is. A reset closes and destroys the front page, destroys pages of the pile up to the wanted one and brings that back with the flag up; if there is none, the flag goes down and the destroyed page stays in front. Back does nothing if the pile is empty. Back, update and event abort with the flag down unless compiled with NDEBUG. Uninitialised memory is used exactly if a swap, rebase or reset (with NDEBUG also an update or event) precedes the first page.", "quantifier": "for all memories, depths up to 65535, pages, callback results, both builds and all call histories", "why_tests_cant": "C71 to C74 are false; what happens instead depends on unboundedly long histories with arbitrary callbacks, which tests only sample.", "anchors": ["gel/pagemanager/page_manager.c:pman_init", "gel/pagemanager/page_manager.c:pman_change_page_extra", "gel/pagemanager/page_manager.c:pman_back", "gel/pagemanager/page_manager.c:pman_swap_page_extra", "gel/pagemanager/page_manager.c:pman_rebase_page_extra", "gel/pagemanager/page_manager.c:pman_reset_to_page", "gel/pagemanager/page_manager.c:clear_page_stack", "gel/pagemanager/page_manager.c:pman_page_update", "gel/pagemanager/page_manager.c:pman_process_page_event"]}
{"id": "C135", "title": "Page manager compiled with NDEBUG: no navigation history", "statement": "With NDEBUG no page is ever on the navigation stack. pman_back never calls anything nor changes anything, pman_reset_to_page never finds a page, and as long as only change, back, update and event are used no page is ever destroyed.", "quantifier": "for all memories, depths, pages, callback results and call histories", "why_tests_cant": "That no history whatever restores a page or frees one cannot be shown by running some of them.", "anchors": ["gel/pagemanager/page_manager.c:pman_change_page_extra", "gel/pagemanager/page_manager.c:pman_back", "gel/pagemanager/page_manager.c:pman_reset_to_page"]}
{"id": "C136", "title": "Page manager: pages shown before the first change are dropped", "statement": "After pman_init, however often pages are shown with pman_swap_page or pman_rebase_page and reset, the manager stays uninitialised until the first pman_change_page. That change calls only the create, open and update callbacks of the new page: the page shown before is neither closed nor destroyed nor stacked.", "quantifier": "for all memories, depths, pages, callback results, both builds and all histories without change", "why_tests_cant": "The claim is about every history of other calls before the first change.", "anchors": ["gel/pagemanager/page_manager.c:pman_change_page_extra", "gel/pagemanager/page_manager.c:pman_swap_page_extra", "gel/pagemanager/page_manager.c:pman_rebase_page_extra"]}
{"id": "C137", "title": "Timer: callbacks that use their own timer", "statement": "If the callback of a timer itself stops, resumes, pauses or resets the timer, changes its period or its autoreload, or queries it, any number of times and with any timestamps, then after the poll that called it the timer runs from the time of the poll if the autoreload left by the callback is not 0 and is stopped otherwise; its period is the last one the callback set while the timer was not stopped, if any. Everything else the callback did to its timer is without effect. In all other respects every history of calls reports what a true-time timer reports.", "quantifier": "for every clock width, period, start time, callback script (depending on the user pointer) and every history of calls within the limits of the wrapping clock", "why_tests_cant": "Arbitrary sequences of calls inside the callback, repeated over unboundedly many polls, cannot be enumerated.", "anchors": ["gel/timer/timer.c:gel_timer_manage_callback", "gel/timer/timer.c:gel_timer_set_autoreload", "gel/timer/timer.c:gel_timer_change_period", "gel/timer/timer.c:gel_timer_stop", "gel/timer/timer.c:gel_timer_resume"]}
{"id": "C138", "title": "Event log: exactly which loads go wrong", "statement": "After any sequence of successful and failed saves, load_last_events(number, jump) delivers what C47 says for every number and jump unless jump is at most the number of events in the log and jump + number is at least 2^64; in exactly these cases it asks the storage for events outside the log, which is undefined for a storage of max_events slots.", "quantifier": "for every log size up to INT_MAX, event size, history of saves, buffer with room for the events, and all 64 bit numbers and jumps", "why_tests_cant": "The 2^128 arguments times all histories cannot be enumerated, and the dividing line is at sums around 2^64.", "anchors": ["gel/circular_event_log/circular_event_log.c:circular_event_log_load_last_events", "gel/circular_event_log/circular_event_log.c:nth_last_event"]}
{"id": "C139", "title": "Watcher: exact behaviour with callbacks that write the memory", "statement": "After the initialisation, for every sequence of watcher_process_changes, watcher_clear_changes, watcher_check_for_changes, watcher_trigger_all and watcher_trigger_cb, with any change of the memory in between and callbacks that write any of it: each function leaves the memory, makes the calls (each with the bytes seen at that moment) and returns the value that this machine gives. Every watcher remembers some bytes, and the time of a change it noticed but did not report. Processing goes through the list, each watcher seeing the memory as the callbacks before left it. Other bytes than the remembered ones: a watcher with a delay remembers them and the time; one without is called and remembers the bytes as the callback left them. The same bytes and a change noticed at least the delay ago: called, and the change is reported, but the remembered bytes stay, so that a write of the callback to them is noticed by the next processing. Clearing makes a watcher remember the bytes and drop the noticed change only if the bytes differ from those remembered; otherwise a noticed change will still be reported.", "quantifier": "for every list of watchers, memory, callbacks, sequence of calls, and times (that do not go back and advance by less than half the clock range, when there are delays)", "why_tests_cant": "Callbacks are arbitrary memory transformers that interact through overlapping watched ranges over unboundedly many calls.", "anchors": ["gel/data_structures/watcher.c:watcher_process_changes", "gel/data_structures/watcher.c:watcher_clear_changes", "gel/data_structures/watcher.c:watcher_check_for_changes", "gel/data_structures/watcher.c:watcher_trigger_all", "gel/data_structures/watcher.c:watcher_trigger_cb", "gel/data_structures/watcher.c:watcher_list_init"]}
{"id": "C140", "title": "Event log: storages that deliver less than requested", "statement": "If the storage delivers only the first k of the events a load_events call asks for, and returns k, then the result r of circular_event_log_load_last_events is the number of events it put at the beginning of the buffer, and these are the r oldest events of the window of C47.", "quantifier": "for all log sizes, event sizes, histories of saves, numbers and jumps whose sum is below 2^64, and all numbers of events the reads deliver", "why_tests_cant": "Log position, window and both delivered counts combine; the error needs a window across the end of the array and a partial first read.", "anchors": ["gel/circular_event_log/circular_event_log.c:circular_event_log_load_last_events"]}
{"id": "C141", "title": "Exactly what stepping an integer parameter stores, overflow included", "statement": "For an integer parameter with limits lo and hi, value v and step s, parameter_operator(p, mod) stores the number n of the parameter's type that is congruent to v + s*mod if lo <= n <= hi; otherwise lo if mod > 0, hi if mod < 0, and n if mod = 0. It returns 0 and changes no other byte. It is undefined exactly when s*mod or v + s*mod leaves the type the expression is computed in: int for the types of up to 16 bits and int32_t, int64_t for int64_t; uint32_t and uint64_t are computed modulo 2^32 and 2^64 and never undefined.", "quantifier": "all integer types, limits (lo > hi included), values, steps and numbers of steps", "why_tests_cant": "The wrong results need sums outside the type, which are a tiny fraction of the 2^128 combinations and differ for each type.", "anchors": ["gel/parameter/parameter.c:APPLY_OPERATOR", "gel/parameter/parameter.c:parameter_operator"]}
{"id": "C142", "title": "Exactly what totals and conversions of integer parameters give", "statement": "parameter_get_total_values of an integer parameter with limits lo and hi is hi - lo + 1 modulo 2^32 for uint32_t and modulo 2^64 for the others, and undefined exactly when hi - lo or hi - lo + 1 leaves int (for the types of up to 16 bits and int32_t) or int64_t (for int64_t). parameter_to_long is the value converted to a 64 bit signed number, and parameter_to_index the value converted to a 64 bit unsigned one, except that int8_t is read as uint8_t in both.", "quantifier": "all integer types, values and limits (lo > hi included)", "why_tests_cant": "The exceptional values are at the ends of 32 and 64 bit ranges.", "anchors": ["gel/parameter/parameter.c:parameter_get_total_values", "gel/parameter/parameter.c:parameter_to_long", "gel/parameter/parameter.c:parameter_to_index"]}
{"id": "C143", "title": "Exactly which constants the parameter macros store", "statement": "In a parameter made with PARAMETER_FULL (and the macros built on it) from integer constants, the minimum, maximum, default and step are the constants converted to the type, for types of up to 32 bits; for 64 bit types they are the constants modulo 2^32. With PARAMETER_C99 they are the constants converted to the type, for all types.", "quantifier": "all integer types and all integer constants", "why_tests_cant": "The macros lose bits only for 64 bit types with negative or large constants.", "anchors": ["gel/parameter/parameter.h:PARAMETER_FULL", "gel/parameter/parameter.h:PARAMETER_C99", "gel/parameter/parameter.h:LIMIT_VALUE_OPTION"]}
{"id": "C144", "title": "Wear leveling: exactly what initialisation finds, whatever reading the markers returns", "statement": "Let code(i) be what read_marker returns for block i and marker(i) what it stores. If code(0) is not 0 the active block is code(0) converted to size_t. Otherwise let blocks 0..k be the longest run of readable blocks whose markers follow each other modulo 256, the marker of which is kept: the active block is 0 if the run reaches the end of the page, code(k+1) converted to size_t if that block is unreadable, and k otherwise. Initialisation always comes to one of these.", "quantifier": "all devices, numbers of blocks 0..255, return codes and markers", "why_tests_cant": "Error codes and marker sequences are unbounded; the code of an error silently becomes a block number.", "anchors": ["gel/wearleveling/wearleveling.c:wearleveling_init", "gel/wearleveling/wearleveling.c:search_last"]}
{"id": "C145", "title": "Parameter: exactly what the range check does with NaN", "statement": "parameter_check_ranges keeps a float or double parameter byte for byte if its value is neither above the upper nor below the lower limit in the IEEE order, where NaN is neither (NaN as value passes, NaN as limit limits nothing), and replaces it by the default otherwise; the result counts the replaced parameters, together with the integer ones out of range.", "quantifier": "all tables of parameters with storage of their own, all values, limits and defaults, NaN and infinities included", "why_tests_cant": "Comparisons with NaN are easily overlooked and there are 2^24 of them in a float.", "anchors": ["gel/parameter/parameter.c:CHECK_RANGE", "gel/parameter/parameter.c:parameter_check_ranges"]}
{"id": "C146", "title": "PID: exactly how a size_t threshold acts", "statement": "An enabled integral threshold of any size acts as the int that it becomes by reduction modulo 2^32: an error enters the integral if its magnitude is below that int, otherwise 0 does. A history of calls is indistinguishable from the one in which all thresholds are replaced by these ints.", "quantifier": "all thresholds and all histories of calls without overflow of the errors and their sum", "why_tests_cant": "Needs thresholds beyond INT_MAX.", "anchors": ["gel/pid/pid.c:pid_add_input", "gel/pid/pid.c:pid_set_integral_low_threshold", "gel/pid/pid.c:pid_set_integral_high_threshold"]}
{"id": "C147", "title": "Scheduler: entries stay active during leap seconds", "statement": "An enabled entry that is active at 23:59:59 and ends after midnight is also active at 23:59:60, which <time.h> allows; leap seconds at other times of day count as the first second of the next minute.", "quantifier": "all tables and entries, all weekdays", "why_tests_cant": "Leap seconds come about once in two years, if ever.", "anchors": ["gel/scheduler/scheduler.c:is_entry_active"]}
{"id": "C148", "title": "Circular buffer is a FIFO on cores with store buffers", "statement": "One core calls circular_buf_putc, another circular_buf_getc, without any barrier. If each core's stores reach the memory after an arbitrary delay but in program order (x86-TSO) - or even with cell stores overtaking, as long as an index store waits for the stores before it - then the values delivered by getc are exactly a prefix of the values accepted by putc, at most n-1 are under way, no access leaves the region, the cell getc loads never has a pending store, and once everything has drained the memory is an ordinary buffer holding the values under way.", "quantifier": "all regions of 1 to 2^64-1 cells (to INT_MAX for the drained buffer), all values, all schedules of the two cores' loads and stores and of the moments at which pending stores reach the memory", "why_tests_cant": "The failing interleavings of a store-buffer machine depend on cache and bus timing and cannot be provoked deliberately; the number of schedules is unbounded", "anchors": ["gel/collections/circular_buffer.c:circular_buf_putc", "gel/collections/circular_buffer.c:circular_buf_getc", "gel/collections/circular_buffer.c:advance_pointer", "gel/collections/circular_buffer.c:retreat_pointer"]}
{"id": "C149", "title": "Answers of the circular buffer on cores with store buffers are sequential", "statement": "On two cores whose stores are delayed but performed in program order, the results of all putc and getc calls, including the failures, are those of some sequential order of the calls on a FIFO of capacity n-1.", "quantifier": "all regions, all values, all schedules of loads, stores and drains", "why_tests_cant": "Needs both cores to run ahead of their own pending stores at the same time, a window of nanoseconds", "anchors": ["gel/collections/circular_buffer.c:circular_buf_putc", "gel/collections/circular_buffer.c:circular_buf_getc", "gel/collections/circular_buffer.c:is_circular_buf_full", "gel/collections/circular_buffer.c:is_circular_buf_empty"]}
{"id": "C150", "title": "Circular buffer needs no barriers on weakly ordered cores", "statement": "On two cores whose stores to different locations may reach the memory in any order (ARM, RISC-V), the values delivered by getc are a prefix of the values accepted by putc.", "quantifier": "all regions, all values, all schedules of loads, stores and drains", "why_tests_cant": "Store reordering depends on the core and on timing; a test on a development PC (x86) never shows it", "anchors": ["gel/collections/circular_buffer.c:circular_buf_putc", "gel/collections/circular_buffer.c:advance_pointer", "gel/collections/circular_buffer.h:circular_buf_t"]}
{"id": "C151", "title": "Page manager: event handlers and update callbacks may navigate", "statement": "If only process_event and update callbacks (in builds without GEL_PAGEMANAGER_UPDATE_CALLBACK also open callbacks) call page manager functions, then a run that finishes leaves the manager and the sequence of callback calls exactly as if the application itself had made all the calls, nested ones included, one after the other in the order in which they were started.", "quantifier": "all programs (what the application and each callback call next, depending on everything so far), nesting depths, page definitions, callback results, both builds, initial memory", "why_tests_cant": "Programs nest calls to any depth and choose them from what happened before; tests cover a few fixed ones", "anchors": ["gel/pagemanager/page_manager.c:pman_process_page_event", "gel/pagemanager/page_manager.c:pman_page_update", "gel/pagemanager/page_manager.c:pman_change_page_extra", "gel/pagemanager/page_manager.c:pman_reset_to_page"]}
{"id": "C152", "title": "Page manager: callbacks may navigate", "statement": "Whatever page manager functions the page callbacks call (swap, rebase and reset only while a page is shown), a run keeps the page lifecycle: every page brought by a call is created once, opened and closed alternately, destroyed at most once after being closed, only the current page is in view, updated or gets events, the pages alive are those on the stack; nothing is undefined and the calls return.", "quantifier": "all programs (what the application and each callback call next), nesting depths, page definitions, callback results, initial memory", "why_tests_cant": "The failing programs nest a particular call inside a particular callback; the property quantifies over all programs", "anchors": ["gel/pagemanager/page_manager.c:pman_swap_page_extra", "gel/pagemanager/page_manager.c:pman_change_page_extra", "gel/pagemanager/page_manager.c:pman_back", "gel/pagemanager/page_manager.c:pman_reset_to_page", "gel/pagemanager/page_manager.c:clear_page_stack"]}
{"id": "C153", "title": "Circular buffer: bulk calls work on cores with store buffers", "statement": "A producer core calling circular_buf_putc and circular_buf_puts (of no more elements than the room it sees) and a consumer core calling circular_buf_getc, circular_buf_gets, circular_buf_peek and circular_buf_drop (of no more than the capacity), on hardware where a store of a core reaches memory late, in an order that lets no head or tail overtake what the core stored before it: the consumer is given consecutive parts of the stream of elements the producer handed over, none lost, repeated, invented or torn; puts stores everything it was given; putc fails only if the buffer is full as far as the tail in memory tells; a read returns at least the elements whose head had arrived in memory when it was called; no cell is loaded while a store to it is pending; no access leaves the region; each call takes a number of steps bounded by its length; and once all stores have arrived the memory is an ordinary buffer with the elements sent and not taken.", "quantifier": "for all element types, region sizes from 1 to INT_MAX, all sequences of such calls by both cores, all interleavings of their memory accesses and all times at which each pending store arrives", "why_tests_cant": "Store buffers delay stores by unpredictable times; a test machine exhibits few of the orders, and a chunk copied by memcpy leaves many pending stores whose arrival can interleave with the other core in exponentially many ways.", "anchors": ["gel/collections/circular_buffer.c:circular_buf_puts", "gel/collections/circular_buffer.c:_circular_buf_get", "gel/collections/circular_buffer.c:circular_buf_gets", "gel/collections/circular_buffer.c:circular_buf_peek", "gel/collections/circular_buffer.c:circular_buf_drop", "gel/collections/circular_buffer.c:circular_buf_putc", "gel/collections/circular_buffer.c:circular_buf_getc"]}
{"id": "C154", "title": "Circular buffer: bulk calls on cores with store buffers count all finished calls of the other core", "statement": "With one producer core and one consumer core whose stores are delayed, a circular_buf_gets called after a circular_buf_puts has returned gets the elements of that puts (as far as they were asked for), and a circular_buf_putc called after a gets has returned finds the room that it made.", "quantifier": "for all region sizes, calls, interleavings and delays of the stores", "why_tests_cant": "The stores of a returned call are usually, but not always, visible at once; the delay cannot be forced from a test.", "anchors": ["gel/collections/circular_buffer.c:circular_buf_puts", "gel/collections/circular_buffer.c:circular_buf_gets", "gel/collections/circular_buffer.c:is_circular_buf_full"]}
{"id": "C155", "title": "Circular buffer: putc and getc with a load barrier work on cores that load early", "statement": "One producer core calls circular_buf_putc and one consumer core circular_buf_getc, on hardware where stores reach memory late (no head or tail before what the core stored ahead of it) and loads may be performed early, giving what the location held at an earlier moment but nothing older than an earlier load of it by the same core gave. If a getc loads its cell no earlier than the head it tested, the delivered values are always a prefix of the accepted ones, in order, at most capacity values are under way, and no access leaves the region; the cell does not change between the two loads.", "quantifier": "for all element types, region sizes, sequences of calls, interleavings, times at which pending stores arrive and moments at which loads are performed", "why_tests_cant": "Speculative loads depend on the core's pipeline and caches; a test machine shows few of the possible moments and no test can force them", "anchors": ["gel/collections/circular_buffer.c:circular_buf_putc", "gel/collections/circular_buffer.c:circular_buf_getc", "gel/collections/circular_buffer.c:is_circular_buf_empty", "gel/collections/circular_buffer.c:is_circular_buf_full"]}
{"id": "C156", "title": "Circular buffer: putc and getc work on cores that load early", "statement": "One producer core calls circular_buf_putc and one consumer core circular_buf_getc, on hardware that performs loads early (coherently, per location) even if stores reach memory in program order: the delivered values are a prefix of the accepted ones.", "quantifier": "for all element types, region sizes, sequences of calls, interleavings, times at which pending stores arrive and moments at which loads are performed", "why_tests_cant": "The failure needs a cell loaded before the head that is tested first in the program, which depends on the core's speculation", "anchors": ["gel/collections/circular_buffer.c:circular_buf_getc", "gel/collections/circular_buffer.c:is_circular_buf_empty", "gel/collections/circular_buffer.h:circular_buf_t"]}
{"id": "C157", "title": "State machine: managers may send events to their own machine", "statement": "If event managers call name_sm_send_event on the same machine while they handle an event, at any depth, then every event is handled by the manager of the state the machine is in at that moment (that of the sender, unless events sent earlier have moved it), the final state is the result of the manager that returned last with a non-negative result, and each call answers 1 iff its own manager returned one. If managers return only states of the table and send only events of lower rank than the one they handle, every call returns, no slot outside the table is called, and the final state is in the table.", "quantifier": "all managers (what they send and return depending on the model and on the answers), nesting depths, models, events, start states", "why_tests_cant": "Managers can nest any number of calls and decide on what they find; tests cover a few nestings", "anchors": ["gel/state_machine/state_machine.h:DEFINE_STATE_MACHINE"]}
{"id": "C158", "title": "State machine: the transition of a nested event takes effect", "statement": "A state that the machine reports to have entered (answer 1) is not left without an event having been sent in it, even if events are sent by managers.", "quantifier": "all managers, nesting depths, models, events, start states", "why_tests_cant": "It fails only for managers that send an event and return a state themselves; the answer of the nested call is right at the time", "anchors": ["gel/state_machine/state_machine.h:DEFINE_STATE_MACHINE"]}
{"id": "C159", "title": "Watcher: callbacks that process their own list report every change once", "statement": "If callbacks of delayed watchers call watcher_process_changes on their own list again, with the same timestamp and without writing the memory, the calls that are made, their order and the list afterwards are those of a processing whose callbacks do nothing: every change is reported once. If they process it with any timestamps, and callbacks clear and check the list too, still no watcher is called twice in one processing, nested ones included, and callbacks are nested at most as deep as there are watchers. Callbacks that only write the memory behave as in the model of the other watcher properties. A callback may also process, clear, check and trigger its list in any order while the callbacks called by that only write the memory: every such call acts as if made by the program.", "quantifier": "all lists of watchers, memories, timestamps, and callbacks (what they do depending on what they find)", "why_tests_cant": "Nested processings meet the list half way through the outer loop; tests cover a few lists", "anchors": ["gel/data_structures/watcher.c:watcher_process_changes"]}
{"id": "C160", "title": "Watcher: watcher_process_changes may be called from any callback", "statement": "A callback may call watcher_process_changes on its own list: the outer call returns.", "quantifier": "all lists of watchers, memories, timestamps, and callbacks", "why_tests_cant": "The failure is an endless recursion of immediate watchers only", "anchors": ["gel/data_structures/watcher.c:watcher_process_changes"]}
{"id": "C161", "title": "Watcher: the result tells of a change, also when callbacks process the list", "statement": "watcher_process_changes returns 1 iff some watched memory differed from the remembered bytes when it was called, also if callbacks process the list.", "quantifier": "all lists of watchers, memories, timestamps, and callbacks that do not write the memory", "why_tests_cant": "Needs a nested processing that reports a change of a watcher further down the list", "anchors": ["gel/data_structures/watcher.c:watcher_process_changes"]}
{"id": "C162", "title": "Timer: callbacks may manage timers if they stop their own first", "statement": "With any number of timers whose callbacks first stop their own timer and then call gel_timer_manage_callback and the other functions (except gel_timer_resume) on any timers, at any times: every gel_timer_manage_callback returns, calls the callback and returns 1 iff the timer was reached, no callback is called while it is running, nesting is at most as deep as there are timers, and at the end the timer counts from the timestamp of the call, if autoreload is set then, or is stopped. With one timer whose callback makes any calls on it other than gel_timer_manage_callback, this is the behaviour of the other timer properties.", "quantifier": "all numbers of timers, timer states, periods, timestamps, callbacks (what they do depending on the results)", "why_tests_cant": "Callbacks of several timers can call each other in any order; tests cover a few", "anchors": ["gel/timer/timer.c:gel_timer_manage_callback"]}
{"id": "C163", "title": "Timer: gel_timer_manage_callback may be called from the callback", "statement": "A callback may call gel_timer_manage_callback on its own timer: the outer call returns.", "quantifier": "all timers, timestamps and callbacks", "why_tests_cant": "The failure is an endless recursion", "anchors": ["gel/timer/timer.c:gel_timer_manage_callback"]}
{"id": "C164", "title": "Wear leveling: power failures that damage the block and the marker being written", "statement": "Starting from an erased device of fewer than 256 blocks, in every history of writes, restarts and power failures during writes, where a failure leaves anything at all in the block being written and in its marker: a read gives the data of the last complete write, or what is in the block of an interrupted write if its marker got its final value. This holds as long as the last block is not the active one when the device starts again.", "quantifier": "every device size, block size, erased marker value, history, interrupted write, remaining data and marker byte", "why_tests_cant": "all combinations of histories and half written blocks and markers", "anchors": ["gel/wearleveling/wearleveling.c:wearleveling_write", "gel/wearleveling/wearleveling.c:wearleveling_init", "gel/wearleveling/wearleveling.c:search_last"]}
{"id": "C165", "title": "Wear leveling: the order in which the device stores data and marker does not matter", "statement": "If power is lost during wearleveling_write, on a device that stores data and marker in any order, and the last block is not the active one when the device starts again, a read yields the complete old or the complete new data.", "quantifier": "every history, device and interrupted write", "why_tests_cant": "needs a failure between the two stores", "anchors": ["gel/wearleveling/wearleveling.c:wearleveling_write", "gel/wearleveling/wearleveling.c:search_last"]}
{"id": "C166", "title": "PID controller with float types: nothing is undefined", "statement": "With pid_control_type_t and pid_output_type_t configured as float, every sequence of calls with any arguments, also infinities and NaN, and all the functions that compute an output afterwards are defined.", "quantifier": "all window sizes, histories of calls and float arguments", "why_tests_cant": "infinitely many histories; an access outside the arrays can go unnoticed", "anchors": ["gel/pid/pid.c:pid_add_input", "gel/pid/pid.c:pid_compute"]}
{"id": "C167", "title": "PID controller with float types: exact output where no rounding is needed", "statement": "With float types, if readings and set points are multiples of 2^k and the gains multiples of 2^-q and the numbers stay below 2^24 units, the proportional, integral and derivative terms and the output are exactly the gains times the error, the sum of the last N contributions, and the difference of the errors D readings apart, with thresholds and clearing as in the integer configuration, and nothing cut off.", "quantifier": "all window sizes, units, gains, histories within the bounds", "why_tests_cant": "infinitely many histories and scales", "anchors": ["gel/pid/pid.c:pid_add_input", "gel/pid/pid.c:pid_compute_p", "gel/pid/pid.c:pid_compute_i", "gel/pid/pid.c:pid_compute_d", "gel/pid/pid.c:pid_compute"]}
{"id": "C168", "title": "PID controller with float types: readings that are not numbers", "statement": "With float types, a NaN reading never enters the integral: the integral term is exactly what it would be if the reading had been at the set point. The output is NaN while the newest reading is NaN. It is exact again as soon as neither the newest reading nor the one D readings before it (or the oldest one) is NaN.", "quantifier": "all window sizes, histories with any number of NaN readings within the bounds of exact arithmetic", "why_tests_cant": "the effect shows up D readings later, depending on the history", "anchors": ["gel/pid/pid.c:pid_add_input", "gel/pid/pid.c:pid_compute"]}
{"id": "C169", "title": "PID controller with float types: infinite readings are forgotten", "statement": "With float types, N readings that are finite are enough for the integral term to be finite again, whatever was read before.", "quantifier": "all window sizes and histories", "why_tests_cant": "depends on values long before", "anchors": ["gel/pid/pid.c:pid_add_input", "gel/pid/pid.c:pid_compute_i"]}
{"id": "C170", "title": "Circular buffer calls tolerate a NULL structure", "statement": "Called with a NULL circular buffer pointer, every function but a valid initialisation is defined and has no effect: put, get, bulk put, bulk get, peek and drop return -1, the empty test returns 1, the full test, the size and the capacity return 0, reset does nothing. An initialisation with a NULL buffer or a size of 0 returns 1 and leaves the structure, NULL or not, exactly as it was.", "quantifier": "all sequences of calls with any arguments; all structure contents for the failing initialisation", "why_tests_cant": "tests try single calls with NULL; the claim is over all call sequences and all prior contents of the structure", "anchors": ["gel/collections/circular_buffer.c:circular_buf_init", "gel/collections/circular_buffer.c:_circular_buf_get", "gel/collections/circular_buffer.c:circular_buf_putc"]}
{"id": "C171", "title": "Calls before the initialisation are refused", "statement": "On a structure of zeros every call is defined and has no effect, and those that would transfer data return -1, until an initialisation succeeds; from then on the calls answer exactly as on the buffer given by the last successful initialisation.", "quantifier": "all sequences of initialisations (valid or not) and calls, all arguments", "why_tests_cant": "the calls that go wrong divide by a size of zero, which a test on a hardware where division by zero yields 0 does not notice", "anchors": ["gel/collections/circular_buffer.c:_circular_buf_get", "gel/collections/circular_buffer.c:is_circular_buf_full"]}
{"id": "C172", "title": "Queue shared by two threads: indices stay consistent", "statement": "When one thread (or interrupt handler) enqueues and another dequeues, in every interleaving of their accesses no access leaves the items array, and the number of items published by enqueue and not yet claimed by dequeue is always between 0 and NUM_ITEMS. A call that is not interrupted has exactly the effect of the sequential call.", "quantifier": "all power-of-two capacities up to 32768, all call sequences, all interleavings of single accesses (sequentially consistent)", "why_tests_cant": "interleavings at the level of single loads and stores cannot be enumerated by tests", "anchors": ["gel/collections/queue.h:QUEUE_DEFINITION"]}
{"id": "C173", "title": "Queue shared by two threads: items arrive in order", "statement": "One thread may enqueue while another dequeues without a lock, also when one of them is an interrupt handler: the k-th successful removal returns the item of the k-th successful enqueue.", "quantifier": "all power-of-two capacities up to 32768, all call sequences, all interleavings of single accesses, with threads or with either side running as an interrupt handler", "why_tests_cant": "the windows between the two stores of enqueue and between the store and the load of dequeue are a few instructions wide", "anchors": ["gel/collections/queue.h:QUEUE_DEFINITION"]}
{"id": "C174", "title": "CRC at the end of a frame", "statement": "The CRC-32 (CRC-16) of a message followed by four (two) bytes is 0 if and only if these bytes are the CRC of the message, most significant byte first. In particular a buffer whose last bytes were filled by serialize_uint32_be (serialize_uint16_be) with the CRC of the rest has CRC 0, and if any burst of up to 32 (16) bits hits such a frame, check bytes included, its CRC is not 0.", "quantifier": "all messages of any length, all initial values, all suffixes, all bursts", "why_tests_cant": "the equivalence ranges over all messages and all suffixes", "anchors": ["gel/crc/crc32.c:crc32", "gel/crc/crc16-ccitt.c:crc16_ccitt", "gel/serializer/serializer.h:serialize_uint32_be", "gel/serializer/serializer.h:serialize_uint16_be"]}
{"id": "C175", "title": "CRC of a suffix is a bijection", "statement": "Behind any message, for any wanted value exactly one sequence of four bytes gives that CRC-32, and exactly one sequence of two bytes that CRC-16: no value is impossible or more likely than another, and a frame can be given any CRC.", "quantifier": "all messages, all initial values, all 2^32 (2^16) wanted values", "why_tests_cant": "existence and uniqueness among 2^32 suffixes, for every message", "anchors": ["gel/crc/crc32.c:crc32", "gel/crc/crc16-ccitt.c:crc16_ccitt"]}
{"id": "C176", "title": "CRC is linear", "statement": "The CRC of the bytewise xor of two messages of equal length, with the xor of the initial values, is the xor of their CRCs, for both CRCs. For one message, different initial values give different CRCs.", "quantifier": "all pairs of messages of equal length, all initial values", "why_tests_cant": "a law over all pairs of messages", "anchors": ["gel/crc/crc32.c:crc32", "gel/crc/crc16-ccitt.c:crc16_ccitt"]}
{"id": "C177", "title": "Records field by field", "statement": "A caller that writes any list of values (8, 16, 32 or 64 bits, signed or unsigned, either byte order) one after the other, advancing by the returned sizes, fills exactly the sum of the sizes with each value's digits in order and leaves all other bytes alone; reading the same types gives back the values and the same length. Reading any bytes and writing the values gives back the bytes. By ISO C exactly the records with a negative 32 or 64 bit signed field are undefined to read. A buffer too short for the record is overrun, by writing and by reading.", "quantifier": "all lists of field types and values, all buffers and offsets", "why_tests_cant": "field lists and values are unbounded", "anchors": ["gel/serializer/serializer.h:serialize_uint8", "gel/serializer/serializer.h:serialize_uint32_le", "gel/serializer/serializer.h:deserialize_int64_be", "gel/serializer/serializer.h:deserialize_uint16_be"]}
{"id": "C178", "title": "Elapsed time with custom timestamp types", "statement": "A stopwatch compiled with GEL_CUSTOM_TIMESTAMP_TYPE narrower than long shows the true elapsed and remaining time after any history of calls, as long as every counted stretch is shorter than the range of the type and, for a type narrower than int, contains no wrap of the clock. With the default type it behaves as in C62 to C65.", "quantifier": "all widths of int, long, the timestamp type and the clock, all histories, all instants", "why_tests_cant": "depends on C promotion rules, wrap positions and histories", "anchors": ["gel/timer/timecheck.h:GEL_CUSTOM_TIMESTAMP_TYPE", "gel/timer/stopwatch.c:stopwatch_get_elapsed", "gel/timer/stopwatch.c:stopwatch_get_remaining", "gel/timer/stopwatch.c:stopwatch_pause"]}
{"id": "C179", "title": "Expiry with custom timestamp types", "statement": "A counting stopwatch compiled with GEL_CUSTOM_TIMESTAMP_TYPE narrower than long reports its period as reached from the moment nothing remains of it.", "quantifier": "all widths of int, long, the timestamp type and the clock, all histories, all instants", "why_tests_cant": "depends on C promotion rules and on the exact tick of the poll", "anchors": ["gel/timer/timecheck.h:GEL_CUSTOM_TIMESTAMP_TYPE", "gel/timer/stopwatch.c:stopwatch_is_timer_reached"]}
{"id": "C180", "title": "Direction of floating point steps", "statement": "parameter_operator on a float or double parameter whose step is not negative moves the value in the direction of the modification or goes round to the other limit. A larger value with a larger modification gives a result that is not smaller, unless one of the two went round.", "quantifier": "all float and double parameters, values, limits, steps and modifications, including rounding and overflow to infinity", "why_tests_cant": "the space of floating point values is too large to enumerate", "anchors": ["gel/parameter/parameter.c:parameter_operator", "gel/parameter/parameter.c:APPLY_OPERATOR"]}
{"id": "C181", "title": "Progress of floating point steps", "statement": "parameter_operator with a positive modification of a float or double parameter with a positive step makes the value larger or goes round to the minimum.", "quantifier": "all float and double parameters, values, limits, steps and modifications", "why_tests_cant": "rounding swallows steps only for some magnitudes of value and step", "anchors": ["gel/parameter/parameter.c:parameter_operator", "gel/parameter/parameter.c:APPLY_OPERATOR"]}
{"id": "C182", "title": "Floating point steps go round", "statement": "Operations with the same modification, repeated on a float or double parameter within its limits, go through strictly growing (falling) values within the limits and then round to the minimum (maximum), if what they add is at least a unit in the last place of both limits.", "quantifier": "all float and double parameters, values, finite limits, steps and modifications", "why_tests_cant": "termination for every start, step and rounding; the number of operations has no small bound", "anchors": ["gel/parameter/parameter.c:parameter_operator", "gel/parameter/parameter.c:APPLY_OPERATOR"]}
{"id": "C183", "title": "Timers with custom timestamp types", "statement": "A timer compiled with GEL_CUSTOM_TIMESTAMP_TYPE narrower than long fires at the first poll at or after its deadline, whatever calls were made before.", "quantifier": "all widths of int, long, the timestamp type and the clock, all histories of calls, all instants", "why_tests_cant": "depends on C promotion rules, wrap positions and on the exact tick of the poll", "anchors": ["gel/timer/timecheck.h:GEL_CUSTOM_TIMESTAMP_TYPE", "gel/timer/timer.c:gel_timer_manage_callback"]}
{"id": "C184", "title": "Integer parameters stepped again and again", "statement": "After n calls of parameter_operator with the same modification an integer parameter holds a value in closed form: it goes up (or down) by step times modification until the next sum would leave the limits, then to the opposite limit, and from there round through the same (max - min) / step + 1 values for ever. Required: the sum beyond the limit is representable in the type of the parameter.", "quantifier": "all integer types, limits (stored or pointed to), values, steps, modifications, numbers of calls", "why_tests_cant": "the number of calls is unbounded", "anchors": ["gel/parameter/parameter.c:parameter_operator"]}
{"id": "C185", "title": "A step and back", "statement": "parameter_operator with a modification followed by parameter_operator with the opposite modification leaves an integer parameter within its limits as it was.", "quantifier": "all integer types, limits, values, steps and modifications with representable sums", "why_tests_cant": "depends on the distance of the value to the limit", "anchors": ["gel/parameter/parameter.c:parameter_operator"]}
{"id": "C186", "title": "PID controller with float types: greater set points", "statement": "With gains that are not negative and no derivative threshold, a greater set point never gives a smaller output, after any calls, in spite of rounding, underflow and overflow, as long as both outputs are numbers or infinite.", "quantifier": "all history sizes, all histories of calls, all floats including infinities", "why_tests_cant": "quantifies over all histories and all pairs of floats; rounding is not tested exhaustively", "anchors": ["gel/pid/pid.c:pid_compute", "gel/pid/pid.c:pid_set_sp"]}
{"id": "C187", "title": "PID controller with float types: smaller readings", "statement": "With gains that are not negative, no thresholds and no automatic clearing, a smaller reading never gives a smaller output, as long as both outputs are numbers or infinite.", "quantifier": "all history sizes, all histories of calls, all floats including infinities", "why_tests_cant": "quantifies over all histories and all pairs of floats; rounding is not tested exhaustively", "anchors": ["gel/pid/pid.c:pid_add_input", "gel/pid/pid.c:pid_compute"]}
{"id": "C188", "title": "Intrusive lists: many lists and moving nodes", "statement": "Any sequence of INIT_LIST_HEAD, list_add, list_add_tail (at a head or at any node) and list_del on any number of lists, in which nodes are added only while on no list and removed only while on one, leaves exactly the lists of the same sequence on abstract lists; nodes may move between lists and heads may be initialised again.", "quantifier": "all sequences of calls, all numbers of lists and nodes, all addresses", "why_tests_cant": "sequences, lists and aliasing patterns are unbounded", "anchors": ["gel/collections/listx.h:list_add", "gel/collections/listx.h:list_add_tail", "gel/collections/listx.h:list_del", "gel/collections/listx.h:INIT_LIST_HEAD"]}
{"id": "C189", "title": "Intrusive lists: removing twice", "statement": "list_del of a node that is on no list any more changes no list.", "quantifier": "all lists, all nodes", "why_tests_cant": "depends on what happened between the two removals", "anchors": ["gel/collections/listx.h:list_del"]}
{"id": "C190", "title": "Intrusive lists: removals can be undone", "statement": "After removing any nodes of a list one by one, __list_add(e, e->prev, e->next) for the removed nodes in reverse order restores every link.", "quantifier": "all lists, all selections and orders of removed nodes", "why_tests_cant": "lists and orders are unbounded", "anchors": ["gel/collections/listx.h:list_del", "gel/collections/listx.h:__list_add"]}
{"id": "C191", "title": "A debounced keypad reports what clean contacts would give", "statement": "If every poll passes a raw input word through debounce_filter with debounce argument d and hands debounce_value to keypad_routine, then at every poll the keypad reports exactly the key, code and event it would report if every input had, at each poll, the level of the latest d+1 equal samples in a row (the initial level before the first such run); the states shown by keypad_get_key_state agree too, and no call is undefined.", "quantifier": "for every filter memory, initial word, d, word width, key table, thresholds, clock width and every history of polls with raw words in range at times that advance by less than about a quarter of the clock period", "why_tests_cant": "Bounce patterns of all inputs over all histories, combined with all key tables and timings, are unbounded; the two modules are only ever tested apart.", "anchors": ["gel/debounce/debounce.c:debounce_filter", "gel/debounce/debounce.h:debounce_value", "gel/keypad/keypad.c:keypad_routine"]}
{"id": "C192", "title": "Contacts that bounce too briefly are never heard", "statement": "After debounce_filter_init, if no input is sampled high in d+1 consecutive polls, the keypad behind the filter reports no key and KEY_NOTHING at every poll and shows every key as up.", "quantifier": "for every d, key table, thresholds and every history of polls, of any length, without d+1 consecutive high samples of an input", "why_tests_cant": "A chatter that gets through after some long pattern is not found by trying a few patterns.", "anchors": ["gel/debounce/debounce.c:debounce_filter", "gel/debounce/debounce.c:debounce_filter_init", "gel/keypad/keypad.c:keypad_routine"]}
{"id": "C193", "title": "A bouncing press is one press", "statement": "After debounce_filter_init, let one contact bounce (never high d+1 times in a row), be high for d+1 polls, bounce while held (never low d+1 times in a row), be low for d+1 polls and bounce again (never high d+1 times in a row), the other inputs never being high d+1 times in a row. Then the keypad behind the filter reports exactly one KEY_PRESS, for the last key of the table with that single bit, not later than the last of the first d+1 high polls; it reports at most one KEY_RELEASE and no event of another key.", "quantifier": "for every d, input, key table, thresholds, bounce pattern of any length and timing of the polls within the pace", "why_tests_cant": "The bounce patterns before, during and after the press are arbitrary and of any length.", "anchors": ["gel/debounce/debounce.c:debounce_filter", "gel/keypad/keypad.c:keypad_routine"]}
{"id": "C194", "title": "Scheduler: active seconds in a week", "statement": "Of the 604800 seconds of a week, an enabled entry that is alone in the table is active (scheduler_is_active) in exactly d*n of them, where d is the number of its days and n is end-start (0 if negative) for an entry that ends by 24:00, and for any other 86400 minus the seconds from end-24h to start within the day.", "quantifier": "every enabled entry with field values of their C types; all 604800 seconds", "why_tests_cant": "Counting the active seconds of all 2^72 entries is out of reach; a test looks at a few instants.", "anchors": ["gel/scheduler/scheduler.c:scheduler_is_active"]}
{"id": "C195", "title": "Scheduler: the duration times the days is the active time in a week", "statement": "scheduler_get_entry_duration times the number of included days, by which the scheduler ranks entries, is the number of seconds of a week in which the enabled entry is active.", "quantifier": "every enabled entry that includes a day", "why_tests_cant": "The entries for which the two disagree are special: past midnight, longer than a day, ending before the start.", "anchors": ["gel/scheduler/scheduler.c:scheduler_get_entry_duration", "gel/scheduler/scheduler.c:scheduler_is_active"]}
{"id": "C196", "title": "Scheduler: a table filled with the overlap check has one active entry at a time", "statement": "If entries are only stored, in the first available place, when scheduler_are_there_overlapping_entries gives 0, and are disabled at will, then at any time at most one enabled entry is active; it is the one scheduler_get_active_entry_number gives and scheduler_current_value gives its value.", "quantifier": "every table size up to INT_MAX, every history of checked additions of enabled entries and of removals, every time", "why_tests_cant": "All histories and all times of the week; the overlap check and the activity test are written with different comparisons.", "anchors": ["gel/scheduler/scheduler.c:scheduler_are_there_overlapping_entries", "gel/scheduler/scheduler.c:scheduler_get_first_available_entry", "gel/scheduler/scheduler.c:scheduler_get_active_entry_number", "gel/scheduler/scheduler.c:scheduler_current_value"]}
{"id": "C197", "title": "Schedules survive in a wear leveled memory", "statement": "If the n entries of a table are serialized one after the other with scheduler_entry_serialize and the buffer is written with wearleveling_write, then reading it back with wearleveling_read and scheduler_entry_deserialize gives the table saved last, each value reduced to a byte, through any number of saves, restarts and power failures while saving that happen before the marker is stored, as long as no restart happens while the last of several blocks is active (see C42).", "quantifier": "every table size, block count from 1 to 255, buffer contents, erased device, and every history of saves, restarts and interrupted saves", "why_tests_cant": "The three modules are only tested apart; histories, tables and the garbage left by a power failure are unbounded.", "anchors": ["gel/scheduler/scheduler.c:scheduler_entry_serialize", "gel/scheduler/scheduler.c:scheduler_entry_deserialize", "gel/wearleveling/wearleveling.c:wearleveling_write", "gel/wearleveling/wearleveling.c:wearleveling_read", "gel/wearleveling/wearleveling.c:wearleveling_init"]}
{"id": "C198", "title": "The pulse counter counts what the debounce filter reports", "statement": "Start a debounce filter and a pulse counter (with cleared filter cells, see C22) at the same input word and give both the same words and debounce arguments. Then pulse_level equals debounce_read on every input, pulse_filter returns 1 exactly for those calls where the mask returned by debounce_filter contains an input whose new reading is the one that ends a pulse of the chosen type, and pulse_count of an input is the number of calls whose mask shows that for this input, modulo the word size.", "quantifier": "every word width, pulse type, starting word, memory contents and sequence of words and debounce arguments, a different argument for each call and negative ones included", "why_tests_cant": "The two implementations are separate copies of the algorithm, never compared by a test; sequences, words and widths are unbounded.", "anchors": ["gel/debounce/pulsecounter.c:pulse_filter", "gel/debounce/pulsecounter.c:pulse_level", "gel/debounce/pulsecounter.h:pulse_count", "gel/debounce/debounce.c:debounce_filter", "gel/debounce/debounce.h:debounce_read"]}
{"id": "C199", "title": "Periodic timers do not drift", "statement": "If an autoreload timer is polled with gel_timer_manage_callback at intervals of at most J, its k-th callback comes between k*p and k*p+J after the start, p being the period.", "quantifier": "every clock width, period and polling gap below half the clock range, start instant, sequence of polls, and callback that leaves autoreload and period alone", "why_tests_cant": "Lateness adds up over an unbounded number of periods and depends on the exact polling pattern; tests poll at the deadline or once.", "anchors": ["gel/timer/timer.c:gel_timer_manage_callback", "gel/timer/stopwatch.c:stopwatch_restart", "gel/timer/timecheck.h:is_expired"]}
{"id": "C200", "title": "Event log restarted with an older copy of its structure", "statement": "If the structure circular_event_log_t is copied to permanent memory now and then and restored from the last copy after a restart, then only the events saved after that copy are lost: circular_event_log_load_last_events delivers the requested window of the events saved before the copy and after the restart.", "quantifier": "every log size, event size, initial storage contents, request, and history of saves (failing and half done ones included), copies and restarts", "why_tests_cant": "Histories are unbounded, and what goes wrong needs a full log, lost events and a request reaching far enough back.", "anchors": ["gel/circular_event_log/circular_event_log.c:circular_event_log_new_event", "gel/circular_event_log/circular_event_log.c:circular_event_log_load_last_events", "gel/circular_event_log/circular_event_log.c:circular_event_log_total_events"]}
{"id": "C201", "title": "Watcher: latency of delayed callbacks", "statement": "Let watcher_process_changes be called at least every J time units. If the bytes of a delayed watcher take a value different from the one found by the last processing before, at the instant tc, and keep it for the delay plus 2J, then its callback is called with that value between tc + delay and tc + delay + 2J, and not between tc and that call.", "quantifier": "every list of watchers, memory history, processing instants, gap and delays below half the clock range, change instant, and callbacks that leave watched bytes alone", "why_tests_cant": "The bound is about every phase between change and polling and every memory history; tests use a few fixed instants.", "anchors": ["gel/data_structures/watcher.c:watcher_process_changes", "gel/data_structures/watcher.c:watcher_list_init", "gel/timer/timecheck.h:is_expired"]}
{"id": "C202", "title": "Pulse counter: pulses of a bouncing signal are counted once each", "statement": "Let the samples of one input consist of stretches, one for each change of the signal, such that within each stretch the new level is there for debounce+1 samples in a row at some moment and the old level never is (any other bouncing is allowed). Then the counter holds exactly the number of pulses of the signal, however the edges bounce, and the level read is that of the last stretch, whatever the other inputs do.", "quantifier": "every word width, debounce argument that the cells can hold, pulse type, initial word, number and contents of stretches, and samples of the other inputs", "why_tests_cant": "Edges can bounce in exponentially many patterns and the filter state carries over from one stretch to the next; tests use a few patterns.", "anchors": ["gel/pulsecounter/pulsecounter.c:pulse_filter", "gel/pulsecounter/pulsecounter.c:pulse_count", "gel/pulsecounter/pulsecounter.c:pulse_filter_init"]}
{"id": "C203", "title": "Pulse counter: no more pulses than the filter can pass", "statement": "Whatever the samples of an input are, a count of c needs at least 2c(debounce+1) samples since initialization, or debounce+1 less if the counter was started inside a pulse; noise cannot make the counter run faster.", "quantifier": "every word width, debounce argument that the cells can hold, pulse type, initial word, and fewer samples than the int counter can hold", "why_tests_cant": "A bound over all sample sequences; tests cannot enumerate noise.", "anchors": ["gel/pulsecounter/pulsecounter.c:pulse_filter", "gel/pulsecounter/pulsecounter.c:pulse_count"]}
{"id": "C204", "title": "Keypad: events are at most one polling interval late", "statement": "Let keypad_routine be called at least every J time units for a table with one key. A key held down gets its click at most J after press + click threshold, its long click at most J after press + long click threshold (or after the call following the click, if that is later), and while it is held the next repeat comes at most J after the last click, long click or repeat + period. Once found up, its release is reported at once, or at most J after the click threshold if it had been clicked.", "quantifier": "every table with one key, thresholds and gap within the clock range (2(J+1) at most half the range plus the difference of the thresholds), clock widths and positions including wrap-around, and history of calls and key states", "why_tests_cant": "Bounds over every phase between the thresholds and the polling; tests use a few fixed instants.", "anchors": ["gel/keypad/keypad.c:keypad_routine", "gel/timer/timecheck.h:is_expired"]}
{"id": "C205", "title": "Scheduler: the answer changes only when an enabled entry starts or ends", "statement": "If between two times of a day no enabled entry starts or ends (ends past 24:00 counting on the next day), then scheduler_get_active_entry_number, scheduler_current_value and scheduler_is_active answer the same at both, and scheduler_get_current_remaining_duration of an active scheduler has decreased by the seconds between. Nor do they change at midnight if no enabled entry starts at 0:00, ends at 24:00, or includes only one of the two days.", "quantifier": "every table of up to INT_MAX entries, every two times of one day or around midnight", "why_tests_cant": "Tests sample times around a few boundaries; the claim is about all times between the boundaries of arbitrary tables.", "anchors": ["gel/scheduler/scheduler.c:scheduler_get_active_entry_number", "gel/scheduler/scheduler.c:is_entry_active", "gel/scheduler/scheduler.c:scheduler_current_value", "gel/scheduler/scheduler.c:scheduler_get_current_remaining_duration"]}
{"id": "C206", "title": "Circular buffer: queries are safe in any thread", "statement": "is_circular_buf_empty, is_circular_buf_full and circular_buf_size (documented as thread safe) may be called by any thread while one producer calls circular_buf_putc and one consumer calls circular_buf_getc: the answer was right at some moment of the call.", "quantifier": "every region size, every interleaving of the producer, the consumer and the loads of the query, which may happen in any order", "why_tests_cant": "The wrong answers need both indices to move between two loads of a third thread; tests do not control that.", "anchors": ["gel/collections/circular_buffer.c:is_circular_buf_empty", "gel/collections/circular_buffer.c:is_circular_buf_full", "gel/collections/circular_buffer.c:circular_buf_size"]}
{"id": "C207", "title": "Typed queue: asking first is enough with one thread at each end", "statement": "While one thread enqueues and another dequeues, is_empty called by the dequeuing thread and is_full called by the enqueuing thread answer what was true at a moment of the call; after the answer \"not empty\" that thread's next dequeue or drop succeeds, and after \"not full\" the enqueuing thread's next enqueue succeeds, whatever the opposite thread does in between.", "quantifier": "every power-of-two capacity up to 32768, every item type, every history (the indices wrap), every interleaving of single accesses, the two loads of the query at any moments of its call and in any order", "why_tests_cant": "A failure would need the opposite thread to move an index between the loads, or between the answer and the call; tests do not schedule that, nor run through 65536 items.", "anchors": ["gel/collections/queue.h:QUEUE_DEFINITION"]}
{"id": "C208", "title": "Circular buffer: an answer holds for the asking thread's next calls", "statement": "With one producer calling circular_buf_putc and one consumer calling circular_buf_getc: after is_circular_buf_empty answered 0 to the consumer its next getc succeeds, and after circular_buf_size answered r its next r calls of getc succeed (bufsize - 1 of them if r is bufsize, the answer of a full buffer); after is_circular_buf_full answered 0 to the producer its next putc succeeds, and after circular_buf_size answered r its next bufsize - 1 - r calls of putc succeed; all this whatever the opposite thread does during and after the query.", "quantifier": "every region size up to INT_MAX, every element type, every history, every interleaving of single accesses, the loads of the query at any moments of its call and in any order", "why_tests_cant": "The interference that could break it falls between single accesses of two threads, and the promise covers an arbitrary number of later calls.", "anchors": ["gel/collections/circular_buffer.c:is_circular_buf_empty", "gel/collections/circular_buffer.c:is_circular_buf_full", "gel/collections/circular_buffer.c:circular_buf_size", "gel/collections/circular_buffer.c:circular_buf_getc", "gel/collections/circular_buffer.c:circular_buf_putc"]}
{"id": "C209", "title": "Keypad: events are at most one polling interval late, with any number of keys", "statement": "Let keypad_routine be called at least every J time units for a table of any size. From any call that reports a key on, the calls report that key until its KEY_RELEASE, and its click, long click, repeats and release are at most J late exactly as for a key alone (C204), whatever happens to the other keys meanwhile.", "quantifier": "all tables of idle keys (equal bit maps allowed), thresholds and gap within the clock range, all histories of bitmaps and resets, every window of successive calls in them, clock widths and positions including wrap-around", "why_tests_cant": "Depends on the polling pattern, the clock position and the bitmaps of the other keys together.", "anchors": ["gel/keypad/keypad.c:keypad_routine"]}
{"id": "C210", "title": "Event log: page by page reading gives every event once", "statement": "A caller that reads the log with load_last_events page by page, the newest page first, passing as jump the events it already has plus the events saved since it began, gets the events that were stored when it began, newest first by pages, each exactly once and without gaps, also if events are saved between the pages, as long as these do not overwrite events still to be read.", "quantifier": "every log size, event size, page size, history before and between the pages (failing saves included, any number of wrap-arounds), and number of pages", "why_tests_cant": "A gap or a repeated event depends on where the write position stands when each page is read.", "anchors": ["gel/circular_event_log/circular_event_log.c:circular_event_log_load_last_events", "gel/circular_event_log/circular_event_log.c:nth_last_event"]}
{"id": "C211", "title": "PID controller with float types: accuracy for any gains", "statement": "With float types and readings, set points and thresholds that are multiples of 2^k and small enough for exact sums (below 2^24 units), for gains of any precision: each term is off its exact value (the gain times the error, the sum of the last N contributions, the difference of errors D readings apart) by at most one part in 2^24, and the output is finite and off the exact sum of the three terms by at most 4/2^24 of the sum of their magnitudes, as long as that sum is below 2^126.", "quantifier": "all window sizes, units, float gains (subnormal ones as far as the product's unit is representable), histories within the bounds", "why_tests_cant": "The rounding errors of the products and sums depend on every bit of the gains and readings; tests see a few values.", "anchors": ["gel/pid/pid.c:pid_compute_p", "gel/pid/pid.c:pid_compute_i", "gel/pid/pid.c:pid_compute_d", "gel/pid/pid.c:pid_compute"]}
{"id": "C212", "title": "Queue: answers to a third thread", "statement": "is_empty and is_full called by a thread that neither enqueues nor dequeues, while the enqueuing and the dequeuing thread go on, give an answer that was right at some moment of the call.", "quantifier": "every power of two capacity up to 2^15, every execution before and during the query, every moment of each of the two loads", "why_tests_cant": "Needs particular steps of both other threads between two loads.", "anchors": ["gel/collections/queue.h:QUEUE_DEFINITION"]}
{"id": "C213", "title": "Queue: the count and the calls that follow", "statement": "count called by the dequeuing thread between two calls, while the enqueuing thread runs, returns in its low 16 bits the number of items at a moment of the call, and that many of the thread's next dequeues (or drops) succeed; called by the enqueuing thread, the capacity less this number is how many of its next enqueues succeed. The whole size_t value is that number, plus 2^64 - 2^16 exactly when write_idx has wrapped around and read_idx has not.", "quantifier": "every power of two capacity up to 2^15, every execution before, during and after the query, every moment of each of the two loads", "why_tests_cant": "Needs every interleaving of the two threads, and index wrap-around.", "anchors": ["gel/collections/queue.h:QUEUE_DEFINITION"]}

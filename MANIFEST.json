{
 "claims": [
  {
   "property": "C01",
   "status": "proved",
   "theorems": [
    "cbuf_single_ops_fifo",
    "cbuf_init_rejects_empty"
   ],
   "note": "all regions of 1..INT_MAX cells"
  },
  {
   "property": "C02",
   "status": "partial",
   "theorems": [
    "cbuf_size_refuted",
    "cbuf_size_exact_partial",
    "cbuf_history_fifo_partial"
   ],
   "note": "REFUTED: a full buffer reports bufsize, one more than stored; exact value proved for every state; C127 gives the exact behaviour of all histories"
  },
  {
   "property": "C03",
   "status": "partial",
   "theorems": [
    "cbuf_puts_refuted",
    "cbuf_puts_exact_partial",
    "cbuf_history_fifo_partial"
   ],
   "note": "REFUTED: puts of free+1 elements with a wrapped free area empties the buffer; every other case proved; C127 gives the exact behaviour of all histories"
  },
  {
   "property": "C04",
   "status": "partial",
   "theorems": [
    "cbuf_gets_refuted",
    "cbuf_gets_full_exact_partial",
    "cbuf_history_fifo_partial"
   ],
   "note": "REFUTED: reading more than the capacity from a full buffer delivers a stale element and removes nothing; every other case proved; C127 gives the exact behaviour of all histories"
  },
  {
   "property": "C05",
   "status": "proved",
   "theorems": [
    "cbuf_memory_safe"
   ],
   "note": "includes the defective calls"
  },
  {
   "property": "C06",
   "status": "proved",
   "theorems": [
    "spsc_fifo",
    "spsc_linearizable",
    "spsc_race_free"
   ],
   "note": "sequential consistency assumed here; delayed stores: C148-C150"
  },
  {
   "property": "C07",
   "status": "partial",
   "theorems": [
    "spsc_puts_terminates_refuted",
    "spsc_puts_terminates_partial",
    "bulk_wait_free"
   ],
   "note": "REFUTED: a concurrent getc can leave puts spinning for ever"
  },
  {
   "property": "C08",
   "status": "proved",
   "theorems": [
    "queue_fifo"
   ],
   "note": "all capacities 2^0..2^15, unbounded histories"
  },
  {
   "property": "C09",
   "status": "partial",
   "theorems": [
    "queue_count_refuted",
    "queue_count_exact_partial",
    "queue_count_short_partial"
   ],
   "note": "REFUTED: wrong after the 16-bit write index wraps; exact value proved"
  },
  {
   "property": "C10",
   "status": "partial",
   "theorems": [
    "queue_any_capacity_refuted",
    "queue_capacities_partial"
   ],
   "note": "REFUTED: FIFO exactly for the powers of two 1..32768 (equivalence proved)"
  },
  {
   "property": "C11",
   "status": "proved",
   "theorems": [
    "stack_lifo"
   ],
   "note": ""
  },
  {
   "property": "C12",
   "status": "partial",
   "theorems": [
    "stack_peek_refuted",
    "stack_peek_wrong_refuted",
    "stack_peek_code_partial",
    "stack_peek_stale_partial"
   ],
   "note": "REFUTED: peek reads the slot above the top"
  },
  {
   "property": "C13",
   "status": "proved",
   "theorems": [
    "listx_init",
    "listx_add",
    "listx_add_tail",
    "listx_insert",
    "listx_del",
    "listx_others",
    "listx_unique"
   ],
   "note": ""
  },
  {
   "property": "C14",
   "status": "proved",
   "theorems": [
    "listx_traverse"
   ],
   "note": "Also the entry variants."
  },
  {
   "property": "C15",
   "status": "proved",
   "theorems": [
    "listx_head_queries",
    "listx_node_queries"
   ],
   "note": "The successor of the last node is the sentinel."
  },
  {
   "property": "C16",
   "status": "proved",
   "theorems": [
    "debounce_change_needs_run",
    "debounce_defined",
    "debounce_init"
   ],
   "note": ""
  },
  {
   "property": "C17",
   "status": "proved",
   "theorems": [
    "debounce_accepts"
   ],
   "note": ""
  },
  {
   "property": "C18",
   "status": "proved",
   "theorems": [
    "debounce_mask"
   ],
   "note": ""
  },
  {
   "property": "C19",
   "status": "proved",
   "theorems": [
    "debounce_independent"
   ],
   "note": ""
  },
  {
   "property": "C20",
   "status": "partial",
   "theorems": [
    "debounce_set_refuted",
    "debounce_set_value",
    "debounce_set_partial",
    "debounce_accepts"
   ],
   "note": "REFUTED: debounce_filter_set leaves pending counters; proved for inputs without pending change; C128 gives the exact behaviour with pending changes"
  },
  {
   "property": "C21",
   "status": "proved",
   "theorems": [
    "pulse_counts_edges",
    "pulse_return",
    "pulse_bounds"
   ],
   "note": ""
  },
  {
   "property": "C22",
   "status": "partial",
   "theorems": [
    "pulse_init_refuted",
    "pulse_init_partial"
   ],
   "note": "REFUTED: filters[] is not initialised; proved per input when its cell is zero or its first sample agrees with the initial level; C129 gives the exact behaviour from any memory"
  },
  {
   "property": "C23",
   "status": "proved",
   "theorems": [
    "crc32_is_serial",
    "crc32_is_remainder"
   ],
   "note": ""
  },
  {
   "property": "C24",
   "status": "proved",
   "theorems": [
    "crc16_is_serial",
    "crc16_is_remainder"
   ],
   "note": ""
  },
  {
   "property": "C25",
   "status": "proved",
   "theorems": [
    "crc32_segments",
    "crc16_segments"
   ],
   "note": ""
  },
  {
   "property": "C26",
   "status": "proved",
   "theorems": [
    "crc32_detects_bursts"
   ],
   "note": ""
  },
  {
   "property": "C27",
   "status": "proved",
   "theorems": [
    "crc16_detects_bursts",
    "crc16_detects_odd_errors"
   ],
   "note": ""
  },
  {
   "property": "C28",
   "status": "proved",
   "theorems": [
    "crc32_detects_double_errors",
    "crc16_detects_double_errors",
    "crc16_double_errors_sharp",
    "crc32_double_errors_sharp"
   ],
   "note": ""
  },
  {
   "property": "C29",
   "status": "proved",
   "theorems": [
    "serializer_unsigned_round_trip",
    "serializer_bytes_round_trip"
   ],
   "note": ""
  },
  {
   "property": "C30",
   "status": "proved",
   "theorems": [
    "serializer_layout",
    "serializer_reads_number"
   ],
   "note": ""
  },
  {
   "property": "C31",
   "status": "proved",
   "theorems": [
    "serializer_signed_round_trip"
   ],
   "note": "under the gcc meaning of signed shifts, as stated in the property; see C32 for ISO C"
  },
  {
   "property": "C32",
   "status": "partial",
   "theorems": [
    "serializer_no_ub_refuted",
    "serializer_signed_ub_exact_partial",
    "serializer_reads_number"
   ],
   "note": "REFUTED: signed 32/64-bit readers shift into the sign bit when the top byte is >= 128; exact condition proved"
  },
  {
   "property": "C33",
   "status": "proved",
   "theorems": [
    "scheduler_selects",
    "scheduler_active"
   ],
   "note": "struct tm within the ranges of time.h, no leap second"
  },
  {
   "property": "C34",
   "status": "partial",
   "theorems": [
    "scheduler_tie_refuted",
    "scheduler_tie_partial"
   ],
   "note": "REFUTED: the best value so far is kept in a uint8_t; proved for values 0..255; C131 is exact for all values"
  },
  {
   "property": "C35",
   "status": "partial",
   "theorems": [
    "scheduler_interval_refuted",
    "scheduler_interval_partial",
    "scheduler_same_day_partial"
   ],
   "note": "REFUTED past midnight: the part after midnight is judged by the flag of the new day; proved for same-day entries and when the flags of both days agree"
  },
  {
   "property": "C36",
   "status": "partial",
   "theorems": [
    "scheduler_remaining_refuted",
    "scheduler_remaining_partial",
    "scheduler_remaining_exact_partial",
    "scheduler_current_remaining",
    "scheduler_same_day_remaining_partial"
   ],
   "note": "REFUTED after midnight (24 hours too long); proved before midnight and for same-day tables"
  },
  {
   "property": "C37",
   "status": "partial",
   "theorems": [
    "scheduler_map_refuted",
    "scheduler_map_partial"
   ],
   "note": "REFUTED: disabled entries are shown; proved for the activity of every entry and exactly for enabled ones"
  },
  {
   "property": "C38",
   "status": "partial",
   "theorems": [
    "scheduler_overlap_refuted",
    "scheduler_overlap_partial",
    "scheduler_overlap_found_partial",
    "scheduler_overlap_closed_partial",
    "scheduler_overlap_inverted_partial"
   ],
   "note": "REFUTED: touching endpoints are counted and overlaps past midnight are missed; proved exact for same-day entries that do not touch, and no same-day overlap is missed; the closed and inverted theorems together give the exact count for every entry and every table"
  },
  {
   "property": "C39",
   "status": "partial",
   "theorems": [
    "scheduler_serialize_refuted",
    "scheduler_serialize_partial"
   ],
   "note": "REFUTED for values outside 0..255; proved otherwise, with the layout and the frame"
  },
  {
   "property": "C40",
   "status": "proved",
   "theorems": [
    "scheduler_set",
    "scheduler_search",
    "scheduler_init_clears"
   ],
   "note": ""
  },
  {
   "property": "C41",
   "status": "proved",
   "theorems": [
    "wear_read",
    "wear_write"
   ],
   "note": "full-block data"
  },
  {
   "property": "C42",
   "status": "partial",
   "theorems": [
    "wear_restart_refuted",
    "wear_restart_partial",
    "wear_restart_falls_back"
   ],
   "note": "REFUTED: a restart while the last block is active falls back to block 0, the data of N-1 changes ago (wear_restart_falls_back, every N>1 and history); the claim is proved for all other histories; C132 is exact for all, C133 says the loss is permanent"
  },
  {
   "property": "C43",
   "status": "partial",
   "theorems": [
    "wear_crash_refuted",
    "wear_crash_partial",
    "wear_restart_partial"
   ],
   "note": "REFUTED when the last block is active; proved otherwise; C132 is exact for all"
  },
  {
   "property": "C44",
   "status": "proved",
   "theorems": [
    "wear_even"
   ],
   "note": ""
  },
  {
   "property": "C45",
   "status": "partial",
   "theorems": [
    "wear_failed_write_refuted",
    "wear_failed_write_partial"
   ],
   "note": "REFUTED: the active block advances although the write failed; proved: error returned, device intact, re-initialisation recovers the data; C132 is exact"
  },
  {
   "property": "C46",
   "status": "partial",
   "theorems": [
    "wear_unreadable_refuted",
    "wear_unreadable_partial"
   ],
   "note": "REFUTED: the error code is used as the active block; proved for negative codes: never a block of the device; C144 says what happens in every case"
  },
  {
   "property": "C47",
   "status": "partial",
   "theorems": [
    "eventlog_load_refuted",
    "eventlog_load_partial",
    "eventlog_load_torn"
   ],
   "note": "REFUTED when jump + number wraps around 2^64; proved below; C138 says exactly when"
  },
  {
   "property": "C48",
   "status": "proved",
   "theorems": [
    "eventlog_total"
   ],
   "note": ""
  },
  {
   "property": "C49",
   "status": "proved",
   "theorems": [
    "eventlog_failed_save",
    "eventlog_load_torn"
   ],
   "note": "callback that fails without touching its slot; half written slots: eventlog_load_torn"
  },
  {
   "property": "C50",
   "status": "partial",
   "theorems": [
    "eventlog_error_refuted",
    "eventlog_error_partial"
   ],
   "note": "REFUTED: a negative code of the second read is added to the count of the first; proved for the first or only read"
  },
  {
   "property": "C51",
   "status": "partial",
   "theorems": [
    "eventlog_requests_refuted",
    "eventlog_requests_partial"
   ],
   "note": "REFUTED when jump + number wraps around 2^64; proved below; C138 says exactly when"
  },
  {
   "property": "C52",
   "status": "proved",
   "theorems": [
    "keypad_press",
    "keypad_press_single"
   ],
   "note": ""
  },
  {
   "property": "C53",
   "status": "proved",
   "theorems": [
    "keypad_click_thresholds",
    "keypad_automaton"
   ],
   "note": "keypad_automaton is the full refinement, when calls are frequent enough"
  },
  {
   "property": "C54",
   "status": "proved",
   "theorems": [
    "keypad_order",
    "keypad_automaton"
   ],
   "note": ""
  },
  {
   "property": "C55",
   "status": "proved",
   "theorems": [
    "keypad_repeat_period",
    "keypad_automaton"
   ],
   "note": ""
  },
  {
   "property": "C56",
   "status": "partial",
   "theorems": [
    "keypad_state_refuted",
    "keypad_state_single_partial",
    "keypad_state_partial"
   ],
   "note": "REFUTED as stated: a key listed before the one being released keeps state 1. Proved for one key, and for the key handled by the call; C130 gives the exact state of every key"
  },
  {
   "property": "C57",
   "status": "proved",
   "theorems": [
    "keypad_reset"
   ],
   "note": ""
  },
  {
   "property": "C58",
   "status": "proved",
   "theorems": [
    "time_order",
    "time_order_sharp"
   ],
   "note": "timestamp_t as wide as long (the default type)"
  },
  {
   "property": "C59",
   "status": "proved",
   "theorems": [
    "time_interval_distance"
   ],
   "note": ""
  },
  {
   "property": "C60",
   "status": "proved",
   "theorems": [
    "time_expiry"
   ],
   "note": ""
  },
  {
   "property": "C61",
   "status": "partial",
   "theorems": [
    "time_custom_type_refuted",
    "time_custom_type_partial",
    "time_custom_type_exact_partial",
    "time_order"
   ],
   "note": "REFUTED: the comparison casts to long, so uint32_t on LP64 never compares as after and uint16_t fails across a wrap; exact behaviour proved per width class"
  },
  {
   "property": "C62",
   "status": "proved",
   "theorems": [
    "stopwatch_elapsed"
   ],
   "note": "value modulo 2^w, i.e. exact whenever the total fits unsigned long"
  },
  {
   "property": "C63",
   "status": "partial",
   "theorems": [
    "stopwatch_codes_refuted",
    "stopwatch_codes_partial",
    "stopwatch_states",
    "stopwatch_null"
   ],
   "note": "REFUTED for stop: it returns 0 on a stopped stopwatch although documented -1; proved for all other calls"
  },
  {
   "property": "C64",
   "status": "proved",
   "theorems": [
    "stopwatch_reached"
   ],
   "note": ""
  },
  {
   "property": "C65",
   "status": "partial",
   "theorems": [
    "stopwatch_any_duration_refuted",
    "stopwatch_any_duration_partial"
   ],
   "note": "REFUTED at half the range and above; exact values proved"
  },
  {
   "property": "C66",
   "status": "proved",
   "theorems": [
    "timer_oneshot",
    "timer_history"
   ],
   "note": ""
  },
  {
   "property": "C67",
   "status": "proved",
   "theorems": [
    "timer_autoreload",
    "timer_history"
   ],
   "note": ""
  },
  {
   "property": "C68",
   "status": "proved",
   "theorems": [
    "timer_history"
   ],
   "note": "callbacks that leave their timer alone"
  },
  {
   "property": "C69",
   "status": "partial",
   "theorems": [
    "timer_callback_control_refuted",
    "timer_callback_control_partial"
   ],
   "note": "REFUTED: the timer is stopped or restarted after the callback; exact effect proved, and in whole histories by C137"
  },
  {
   "property": "C70",
   "status": "proved",
   "theorems": [
    "pman_refines",
    "pman_stack",
    "pman_ids"
   ],
   "note": "debug build (see C74); callbacks do not navigate themselves"
  },
  {
   "property": "C71",
   "status": "partial",
   "theorems": [
    "pman_lifecycle_partial",
    "pman_first_rebase_refuted"
   ],
   "note": "REFUTED if the first page is shown by a rebase or swap (it is forgotten without being closed or destroyed); proved for every other history; C134 is exact for all"
  },
  {
   "property": "C72",
   "status": "partial",
   "theorems": [
    "pman_reset_found",
    "pman_reset_refuted",
    "pman_reset_not_found_partial"
   ],
   "note": "found case proved; REFUTED after a reset that found nothing: a rebase or swap closes and destroys the old page again; proved that a change works; C134 is exact"
  },
  {
   "property": "C73",
   "status": "partial",
   "theorems": [
    "pman_first_rebase_refuted",
    "pman_first_rebase_partial"
   ],
   "note": "REFUTED: initialized stays 0; proved that everything else is the same; C134 and C136 say what happens"
  },
  {
   "property": "C74",
   "status": "partial",
   "theorems": [
    "pman_ndebug_refuted",
    "pman_ndebug_partial"
   ],
   "note": "REFUTED: the push is inside the assert; proved for all other calls; C134 and C135 say what happens"
  },
  {
   "property": "C75",
   "status": "proved",
   "theorems": [
    "pman_depth"
   ],
   "note": "debug build; with NDEBUG see C74"
  },
  {
   "property": "C76",
   "status": "proved",
   "theorems": [
    "parameter_operator_range"
   ],
   "note": "limits as they are when the function is called; whenever the arithmetic is defined"
  },
  {
   "property": "C77",
   "status": "partial",
   "theorems": [
    "parameter_operator_steps_refuted",
    "parameter_operator_steps_partial",
    "parameter_operator_null"
   ],
   "note": "REFUTED: uint8_t 200 + 100 wraps around to 44 inside [0,200]. Proved when the sum is representable in the type of the parameter; C141 says what happens in every case"
  },
  {
   "property": "C78",
   "status": "proved",
   "theorems": [
    "parameter_get_handle_nth",
    "parameter_get_handle_asserts"
   ],
   "note": "num < length (asserted by the code); hooks may change their own handle and memory"
  },
  {
   "property": "C79",
   "status": "partial",
   "theorems": [
    "parameter_count_refuted",
    "parameter_count_partial",
    "parameter_count_bits"
   ],
   "note": "REFUTED: parameters of access level 0 are not counted. Proved for tables without such parameters (after their hooks); parameter_count_bits says what is counted in general"
  },
  {
   "property": "C80",
   "status": "proved",
   "theorems": [
    "parameter_reset_all"
   ],
   "note": "hooks may change access level and user data"
  },
  {
   "property": "C81",
   "status": "proved",
   "theorems": [
    "parameter_check_ranges_repairs"
   ],
   "note": "limits may also be in memory outside parameters; hooks may change access level and user data"
  },
  {
   "property": "C82",
   "status": "partial",
   "theorems": [
    "parameter_check_floats_refuted",
    "parameter_check_floats_partial"
   ],
   "note": "REFUTED: NaN is accepted. Proved when value and limits are not NaN; C145 says what happens in every case"
  },
  {
   "property": "C83",
   "status": "partial",
   "theorems": [
    "parameter_to_long_refuted",
    "parameter_to_long_partial",
    "parameter_to_long_others"
   ],
   "note": "REFUTED: int8_t is read as uint8_t. Proved for all other types and for non negative int8_t; C142 says what happens in every case"
  },
  {
   "property": "C84",
   "status": "proved",
   "theorems": [
    "parameter_copy_same_type",
    "parameter_copy_other_type",
    "parameter_copy_null",
    "parameter_clone_with_buffer_copies",
    "parameter_clone_copies",
    "parameter_clone_null"
   ],
   "note": "storage of source and copy disjoint"
  },
  {
   "property": "C85",
   "status": "partial",
   "theorems": [
    "parameter_total_values_refuted",
    "parameter_total_values_partial",
    "parameter_total_values_null"
   ],
   "note": "REFUTED: the full range of uint32_t gives 0, that of int32_t overflows. Proved when the total fits in the promoted type; C142 says what happens in every case"
  },
  {
   "property": "C86",
   "status": "partial",
   "theorems": [
    "PARAMETER_limits_refuted",
    "PARAMETER_limits_partial",
    "PARAMETER_macros"
   ],
   "note": "REFUTED: CAST64 truncates to 32 bits. Proved for all other types and 64 bit constants in [0, 2^32); C143 says what happens in every case"
  },
  {
   "property": "C87",
   "status": "partial",
   "theorems": [
    "pid_integral_refuted",
    "pid_integral_partial",
    "pid_integral"
   ],
   "note": "REFUTED as stated: an input with error 0 leaves the old value of its slot in the sum. Proved when no error is 0; pid_integral says what the sum is in general"
  },
  {
   "property": "C88",
   "status": "proved",
   "theorems": [
    "pid_derivative",
    "pid_derivative_general"
   ],
   "note": ""
  },
  {
   "property": "C89",
   "status": "proved",
   "theorems": [
    "pid_threshold",
    "pid_autoclear",
    "pid_integral"
   ],
   "note": ""
  },
  {
   "property": "C90",
   "status": "proved",
   "theorems": [
    "watcher_immediate",
    "watcher_too_large"
   ],
   "note": "Any timestamps. watcher_history covers lists mixing immediate and delayed watchers."
  },
  {
   "property": "C91",
   "status": "proved",
   "theorems": [
    "watcher_history",
    "watcher_once_per_burst",
    "watcher_fires_per_burst"
   ],
   "note": "Clock of w bits with w >= int width; unsigned long timestamps."
  },
  {
   "property": "C92",
   "status": "proved",
   "theorems": [
    "watcher_check"
   ],
   "note": "Any list state. The model function returns only the result, so it cannot write or call."
  },
  {
   "property": "C93",
   "status": "partial",
   "theorems": [
    "watcher_clear_refuted",
    "watcher_clear_partial"
   ],
   "note": "REFUTED: a delayed change already detected still fires after the clear. The partial theorem covers watchers with nothing pending or changed again before the clear; C139 is exact for all"
  },
  {
   "property": "C94",
   "status": "partial",
   "theorems": [
    "watcher_callback_write_refuted",
    "watcher_callback_write_partial"
   ],
   "note": "REFUTED: what an immediate callback writes to its own watched bytes is absorbed by the memcpy that follows. The partial theorem covers delayed watchers and callbacks that do not write their own bytes; C139 is exact for all"
  },
  {
   "property": "C95",
   "status": "proved",
   "theorems": [
    "update_history",
    "update_commutes",
    "update_no_memory"
   ],
   "note": ""
  },
  {
   "property": "C96",
   "status": "proved",
   "theorems": [
    "maybe_meaning",
    "maybe_laws"
   ],
   "note": ""
  },
  {
   "property": "C97",
   "status": "proved",
   "theorems": [
    "sm_dispatch",
    "sm_history",
    "sm_invalid_state"
   ],
   "note": ""
  },
  {
   "property": "C98",
   "status": "proved",
   "theorems": [
    "serializer_pack_unpack",
    "serializer_unpack_reads"
   ],
   "note": ""
  },
  {
   "property": "C99",
   "status": "proved",
   "theorems": [
    "watcher_trigger",
    "watcher_trigger_one"
   ],
   "note": ""
  },
  {
   "property": "C100",
   "status": "proved",
   "theorems": [
    "listx_remove_while_traversing"
   ],
   "note": ""
  },
  {
   "property": "C101",
   "status": "proved",
   "theorems": [
    "pid_proportional"
   ],
   "note": ""
  },
  {
   "property": "C102",
   "status": "proved",
   "theorems": [
    "parameter_to_bool_nonzero",
    "parameter_to_bool_null"
   ],
   "note": ""
  },
  {
   "property": "C103",
   "status": "proved",
   "theorems": [
    "PARAMETER_C99_limits"
   ],
   "note": ""
  },
  {
   "property": "C104",
   "status": "proved",
   "theorems": [
    "wear_read_errors",
    "wear_too_many_blocks"
   ],
   "note": ""
  },
  {
   "property": "C105",
   "status": "proved",
   "theorems": [
    "pid_output"
   ],
   "note": ""
  },
  {
   "property": "C106",
   "status": "partial",
   "theorems": [
    "pid_large_threshold_refuted",
    "pid_large_threshold_partial"
   ],
   "note": "REFUTED: a threshold of 2^32 becomes 0. Proved for thresholds up to INT_MAX; C146 says what happens in every case"
  },
  {
   "property": "C107",
   "status": "proved",
   "theorems": [
    "parameter_to_index_value",
    "parameter_to_index_others"
   ],
   "note": ""
  },
  {
   "property": "C108",
   "status": "proved",
   "theorems": [
    "parameter_operator_float",
    "parameter_operator_float_range"
   ],
   "note": "no contraction of floating point expressions"
  },
  {
   "property": "C109",
   "status": "proved",
   "theorems": [
    "keypad_unused_keys"
   ],
   "note": ""
  },
  {
   "property": "C110",
   "status": "proved",
   "theorems": [
    "keypad_one_at_a_time"
   ],
   "note": ""
  },
  {
   "property": "C111",
   "status": "proved",
   "theorems": [
    "update_history",
    "update_defined",
    "update_after_free"
   ],
   "note": ""
  },
  {
   "property": "C112",
   "status": "partial",
   "theorems": [
    "update_array_refuted",
    "update_array_overrun_refuted",
    "update_array_partial",
    "update_array_sum_partial",
    "update_array_quotient_partial"
   ],
   "note": "REFUTED: length is not in parentheses in the macro: 2 + 1 elements of 4 bytes capture 9 bytes, 7 / 2 elements 14 bytes. Proved for a number, identifier, parenthesised expression, or a product of those; the exact size for every sum or difference that begins with such a product, and for a product divided by a primary expression"
  },
  {
   "property": "C113",
   "status": "partial",
   "theorems": [
    "watcher_macros_refuted",
    "watcher_macros_delay_refuted",
    "watcher_macros_partial"
   ],
   "note": "REFUTED with GEL_WATCHER_REDUCE_RAM_FOOTPRINT: the size is stored in 8 bits and the delay in 16. Proved without it, and with it for sizes below 256 and delays below 65536"
  },
  {
   "property": "C114",
   "status": "partial",
   "theorems": [
    "pid_exact_refuted",
    "pid_exact_undefined_refuted",
    "pid_exact_partial"
   ],
   "note": "REFUTED: error 2^24+1 with gain 1 gives 2^24, error INT_MAX is an undefined conversion. Proved where products stay below 2^24"
  },
  {
   "property": "C115",
   "status": "proved",
   "theorems": [
    "parameter_operator_float_exact"
   ],
   "note": ""
  },
  {
   "property": "C116",
   "status": "partial",
   "theorems": [
    "parameter_operations_refuted",
    "parameter_operations_partial",
    "parameter_operations_float_partial"
   ],
   "note": "REFUTED: ten steps of 0.1f from 0 in [0, 1] wrap to 0, one operation of ten steps gives 1. Proved for integers, and for floats without rounding"
  },
  {
   "property": "C117",
   "status": "proved",
   "theorems": [
    "parameter_string_integer",
    "parameter_string_float",
    "parameter_string_null"
   ],
   "note": ""
  },
  {
   "property": "C118",
   "status": "proved",
   "theorems": [
    "parameter_total_values_float"
   ],
   "note": ""
  },
  {
   "property": "C119",
   "status": "proved",
   "theorems": [
    "pid_monotone"
   ],
   "note": ""
  },
  {
   "property": "C120",
   "status": "proved",
   "theorems": [
    "pid_accuracy"
   ],
   "note": ""
  },
  {
   "property": "C121",
   "status": "proved",
   "theorems": [
    "bulk_fifo"
   ],
   "note": "sequential consistency; puts of at most the room at the call, reads of at most the capacity (C03, C04, C07 refute the rest)"
  },
  {
   "property": "C122",
   "status": "proved",
   "theorems": [
    "bulk_race_free",
    "bulk_stores",
    "bulk_loads"
   ],
   "note": "same conditions as C121"
  },
  {
   "property": "C123",
   "status": "proved",
   "theorems": [
    "bulk_wait_free"
   ],
   "note": "same conditions as C121"
  },
  {
   "property": "C124",
   "status": "proved",
   "theorems": [
    "bulk_alone"
   ],
   "note": ""
  },
  {
   "property": "C125",
   "status": "proved",
   "theorems": [
    "crc32_detects_few_errors",
    "crc32_few_errors_sharp"
   ],
   "note": "The polynomial facts are established by a search inside Coq (vm_compute over all choices of bits in the window, split into two halves); the theorem is for all messages, positions and initial values."
  },
  {
   "property": "C126",
   "status": "proved",
   "theorems": [
    "crc16_detects_few_errors",
    "crc16_few_errors_sharp"
   ],
   "note": ""
  },
  {
   "property": "C127",
   "status": "proved",
   "theorems": [
    "cbuf_history_exact",
    "cbuf_exact_is_fifo"
   ],
   "note": ""
  },
  {
   "property": "C128",
   "status": "proved",
   "theorems": [
    "debounce_exact"
   ],
   "note": ""
  },
  {
   "property": "C129",
   "status": "proved",
   "theorems": [
    "pulse_exact"
   ],
   "note": ""
  },
  {
   "property": "C130",
   "status": "proved",
   "theorems": [
    "keypad_exact"
   ],
   "note": ""
  },
  {
   "property": "C131",
   "status": "proved",
   "theorems": [
    "scheduler_exact"
   ],
   "note": ""
  },
  {
   "property": "C132",
   "status": "proved",
   "theorems": [
    "wear_exact",
    "wear_provenance"
   ],
   "note": ""
  },
  {
   "property": "C133",
   "status": "proved",
   "theorems": [
    "wear_stuck"
   ],
   "note": ""
  },
  {
   "property": "C134",
   "status": "proved",
   "theorems": [
    "pman_exact"
   ],
   "note": "callbacks do not navigate themselves"
  },
  {
   "property": "C135",
   "status": "proved",
   "theorems": [
    "pman_ndebug_exact"
   ],
   "note": ""
  },
  {
   "property": "C136",
   "status": "proved",
   "theorems": [
    "pman_forgets"
   ],
   "note": ""
  },
  {
   "property": "C137",
   "status": "proved",
   "theorems": [
    "timer_scripted"
   ],
   "note": "the callback does not poll or reinitialise its timer"
  },
  {
   "property": "C138",
   "status": "proved",
   "theorems": [
    "eventlog_load_exact"
   ],
   "note": ""
  },
  {
   "property": "C139",
   "status": "proved",
   "theorems": [
    "watcher_exact",
    "watcher_paced",
    "watcher_paced_immediate"
   ],
   "note": "callbacks do not use the watcher list; watcher_paced derives the clock condition from steady times"
  },
  {
   "property": "C140",
   "status": "partial",
   "theorems": [
    "eventlog_short_reads_refuted",
    "eventlog_short_reads_partial",
    "eventlog_short_reads_exact_partial"
   ],
   "note": "REFUTED: after an incomplete first of two reads the second is still made and stored behind the gap, and its events are counted. The exact theorem gives buffer and result in all cases; the claim holds for single reads, complete first reads and empty reads"
  },
  {
   "property": "C141",
   "status": "proved",
   "theorems": [
    "parameter_operator_exact"
   ],
   "note": "Every integer type, value, limit, step and mod; completes C77."
  },
  {
   "property": "C142",
   "status": "proved",
   "theorems": [
    "parameter_total_values_exact",
    "parameter_to_long_exact",
    "parameter_to_index_exact"
   ],
   "note": "Every integer type and value; completes C83, C85 and C107."
  },
  {
   "property": "C143",
   "status": "proved",
   "theorems": [
    "PARAMETER_limits_exact",
    "PARAMETER_C99_exact"
   ],
   "note": "Every integer constant; completes C86 and C103."
  },
  {
   "property": "C144",
   "status": "proved",
   "theorems": [
    "wear_init_exact"
   ],
   "note": "Any device; completes C46."
  },
  {
   "property": "C145",
   "status": "proved",
   "theorems": [
    "parameter_check_floats_exact"
   ],
   "note": "Completes C82."
  },
  {
   "property": "C146",
   "status": "proved",
   "theorems": [
    "pid_any_threshold",
    "pid_thresholds_as_int"
   ],
   "note": "Completes C106."
  },
  {
   "property": "C147",
   "status": "partial",
   "theorems": [
    "scheduler_leap_refuted",
    "scheduler_leap_partial"
   ],
   "note": "REFUTED: at 23:59:60 no entry is active (unless it lasts more than a whole further day); exact behaviour proved. Leap seconds at other times are covered by C33-C39, C131 (tm_ok admits them)"
  },
  {
   "property": "C148",
   "status": "proved",
   "theorems": [
    "weak_fifo",
    "weak_race_free",
    "weak_quiet"
   ],
   "note": "orders InOrder and IndexLast; loads in program order"
  },
  {
   "property": "C149",
   "status": "partial",
   "theorems": [
    "delayed_stores_linearizable_refuted",
    "delayed_stores_linearizable_partial",
    "delayed_stores_putc_answer_partial",
    "delayed_stores_getc_answer_partial"
   ],
   "note": "REFUTED: on a region of 3 cells a putc is refused for lack of room while a getc finds nothing although a value is under way; no sequential order explains both. Proved: with a barrier between calls there is such an order; without barriers each answer is exact with respect to what the core can know"
  },
  {
   "property": "C150",
   "status": "partial",
   "theorems": [
    "reordered_stores_fifo_refuted",
    "weak_bulk_reordered_refuted",
    "reordered_stores_fifo_partial"
   ],
   "note": "REFUTED: the head overtakes the cell and getc delivers what the cell held before; neither volatile nor a barrier prevents it. Proved if index stores wait for the stores before them (release stores)"
  },
  {
   "property": "C151",
   "status": "proved",
   "theorems": [
    "nested_calls_flat"
   ],
   "note": "The trace and the manager equal those of the flat run of the calls in the order started. What a callback returns is decided when it is called; views and messages returned are left out."
  },
  {
   "property": "C152",
   "status": "partial",
   "theorems": [
    "nested_close_refuted",
    "nested_destroy_refuted",
    "nested_create_refuted",
    "nested_create_data_refuted",
    "nested_open_reset_refuted",
    "nested_close_endless_refuted",
    "nested_lifecycle_partial",
    "nested_defined_partial"
   ],
   "note": "REFUTED for close, destroy and create callbacks, for open callbacks that reset to a missing page in builds with updates, and a close callback that always navigates recurses without end (each with a witness). Proved for all programs whose close, destroy and create callbacks do not navigate and that, in builds with updates, never reset or whose open callbacks do not navigate."
  },
  {
   "property": "C153",
   "status": "proved",
   "theorems": [
    "weak_bulk_fifo",
    "weak_bulk_race_free",
    "weak_bulk_wait_free",
    "weak_bulk_quiet",
    "weak_bulk_covers"
   ],
   "note": "BulkWeakModel: the steps of BulkModel taken on what each core sees (memory plus own pending stores), stores arriving in program order or cells early but no index before what was stored ahead of it. weak_bulk_covers: the system with immediate stores (C121) is contained in it. The condition on the order is needed (weak_bulk_reordered_refuted, C150)."
  },
  {
   "property": "C154",
   "status": "partial",
   "theorems": [
    "delayed_bulk_refuted",
    "delayed_bulk_partial"
   ],
   "note": "REFUTED: no barrier forces the stores of a returned call out, so a gets can find nothing after a puts returned, and a putc can be refused after everything was taken. Partial: true once the stores of the other core have arrived."
  },
  {
   "property": "C155",
   "status": "proved",
   "theorems": [
    "early_loads_fifo",
    "early_loads_stable",
    "early_loads_in_place"
   ],
   "note": "LoadModel: the steps and delayed stores of WeakModel; a load takes its value from any earlier state of the memory not before the last load of the same location by that core. early_loads_in_place: with all loads in place it is WeakModel, so C148-C150 are special cases. Stores that overtake older loads are not modelled."
  },
  {
   "property": "C156",
   "status": "partial",
   "theorems": [
    "early_cell_load_refuted",
    "early_cell_load_partial"
   ],
   "note": "REFUTED: the code has no load barrier between the test of the head and the load of the cell, so a getc can succeed and deliver what the cell held before the putc, even with stores in program order. Partial: true of every run in which no cell load is performed before the head load."
  },
  {
   "property": "C157",
   "status": "proved",
   "theorems": [
    "sm_nested_history",
    "sm_nested_first",
    "sm_nested_returns",
    "sm_nested_plain"
   ],
   "note": "SmNestModel: managers are trees of sends and a result; the history records beginnings and results. sm_nested_plain: without sends it is the model of C97."
  },
  {
   "property": "C158",
   "status": "partial",
   "theorems": [
    "sm_nested_kept_refuted",
    "sm_nested_kept_partial"
   ],
   "note": "REFUTED: the state is written after the manager returns, so a manager that sends an event and then returns a state overwrites the state the nested event has reached. Partial: true if managers that send events return a negative result themselves."
  },
  {
   "property": "C159",
   "status": "proved",
   "theorems": [
    "watch_nested_same",
    "watch_nested_once",
    "watch_nested_plain",
    "watch_nested_calls"
   ],
   "note": "WatchNestModel: callbacks are trees of calls of the functions of watcher.h on their own list. Immediate watchers: their callbacks may check and clear but not process (C160)."
  },
  {
   "property": "C160",
   "status": "partial",
   "theorems": [
    "watch_nested_ends_refuted",
    "watch_nested_endless_refuted",
    "watch_nested_ends_partial"
   ],
   "note": "REFUTED: the bytes of an immediate watcher are remembered only after its callback has returned, so a processing in the callback calls it again, without end. Partial: true if only callbacks of delayed watchers process the list, and none writes the memory or triggers callbacks."
  },
  {
   "property": "C161",
   "status": "partial",
   "theorems": [
    "watch_nested_result_refuted",
    "watch_nested_result_partial"
   ],
   "note": "REFUTED: a change reported by a processing inside a callback is not counted by the outer one, which returns 0. Partial: the result 1 is always right; without nested processing 0 is too (watch_nested_plain, C90)."
  },
  {
   "property": "C162",
   "status": "proved",
   "theorems": [
    "timer_nested",
    "timer_nested_single"
   ],
   "note": "TimerNestModel: a table of timers, callbacks are trees of calls on them. The spec nested says: calls properly nested, none within its own callback."
  },
  {
   "property": "C163",
   "status": "partial",
   "theorems": [
    "timer_nested_ends_refuted",
    "timer_nested_endless_refuted",
    "timer_nested_ends_partial"
   ],
   "note": "REFUTED: the timer is stopped or restarted only after the callback, so a callback that manages its own timer is called again, without end. Partial: true if callbacks stop their timer first and resume none."
  },
  {
   "property": "C164",
   "status": "proved",
   "theorems": [
    "wear_cut"
   ],
   "note": "The invariant of C42 with an arbitrary marker behind the active block, provided it does not follow. Starts with the last block active are the subject of C42 and C133."
  },
  {
   "property": "C165",
   "status": "partial",
   "theorems": [
    "wear_any_order_refuted",
    "wear_any_order_partial"
   ],
   "note": "REFUTED: if the marker is stored first, the half written block becomes the active one. Partial: true if the marker gets its final value after the data, whatever values it passes through."
  },
  {
   "property": "C166",
   "status": "proved",
   "theorems": [
    "pid_float_total"
   ],
   "note": ""
  },
  {
   "property": "C167",
   "status": "proved",
   "theorems": [
    "pid_float_exact"
   ],
   "note": "The float configuration is shown to follow the integer model of C87-C89, C101 and C105 in units of 2^k; binary32 arithmetic without contraction or excess precision."
  },
  {
   "property": "C168",
   "status": "proved",
   "theorems": [
    "pid_float_nan"
   ],
   "note": "Flags kept with the ring of past errors; generalizes C167."
  },
  {
   "property": "C169",
   "status": "partial",
   "theorems": [
    "pid_float_infinite_refuted",
    "pid_float_infinite_partial"
   ],
   "note": "REFUTED: an input with error 0 leaves the old contribution in place (as in the integer configuration), so one infinite reading followed by any number of readings at the set point leaves the integral infinite. Partial: true for N readings off the set point."
  },
  {
   "property": "C170",
   "status": "proved",
   "theorems": [
    "circbuf_null_pointer"
   ],
   "note": ""
  },
  {
   "property": "C171",
   "status": "partial",
   "theorems": [
    "circbuf_uninitialised_refuted",
    "circbuf_lifecycle_partial"
   ],
   "note": "REFUTED: gets, peek and drop take the size, which divides by bufsize, before they test the buffer pointer; the full test and the size divide too. Partial: every history of calls and initialisations is characterised exactly, including which calls before the initialisation are undefined; putc, puts, getc, reset, the empty test and the capacity are defined and without effect."
  },
  {
   "property": "C172",
   "status": "proved",
   "theorems": [
    "queue_threads_counts",
    "queue_threads_alone"
   ],
   "note": "Sequential consistency; copying an item is one step."
  },
  {
   "property": "C173",
   "status": "partial",
   "theorems": [
    "queue_threads_enqueue_refuted",
    "queue_threads_dequeue_refuted",
    "queue_threads_partial"
   ],
   "note": "REFUTED on both sides: enqueue increments write_idx before it stores the item, so an interrupting dequeue delivers the stale cell; dequeue increments read_idx before it reads the item, so an interrupting enqueue on a full queue overwrites it. Partial: true in every interleaving in which enqueue goes on only with at least two free cells (unless dequeue is the interrupt handler) and dequeue only with at least two items (unless enqueue is the handler)."
  },
  {
   "property": "C174",
   "status": "proved",
   "theorems": [
    "crc32_check",
    "crc16_check",
    "crc32_frame",
    "crc16_frame",
    "crc32_frame_detects",
    "crc16_frame_detects"
   ],
   "note": ""
  },
  {
   "property": "C175",
   "status": "proved",
   "theorems": [
    "crc32_suffix",
    "crc16_suffix"
   ],
   "note": ""
  },
  {
   "property": "C176",
   "status": "proved",
   "theorems": [
    "crc32_linear",
    "crc16_linear",
    "crc_init_distinct"
   ],
   "note": ""
  },
  {
   "property": "C177",
   "status": "proved",
   "theorems": [
    "serializer_record_write",
    "serializer_record_read",
    "serializer_record_rewrite",
    "serializer_record_short"
   ],
   "note": ""
  },
  {
   "property": "C178",
   "status": "proved",
   "theorems": [
    "stopwatch_custom_elapsed",
    "stopwatch_custom_default"
   ],
   "note": ""
  },
  {
   "property": "C179",
   "status": "partial",
   "theorems": [
    "stopwatch_custom_reached_refuted",
    "stopwatch_custom_reached_partial"
   ],
   "note": "REFUTED: a uint32_t type on LP64 reports the period reached only in the one tick where it ends, a uint16_t type not at all if the end lies behind a wrap, and periods are cut to the type; exact behaviour proved for all histories"
  },
  {
   "property": "C180",
   "status": "proved",
   "theorems": [
    "parameter_step_direction",
    "parameter_step_monotone"
   ],
   "note": ""
  },
  {
   "property": "C181",
   "status": "partial",
   "theorems": [
    "parameter_step_progress_refuted",
    "parameter_step_progress_partial",
    "parameter_step_lost_partial"
   ],
   "note": "REFUTED: rounding swallows small steps, the float 2^24 with step 1 stays for ever; proved: progress when the step is a unit in the last place or more, no progress in any number of operations when it is less than a quarter"
  },
  {
   "property": "C182",
   "status": "proved",
   "theorems": [
    "parameter_step_wraps"
   ],
   "note": ""
  },
  {
   "property": "C183",
   "status": "partial",
   "theorems": [
    "timer_custom_refuted",
    "timer_custom_history_partial",
    "timer_custom_every_tick_partial",
    "timer_custom_before_wrap_partial"
   ],
   "note": "REFUTED: a uint32_t type on LP64 fires only when polled in the exact tick of the deadline, so an odd period polled at even ticks never fires; a uint16_t type never fires when the deadline lies behind a wrap; exact behaviour proved for all histories, and the claim when polled in every tick resp. before the next wrap"
  },
  {
   "property": "C184",
   "status": "proved",
   "theorems": [
    "parameter_cycle"
   ],
   "note": ""
  },
  {
   "property": "C185",
   "status": "partial",
   "theorems": [
    "parameter_there_and_back_refuted",
    "parameter_there_and_back_partial"
   ],
   "note": "REFUTED: a step that goes round to the minimum comes back to the maximum, whatever the value was; the exact result is proved for all values"
  },
  {
   "property": "C186",
   "status": "proved",
   "theorems": [
    "pid_float_setpoint_monotone"
   ],
   "note": ""
  },
  {
   "property": "C187",
   "status": "partial",
   "theorems": [
    "pid_float_reading_monotone_refuted",
    "pid_float_reading_monotone_partial"
   ],
   "note": "REFUTED: an error of 0 is not stored, so the integral keeps the oldest error, which may be greater than the one a smaller reading would have stored; proved for all readings that differ from the set point"
  },
  {
   "property": "C188",
   "status": "proved",
   "theorems": [
    "listx_worlds"
   ],
   "note": ""
  },
  {
   "property": "C189",
   "status": "partial",
   "theorems": [
    "listx_del_again_refuted",
    "listx_del_again_partial"
   ],
   "note": "REFUTED: a removed node keeps its links, so removing it again drops whatever was put between its former neighbours; exact result proved when the former neighbours are on one list in the same order"
  },
  {
   "property": "C190",
   "status": "proved",
   "theorems": [
    "listx_undo"
   ],
   "note": ""
  },
  {
   "property": "C191",
   "status": "proved",
   "theorems": [
    "debounced_keypad"
   ],
   "note": "refinement of both models run together to the pad specification on settled levels"
  },
  {
   "property": "C192",
   "status": "proved",
   "theorems": [
    "debounced_keypad_silent"
   ],
   "note": ""
  },
  {
   "property": "C193",
   "status": "proved",
   "theorems": [
    "debounced_keypad_press"
   ],
   "note": "whether the release has been reported by the end depends on the click time, hence at most one"
  },
  {
   "property": "C194",
   "status": "proved",
   "theorems": [
    "scheduler_week_exact"
   ],
   "note": ""
  },
  {
   "property": "C195",
   "status": "partial",
   "theorems": [
    "scheduler_week_duration_refuted",
    "scheduler_week_duration_partial"
   ],
   "note": "REFUTED for entries that start after 24:00, last more than a day or end before they start; the partial theorem says for which entries with start <= end it holds"
  },
  {
   "property": "C196",
   "status": "partial",
   "theorems": [
    "scheduler_checked_table_refuted",
    "scheduler_checked_table_partial"
   ],
   "note": "REFUTED past midnight: the check does not see that an entry past midnight is active in the morning; proved for entries that end by 24:00"
  },
  {
   "property": "C197",
   "status": "proved",
   "theorems": [
    "schedule_store"
   ],
   "note": "the restriction on restarts is part of the claim; without it the claim is false by C42"
  },
  {
   "property": "C198",
   "status": "proved",
   "theorems": [
    "pulse_counts_debounced"
   ],
   "note": "both models run on the same samples; only their answers are compared"
  },
  {
   "property": "C199",
   "status": "partial",
   "theorems": [
    "timer_drift_refuted",
    "timer_drift_partial"
   ],
   "note": "REFUTED: the period is restarted at the poll, so the lateness of every poll adds up (third callback of a timer with period 10 polled every 7 units at 42). Proved: consecutive callbacks are p to p+J apart, the k-th comes k*p to k*(p+J) after the start, and at least n have come by n*(p+J)."
  },
  {
   "property": "C200",
   "status": "partial",
   "theorems": [
    "eventlog_restart_refuted",
    "eventlog_restart_partial"
   ],
   "note": "REFUTED: in a full log the lost events have overwritten the oldest ones, and are delivered in their place. Proved: total_events is right, and every window of at most max_events minus ahead events back is right, where ahead is the number of lost events not yet overwritten by new ones."
  },
  {
   "property": "C201",
   "status": "proved",
   "theorems": [
    "watcher_latency"
   ],
   "note": "the callback of the watcher is recognised by its pointer, which no other watcher of the list has"
  },
  {
   "property": "C202",
   "status": "proved",
   "theorems": [
    "pulse_bouncing"
   ],
   "note": "filter cells zero as in C21 (see C22); count modulo the int range"
  },
  {
   "property": "C203",
   "status": "proved",
   "theorems": [
    "pulse_rate"
   ],
   "note": "filter cells zero as in C21 (see C22); the bound is reached in the example"
  },
  {
   "property": "C204",
   "status": "proved",
   "theorems": [
    "keypad_prompt"
   ],
   "note": "upper bounds matching the lower bounds of C53 and C55"
  },
  {
   "property": "C205",
   "status": "proved",
   "theorems": [
    "scheduler_steady",
    "scheduler_midnight"
   ],
   "note": ""
  },
  {
   "property": "C206",
   "status": "partial",
   "theorems": [
    "observer_refuted",
    "observer_own_partial",
    "observer_any_partial",
    "observed_sequential"
   ],
   "note": "REFUTED for a third thread: the two indices are loaded at different moments, so it can see \"empty\" while there always was an element, \"full\" while there never were enough, and a size that never occurred. Proved for the producer and the consumer thread (one index stands still; a full buffer makes the size one too large as in C02), and for any thread that \"not empty\" and \"not full\" were right at some moment and the size is at most bufsize."
  },
  {
   "property": "C207",
   "status": "proved",
   "theorems": [
    "queue_ask_dequeue",
    "queue_ask_enqueue",
    "asked_sequential"
   ],
   "note": "Sequential consistency, as C172. It is about the result codes: the item delivered may still be a stale one (C173)."
  },
  {
   "property": "C208",
   "status": "proved",
   "theorems": [
    "cbuf_ask_getc",
    "cbuf_ask_putc"
   ],
   "note": "Sequential consistency, as the other two-thread claims. The exception for a full buffer is C02 (example cbuf_ask_full)."
  },
  {
   "property": "C209",
   "status": "proved",
   "theorems": [
    "keypad_table_prompt"
   ],
   "note": "combines C130 and C204"
  },
  {
   "property": "C210",
   "status": "proved",
   "theorems": [
    "eventlog_pages"
   ],
   "note": "the sum of pages and events saved meanwhile is below 2^64 (C47); failing saves leave the storage alone"
  },
  {
   "property": "C211",
   "status": "proved",
   "theorems": [
    "pid_float_accurate"
   ],
   "note": "binary32, round to nearest even, every operation rounded to float (no contraction or excess precision); gains are the float values P/2^q, I/2^q, K/2^q; covers gains for which C167 says nothing because products are rounded"
  },
  {
   "property": "C212",
   "status": "partial",
   "theorems": [
    "queue_watch_refuted",
    "queue_watch_one_partial",
    "queue_watch_both_partial"
   ],
   "note": "REFUTED: between the two loads an enqueue and a dequeue can pass, so the third thread is told \"empty\" although there was always an item, and \"full\" although a queue of two never held more than one. Proved: right if only one of the two threads makes steps meanwhile; \"not empty\" and \"not full\" are always right at some moment. Sequential consistency"
  },
  {
   "property": "C213",
   "status": "proved",
   "theorems": [
    "queue_tally_dequeue",
    "queue_tally_enqueue",
    "tally_sequential"
   ],
   "note": "sequential consistency, as in QueueConcModel; the value for a wrapped write_idx is the defect of count already refuted for sequential use"
  }
 ]
}

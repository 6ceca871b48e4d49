{
 "claims": [
  {
   "property": "C01",
   "status": "proved",
   "theorems": [
    "C01_tlv_stream_roundtrip",
    "C01_kinds"
   ],
   "note": "Whole receive path of the model: frame decoder, TLV interceptor, chain, dispatch event."
  },
  {
   "property": "C02",
   "status": "proved",
   "theorems": [
    "C02_ltv_stream_roundtrip",
    "C02_kinds"
   ],
   "note": "Same for LTV."
  },
  {
   "property": "C03",
   "status": "proved",
   "theorems": [
    "C03_chunking_independence"
   ],
   "note": "All documented configurations, streams of acceptable frames."
  },
  {
   "property": "C04",
   "status": "proved",
   "theorems": [
    "C04_prompt_delivery_tlv",
    "C04_prompt_delivery_ltv"
   ],
   "note": "TLV and LTV."
  },
  {
   "property": "C05",
   "status": "partial",
   "theorems": [
    "C05_overlong_frame_wedges_refuted",
    "C05_overlong_frame_refuted"
   ],
   "note": "False of the code. Refuted in general (whole over-long frame wedges the decoder, for every configuration) and by witness (split over-long frame yields bogus frames). Finding F1."
  },
  {
   "property": "C06",
   "status": "partial",
   "theorems": [
    "C06_arbitrary_bytes",
    "C06_default_configurations",
    "C06_tlv_receive_path",
    "C06_ltv_receive_path",
    "C06_loop_forever_refuted",
    "C06_panic_refuted",
    "C06_fuel_exact",
    "C06_connection_refuted"
   ],
   "note": "Proved for every configuration in which each length value is acceptable, in particular the TLV and LTV defaults, including the full receive path on arbitrary bytes of any number and in any chunks (the messages depend on the bytes only). Refuted for arbitrary configurations (endless loop, panic). Findings F2, F3."
  },
  {
   "property": "C07",
   "status": "proved",
   "theorems": [
    "C07_unpack_pack_tlv",
    "C07_unpack_pack_ltv",
    "C07_unpack_tlv_outcomes",
    "C07_unpack_ltv_outcomes",
    "C07_kinds"
   ],
   "note": ""
  },
  {
   "property": "C08",
   "status": "proved",
   "theorems": [
    "C08_tlv_unique_decodability",
    "C08_ltv_unique_decodability"
   ],
   "note": ""
  },
  {
   "property": "C09",
   "status": "partial",
   "theorems": [
    "C09_max_packet_size_refuted"
   ],
   "note": "False of the code: Unpack is not on the receive path. Refuted for every limit. Finding F4."
  },
  {
   "property": "C10",
   "status": "partial",
   "theorems": [
    "C10_htlv_delivery_partial",
    "C10_body_255_refuted"
   ],
   "note": "Proved for bodies up to 254 bytes; refuted for 255 (frame maximum is one too small). Finding F5."
  },
  {
   "property": "C11",
   "status": "proved",
   "theorems": [
    "C11_crc_table",
    "C11_check_crc"
   ],
   "note": ""
  },
  {
   "property": "C12",
   "status": "proved",
   "theorems": [
    "C12_burst_detected",
    "C12_two_bits_detected",
    "C12_odd_detected"
   ],
   "note": "Bursts up to 16 bits, any two bits, any odd number of bits."
  },
  {
   "property": "C13",
   "status": "partial",
   "theorems": [
    "C13_bad_frame_ends_connection_refuted"
   ],
   "note": "False of the code: bad CRC gives a nil dereference in the interceptor, the reader recovers by stopping the connection. Refuted. Finding F6."
  },
  {
   "property": "C14",
   "status": "proved",
   "theorems": [
    "C14_predecessor_first",
    "C14_stop",
    "C14_builder_order",
    "C14_linear_chain"
   ],
   "note": ""
  },
  {
   "property": "C15",
   "status": "partial",
   "theorems": [
    "C15_tlv_decode_frame_partial",
    "C15_ltv_decode_frame_partial",
    "C15_short_passes_through",
    "C15_length_wrap_refuted"
   ],
   "note": "Proved for frames below 2^32 bytes; refuted for announced lengths from 2^32-8 (uint32 wrap). Finding F7."
  },
  {
   "property": "C16",
   "status": "proved",
   "theorems": [
    "C16_phases",
    "C16_order",
    "C16_abort",
    "C16_goto",
    "C16_terminates"
   ],
   "note": "Phases as a legal-run specification (phase_run) plus its three consequences; Goto loops need not terminate, so termination is claimed only without Goto."
  },
  {
   "property": "C17",
   "status": "partial",
   "theorems": [
    "C17_prefix",
    "C17_order_partial",
    "C17_terminates",
    "C17_too_many_refuted",
    "C17_wrap_refuted"
   ],
   "note": "Proved up to 127 handlers. False beyond (F8): the handler index is int8, with 128..255 handlers none runs; with 127 a superfluous RouterSlicesNext panics."
  },
  {
   "property": "C18",
   "status": "partial",
   "theorems": [
    "C18_no_start_after_abort",
    "C18_running_finish_partial",
    "C18_running_finish_refuted"
   ],
   "note": "No start after Abort: proved for all lists. Running handlers finish: proved away from the int8 limit, refuted at 127 handlers (F8)."
  },
  {
   "property": "C19",
   "status": "proved",
   "theorems": [
    "C19_registration",
    "C19_stable",
    "C19_group_binding",
    "C19_add_router"
   ],
   "note": "Refinement of plain-list registration over a heap of Go slices, all programs and growth policies."
  },
  {
   "property": "C20",
   "status": "proved",
   "theorems": [
    "C20_unknown_runs_nothing",
    "C20_others_undisturbed",
    "C20_known_slices",
    "C20_known_phases",
    "C20_unknown_returns"
   ],
   "note": "Over all schedules of the worker-pool machine (Workers.v), all modes, with and without pool; both router styles."
  },
  {
   "property": "C21",
   "status": "partial",
   "theorems": [
    "C21_keys",
    "C21_copy_partial",
    "C21_response_refuted",
    "C21_payload_refuted"
   ],
   "note": "Keys and message ID proved for all histories. False of the code for the response object and for the payload behind a decoder (F9)."
  },
  {
   "property": "C22",
   "status": "partial",
   "theorems": [
    "C22_keys",
    "C22_response_partial",
    "C22_response_unpooled",
    "C22_control_state",
    "C22_response_refuted"
   ],
   "note": "Keys and run state proved for all histories and pool choices. False of the code for the response object (F10)."
  },
  {
   "property": "C23",
   "status": "partial",
   "theorems": [
    "C23_order_partial",
    "C23_order_dynamic_partial",
    "C23_dynamic_refuted"
   ],
   "note": "Proved for Hash and Bind mode and for DynamicBind while no extra worker is started; false of the code with extra workers (F11)."
  },
  {
   "property": "C24",
   "status": "proved",
   "theorems": [
    "C24_completes",
    "C24_fair",
    "C24_fair_in_order",
    "C24_function_job",
    "C24_function_returns",
    "C24_accounting",
    "C24_received",
    "C24_progress",
    "C24_panic_returns"
   ],
   "note": "Accounting (each request exactly once) and progress, all modes and schedules, any handlers; no panic leaves a worker. On infinite executions with fair workers and handlers that return, everything received is handled (C24_fair), in order per connection in the Hash and Bind modes."
  },
  {
   "property": "C25",
   "status": "partial",
   "theorems": [
    "C25_bind_partial",
    "C25_bind_refuted"
   ],
   "note": "Proved when no connection starts while another is between removal from the manager and freeWorker; false of the code otherwise (F12)."
  },
  {
   "property": "C26",
   "status": "partial",
   "theorems": [
    "C26_dynamic_partial",
    "C26_dynamic_refuted",
    "C26_no_panic_partial",
    "C26_no_panic_refuted"
   ],
   "note": "Proved while the pool itself suffices; false of the code once extra workers are used (F11)."
  },
  {
   "property": "C27",
   "status": "proved",
   "theorems": [
    "C27_index_valid",
    "C27_pool_start"
   ],
   "note": "All modes and histories. Starting the pool itself panics for DynamicBind with WorkerPoolSize > MaxConn (F13)."
  },
  {
   "property": "C28",
   "status": "partial",
   "theorems": [
    "C28_at_most_once",
    "C28_manager",
    "C28_exactly_once_partial",
    "C28_heartbeat_refuted",
    "C28_hook_panic_refuted",
    "C28_reader_runs",
    "C28_crash_is_end",
    "C28_heartbeat_partial",
    "C28_heartbeat_stuck",
    "C28_start_hook",
    "C28_start_panic_refuted",
    "C28_panics_are_hooks",
    "C28_fair"
   ],
   "note": "At most once: proved for all server runs; manager contents follow removal. Exactly once: proved for TCP, and for websocket/KCP without heartbeat, with hooks that do not panic. False of the code with a websocket/KCP heartbeat (deadlock, F15) and with a panicking stop hook (F16)."
  },
  {
   "property": "C29",
   "status": "proved",
   "theorems": [
    "C29_ids_unique"
   ],
   "note": "All interleavings of the TCP, websocket and KCP accept code and everything else in the server machine."
  },
  {
   "property": "C30",
   "status": "partial",
   "theorems": [
    "C30_limit_partial",
    "C30_limit_refuted"
   ],
   "note": "Proved for TCP and KCP mode; false of the code in websocket and default mode (F17: check and add are not atomic across handlers)."
  },
  {
   "property": "C31",
   "status": "partial",
   "theorems": [
    "C31_stop_partial",
    "C31_window_refuted",
    "C31_stop_twice_refuted"
   ],
   "note": "Proved outside the window between accept and Start, with one Server.Stop. False of the code in the window (F18: nil cancel) and for a second Server.Stop (F19)."
  },
  {
   "property": "C32",
   "status": "proved",
   "theorems": [
    "C32_manager_is_a_map"
   ],
   "note": "All call histories of the connection manager, through the sharded map and the decimal key encoding; sequential (concurrency is C42 on the map underneath)."
  },
  {
   "property": "C33",
   "status": "partial",
   "theorems": [
    "C33_range_partial",
    "C33_range2_partial",
    "C33_range_refuted"
   ],
   "note": "False of the code: only the last visited connection's error is returned (F14). Proved: an error is never invented; refuted for every manager with two or more connections."
  },
  {
   "property": "C34",
   "status": "partial",
   "theorems": [
    "C34_tcp_buffered_partial",
    "C34_tcp_whole_partial",
    "C34_tcp_direct_partial",
    "C34_tcp_order",
    "C34_tcp_mixed_refuted",
    "C34_stop_cuts_refuted",
    "C34_ws",
    "C34_kcp_return_order_partial",
    "C34_kcp_refuted"
   ],
   "note": "TCP: proved for runs with only buffered sends (prefix of the concatenation of accepted messages; whole when the writer is idle with an empty buffer) and for runs with only direct sends, plus per-goroutine order for all runs. Refuted in general: a direct send can land inside a partly flushed buffered message, and Stop leaves a cut message. Websocket: proved for all runs. KCP: refuted (two channels and two writers; messages of one goroutine swap)."
  },
  {
   "property": "C35",
   "status": "partial",
   "theorems": [
    "C35_tcp_fair_partial",
    "C35_ws_fair_partial",
    "C35_tcp_partial",
    "C35_ws_partial",
    "C35_stop_refuted",
    "C35_ws_kcp_stop_refuted",
    "C35_kcp_refuted"
   ],
   "note": "TCP (buffered sends only) and websocket: without Stop and with a working network every accepted message can be brought onto the wire from every reachable state; on TCP it is on the wire some time in every infinite execution whose goroutines and whose select are fair (C35_tcp_fair_partial), on the websocket in every one whose goroutines and whose lock are fair (C35_ws_fair_partial). Refuted with a local Stop (all three kinds) and, on KCP, even without Stop."
  },
  {
   "property": "C36",
   "status": "partial",
   "theorems": [
    "C36_tcp_one_sender_partial",
    "C36_tcp_refuted",
    "C36_ws",
    "C36_kcp_partial",
    "C36_kcp_refuted",
    "C36_before_start_refuted",
    "C36_ws_kcp_before_start_refuted"
   ],
   "note": "Websocket: proved for all runs after Start. TCP: proved for one buffered sender; refuted for two (double close, send on closed, close of nil). KCP: proved without SendBuffMsg; refuted with it. A buffered send before Start crashes the process."
  },
  {
   "property": "C37",
   "status": "proved",
   "theorems": [
    "C37_callbacks",
    "C37_invoke_all"
   ],
   "note": "Heap-level linked list refines a plain list. A panicking callback stops the later ones (shown as an example)."
  },
  {
   "property": "C38",
   "status": "proved",
   "theorems": [
    "C38_closed_no_beat",
    "C38_setters",
    "C38_configured",
    "C38_check",
    "C38_only_checks",
    "C38_never_dead",
    "C38_clone",
    "C38_not_cut_off"
   ],
   "note": "All histories of reads, pings, close and checks; clock monotone; maximum in seconds whose nanoseconds fit in int64."
  },
  {
   "property": "C39",
   "status": "partial",
   "theorems": [
    "C39_slices_order",
    "C39_router_partial",
    "C39_slices_partial",
    "C39_slices_refuted",
    "C39_default_id_refuted",
    "C39_client_slices_refuted"
   ],
   "note": "Proved for the three phase router (server and client) with a non-default ID. Refuted in slices mode (the default handler runs too), for the default ID (custom router silently ignored) and for clients in slices mode (nothing runs)."
  },
  {
   "property": "C40",
   "status": "proved",
   "theorems": [
    "C40_backoff",
    "C40_reset"
   ],
   "note": "Sequential use; the delay object is a global shared by the TCP and websocket listeners."
  },
  {
   "property": "C41",
   "status": "proved",
   "theorems": [
    "C41_refines_map"
   ],
   "note": "All histories, any hash function."
  },
  {
   "property": "C42",
   "status": "proved",
   "theorems": [
    "C42_linearizable",
    "C42_setnx_one_winner",
    "C42_removecb_one_winner"
   ],
   "note": "All schedules of the lock-level machine for single-key operations, reads included; iteration is not atomic in the code and is not claimed."
  },
  {
   "property": "C43",
   "status": "proved",
   "theorems": [
    "C43_increasing",
    "C43_disjoint"
   ],
   "note": "all clock reading sequences with times in [1970, 2039-09-07); calls are serialised by the mutex"
  },
  {
   "property": "C44",
   "status": "proved",
   "theorems": [
    "C44_accepts",
    "C44_fails_iff",
    "C44_returns",
    "C44_non_negative"
   ],
   "note": "accepted worker numbers, failure exactly when the clock is behind the last ID, non-negative IDs in the supported range"
  },
  {
   "property": "C45",
   "status": "partial",
   "theorems": [
    "C45_archives_stay",
    "C45_compressed",
    "C45_write_result",
    "C45_after_error",
    "C45_every_byte_partial",
    "C45_steady_clock_partial",
    "C45_accepts_all",
    "C45_same_microsecond_refuted",
    "C45_close_race_refuted",
    "C45_open_failure_refuted",
    "C45_zip_path_refuted",
    "C45_expiry",
    "C45_count"
   ],
   "note": "every accepted byte is kept for all runs with distinct archive names (shown for clocks that do not go back), successful opens and whole Close calls; lost bytes shown for equal-microsecond rotations, a Write between the two halves of Close, a failed reopen, and a path ending in .zip"
  },
  {
   "property": "C46",
   "status": "partial",
   "theorems": [
    "C46_bound",
    "C46_rename_failure_refuted"
   ],
   "note": "all runs in which renames and opens succeed; refuted when the rename of a rotation fails"
  },
  {
   "property": "C47",
   "status": "proved",
   "theorems": [
    "C47_at_most_once"
   ],
   "note": "all wheel configurations, all schedules and clock readings, no bound on the number of timers"
  },
  {
   "property": "C48",
   "status": "partial",
   "theorems": [
    "C48_never_early",
    "C48_overflow_refuted"
   ],
   "note": "all schedules; for CreateTimerAfter the sum must fit in int64, beyond that refuted (C48_overflow_refuted)"
  },
  {
   "property": "C49",
   "status": "partial",
   "theorems": [
    "C49_cancelled_partial",
    "C49_already_polled_refuted"
   ],
   "note": "proved unless a poll had already taken the timer; in that case refuted (C49_already_polled_refuted)"
  },
  {
   "property": "C50",
   "status": "partial",
   "theorems": [
    "C50_one_place",
    "C50_never_two",
    "C50_id_wrap_refuted"
   ],
   "note": "proved for up to 2^32 creations; refuted beyond (IDs repeat)"
  },
  {
   "property": "C51",
   "status": "proved",
   "theorems": [
    "C51_in_time"
   ],
   "note": "ticks at most `late` late, polls at most `gap` apart, no time passes in the middle of a tick; all delays, not only those below 12 hours"
  },
  {
   "property": "C52",
   "status": "proved",
   "theorems": [
    "C52_exactly_once",
    "C52_at_most_once",
    "C52_needs_both",
    "C52_fair"
   ],
   "note": "any number of concurrent calls; calls with a nil callback excluded from exactly-once (they win the flag and schedule nothing)"
  },
  {
   "property": "C53",
   "status": "partial",
   "theorems": [
    "C53_set_first_partial",
    "C53_callback_first_partial",
    "C53_refuted"
   ],
   "note": "true for non-overlapping calls; false when OnComplete runs between the flag and the store of SetReturnedObj"
  },
  {
   "property": "C54",
   "status": "proved",
   "theorems": [
    "C54_index",
    "C54_one_at_a_time",
    "C54_order",
    "C54_program_order",
    "C54_submitted",
    "C54_all_run",
    "C54_fair",
    "C54_isolated"
   ],
   "note": "any number of goroutines and workers; order is the order of the worker channel, and per goroutine its program order"
  },
  {
   "property": "C55",
   "status": "partial",
   "theorems": [
    "C55_map",
    "C55_nil_all_refuted"
   ],
   "note": "refinement of a plain map, for uint64 IDs and non-nil connections; a nil connection makes Get and the sends panic"
  },
  {
   "property": "C56",
   "status": "partial",
   "theorems": [
    "C56_refuted",
    "C56_always_nil_refuted"
   ],
   "note": "refuted: NotifyAll and NotifyBuffAll always return nil"
  },
  {
   "property": "C57",
   "status": "proved",
   "theorems": [
    "C57_neighbours",
    "C57_off_map",
    "C57_symmetric"
   ],
   "note": "all map sizes"
  },
  {
   "property": "C58",
   "status": "partial",
   "theorems": [
    "C58_covered_partial",
    "C58_divides_partial",
    "C58_default_refuted",
    "C58_negative_refuted",
    "C58_defined"
   ],
   "note": "true on the part of the map the grids cover, for coordinates truncation rounds down; refuted on the default map and for negative fractions"
  },
  {
   "property": "C59",
   "status": "partial",
   "theorems": [
    "C59_membership_partial",
    "C59_interleaved_partial",
    "C59_off_map_refuted",
    "C59_move_leave_refuted",
    "C59_two_leave_refuted"
   ],
   "note": "true for sequential histories with placed positions and for interleaved ones per player; refuted for positions without a grid, for a move overlapping a leave, and for two leaves overlapping"
  },
  {
   "property": "C60",
   "status": "proved",
   "theorems": [
    "C60_messages",
    "C60_same_grid"
   ],
   "note": "all map sizes and pairs of grids, from every reachable sequential state"
  },
  {
   "property": "C61",
   "status": "partial",
   "theorems": [
    "C61_framing_partial",
    "C61_empty_refuted"
   ],
   "note": "any interleaving; non-empty messages; refuted for the empty message, which gets no newline"
  },
  {
   "property": "C62",
   "status": "partial",
   "theorems": [
    "C62_isolation",
    "C62_sequence",
    "C62_stack_refuted",
    "C62_only_fatal_exits",
    "C62_fatal_exits"
   ],
   "note": "proved for the level methods under any interleaving while the process lives; the process ends after Fatal and only then; refuted for Stack, which ignores the level"
  },
  {
   "property": "C63",
   "status": "proved",
   "theorems": [
    "C63_decimal",
    "C63_unique"
   ],
   "note": "all ints from 0 to 2^63-1, widths up to 32"
  },
  {
   "property": "C64",
   "status": "partial",
   "theorems": [
    "C64_header_partial",
    "C64_untimed_refuted",
    "C64_race_refuted"
   ],
   "note": "true when some time flag is set; refuted without one, and for a call overtaken by AddFlag"
  },
  {
   "property": "C65",
   "status": "partial",
   "theorems": [
    "C65_overlay_partial",
    "C65_odd_fields",
    "C65_level_refuted",
    "C65_stream_refuted",
    "C65_ignored_refuted"
   ],
   "note": "true of 31 of the 36 fields; refuted for LogIsolationLevel, KcpStreamMode, LogSaveDays, LogFileSize, LogCons"
  },
  {
   "property": "C66",
   "status": "partial",
   "theorems": [
    "C66_loaded",
    "C66_overlay_refuted",
    "C66_dir_refuted"
   ],
   "note": "true of loading the file; refuted for the overlay"
  },
  {
   "property": "C67",
   "status": "proved",
   "theorems": [
    "C67_phases",
    "C67_slices"
   ],
   "note": "any handler code and nesting; use of the request from other goroutines excluded"
  },
  {
   "property": "C68",
   "status": "partial",
   "theorems": [
    "C68_tcp",
    "C68_ws_kcp",
    "C68_tcp_first_send_refuted",
    "C68_ws_full_refuted"
   ],
   "note": "errors only from buffered sends whose timer fired: TCP, websocket, KCP. Only while the queue is full: refuted for TCP (first send race) and websocket (sender holds the lock the writer needs)"
  },
  {
   "property": "C69",
   "status": "partial",
   "theorems": [
    "C69_all_stopped",
    "C69_closes",
    "C69_accepts_partial",
    "C69_once",
    "C69_returns_partial",
    "C69_ws_refuted",
    "C69_survivor_refuted",
    "C69_default_mode_refuted"
   ],
   "note": "stopping, listener, and single return for all schedules; return guaranteed when all connections were started and Stop is called once, refuted in websocket mode; at most one late accept proved for Tcp, refuted for Kcp (C95_kcp_late_refuted); late accepts survive Stop; default mode keeps accepting websockets"
  },
  {
   "property": "C70",
   "status": "partial",
   "theorems": [
    "C70_stop_partial",
    "C70_ends",
    "C70_once",
    "C70_errors",
    "C70_returns_partial",
    "C70_failed_refuted",
    "C70_unstarted_refuted",
    "C70_early_refuted",
    "C70_nil_cancel_refuted",
    "C70_restart_refuted",
    "C70_crash_refuted",
    "C70_leak_refuted"
   ],
   "note": "one Start: Stop stops the connection it found, ends the client, returns if connected; errors once and one returning Stop for all uses; refuted: failed dial, no start, early Stop, Restart after Stop, leak on reconnect"
  },
  {
   "property": "C71",
   "status": "partial",
   "theorems": [
    "C71_daily_partial",
    "C71_restart_refuted",
    "C71_midnight_refuted",
    "C71_rename_refuted"
   ],
   "note": "one session with the file staying open, renames and opens succeeding, no Write past midnight; refuted otherwise"
  },
  {
   "property": "C72",
   "status": "partial",
   "theorems": [
    "C72_screen_partial",
    "C72_join",
    "C72_move",
    "C72_leave",
    "C72_chat",
    "C72_overlap_refuted"
   ],
   "note": "calls one at a time, positions with a grid; refuted for overlapping calls"
  },
  {
   "property": "C73",
   "status": "partial",
   "theorems": [
    "C73_buffered_partial",
    "C73_direct_partial",
    "C73_ws_partial",
    "C73_arrives_partial",
    "C73_ws_arrives_partial",
    "C73_mixed_refuted",
    "C73_fair_partial",
    "C73_ws_fair_partial"
   ],
   "note": "TCP with only buffered or only direct sends, websocket with both; Hash and Bind worker modes; that all arrive is shown for buffered TCP sends and the websocket, given handlers that return, and for buffered TCP sends on every fair infinite execution (C73_fair_partial), for the websocket too, with sends of both kinds (C73_ws_fair_partial); refuted for mixed sends on TCP"
  },
  {
   "property": "C74",
   "status": "partial",
   "theorems": [
    "C74_items",
    "C74_items_partway",
    "C74_items_stable",
    "C74_items_finish",
    "C74_keys",
    "C74_keys_finish",
    "C74_count",
    "C74_itercb",
    "C74_itercb_finish_partial",
    "C74_itercb_remove_refuted",
    "C74_itercb_get_refuted",
    "C74_items_whole_refuted",
    "C74_count_refuted",
    "C74_itercb_elsewhere_partial",
    "C74_items_unlocked",
    "C74_keys_unlocked",
    "C74_itercb_unlocked"
   ],
   "note": "every iteration reports each key as at some moment of the call, can finish (IterCb only with a callback that leaves the map alone or uses keys of other shards only) and leaves no lock; refuted: one consistent snapshot, Count of a never empty map, callbacks that use their own key"
  },
  {
   "property": "C75",
   "status": "proved",
   "theorems": [
    "C75_linearizable",
    "C75_returns"
   ],
   "note": "all schedules, connections and goroutines"
  },
  {
   "property": "C76",
   "status": "partial",
   "theorems": [
    "C76_after_start",
    "C76_after_stop",
    "C76_each_once",
    "C76_none_lost",
    "C76_contained_partial",
    "C76_contained_refuted",
    "C76_after_end_refuted"
   ],
   "note": "start hook first, one read after Stop, every message once: all schedules; panics contained on TCP and KCP, refuted on websocket; handlers after OnConnStop: refuted"
  },
  {
   "property": "C77",
   "status": "partial",
   "theorems": [
    "C77_identity_partial",
    "C77_alone_partial",
    "C77_shared",
    "C77_acts",
    "C77_routes_partial",
    "C77_slices_kept",
    "C77_no_crash",
    "C77_limits_refuted",
    "C77_routes_refuted",
    "C77_crash_refuted",
    "C77_path_decides",
    "C77_port_refuted",
    "C77_hang_refuted",
    "C77_own_worker_partial",
    "C77_dynamic_worker_partial"
   ],
   "note": "address, ports, name, path, router kind and worker count are the server's own; limits, mode, TLS and routing are the last ones any server asked for; refuted: own limits, own routing, own websocket port and path, connections served in mixed worker modes"
  },
  {
   "property": "C78",
   "status": "partial",
   "theorems": [
    "C78_lines_partial",
    "C78_calls_partial",
    "C78_sequence_partial",
    "C78_set_flushes_partial",
    "C78_flush_partial",
    "C78_limits",
    "C78_unopened",
    "C78_exit_loses",
    "C78_fatal_refuted",
    "C78_overlap_refuted",
    "C78_hook_refuted",
    "C78_unopened_copy_refuted"
   ],
   "note": "any number of goroutines and files when SetLogFile does not overlap log calls, files open, archive names are distinct and the hook does not log; refuted: Fatal, overlapping SetLogFile, a hook that logs, a copied line whose file does not open is shown twice"
  },
  {
   "property": "C79",
   "status": "partial",
   "theorems": [
    "C79_once",
    "C79_function_partial",
    "C79_fifo",
    "C79_progress",
    "C79_alive_partial",
    "C79_panic",
    "C79_channel",
    "C79_lone_not_early",
    "C79_order_partial",
    "C79_arguments_refuted",
    "C79_nil_refuted",
    "C79_order_refuted",
    "C79_close_refuted",
    "C79_fair",
    "C79_fair_lone"
   ],
   "note": "once, progress, panics and Timer.Run for all executions; the function and arguments given when nobody writes to the slice; process survives unless a nil DelayFunc is passed; order of handing out for timers far enough apart; refuted: changed arguments, nil DelayFunc, order of calls"
  },
  {
   "property": "C80",
   "status": "partial",
   "theorems": [
    "C80_queue",
    "C80_held_back",
    "C80_sends",
    "C80_ends",
    "C80_progress_partial",
    "C80_own_queue_refuted",
    "C80_two_queues_refuted"
   ],
   "note": "order, conservation, bounds and termination for all executions; everything handled where handlers send only to workers of lower rank, in particular when they send nothing; refuted: a handler that sends to its own full queue, two workers that send to each other's"
  },
  {
   "property": "C81",
   "status": "partial",
   "theorems": [
    "C81_own_data_partial",
    "C81_reader_partial",
    "C81_raw_partial",
    "C81_raw_refuted"
   ],
   "note": "all executions with a frame decoder, and KCP and websocket without one; TCP without a decoder: right until the next read, refuted afterwards"
  },
  {
   "property": "C82",
   "status": "partial",
   "theorems": [
    "C82_unpooled",
    "C82_pooled_partial",
    "C82_handler_sees_own_message",
    "C82_after_refuted",
    "C82_write_after_refuted",
    "C82_twice_refuted",
    "C82_left_behind_refuted"
   ],
   "note": "without the pool: all executions; with it: interceptors before passing on and handlers, if each request is passed on once and not written afterwards; refuted otherwise"
  },
  {
   "property": "C83",
   "status": "partial",
   "theorems": [
    "C83_kept_partial",
    "C83_stream_partial",
    "C83_max_packet_size_refuted",
    "C83_overlong_refuted",
    "C83_htlv_refuted"
   ],
   "note": "proved for configurations in which every length value announces an acceptable frame (any bytes), and for every documented configuration on streams of acceptable frames; refuted with MaxPacketSize as the bound and after an over-long frame"
  },
  {
   "property": "C84",
   "status": "partial",
   "theorems": [
    "C84_tcp",
    "C84_tcp_returns",
    "C84_ws_partial",
    "C84_ws_refuted",
    "C84_kcp_refuted"
   ],
   "note": "TCP: proved for every peer; websocket: proved while the peer takes data again and again; refuted for websocket and KCP when the peer stops reading"
  },
  {
   "property": "C85",
   "status": "partial",
   "theorems": [
    "C85_own_data",
    "C85_own_bytes_tlv",
    "C85_own_bytes_ltv",
    "C85_same_bytes",
    "C85_ends_by_itself",
    "C85_survives_partial",
    "C85_crash_refuted",
    "C85_goes_on_partial",
    "C85_waits",
    "C85_head_of_line_refuted"
   ],
   "note": "non-interference of what is handled: proved for all decoders, Hash and Bind modes; refuted that no peer can end the server (websocket with a panicking decoder) and that handlers of other connections cannot hold a connection up (shared worker)"
  },
  {
   "property": "C86",
   "status": "proved",
   "theorems": [
    "C86_waits_for_conflict",
    "C86_inside_returns",
    "C86_no_deadlock"
   ],
   "note": "all interleavings of single-key calls; MSet, Clear and the iterators are not among the calls (C74 has them one at a time); no claim on the order in which waiting calls get the lock"
  },
  {
   "property": "C87",
   "status": "partial",
   "theorems": [
    "C87_clear",
    "C87_clear_key",
    "C87_clear_once",
    "C87_clear_finish",
    "C87_clear_whole_refuted",
    "C87_mset",
    "C87_mset_key",
    "C87_mset_whole_refuted"
   ],
   "note": "per key and termination: proved for all interleavings; refuted that Clear or MSet is one step"
  },
  {
   "property": "C88",
   "status": "partial",
   "theorems": [
    "C88_server_partial",
    "C88_server_decoded",
    "C88_server_roundtrip",
    "C88_server_late_refuted",
    "C88_client_partial",
    "C88_client_early_refuted",
    "C88_client_twice_refuted",
    "C88_client_twice_ends_refuted"
   ],
   "note": "servers: any order of calls with the decoder set before the first Start; clients: interceptors after Start, started once; refuted otherwise"
  },
  {
   "property": "C89",
   "status": "partial",
   "theorems": [
    "C89_record_partial",
    "C89_quiet",
    "C89_custom",
    "C89_direct_refuted",
    "C89_ctx_refuted"
   ],
   "note": "proved for level methods, package functions and Ins() when a time flag is set; refuted for direct calls on StdZinxLog, OutPut, and the context of the FX methods below the level"
  },
  {
   "property": "C90",
   "status": "partial",
   "theorems": [
    "C90_unmarshal",
    "C90_roundtrip",
    "C90_zero_refuted"
   ],
   "note": "proved for maps made by the constructors, for any codec that reads back what it writes; refuted for the zero value"
  },
  {
   "property": "C91",
   "status": "partial",
   "theorems": [
    "C91_ids",
    "C91_let_in",
    "C91_refused",
    "C91_answered",
    "C91_offered",
    "C91_protocol_partial",
    "C91_protocol_refuted",
    "C91_full_refuted"
   ],
   "note": "authentication, context and answers proved in full; the subprotocol when other requests offering any offer the same or are not handled at that time; refuted: subprotocols of overlapping requests, status of a request to a full server"
  },
  {
   "property": "C92",
   "status": "partial",
   "theorems": [
    "C92_given_partial",
    "C92_kept_refuted"
   ],
   "note": "proved until the next record; refuted for a hook that keeps the slice"
  },
  {
   "property": "C93",
   "status": "partial",
   "theorems": [
    "C93_file",
    "C93_said",
    "C93_none",
    "C93_stops",
    "C93_start",
    "C93_again_partial",
    "C93_again_refuted"
   ],
   "note": "the configuration in full; the logger at start, and at a later Reload when the configuration names a log file and a level above 0; refuted otherwise"
  },
  {
   "property": "C94",
   "status": "partial",
   "theorems": [
    "C94_copy",
    "C94_runs_nothing",
    "C94_ends_partial",
    "C94_next_refuted",
    "C94_apart",
    "C94_rebound_twice"
   ],
   "note": "all but RouterSlicesNext on a copy, which panics (refuted)"
  },
  {
   "property": "C95",
   "status": "partial",
   "theorems": [
    "C95_taken",
    "C95_ends_partial",
    "C95_goes_on",
    "C95_kcp_refuted",
    "C95_kcp_late_refuted"
   ],
   "note": "creating a connection: all schedules; the Tcp loop ends on a closed listener while there is room; refuted: the Kcp loop never ends and may take on late sessions"
  },
  {
   "property": "C96",
   "status": "partial",
   "theorems": [
    "C96_up",
    "C96_down",
    "C96_learns",
    "C96_once_refuted",
    "C96_others",
    "C96_walk",
    "C96_on_map",
    "C96_bounds_refuted"
   ],
   "note": "Refuted: the action loop is started twice (F99). Proved: both directions of the stream, what the robot learns, where it walks. The bounds of its correction alone do not keep it on the grids (F100)."
  },
  {
   "property": "C97",
   "status": "partial",
   "theorems": [
    "C97_order_partial",
    "C97_all_partial",
    "C97_accounted_partial",
    "C97_contained_partial",
    "C97_rest_refuted",
    "C97_guard_refuted",
    "C97_second_refuted",
    "C97_timed",
    "C97_timed_only",
    "C97_recorded_only",
    "C97_users",
    "C97_where_partial",
    "C97_where_refuted"
   ],
   "note": "Refuted: the handlers after one that panicked run all the same, and a second panic leaves the list (F101); the function name for package paths with dots (F102). Proved otherwise, for lists away from the limit of the eight bit index."
  },
  {
   "property": "C98",
   "status": "partial",
   "theorems": [
    "C98_reports",
    "C98_finish_partial",
    "C98_writes_refuted",
    "C98_reads_refuted"
   ],
   "note": "Reports: in full. That all can end: proved when callbacks do not use the map, refuted when they use other shards (F103)."
  },
  {
   "property": "C99",
   "status": "partial",
   "theorems": [
    "C99_two_seconds_partial",
    "C99_cap_refuted",
    "C99_runaway_refuted",
    "C99_reset_refuted",
    "C99_growth_partial",
    "C99_no_wait",
    "C99_apart"
   ],
   "note": "one-second cap and the reset refuted for overlapping calls (F105); exact for calls that do not overlap, two seconds if no two calls compute at once, growth bound for every schedule"
  },
  {
   "property": "C100",
   "status": "partial",
   "theorems": [
    "C100_paths",
    "C100_answered",
    "C100_patterns",
    "C100_starts",
    "C100_can_run",
    "C100_own_path",
    "C100_restart",
    "C100_ws_restart_refuted",
    "C100_default_path_refuted",
    "C100_wrong_port_refuted",
    "C100_taken_refuted",
    "C100_silent"
   ],
   "note": "proved for servers with disjoint ports and paths; restart proved for Tcp and Kcp; refuted for websocket restarts, equal paths, requests to another port and taken ports (F106, F107)"
  },
  {
   "property": "C101",
   "status": "partial",
   "theorems": [
    "C101_newest",
    "C101_watched",
    "C101_one_partial",
    "C101_reconnect_refuted",
    "C101_cut_refuted",
    "C101_unwatched_refuted",
    "C101_crash_ends",
    "C101_closed_not_alive"
   ],
   "note": "the newest connection is always watched; no crash if the client is restarted only after the old heartbeat was stopped; refuted for Restart in the stop hook (F109) and for older open connections (F110)"
  },
  {
   "property": "C102",
   "status": "partial",
   "theorems": [
    "C102_drained",
    "C102_accounted",
    "C102_order_partial",
    "C102_lost_why",
    "C102_twice_why",
    "C102_dead_why",
    "C102_clean_partial",
    "C102_survives_refuted",
    "C102_full_queue_refuted",
    "C102_both_close_refuted",
    "C102_order_refuted",
    "C102_fair_partial",
    "C102_worker_ends"
   ],
   "note": "queued requests are handled, all reads accounted for: all schedules; order and no loss when no ID is shared and readers are quiet; refuted: close while a request is on its way, two closes of a shared worker (F111, F112)"
  },
  {
   "property": "C103",
   "status": "partial",
   "theorems": [
    "C103_conversation_partial",
    "C103_wrapped_partial",
    "C103_bare_refuted",
    "C103_report_refuted",
    "C103_short",
    "C103_code_refuted"
   ],
   "note": "Proved with the HTLV decoder installed for functions 10, 13, 14, 16, and for the server as written when the frames come inside TLV messages. Refuted for function 15, bare frames and short bodies (F113-F115)."
  },
  {
   "property": "C104",
   "status": "partial",
   "theorems": [
    "C104_sequential_partial",
    "C104_settled",
    "C104_found",
    "C104_own",
    "C104_dead_why",
    "C104_crash_refuted",
    "C104_twice_refuted",
    "C104_use_refuted"
   ],
   "note": "one call at a time, all schedules of lookups between calls: equals registration at once; found-after-return, own handlers and the cause of a crash for all schedules; refuted for overlapping calls and lookups (F116-F118)"
  },
  {
   "property": "C105",
   "status": "partial",
   "theorems": [
    "C105_kept",
    "C105_name",
    "C105_heartbeat_partial",
    "C105_beats",
    "C105_uses",
    "C105_routes_partial",
    "C105_again_refuted",
    "C105_moment_refuted"
   ],
   "note": "hooks, packer, decoder and name for all histories; heartbeat and routes while no message ID gets two handlers; refuted: a second heartbeat under the same ID (F119), one moment for all settings (F120)"
  },
  {
   "property": "C106",
   "status": "partial",
   "theorems": [
    "C106_returns",
    "C106_only",
    "C106_left_refuted",
    "C106_early_refuted",
    "C106_deaf_refuted"
   ],
   "note": "when and why Serve returns: all histories; refuted for closing the connections (F121), signals before Notify (F122) and after Serve returned (F123)"
  },
  {
   "property": "C107",
   "status": "partial",
   "theorems": [
    "C107_handled",
    "C107_once",
    "C107_bound",
    "C107_pool_partial",
    "C107_order_partial",
    "C107_order_refuted",
    "C107_both_refuted",
    "C107_pool_refuted"
   ],
   "note": "exactly-once handling and the bound by started workers: all histories; order and pool size when not started again meanwhile; refuted across a second Start (F124, F125)"
  },
  {
   "property": "C108",
   "status": "partial",
   "theorems": [
    "C108_sends",
    "C108_understood_partial",
    "C108_ignored_refuted",
    "C108_both_refuted"
   ],
   "note": "sending: all; understood when the decoder fits the packer; refuted when only the packer is given (F126)"
  },
  {
   "property": "C109",
   "status": "partial",
   "theorems": [
    "C109_handled",
    "C109_once",
    "C109_no_panic_partial",
    "C109_no_crash_partial",
    "C109_fair",
    "C109_websocket_refuted",
    "C109_order_refuted"
   ],
   "note": "Exactly once in every worker mode; no panics in Hash and Bind, no crash without websocket connections. Order is refuted in every mode, and closing a websocket connection in DynamicBind ends the process (F127, F128)."
  },
  {
   "property": "C110",
   "status": "partial",
   "theorems": [
    "C110_all_partial",
    "C110_no_overlap",
    "C110_never_waits",
    "C110_quiet",
    "C110_nil_refuted",
    "C110_garbage_refuted",
    "C110_lost_refuted"
   ],
   "note": "One goroutine adding: all schedules, except for a nil in the place of the one being added and reads beyond an array; exact when calls do not overlap. Refuted for overlapping calls (F129) and for several goroutines adding (F130)."
  },
  {
   "property": "C111",
   "status": "partial",
   "theorems": [
    "C111_plain",
    "C111_file_partial",
    "C111_links_partial",
    "C111_fixed",
    "C111_read",
    "C111_link_refuted"
   ],
   "note": "Proved without symbolic links to directories, and with them if the variable has no \"..\". Refuted for \"..\" after a link or a missing directory (F131)."
  },
  {
   "property": "C112",
   "status": "partial",
   "theorems": [
    "C112_ip_partial",
    "C112_plain",
    "C112_ws_name",
    "C112_ws_unknown",
    "C112_url",
    "C112_name_refuted",
    "C112_v6_refuted"
   ],
   "note": "Proved for IPs without colons, for all IPs with plain clients, for names and URLs with websocket clients. Refuted for host names with plain and TLS clients (F132) and for IPv6 with TLS and websocket clients (F133)."
  },
  {
   "property": "C113",
   "status": "partial",
   "theorems": [
    "C113_ends_partial",
    "C113_one_at_a_time",
    "C113_below",
    "C113_hook_refuted"
   ],
   "note": "Ends proved for hooks that keep off the logger (they may panic); one at a time and calls below the level for all hooks. Refuted for hooks that use the logger (F134)."
  }
 ]
}

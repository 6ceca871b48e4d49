# Formal model of aceld/zinx in Rocq (Coq 8.16.1)

## 1. What this is

`/verif/rocq/theories` holds executable Gallina models of the logic of zinx, small
independent specifications, proofs, and `Props_*.v` files that contain only the
property theorems (each closed by `exact lemma.` and followed by
`Print Assumptions`) and a non-vacuity `Example` beside each.

The code was read as text; it was neither built nor run.  Every definition of a
model carries a comment citing the file and lines in `/repo` it models, and says
where it simplifies.

## 2. Trusted base

* Coq's kernel (8.16.1), including `vm_compute` conversions.
* What `Print Assumptions` lists for each theorem (see section 6).
* The reading of the Go source: the correspondence between `/repo` and the models
  is by inspection only.
* Go runtime semantics as encoded: sequential consistency of mutexes, channels and
  `sync/atomic`; `append`, `copy`, slices, `bytes.Buffer`, `encoding/binary`,
  `context`, maps behave as documented.
* TCP delivers a byte stream in order; the OS, network, file system, garbage
  collector and wall clock are inputs of the model (chunkings, schedules, clock
  readings) and not modelled themselves.

## 3. Modelling conventions

* bytes are `Byte.byte`, slices are lists (aliasing is modelled only where a
  property needs it), lengths are `Z`; machine integers are `Z` with the wrap
  written explicitly (`mod 2^32`, `mod 2^64`, signed wrap) where it can matter.
* panics are explicit results, so "does not panic" is a visible statement.
* unbounded Go loops run on fuel with a visible `OutOfFuel` result.
* goroutines are steps of a labelled transition system; a schedule is any list of
  labels, a theorem about all schedules is an induction over that list.

## 4. Plan per property

| Property | Model | Method |
|---|---|---|
| C01, C02, C04 | packers, frame decoder state machine, decoder interceptor, reader loop | simulation of the decoder by "longest list of whole messages in the received prefix"; induction over chunks |
| C03 | frame decoder over an arbitrary length-field record | generic parser with remaining-suffix lemma |
| C05 | frame decoder discard mode | expected to be refuted (the local buffer is skipped, the stored one is not); the wedge proved for all continuations |
| C06 | fuelled `Decode` | totality for the TLV/LTV configuration: any number of bytes, any chunking, and the messages depend on the bytes only; refutation for configurations with non-positive frame lengths, down to what the connection does (`Props_ReadEnd.v`) |
| C07, C08 | packers, also chosen by name (`Props_PackKind.v`) | byte arithmetic; injectivity through the decoder |
| C09 | reader path | refuted (Unpack is not on the path) |
| C10, C13 | HTLV decoder | as C01; refutations for body length 255 and bad CRC |
| C11, C12 | CRC tables | finite sweep of the 256 table entries lifted to lists; linearity of the CRC over xor |
| C14, C15 | interceptor chain with arbitrary interceptors | structural recursion over the chain |
| C16-C18 | request step machine, handler slices with int8 index | interpreter with fuel, arbitrary behaviours |
| C19, C20 | registration tables | refinement to a finite map |
| C21, C22 | request record and pool | refutation for the response object, proofs for keys |
| C23, C24, C20 | labelled transition system of readers, queues, workers | invariant: handled ++ in flight ++ queued = sent; `C24_function_job`, `C24_function_returns`: jobs that are functions; `C24_fair`: infinite executions (`Spec_Fair.v`), the requests there at step n are marked and a measure on the marks goes down |
| C25-C27 | worker assignment state machine | invariant over histories; refutations with concrete histories |
| C28-C31, C34-C36 | connection life cycle transition systems | invariants over schedules (`C28_reader_runs`, `C28_crash_is_end`: what the reader and a crash do; `C28_heartbeat_partial`, `C28_heartbeat_stuck`: waiting for the held message lock is the only thing that keeps a websocket or Kcp connection with a heartbeat from closing; `C28_fair`: on infinite executions; `C28_start_hook`, `C28_panics_are_hooks`: the start hook comes first, and once); refutations with concrete schedules |
| C32, C33, C37, C40 | sequential containers | refinement |
| C38, C39 | heartbeat | decision rule, invariant over timed histories; `C38_closed_no_beat`, `C38_not_cut_off`; `C38_setters`, `C38_configured` for checkers configured by any calls of their setters; `C39_slices_order` |
| C41, C42 | sharded map | refinement to one finite map; lock-step linearizability |
| C43, C44 | snowflake | invariant over all clock sequences |
| C45, C46 | log writer | refinement to byte log; archived files stay (relation kept by every step); what Write returns; `C45_after_error`: after a failed Write nothing reaches a file until it can be opened |
| C47-C51 | three-level timer wheel transition system | invariants over schedules; timed argument for C51 |
| C52-C54 | async op transition system | invariants over schedules; on infinite executions `C52_fair`, `C54_fair` (everything gets done if the goroutines go on) and `C54_isolated` (a hanging operation holds up only its own worker) |
| C55, C56 | notifier | refinement, refutation |
| C57-C60 | AOI | arithmetic over all grid sizes (`C58_defined`: when a position has a grid number at all); invariants over histories |
| C61-C64 | log core | equational |
| C65 | configuration overlay | per-field equations, refutations |
| C66 | logger follows the configuration | InitLogConfig equations; refutation for the overlay |
| C67 | request context while handlers run | trace invariant over the two interpreters (`Request.v`): state agrees with the history |
| C68 | send errors have a cause | invariant over all schedules of `SendQueue.v` and `SendLocked.v`; two refuting runs for the full-queue half |
| C69 | what Stop and ClearConn have done when they return | invariants over all schedules of `ConnServer.v` linking each call to the connections still to stop; `C69_accepts_partial` for a Tcp server; refuting runs for websocket and default mode, for late accepts, and for Kcp (F98) |
| C70 | what Stop of a client has done when it returns, that it returns, that errors arrive once | invariants over all schedules of `Client.v`; refuting runs for failed dials, early Stops, restarted clients and the leaked goroutine |
| C71 | which records share a log file | invariant over sessions of `LogWriter.v` carrying the records of each file with their days; refuting sessions for restart, midnight and failing rename |
| C72 | `WorldMsg.v`: every message of joins, moves, leaves and chat; a client's screen as a fold over what it was sent | per-cell effect of each call's messages; induction over histories; refuting overlap |
| C73 | composition of `SendQueue.v`/`SendLocked.v`, `Pack.v`, `FrameDecoder.v`, `Reader.v`, `Workers.v` | C34, C04 and C23 chained by prefixes; the link between reader and pool is the hypothesis `passed_on` (what the reader delivers is what is queued); `C73_arrives_partial`/`C73_ws_arrives_partial` (nothing is lost): C35 brings the accepted messages onto the wire, C01/C02 read them back, and a measure (waiting twice, in progress once) on the pool shows the workers finish (`C24_completes`), given that handlers return; refutation for mixed sends by computation; `C73_fair_partial`: the same on infinite executions of sender, reader and workers under the fairness of `Spec_Fair.v`; `C73_ws_fair_partial`: a websocket sender, with sends of both kinds, under `Spec_FairWs.v` |
| C74 | `ShardIter.v`: `snapshot`, `fanIn`, `IterBuffered`, `Keys`, `Count`, `IterCb` as goroutines over channels, other callers at any step | invariant per shard: what is in the shard's channel, in flight and received is the shard as it was when locked; termination by a count of own steps, for `IterCb` also with a callback that uses keys of other shards only; refutations by computation or invariant |
| C75 | `PropMap.v`: the three property methods, instruction by instruction under the connection's mutex, any number of connections and goroutines | linearization points with a per-goroutine invariant; return by running the lock's holder |
| C76 | `ConnMsg.v`: the reader loop of the three connections on top of `ConnLife.v`, requests waiting and being handled | invariants over the event trace (start hook, conservation of messages), a count of reads after cancellation; refuting runs for handlers after the stop hook and for panics in the websocket reader |
| C77 | `Servers.v`: the four constructors over the one shared configuration and the one HTTP mux, starting, accepting, worker choice, dispatch, `IsAlive` for any number of servers | frame lemmas per step, then induction over runs (identity kept, configuration = last value given, mux entries belong to started servers, free-worker set of a Hash server stays nil); in Bind mode: free workers and workers of open connections are a permutation of all; refuting runs and general refutations for limits, routing, websocket paths and the leaked lock |
| C78 | `LogFile.v`: the logger of `LogCore.v` writing to standard error or to the writers of `LogWriter.v`; `SetLogFile`, whole and in its three locked parts, `SetCons`, limits, the hook, the flushing goroutines, `os.Exit` | invariant over runs (all writers but the last closed and empty, the last one sound, disk plus buffer of every path = what was there plus the lines sent to it), composed with C61/C62; refuting runs for `Fatal`, an overlapping `SetLogFile` and a hook that logs |
| C79 | `AutoExec.v`: the scheduler of `TimeWheel.v` with DelayFuncs, argument slices, the trigger channel (2048), the consumer, a goroutine per call, `Timer.Run`; `Call` with its recover | invariants over runs (channel and goroutines = what was handed out, in order; a timer keeps its DelayFunc); draining construction for progress; simulation of panics by returns; order from C48 and C51 in `TimedWheel.v`; refuting runs for changed arguments, a nil DelayFunc and the order of calls; `C79_fair`, `C79_fair_lone`: infinite executions |
| C80 | `Backlog.v`: task queues and asynchronous queues with their capacities, readers, workers, the sends handlers make while they run (`SendMsgToTaskQueue`, `Process`) | invariants over runs (queue = accepted, begun, ended; a reader's requests; sends made), a measure that every step decreases, descent on ranks for absence of deadlock; two general refuting families (own queue, two queues) for every capacity |
| C81 | `Payload.v`: reader buffer, `FrameDecoder.in` and decoded data as slices on the heap of `GoSlice.v`; `make`, `append`, `copy` and slicing as the code uses them | refinement of the value model (`Reader.v`) by a separation invariant: buffer, decoder buffer and the data of all delivered messages lie in different arrays; expected to fail for TCP without a decoder, where the read buffer itself is handed out |
| C82 | `ReqShare.v`: request objects, the pool, and the goroutines holding a request (reader in the chain, queue, handler, goroutine left behind) as a state machine; what a request contains is computed from the events alone (`Spec_ReqShare.v`) | invariant: without the pool one object per request; with it, objects of requests not yet handled are distinct and not in the pool. Expected to fail in pool mode for code after Proceed, late writes and a request passed on twice |
| C83 | the decoder's buffer `fd_in` after `run_reader` (`Spec_Kept.v`: `kept`), streams of any bytes cut in any way | the decoder's invariant from C04/C05 (consumed frames plus rest = input) gives what is kept for tame configurations and for streams of acceptable frames. Expected to fail: the bound is the frame length of the decoder (up to 4 GB), not MaxPacketSize, and after an over-long frame everything is kept |
| C84 | infinite schedules of `SendQueue.v` and `SendLocked.v` with a peer that takes data at given moments only (`Spec_Ends.v`); a goroutine is held up in a write the peer does not take, at a lock that is held, or in a select with nothing ready, and goes on again and again unless held up for ever | ranks that fall with every step: of a call, of the writer, of the finalizer, of whoever holds the lock. Expected to fail where the finalizer takes `msgLock` before closing the socket (websocket, KCP) and the peer does not read |
| C85 | `Hub.v`: any number of `Reader.v` readers, each with its own frame decoder, in front of one `Workers.v` pool, interleaved by any list of labels; a panic that gets to the top of a websocket reader ends the process (no recover there) | invariant: what a connection has had queued, followed by what its reader has still to queue, is what `run_reader` makes of its own reads; with C23 for the order and C06 for the bytes. Progress by a rank over the connection's own reader and worker only. Expected to fail: websocket with a decoder that panics (HTLV checksum), and connections that share a worker with a handler that never returns |
| C86 | `ShardConc.v` (the model of the linearizability claim): lock, read, write, unlock as separate steps of any number of goroutines | invariant: the lock of a shard names exactly the goroutines inside it, a writer alone; a rank for calls inside; no deadlock by letting the calls inside leave. `RWMutex` lets waiting readers and writers in in any order here, so no claim is made on who is next (Go's writer preference removes executions, it does not add any) |
| C87 | `ShardClear.v`: the range loop of `ShardIter.v` with `Remove` in its body, `MSet` entry by entry, other callers at any step | Clear projects to steps of the iteration, so C74's invariant carries over; per received key: absent at some moment or about to be removed; finishing: the iteration closes by itself, then no lock is held and the loop drains; refutations by computation |
| C88 | `Endpoint.v`: AddInterceptor, SetDecoder, Start, Restart in any order; connections made from the result | induction over the calls: the chain is decoder, added interceptors, dispatch; then the round trips of C01, C02; refutations: a decoder set late, client interceptors added early, a client started twice |
| C89 | `LogCall.v`: entry points, call stack as a list of places, call depth, settings, hook, SetLogger | per entry point the place at the depth is the top user place; header by C64, framing by C61; refutations for direct calls |
| C90 | `ShardJson.v` over `ShardMap.v`; encoding/json as two functions with stated properties, shown to exist by a small codec | the invariant of C41 plus the MSet lemma; refutation for the zero value |
| C91 | `WsAdmit.v`: the handler `ListenWebsocketConn` registers, statement by statement, any number of requests at a time over the one upgrader; gorilla's choice of subprotocol; the check and `Upgrade` as oracles. `C91_let_in`, `C91_refused`, `C91_answered`, `C91_offered` by an invariant on what a handler's remaining statements can do; `C91_protocol_partial` when other requests offering subprotocols offer the same or are not handled meanwhile; `C91_protocol_refuted` (F93), `C91_full_refuted` (F94). |
| C92 | `LogBuf.v`: the logger's `bytes.Buffer` over Go's arrays (`GoSlice.v`), reset and written piece by piece for each record; growth is an oracle. `C92_given_partial`: until the next record the slice reads the record. `C92_kept_refuted` (F95): exactly what a kept slice reads after a next record that fits. |
| C93 | `ConfFile.v`: `Reload` and `init` over what `json.Unmarshal` does with the members of an object (names, types, ranges, null, order); the JSON grammar and file access are given. `C93_file`, `C93_said`, `C93_none`, `C93_stops`, `C93_start` by induction on the members from the end; `C93_again_partial` for a configuration with a log file and a level above 0; `C93_again_refuted` (F96). |
| C94 | `ReqCopy.v`: user code (the command trees of `Request.v`) on the state `Copy` makes; `RequestHeap.v` for objects. `C94_copy`, `C94_runs_nothing`, `C94_ends_partial` by induction on the code; `C94_apart` from the object invariant of C21; `C94_next_refuted` (F97); `C94_rebound_twice`: what a router bound to a copy runs. |
| C95 | `ConnServer.v`. `C95_taken`: the place of the loop as a measure, every other step leaves it alone; `C95_ends_partial`, `C95_goes_on` (Tcp): the loop has ended only if the listener is closed, and does so within four of its steps while there is room. `C95_kcp_refuted`, `C95_kcp_late_refuted` (F98). |
| C96 | `Robot.v` (packing, reading loop, `DoMsg`, `AIRobotAction` with its random choices as arguments) over `Decoders.v`, `Reader.v` and `WorldMsg.v`. `C96_up`, `C96_down`: round trips through the two codecs; `C96_learns`, `C96_others`, `C96_walk`, `C96_on_map`. `C96_once_refuted` (F99), `C96_bounds_refuted` (F100). |
| C97 | `Recover.v`: the two handlers around the loop of `RouterSlicesNext`, where a panic keeps the state of the request. One invariant (`ok` in `Recover_proofs.v`) over programs and nested loops gives `C97_order_partial`, `C97_all_partial`, `C97_accounted_partial`, `C97_contained_partial` (away from the limit of the eight bit index; one panic); `C97_timed`, `C97_timed_only`, `C97_recorded_only` from the shape of traces; `C97_users`: refinement of `Request.v`. `C97_where_partial` for names without further dots. `C97_rest_refuted`, `C97_guard_refuted`, `C97_second_refuted` (F101), `C97_where_refuted` (F102). |
| C98 | `ShardMany.v`: the state machines of `ShardIter.v` side by side on one map, one set of locks; a goroutine that waits in `Lock` keeps new readers of its shard out. `C98_reports`: the invariants of C74 hold of each (its own steps are steps of `ShardIter.v`, all others are calls it allows). `C98_finish_partial`: lexicographic measure of waiting calls and of what the iterations have to do; whoever a waiting call waits for has a step that takes no lock. Refuted for callbacks that use other shards: `C98_writes_refuted`, `C98_reads_refuted` (F103). |
| C99 | `DelayConc.v`: every read and write of the shared duration is a step, int64 arithmetic. `C99_apart`: whole calls one after the other refine C40. `C99_no_wait`: ranking. `C99_two_seconds_partial`: invariant if no two calls are in `Up` at once; `C99_growth_partial`: invariant counting doublings over all schedules. Refuted: `C99_cap_refuted`, `C99_runaway_refuted`, `C99_reset_refuted` (F105). |
| C100 | `StartServers.v`: the listening goroutines as tasks in any order, ports and net/http's default mux as shared resources. `C100_starts`: resources held or still needed by pending goroutines never clash if the servers' needs are disjoint. `C100_can_run`, `C100_own_path`, `C100_restart`, `C100_silent`; `C100_paths`, `C100_answered` and `C100_patterns` (`Props_MuxPath.v`): which server any request reaches, by the rules of net/http's mux. Refuted: `C100_ws_restart_refuted`, `C100_default_path_refuted`, `C100_wrong_port_refuted`, `C100_taken_refuted` (F106, F107). |
| C101 | `ClientHb.v`: the connections of a restarted client, its one heartbeat checker and the checker's goroutines. Invariant: as many goroutines run as connections have started and not stopped the heartbeat. `C101_newest`, `C101_watched`, `C101_one_partial` (restarted only after the old connection's heartbeat is stopped). Refuted: `C101_reconnect_refuted`, `C101_cut_refuted`, `C101_unwatched_refuted` (F109, F110). `C101_crash_ends`, `C101_closed_not_alive` (`Props_EndsHb.v`). |
| C102 | `DynStop.v`: extra workers, bounded queues, readers waiting in the send and closes, as a state machine. Invariant over all schedules: `C102_drained`, `C102_accounted`, `C102_lost_why`, `C102_twice_why`, `C102_dead_why`; `C102_order_partial`, `C102_fair_partial` (no ID handed out twice), `C102_clean_partial` (and quiet readers). Refuted: `C102_survives_refuted`, `C102_full_queue_refuted`, `C102_both_close_refuted`, `C102_order_refuted` (F111, F112). `C102_worker_ends` (`Props_EndsHb.v`): the worker of a closed queue ends. |
| C103 | `Bili.v`: the five pack functions, the routers and the reader `main.go` sets up, on top of `Decoders.v` and `Reader.v`. `C103_conversation_partial` (with the HTLV decoder, functions 10, 13, 14, 16) and `C103_wrapped_partial` (the server as written, frames inside TLV messages), by the framing theorems of C01 and C10; `C103_short`. Refuted: `C103_report_refuted` (function 15), `C103_bare_refuted` (bare frames), `C103_code_refuted` (F113 to F115). |
| C104 | `RouteConc.v`: AddRouter, AddRouterSlices and Use as steps on the two unlocked maps, with Go's fatal error for a map access during a write. `C104_sequential_partial` by simulation (one call at a time equals registration at once); `C104_settled`, `C104_found`, `C104_own`, `C104_dead_why` for all schedules, by invariants. Refuted: `C104_crash_refuted`, `C104_twice_refuted`, `C104_use_refuted` (F116 to F118). |
| C105 | `Settings.v`: the setters, `newServerConn` and its websocket and Kcp versions, `StartConn`, as steps in any order; user functions are named by numbers, calls are atomic. `C105_kept`, `C105_uses`, `C105_name` for all histories: what a connection does is what was set last before it was accepted. `C105_heartbeat_partial`, `C105_beats`, `C105_routes_partial` while no message ID is given two handlers. `C105_again_refuted`: a second heartbeat under the same message ID panics (F119); `C105_moment_refuted`: hooks and heartbeat are taken at different moments (F120). Whether the decoder's interceptor fits is C88. |
| C106 | `Serve.v`: `Server.Serve` as separate steps (Start, `signal.Notify`, receive) of any number of servers of one process, with signals, connections and the end of main as steps in between; the runtime's delivery rules are part of the model and trusted. `C106_returns`, `C106_only` for all histories. `C106_left_refuted`: being interrupted closes nothing and calls no stop hook, for every history (F121). `C106_early_refuted`: a signal between Start and Notify ends the process at once (F122). `C106_deaf_refuted`: Notify is never undone, so after Serve has returned an interrupt has no effect (F123). |
| C107 | `Again.v`: `StartWorkerPool` one index at a time, the lookup and the send of `SendMsgToTaskQueue` as two steps, the workers' loop; hash mode, every index keeps the list of all queues ever made for it. `C107_handled`: from every history some quiet continuation handles exactly what was read, of every connection; `C107_once`; `C107_bound`: never more handlers than workers were started. `C107_pool_partial` for a server started once, `C107_order_partial` for connections that no Start of their index overtakes. Refuted in general: `C107_order_refuted`, `C107_both_refuted` (F124), `C107_pool_refuted` for every number of starts (F125). Fair schedules are not assumed: `C107_handled` says a way exists. |
| C108 | `Format.v`: options and setters in any order on top of `Endpoint.v`; a packer is any function. `C108_sends` for all; `C108_understood_partial`: any side sends, a server receives whose decoder fits, TLV or LTV, without further interceptors. `C108_ignored_refuted`: for all sequences of calls the packers given change nothing about reading; `C108_both_refuted`: both sides with the LTV packer alone, nothing is handled for all messages up to 65535 bytes (F126). |
| C109 | `CliWork.v`: the worker tables of a client, its connections and a goroutine per message, any schedule. `C109_handled`, `C109_once` and, on every fair infinite schedule, `C109_fair` in all modes; `C109_no_panic_partial`: Hash and Bind never panic; `C109_no_crash_partial`: without websocket connections the process never ends. `C109_websocket_refuted`: in DynamicBind, closing a client's first websocket connection ends the process, whatever came before (F128). `C109_order_refuted`: handlers begin in any order, in every mode (F127). |
| C110 | `ChainConc.v`: the interceptor slice as pointer, length, capacity and arrays, loaded and stored word by word by any number of goroutines. With one goroutine adding: `C110_all_partial` (every chain taken has all interceptors added before, in order, then possibly later ones, with a nil at most in the place of the one being added); `C110_quiet` (a message processed alone takes exactly those added) and `C110_no_overlap` (so does any message begun while no call is in progress, whatever else is processed meanwhile). `C110_never_waits` (any number of goroutines adding): both calls end within a fixed number of their own steps. `C110_nil_refuted`, `C110_garbage_refuted`: overlapping calls can run a nil interceptor or read beyond an array (F129); `C110_lost_refuted`: of two interceptors added at the same time one may be lost for good (F130). |
| C111 | `ConfPath.v`: `init` of env.go over `Clean`, `Join` and `Abs` (written after their documentation, for Unix) on lists of characters; file systems with parents and links in `Spec_ConfPath.v`. `C111_plain`, `C111_fixed`, `C111_read`; `C111_file_partial` (no links to directories) and `C111_links_partial` (links, but no `..` in the variable) by an invariant on the elements kept: walking them from the root leads where the elements read so far lead. `C111_link_refuted` (F131): `l/../n`. |
| C112 | `Dial.v`: the constructors, the options and the dialling of `Restart`; `net.ParseIP`, how IPs are written and what names stand for are given functions (assumptions in `Spec_Dial.v`, shown to be met by a small network). `C112_ip_partial` (IPs without colons, all kinds), `C112_plain` (all IPs, plain clients), `C112_ws_name`, `C112_ws_unknown`, `C112_url` by cases after a lemma on what the options leave. `C112_name_refuted` (F132), `C112_v6_refuted` (F133). |
| C113 | `LogHook.v`: the logger's lock, `OutPut` step by step with the hook's actions inside, the setters. `C113_ends_partial` (hooks that keep off the logger, panics included: from every situation all calls can end) by letting the holder of the lock go on first, then one goroutine after the other; `C113_one_at_a_time` and `C113_below` for all hooks, by the invariant that the lock names exactly the goroutine inside. `C113_hook_refuted` (F134). Who gets the lock next is left open, so no claim is made that every call ends under every fair schedule. |

## 5. Findings

Each finding is a behaviour of the code, read from `/repo`, under which a property of
`properties.jsonl` is false.  The theorem named proves it of the model.

| # | Property | Theorem | What happens |
|---|---|---|---|
| F1 | C05 | `C05_overlong_frame_wedges_refuted`, `C05_overlong_frame_refuted` | An over-long frame is skipped in the local buffer only; the stored buffer keeps it. A whole over-long frame wedges the decoder for ever, a split one yields bogus frames. |
| F2 | C06 | `C06_loop_forever_refuted` | A length field that makes the frame length 0 makes `Decode` loop for ever. |
| F3 | C06 | `C06_panic_refuted` | A negative frame length or strip count makes `Decode` panic. |
| F4 | C09 | `C09_max_packet_size_refuted` | `MaxPacketSize` is checked in `Unpack`, which the receive path never calls. |
| F5 | C10 | `C10_body_255_refuted` | The HTLV decoder's maximum frame length is one too small for a 255-byte body. |
| F6 | C13 | `C13_bad_frame_ends_connection_refuted` | A bad CRC makes the interceptor dereference nil; the reader recovers by ending the connection. |
| F7 | C15 | `C15_length_wrap_refuted` | Announced lengths from 2^32-8 wrap in uint32. |
| F8 | C17, C18 | `C17_too_many_refuted`, `C17_wrap_refuted`, `C18_running_finish_refuted` | The handler index is int8: with 128 to 255 handlers none runs, with 127 a superfluous `RouterSlicesNext` panics. |
| F9 | C21 | `C21_response_refuted`, `C21_payload_refuted` | `Request.Copy` loses the response object and, behind a decoder, hands out the undecoded payload. |
| F10 | C22 | `C22_response_refuted` | A pooled request keeps the previous request's response object. |
| F11 | C23, C26 | `C23_dynamic_refuted`, `C26_dynamic_refuted`, `C26_no_panic_refuted` | DynamicBind: extra workers are handed to several connections; when two of them close, the second close panics. |
| F12 | C25 | `C25_bind_refuted` | Bind: a worker is returned after the connection has left the manager, so the pool can be empty when a connection is admitted. |
| F13 | C27 | `C27_pool_start` | DynamicBind with `WorkerPoolSize` above `MaxConn` panics in `StartWorkerPool`. |
| F14 | C33 | `C33_range_refuted` | `Range`/`Range2` return the error of the last callback only. |
| F15 | C28 | `C28_heartbeat_refuted` | Websocket/KCP: the finalizer, holding the lock, waits for a heartbeat that waits for the lock. |
| F16 | C28 | `C28_hook_panic_refuted` | A panicking stop hook leaves the connection registered and open. |
| F17 | C30 | `C30_limit_refuted` | Websocket handlers check the limit and add later: the limit is exceeded. |
| F18 | C31 | `C31_window_refuted` | `ClearConn` between accept and `Start` calls a nil cancel function. |
| F19 | C31 | `C31_stop_twice_refuted` | A second `Server.Stop` sends on a closed channel. |
| F20 | C34 | `C34_tcp_mixed_refuted` | A direct `SendMsg` can land inside a partly flushed buffered message. |
| F21 | C34, C35 | `C34_stop_cuts_refuted`, `C35_stop_refuted`, `C35_ws_kcp_stop_refuted` | Stop cuts or drops messages already accepted. |
| F22 | C36 | `C36_tcp_refuted` | Two buffered TCP senders around Stop: double close, send on closed, close of nil. |
| F23 | C36 | `C36_before_start_refuted`, `C36_ws_kcp_before_start_refuted` | A buffered send before `Start` crashes the process. |
| F24 | C36 | `C36_kcp_refuted` | KCP `SendBuffMsg` takes no lock: send on a closed channel. |
| F25 | C34, C35 | `C34_kcp_refuted`, `C35_kcp_refuted` | KCP: two senders both see a nil channel; two channels and two writers. |
| F26 | C39 | `C39_slices_refuted` | In slices mode the default heartbeat handler runs as well as the custom one. |
| F27 | C39 | `C39_default_id_refuted` | A custom router for the default heartbeat ID is silently ignored. |
| F28 | C39 | `C39_client_slices_refuted` | A client in a process with `RouterSlicesMode` never runs its routers. |
| F29 | C45 | `C45_same_microsecond_refuted` | Two rotations in one microsecond: the second archive replaces the first. |
| F30 | C45 | `C45_close_race_refuted` | A `Write` between the two halves of `Close` is lost. |
| F31 | C45 | `C45_open_failure_refuted` | After a failed reopen accepted writes are lost. |
| F32 | C45 | `C45_zip_path_refuted` | A log path ending in `.zip` loses rotated files. |
| F33 | C46 | `C46_rename_failure_refuted` | When the rename fails the file grows beyond its maximum. |
| F34 | C49 | `C49_already_polled_refuted` | A timer cancelled after a poll took it is still handed out. |
| F35 | C48 | `C48_overflow_refuted` | `CreateTimerAfter` with a sum beyond int64 fires at once. |
| F36 | C50 | `C50_id_wrap_refuted` | Timer IDs repeat after 2^32 creations and overwrite a live timer. |
| F37 | C53 | `C53_refuted` | The async callback may run before the result is stored. |
| F38 | C56 | `C56_refuted`, `C56_always_nil_refuted` | `NotifyAll` and `NotifyBuffAll` never report an error. |
| F39 | C58 | `C58_default_refuted` | Demo map: in-bounds positions fall in a wrong or no grid. |
| F40 | C58 | `C58_negative_refuted` | Negative fractional coordinates are truncated into the wrong grid. |
| F41 | C59 | `C59_off_map_refuted` | A move to a position without a grid panics mid-update; the player stays online in no grid. |
| F42 | C59 | `C59_move_leave_refuted` | A move overlapping a leave leaves a ghost in a grid. |
| F43 | C59 | `C59_two_leave_refuted` | Two neighbours leaving at once: nil player, panic, one stays online for ever. |
| F44 | C61 | `C61_empty_refuted` | An empty formatted message gets no newline. |
| F45 | C62 | `C62_stack_refuted` | `Stack` ignores the isolation level. |
| F46 | C64 | `C64_untimed_refuted`, `C64_race_refuted` | Without a time flag neither level nor file is printed; a call overtaken by `AddFlag` prints an empty file and line 0. |
| F47 | C65 | `C65_level_refuted`, `C65_stream_refuted`, `C65_ignored_refuted` | The overlay erases the log level, can only switch `KcpStreamMode` off, and ignores three log fields. |
| F48 | C66 | `C66_overlay_refuted`, `C66_dir_refuted` | A user configuration naming a log file drops size, age and console; one naming only a directory has no effect. |
| F49 | C68 | `C68_tcp_first_send_refuted` | TCP: a buffered send racing with the first one selects on the nil channel and can only time out. |
| F50 | C68 | `C68_ws_full_refuted` | Websocket: a buffered send waiting for room holds the lock the writer needs, so a full queue never drains before the timeout. |
| F51 | C69 | `C69_ws_refuted` | Websocket mode: nobody receives from `exitChan`, so `Server.Stop` never returns. |
| F52 | C69 | `C69_survivor_refuted` | A connection accepted while `Server.Stop` runs survives it: managed and running after Stop returned and the listener closed. |
| F53 | C69 | `C69_default_mode_refuted` | Default mode: the websocket server is never shut down and accepts connections after `Server.Stop` returned. |
| F54 | C70 | `C70_failed_refuted`, `C70_unstarted_refuted` | `Client.Stop` after a failed dial, or without Start, never returns: nobody receives from `exitChan`. |
| F55 | C70 | `C70_early_refuted` | A `Client.Stop` that runs while the client dials returns and leaves the connection running. |
| F56 | C70 | `C70_nil_cancel_refuted` | A `Client.Stop` right after the dial panics on the connection's nil `cancel`. |
| F57 | C70 | `C70_restart_refuted`, `C70_crash_refuted` | After Stop and `Restart`, the next Stop panics (`ErrChan` closed twice), and a failing dial ends the process (send on closed `ErrChan`). |
| F58 | C70 | `C70_leak_refuted` | Reconnecting with `Restart` leaves the previous goroutine waiting forever on the replaced `exitChan`. |
| F59 | C71 | `C71_restart_refuted` | After a restart the file counts as created at its last write: a record flushed after midnight puts the next day's records in the same file. |
| F60 | C71 | `C71_midnight_refuted`, `C71_rename_refuted` | A rotation that ends after midnight dates the new file to the next day though its first record is of the day before; when the rename fails the new day's records are appended to the old file. |
| F61 | C72 | `C72_overlap_refuted` | A player who leaves between a joining player's lookup and the list message stays on the joiner's screen for ever: calls of different connections overlap freely. |
| F62 | C73 | `C73_mixed_refuted` | `SendMsg` and `SendBuffMsg` used on one TCP connection: a message longer than the 16 KiB buffer is cut by the direct one, and the peer's handler is given data nobody sent. |
| F63 | C74 | `C74_itercb_remove_refuted`, `C74_itercb_get_refuted` | `IterCb` calls back holding the shard's read lock: a callback that removes the entry it is given (`Range` with a callback that removes the connection from the manager) blocks for ever on every non-empty map; one that merely looks a key up blocks for ever if another goroutine wants to write that shard. |
| F64 | C74 | `C74_items_whole_refuted`, `C74_count_refuted` | `Items`, documented as returning all items, and `Count` lock one shard at a time: with one entry added and then another removed they can report an empty map although it never was (`Len`, `IsEmpty` likewise). |
| F65 | C76 | `C76_contained_refuted` | The websocket reader has no `recover` (the TCP and KCP readers have): data that makes a decoder or interceptor panic, such as a frame with a wrong CRC (F6), lets any websocket client end the server process. |
| F66 | C76 | `C76_after_end_refuted` | Handlers begin after `OnConnStop` has returned and the connection has left the manager: requests still queued are handled then. The demo's move and chat handlers look up the player the hook has removed and dereference nil (recovered per request). |
| F67 | C77 | `C77_limits_refuted`, `C77_shared` | All servers of a process share one configuration: making a second server with its own `MaxConn`, `HeartbeatMax`, `Mode` or certificate changes the first one's, also while it runs. |
| F68 | C77 | `C77_routes_refuted` | Once any server asks for slice routing, the other servers of the process find no handler for any message, although registration with `AddRouter` succeeded. |
| F69 | C77 | `C77_crash_refuted`, `C77_port_refuted` | The websocket handler is registered with the process-wide HTTP mux: a second server with the same path (the default is "/"), or a second `Start`, ends the process; with different paths each server also answers on the other's port. |
| F70 | C77 | `C77_hang_refuted` | A server made in Hash mode beside one made in DynamicBind mode: closing one of its connections stores into a nil map with `freeWorkerMu` held; the panic is recovered, the lock is not released, and no later connection of that server is ever read. |
| F71 | C78 | `C78_fatal_refuted`, `C78_exit_loses` | With a log file set, `Fatal` exits before the buffered writer is flushed: the fatal record itself, and every line since the last five-second flush, never reach the file. |
| F72 | C78 | `C78_overlap_refuted` | `SetLogFile` closes the old writer and replaces it without the logger's lock: a line written between the two halves of the close is accepted and is in neither file. |
| F73 | C78 | `C78_hook_refuted` | The log hook runs with the logger's lock held: a hook that logs at an enabled level hangs, and no goroutine can log again. |
| F74 | C79 | `C79_arguments_refuted` | The argument slice of a DelayFunc is not copied, neither when it is made nor when it is called: a function that changes its parameters, or a caller that reuses its slice, changes what a later call gets. |
| F75 | C79 | `C79_nil_refuted` | A timer with a nil `*DelayFunc` ends the process when due: `Call` recovers, then its handler calls `df.String()`, which reads the nil pointer again. A nil function inside a DelayFunc is only logged. |
| F76 | C79 | `C79_order_refuted`, `C79_close_refuted` | Functions are not called in the order their timers are due: each call has a goroutine of its own, and timers due within 100 ms of each other are handed out in map order. |
| F77 | C80 | `C80_own_queue_refuted` | A handler that calls `OnComplete` on an operation that is already done sends to the queue it is itself the only receiver of: with a full queue that worker, and every connection it serves, is stuck for ever, also after the connection is stopped. |
| F78 | C80 | `C80_two_queues_refuted` | The same with two queues: handlers in `Process` while the operations are in `SetReturnedObj`, or two connections' handlers dispatching to each other. No send has a time limit. |
| F79 | C81 | `C81_raw_refuted` | TCP with `SetDecoder(nil)`: the request's data is the reader's only buffer (`connection.go` 239, 280; the KCP reader allocates one per read). The next read overwrites the data of requests still queued or being handled; a handler can see a mixture of two reads. |
| F80 | C82 | `C82_after_refuted`, `C82_write_after_refuted`, `C82_twice_refuted`, `C82_left_behind_refuted` | `RequestPoolMode`: the worker may finish and recycle the request while the reader is still in the chain. `SendMsgToTaskQueue` itself reads `request.GetData()` after queueing (`msghandler.go` 304-305), and interceptor code after `Proceed` sees or changes another connection's request. An interceptor that calls `Proceed` twice puts the object into the pool twice: two connections then share it, and a handler sees the other's message. |
| F81 | C83 | `C83_max_packet_size_refuted` | `MaxPacketSize` does not limit what a connection keeps. With the default decoder eight bytes that announce a payload of up to 4 GB make the server keep whatever the peer sends until that many bytes have come (`framedecoder.go` `Decode` appends to `d.in`; `tlvdecoder.go` sets `MaxFrameLength` to 4 GB + 8). |
| F82 | C83 | `C83_overlong_refuted`, `C83_htlv_refuted` | After an over-long frame the decoder hands nothing on and keeps every byte read for as long as the connection lasts. For HTLV an ordinary frame with a body of 255 bytes is enough. |
| F83 | C84 | `C84_ws_refuted`, `C84_kcp_refuted` | No write deadline is set anywhere, and the finalizers of websocket (`ws_connection.go` 497-547) and KCP (`kcp_connection.go` 486-533) take `msgLock` before `conn.Close`. A send stuck in its write because the peer does not read holds that lock, so Stop never closes the socket, the connection stays in the manager, the stuck send never returns, and on the websocket every other send (buffered ones too) waits for ever. The TCP finalizer takes no lock and is not affected. |
| F84 | C85 | `C85_crash_refuted` | With websocket and the HTLV+CRC decoder, one frame with a wrong checksum ends the whole server process: the decoder panics on it (F6) and `WsConnection.StartReader` (`ws_connection.go` 210-274) has no recover. TCP and KCP readers recover and end only their own connection. The same holds on the websocket for a packet of 2^32-8 bytes or more with the TLV and LTV decoders. |
| F85 | C85 | `C85_waits`, `C85_head_of_line_refuted` | Connections share workers in Hash mode (and in Bind mode as in C25): a handler that does not return for one connection's request keeps every other connection with that worker waiting for ever. |
| F86 | C87 | `C87_clear_whole_refuted`, `C87_mset_whole_refuted` | `Clear` removes the keys it found one by one: with an entry added after its shard was read the map is at no moment empty, and is not when it returns. `MSet` sets its entries one by one: a reader finds some old and some new. |
| F87 | C88 | `C88_server_late_refuted` | `SetDecoder` after `Start` changes how new connections cut frames, but the chain still holds the decoder of `Start`: frames cut one way are decoded the other way, and the connection ends. |
| F88 | C88 | `C88_client_early_refuted`, `C88_client_twice_refuted`, `C88_client_twice_ends_refuted` | The client's `Start` adds its decoder at the end of the chain, where the server's puts it at the head: interceptors added before `Start` see the undecoded frame, and a client started again (the way to reconnect when `Restart` is not used) decodes every message twice: a body that looks like a message is handled under the inner ID, another of 8 bytes or more ends the connection. |
| F89 | C89 | `C89_direct_refuted` | The call depth is fixed per logger: `StdZinxLog.Infof` called directly, and `OutPut` of any logger, print the file and line of the function's caller, not of the log call. |
| F90 | C89 | `C89_ctx_refuted` | `InfoFX` and its kin print the context on standard output even when the level is switched off, and never in the log. |
| F91 | C90 | `C90_zero_refuted` | `UnmarshalJSON` has a value receiver: unmarshalling into a declared `ShardLockMaps` calls a nil hash and panics. |
| F92 | C78 | `C78_unopened_copy_refuted` | With `SetCons` on and a log file that does not open, standard error shows each line twice. |
| F93 | C91 | `C91_protocol_refuted` | Each websocket request writes its subprotocols into the server's one upgrader: of two requests handled at once the first is upgraded with the list of the second and gets none of the subprotocols it offered (a browser then fails the connection). |
| F94 | C91 | `C91_full_refuted` | A websocket request to a full server is not taken on but answered with 200 OK: the handler returns without writing a status. |
| F95 | C92 | `C92_kept_refuted` | The hook is handed the logger's own buffer: a hook that keeps the slice (sends it to a channel, appends it to a list) later finds the bytes of the next records in it. |
| F96 | C93 | `C93_again_refuted` | A later `Reload` cannot take the logger back: with level 0 in the file it keeps filtering, and with the log file removed from the configuration it keeps writing to it. |
| F97 | C94 | `C94_next_refuted` | `RouterSlicesNext` on a copied request always panics (its `int8` index starts at 127 and wraps to -128), in the user's goroutine, where nothing recovers. |
| F98 | C95, C69 | `C95_kcp_refuted`, `C95_kcp_late_refuted` | The KCP accept loop never ends: on a closed listener it goes on calling `Accept`, and may still take on the sessions that wait in the listener's queue after `Stop` has returned. |
| F99 | C96 | `C96_once_refuted` | A joining player is sent its own place twice, so every robot starts two action loops and sends twice as much as meant. |
| F100 | C96 | `C96_bounds_refuted` | The robot's correction of its place (85..410, 75..400) allows places without a grid, where the server's handler panics; latent, since the robot always steps from its first place. |
| F101 | C97 | `C97_rest_refuted`, `C97_guard_refuted`, `C97_second_refuted` | A handler that panics under `RouterRecovery` stops nothing: the loop goes on and runs every handler after it, outside the recovery handler, so a guard that panics does not protect what it guards, and a second panic leaves the list unrecorded. |
| F102 | C97 | `C97_where_refuted` | The record's function name is what stands between the first two dots: for a package path with a dot, such as the library's own, it is a piece of the path; for a method or closure it is the receiver or the outer function. |
| F103 | C98 | `C98_writes_refuted`, `C98_reads_refuted` | Two `IterCb` at the same time can block each other for ever though the callback only uses keys of other shards than the one it is called for, which is safe for a single `IterCb`; callbacks that only read do so when writers wait for the two shards. |
| F104 | C55 | `C55_nil_all_refuted` | One nil connection registered with the notifier makes every later `NotifyAll` and `NotifyBuffAll` panic, whatever else is registered. |
| F105 | C99 | `C99_cap_refuted`, `C99_runaway_refuted`, `C99_reset_refuted` | The back-off of the accept loops is one unprotected variable of the process. A call about to sleep can read it between another's doubling and its cap (two seconds even if no two calls compute at once); two goroutines whose calls overlap again and again double it past the cap, up to 272 years; a success while another call computes is forgotten. |
| F106 | C100 | `C100_ws_restart_refuted`, `C100_default_path_refuted`, `C100_wrong_port_refuted` | Websocket servers register on the process-wide default mux: starting a websocket server a second time, or a second one with the same (default) path on another port, panics and ends the process; a request to one server's port with another's path is answered by the other server. |
| F107 | C100 | `C100_taken_refuted`, `C100_silent` | A taken port or a certificate that does not load ends the process in Tcp and websocket mode (panic in a goroutine of the library); in Kcp mode, and for an address that does not resolve, Start returns, nothing listens and Stop never returns. |
| F108 | C28 | `C28_start_panic_refuted` | A panicking start hook leaves the connection registered and open without a reader (Tcp, Kcp), or ends the process (websocket). |
| F109 | C101 | `C101_reconnect_refuted`, `C101_cut_refuted` | Restart in the stop hook moves the client's only heartbeat checker to the new connection while the old heartbeat goroutine runs: a tick before the new connection has started panics on its nil cancel function and ends the process; a tick before its first activity closes it. |
| F110 | C101 | `C101_unwatched_refuted` | After a restart the client's earlier connections are never checked again, though open. |
| F111 | C102 | `C102_survives_refuted`, `C102_full_queue_refuted` | DynamicBind: closing a connection with an extra worker closes its queue under the reader; a request on its way panics the reader. On TCP and KCP the request is lost, on the websocket nothing recovers and the process ends. |
| F112 | C102 | `C102_both_close_refuted` | Two websocket connections that were given the same extra worker: closing both closes the queue twice, in a goroutine that does not recover; the process ends. |
| F113 | C103 | `C103_report_refuted` | bili example: the answer to function 15 announces 38 body bytes and has 35; the device waits for three more and takes them from the next answer. |
| F114 | C103 | `C103_bare_refuted` | bili example: `main.go` adds the HTLV decoder as an interceptor and never calls SetDecoder, so the default TLV decoder cuts the stream; a bare device frame is read as the beginning of a message of many megabytes and never answered. |
| F115 | C103 | `C103_code_refuted` | bili example: `Body[:7]` of a five- or six-byte body reaches into the checksum behind it, so the device code of the answer ends in checksum bytes. |
| F116 | C104 | `C104_crash_refuted` | AddRouter and AddRouterSlices write the route map without a lock (GetHandlers takes a read lock nobody takes for writing): a message looked up at that moment ends the process with Go's "concurrent map read and map write". |
| F117 | C104 | `C104_twice_refuted` | Two concurrent registrations of one ID both succeed: one router is lost; with handler slices both sets run. |
| F118 | C104 | `C104_use_refuted` | Use during a registration: the route loses its own handler or gets a nil one; of two concurrent calls of Use one is lost. |
| F119 | C105 | `C105_again_refuted` | A second `StartHeartBeat` (or one with the same message ID) panics on the repeated route before it changes anything: the interval and functions of a running server cannot be changed that way. |
| F120 | C105 | `C105_moment_refuted` | A connection takes its hooks when it is accepted but its heartbeat in a goroutine started afterwards: settings made in between apply in part. |
| F121 | C106 | `C106_left_refuted` | Serve returns on SIGINT/SIGTERM without calling Stop: when main then returns, no connection is closed and no stop hook is called. Users have to call Stop themselves after Serve. |
| F122 | C106 | `C106_early_refuted` | Serve asks for signals only after Start: an interrupt in between ends the process at once, although connections may already be accepted. |
| F123 | C106 | `C106_deaf_refuted` | Serve never calls `signal.Stop`: after it has returned, SIGINT and SIGTERM are swallowed, so a main that then hangs (for instance in Stop, F51) can only be killed. |
| F124 | C107 | `C107_order_refuted`, `C107_both_refuted` | `Start` makes new queues and leaves the old workers running: a connection that survives `Stop` (F52) has its later requests handled before, or at the same time as, those still waiting in the old queue. |
| F125 | C107 | `C107_pool_refuted` | Workers are never ended: every `Start` adds `WorkerPoolSize` goroutines, and handlers of all starts can run at the same time. |
| F126 | C108 | `C108_ignored_refuted`, `C108_both_refuted` | `WithPacket` and `SetPacket` are documented as choosing the format messages are parsed in, but reading uses the decoder only (TLV unless `SetDecoder` was called): two sides given the LTV packer and nothing else never handle each other's messages, without any error. |
| F127 | C109 | `C109_order_refuted` | A client has no workers: each message gets a goroutine of its own, so the handlers of two messages of one connection may begin in either order and run at the same time. |
| F128 | C109 | `C109_websocket_refuted` | In DynamicBind mode a client's connection takes an ID of the pool, but since the client's `WorkerPoolSize` is 0, `freeWorker` takes it for an extra worker and closes the nil channel of its queue. `Connection.Start` recovers from that panic; `WsConnection.Start` does not, so closing a websocket connection ends the client's process. |
| F129 | C110 | `C110_nil_refuted`, `C110_garbage_refuted` | `AddInterceptor` appends to the slice that `Execute` reads in the connections' goroutines, without a lock: a message processed meanwhile may find the longer length before the element is stored (a nil interceptor, panic), or the old array with the new length (memory beyond the array). A client whose `Start` is called again does this by itself: it adds the decoder again while earlier connections may still read. |
| F130 | C110 | `C110_lost_refuted` | Two goroutines that call `AddInterceptor` at the same time can store into the same cell: both calls return, one of the interceptors is never run. |
| F131 | C111 | `C111_link_refuted` | The path is shortened by its text before any file is looked up: with `ZINX_CONFIG_FILE_PATH=l/../n`, `l` a symbolic link to a directory elsewhere, the program reads `n` of the working directory where the operating system would find `n` beside the link's target; with no `l` at all it reads `n` where the path names no file. |
| F132 | C112 | `C112_name_refuted` | A plain client given a host name connects to its own machine without an error (`net.ParseIP` gives nil, and `DialTCP` takes that for the local system); a TLS client tries to connect to a host called `<nil>`. |
| F133 | C112 | `C112_v6_refuted` | TLS clients and websocket clients without a URL put host and port together without brackets, so they cannot connect to an IPv6 address. |
| F134 | C113 | `C113_hook_refuted` | The hook runs with the logger's lock held: a hook that logs at an enabled level with the same logger, or calls `Flags`, `SetPrefix` or another setter, waits for itself; its call never ends and nothing is ever logged again. |

Seen while reading, not stated as a property: IDs become negative after 2039-09-07
(example beside C44); a panicking callback stops the later ones (example beside C37);
`Server.Stop` blocks for ever in websocket-only mode and before `Start`; a heartbeat blocked on a peer that does not read blocks
the TCP finalizer; `break` in the websocket/KCP writer leaves only the `select`; buffered
log bytes are lost at process exit without `Close`;
`OnComplete(nil)` wins the flag, so later callbacks are ignored; a nil connection in the
notifier makes `Get` and the sends panic; a teleporting player gets their own appear
message twice (example beside C60).

## 6. Assumptions printed

`Print Assumptions` follows every theorem of every `Props_*.v`; each prints "Closed under
the global context".  No axiom of the standard library is used by any of them.  (A
whole-library `coqchk -o` also lists the module-type parameters `Coq.ssr.ssrunder.Under_rel.*`
of the standard library, loaded with `lia`'s dependencies and used by no theorem here.)

## 7. What is modelled and what is not

| Code | Model | Not modelled |
|---|---|---|
| `zpack/datapack_*.go`, `message.go`, `packfactory.go` | `Pack.v` | the factory's `sync.Once` |
| `zinterceptor/*.go`, `znet/chainbuilder.go` | `FrameDecoder.v`, `Chain.v`, `ChainConc.v` | concurrent use of one decoder (each connection has its own) |
| `zdecoder/*.go` | `Decoders.v`, `Crc.v` | |
| reader loop of the three connections | `Reader.v`, `Payload.v`, `Hub.v` | websocket framing, TLS, KCP's protocol |
| `znet/request.go`, `request_func.go`, `router.go`, `defaultrouterfunc.go` | `Request.v`, `Router.v`, `RequestHeap.v`, `ReqShare.v`, `ReqCopy.v`, `GoSlice.v`, `Recover.v`, `RouteConc.v` | `panic(nil)` under the recovery handler |
| `znet/msghandler.go` | `Dispatch.v`, `Workers.v`, `Backlog.v`, `DynStop.v`, `Again.v`, `CliWork.v` | |
| `znet/connection.go`, `ws_connection.go`, `kcp_connection.go` | `ConnLife.v`, `ConnMsg.v`, `SendQueue.v`, `SendLocked.v`, `PropMap.v` | addresses |
| `znet/server.go`, `connmanager.go`, `callbacks.go`, `acceptdelay.go` | `ConnServer.v`, `Endpoint.v`, `Servers.v`, `StartServers.v`, `Serve.v`, `Settings.v`, `WsAdmit.v`, `ConnManager.v`, `Callbacks.v`, `AcceptDelay.v`, `DelayConc.v` | TLS setup |
| `znet/client.go`, `options.go` | `Client.v`, `Endpoint.v`, `Format.v`, `CliWork.v`, `Dial.v` | TLS configuration |
| `znet/heartbeat.go` | `Heartbeat.v`, `ClientHb.v` | |
| `zutils/shard_lock_map.go`, `hash.go` | `ShardMap.v`, `ShardConc.v`, `ShardIter.v`, `ShardMany.v`, `ShardClear.v`, `ShardJson.v` | the JSON text |
| `zutils/snowflake_uuid.go` | `Snowflake.v` | |
| `zutils/witer.go` | `LogWriter.v` | the zip format |
| `zlog/*.go` | `LogCore.v`, `LogFile.v`, `LogCall.v`, `LogBuf.v`, `LogHook.v` | |
| `ztimer/*.go` | `TimeWheel.v`, `TimedWheel.v`, `AutoExec.v` | the text of log lines (`DelayFunc.String`) except that it reads the DelayFunc |
| `zasync_op/*.go` | `AsyncResult.v`, `AsyncWorker.v`, `Backlog.v` | |
| `znotify/notify.go` | `Notify.v` | |
| `zinx_app_demo/mmo_game` (AOI, world, player, robot client) | `Aoi.v`, `World.v`, `WorldConc.v`, `WorldMsg.v`, `Robot.v` | protobuf encoding |
| `examples/` | `Bili.v` (`zinx_decoder/bili`) | the other examples |
| `zconf/*.go` | `Conf.v`, `ConfFile.v`, `ConfPath.v` | the JSON grammar, `Show` |

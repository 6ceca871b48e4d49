{"id": "C01", "title": "TLV stream round trip", "statement": "If a peer sends any list of messages with the default (big-endian TLV) packer, then a receiver using the default decoder delivers exactly those messages, each once, in order and with the same ID and payload, however the byte stream is split into reads.", "quantifier": "all message lists (any IDs, payloads, lengths below 2^32-8), all chunkings of the byte stream", "why_tests_cant": "the number of ways a TCP stream can be split is exponential and payload sizes are unbounded", "anchors": ["zpack/datapack_tlv_bigendian.go:DataPack.Pack", "zinterceptor/framedecoder.go:FrameDecoder.Decode", "zdecoder/tlvdecoder.go:TLVDecoder.Intercept", "znet/connection.go:Connection.StartReader"]}
{"id": "C02", "title": "LTV stream round trip", "statement": "The same end-to-end delivery guarantee holds for the little-endian LTV packer together with the LTV decoder.", "quantifier": "all message lists, all chunkings", "why_tests_cant": "same as C01", "anchors": ["zpack/datapack_ltv_littleendian.go:DataPackLtv.Pack", "zdecoder/ltvdecoder_little.go:LTV_Little_Decoder.Intercept", "zinterceptor/framedecoder.go:FrameDecoder.Decode"]}
{"id": "C03", "title": "Chunking independence of the frame decoder", "statement": "For any length-field configuration and any byte stream all of whose frames are well formed for that configuration (positive total length, not above the maximum), the frames produced depend only on the concatenated bytes and not on how the stream was split.", "quantifier": "all length-field configurations (offset, width 1/2/3/4/8, adjustment, strip, byte order, maximum), all streams, all chunkings", "why_tests_cant": "tests exercise a handful of configurations and splits", "anchors": ["zinterceptor/framedecoder.go:FrameDecoder.Decode", "zinterceptor/framedecoder.go:FrameDecoder.decode"]}
{"id": "C04", "title": "Prompt and never premature delivery", "statement": "After any prefix of a valid stream has arrived, exactly the messages whose last byte is inside the prefix have been delivered; no partial message is delivered and none is held back.", "quantifier": "all message lists, all prefixes of the stream, all chunkings of the prefix", "why_tests_cant": "every byte position of every stream is a possible pause", "anchors": ["zinterceptor/framedecoder.go:FrameDecoder.Decode", "zdecoder/tlvdecoder.go:TLVDecoder.Intercept"]}
{"id": "C05", "title": "Recovery after an over-long frame", "statement": "When a frame longer than the configured maximum arrives, exactly that frame is skipped and the frames after it are delivered normally.", "quantifier": "all configurations, all over-long frames, all following frames, all chunkings", "why_tests_cant": "depends on how the over-long frame is split across reads", "anchors": ["zinterceptor/framedecoder.go:FrameDecoder.exceededFrameLength", "zinterceptor/framedecoder.go:FrameDecoder.discardingTooLongFrameFunc"]}
{"id": "C06", "title": "Frame decoder survives arbitrary bytes", "statement": "Feeding arbitrary attacker-chosen bytes never makes the frame decoder panic or loop forever; with the default TLV and LTV configurations it always returns.", "quantifier": "all byte streams and chunkings (default configurations); all accepted configurations", "why_tests_cant": "input space is unbounded and a hang is not observable in a finite test", "anchors": ["zinterceptor/framedecoder.go:FrameDecoder.Decode", "zdecoder/tlvdecoder.go:TLVDecoder.GetLengthField", "zdecoder/ltvdecoder_little.go:LTV_Little_Decoder.GetLengthField"]}
{"id": "C07", "title": "Pack / Unpack header round trip", "statement": "Unpacking the bytes produced by Pack returns the same message ID and length for both packers; Unpack fails exactly when fewer than 8 bytes are given or the announced length exceeds a non-zero MaxPacketSize.", "quantifier": "all messages, all byte strings, all MaxPacketSize values", "why_tests_cant": "2^64 headers", "anchors": ["zpack/datapack_tlv_bigendian.go", "zpack/datapack_ltv_littleendian.go", "zpack/message.go"]}
{"id": "C08", "title": "Packed streams are uniquely decodable", "statement": "Two different message lists never have the same packed byte stream.", "quantifier": "all pairs of message lists", "why_tests_cant": "quantifies over pairs of unbounded lists", "anchors": ["zpack/datapack_tlv_bigendian.go:DataPack.Pack", "zpack/datapack_ltv_littleendian.go:DataPackLtv.Pack"]}
{"id": "C09", "title": "MaxPacketSize is enforced on receive", "statement": "A message whose payload is longer than the configured MaxPacketSize is never delivered to a handler.", "quantifier": "all configurations and all streams", "why_tests_cant": "a universal statement about every message", "anchors": ["znet/connection.go:Connection.StartReader", "zpack/datapack_tlv_bigendian.go:DataPack.Unpack"]}
{"id": "C10", "title": "HTLV+CRC frame delivery", "statement": "Every well-formed head/function/length/body/CRC frame is delivered with its function code as message ID, for every body length that fits the one-byte length field and every chunking.", "quantifier": "all head bytes, function codes, bodies of 0..255 bytes, all lists of such frames, all chunkings", "why_tests_cant": "same as C01", "anchors": ["zdecoder/htlvcrcdecoder.go:HTLVCRCDecoder.GetLengthField", "zdecoder/htlvcrcdecoder.go:HTLVCRCDecoder.Intercept"]}
{"id": "C11", "title": "CRC table agrees with CRC-16/MODBUS", "statement": "The table-driven checksum equals the bit-by-bit CRC-16 with polynomial 0xA001 and initial value 0xFFFF, for every input.", "quantifier": "all byte strings", "why_tests_cant": "unbounded inputs", "anchors": ["zdecoder/crc.go:GetCrC", "zdecoder/crc.go:CheckCRC"]}
{"id": "C12", "title": "Corrupted HTLV frames are never delivered", "statement": "If a frame with a correct checksum is altered by a burst of at most 16 consecutive bits in its checked part or its checksum, the checksum test fails and no handler sees the frame.", "quantifier": "all frames, all burst positions and patterns", "why_tests_cant": "unbounded frame sizes and exponentially many patterns", "anchors": ["zdecoder/crc.go:CheckCRC", "zdecoder/htlvcrcdecoder.go:HTLVCRCDecoder.decode"]}
{"id": "C13", "title": "A frame with a bad CRC only loses that frame", "statement": "When one frame has a wrong checksum, that frame is dropped and the frames around it are still delivered.", "quantifier": "all streams containing a bad frame", "why_tests_cant": "depends on the position of the bad frame in every possible stream", "anchors": ["zdecoder/htlvcrcdecoder.go:HTLVCRCDecoder.Intercept"]}
{"id": "C14", "title": "Interceptor chain order", "statement": "Interceptors run in the order head, added interceptors in order of addition, tail; each runs after its predecessor proceeded and an interceptor that does not proceed prevents all later ones from running.", "quantifier": "all interceptor lists and all proceed/stop behaviours, all request payloads", "why_tests_cant": "arbitrary chain lengths and behaviours", "anchors": ["zinterceptor/chain.go:Chain.Proceed", "zinterceptor/chain.go:Chain.ProceedWithIMessage", "znet/chainbuilder.go:chainBuilder.Execute"]}
{"id": "C15", "title": "Decoder interceptor on undecodable input", "statement": "A message shorter than the header passes through the decoder interceptor unchanged and without a panic; the decoders never read outside the frame for frames produced by their own frame decoder.", "quantifier": "all byte strings; all frames cut by the matching frame decoder", "why_tests_cant": "all lengths including near 2^32", "anchors": ["zdecoder/tlvdecoder.go:TLVDecoder.Intercept", "zdecoder/ltvdecoder_little.go:LTV_Little_Decoder.Intercept"]}
{"id": "C16", "title": "Three phase router order", "statement": "For a request bound to a router, PreHandle, Handle and PostHandle run once each in that order when no phase redirects; Abort stops all later phases; Goto(step) continues with exactly that step.", "quantifier": "all phase behaviours (any mix of Abort and Goto actions)", "why_tests_cant": "behaviours are arbitrary user code", "anchors": ["znet/request.go:Request.Call", "znet/request.go:Request.next", "znet/request.go:Request.Goto", "znet/request.go:Request.Abort"]}
{"id": "C17", "title": "Handler-slice order", "statement": "For a message registered with handler functions, the handlers run in registration order, each exactly once, whatever calls to RouterSlicesNext the handlers make.", "quantifier": "all handler lists (any length), any placement of RouterSlicesNext calls", "why_tests_cant": "any number of handlers and nesting depth", "anchors": ["znet/request.go:Request.RouterSlicesNext"]}
{"id": "C18", "title": "Abort in handler slices", "statement": "After a handler calls Abort no handler that has not yet started is started, while handlers already running finish.", "quantifier": "all handler lists and behaviours", "why_tests_cant": "arbitrary user handlers", "anchors": ["znet/request.go:Request.Abort", "znet/request.go:Request.RouterSlicesNext"]}
{"id": "C19", "title": "Route registration", "statement": "The handlers bound to a message ID are the global ones present at registration, then the group's ones present at registration, then its own, and they never change afterwards; registering an ID twice or outside the group's range panics and changes nothing.", "quantifier": "all sequences of Use, Group, AddHandler calls", "why_tests_cant": "arbitrary histories", "anchors": ["znet/router.go:RouterSlices.AddHandler", "znet/router.go:GroupRouter.AddHandler", "znet/msghandler.go:MsgHandle.AddRouter"]}
{"id": "C20", "title": "Unknown message IDs", "statement": "A request whose message ID has no route runs no handler and does not disturb the processing of other requests.", "quantifier": "all route tables, all request sequences", "why_tests_cant": "arbitrary histories", "anchors": ["znet/msghandler.go:MsgHandle.doMsgHandler", "znet/msghandler.go:MsgHandle.doMsgHandlerSlices"]}
{"id": "C21", "title": "Request copies are faithful", "statement": "A copied request carries the same message ID, payload, response object and context keys as the original, and later key writes to either are not visible in the other.", "quantifier": "all requests and all later Set calls on either", "why_tests_cant": "arbitrary contents and histories", "anchors": ["znet/request.go:Request.Copy", "znet/request.go:Request.Set", "znet/request.go:Request.Get"]}
{"id": "C22", "title": "Pooled requests do not leak state", "statement": "With request pooling enabled, a handler never observes data (keys, response object) set while processing an earlier request.", "quantifier": "all sequences of requests and pool reuse orders", "why_tests_cant": "depends on every possible reuse order", "anchors": ["znet/request.go:GetRequest", "znet/request.go:PutRequest", "znet/request.go:Request.Reset"]}
{"id": "C23", "title": "Per-connection ordering", "statement": "With a worker pool, the requests of one connection are handled in arrival order and never two at a time, under every interleaving of connections and workers.", "quantifier": "all schedules, all numbers of connections and workers", "why_tests_cant": "exponentially many schedules", "anchors": ["znet/msghandler.go:MsgHandle.SendMsgToTaskQueue", "znet/msghandler.go:MsgHandle.StartOneWorker", "znet/msghandler.go:useWorker"]}
{"id": "C24", "title": "Handler panics are contained", "statement": "A panic in a handler affects only that request: the worker continues and every other request queued is still processed once.", "quantifier": "all request sequences, any subset panicking", "why_tests_cant": "arbitrary subsets of failing handlers", "anchors": ["znet/msghandler.go:MsgHandle.doMsgHandler", "znet/msghandler.go:MsgHandle.StartOneWorker"]}
{"id": "C25", "title": "Bind mode gives each connection its own worker", "statement": "In Bind mode two live connections never have the same worker.", "quantifier": "all open/close histories with at most MaxConn live connections", "why_tests_cant": "arbitrary histories", "anchors": ["znet/msghandler.go:useWorker", "znet/msghandler.go:freeWorker", "znet/connection.go:Connection.finalizer"]}
{"id": "C26", "title": "DynamicBind mode gives each connection its own worker", "statement": "In DynamicBind mode two live connections never have the same worker, and closing one connection never stops the worker of another.", "quantifier": "all open/close histories with at most MaxConn live connections", "why_tests_cant": "arbitrary histories", "anchors": ["znet/msghandler.go:useWorker", "znet/msghandler.go:freeWorker", "znet/msghandler.go:MsgHandle.StopOneWorker"]}
{"id": "C27", "title": "Worker index is always valid", "statement": "Whatever the mode and the history, the worker chosen for a connection is a valid queue index, so queueing a request never panics with an index error.", "quantifier": "all modes, all histories, all connection IDs", "why_tests_cant": "arbitrary histories and 2^64 IDs", "anchors": ["znet/msghandler.go:useWorker", "znet/msghandler.go:MsgHandle.SendMsgToTaskQueue"]}
{"id": "C28", "title": "Connection hooks", "statement": "For each connection the stop hook runs at most once, and the connection is closed and removed from the manager exactly once, however many times and from however many goroutines Stop is called.", "quantifier": "all schedules of Stop calls, reader errors and the finalizer", "why_tests_cant": "schedules", "anchors": ["znet/connection.go:Connection.Start", "znet/connection.go:Connection.Stop", "znet/connection.go:Connection.finalizer", "znet/kcp_connection.go:KcpConnection.finalizer"]}
{"id": "C29", "title": "Connection IDs are unique", "statement": "Connections accepted by one server have pairwise different IDs until 2^64 connections have been accepted.", "quantifier": "all accept histories, all three listeners concurrently", "why_tests_cant": "interleavings of the three accept loops", "anchors": ["znet/server.go:Server.ListenTcpConn", "znet/server.go:Server.ListenWebsocketConn", "znet/server.go:Server.ListenKcpConn"]}
{"id": "C30", "title": "Connection limit", "statement": "The number of managed connections never exceeds MaxConn.", "quantifier": "all schedules of accepts and closes, all listener modes", "why_tests_cant": "schedules", "anchors": ["znet/server.go:Server.ListenTcpConn", "znet/server.go:Server.ListenWebsocketConn", "znet/connmanager.go:ConnManager.Len"]}
{"id": "C31", "title": "Stop before Start", "statement": "Stopping the server or clearing its connections never panics, even when a connection has just been accepted.", "quantifier": "all schedules of accept and stop", "why_tests_cant": "a one-instruction race window", "anchors": ["znet/connection.go:Connection.Stop", "znet/connmanager.go:ConnManager.ClearConn", "znet/server.go:Server.Stop"]}
{"id": "C32", "title": "Connection manager is a map", "statement": "After any sequence of Add, Remove and Clear, Get returns exactly the connections added and not since removed, and Len counts them.", "quantifier": "all operation sequences, all IDs", "why_tests_cant": "arbitrary histories", "anchors": ["znet/connmanager.go", "zutils/shard_lock_map.go"]}
{"id": "C33", "title": "Range error reporting", "statement": "When a Range callback fails for some connection, Range reports an error.", "quantifier": "all connection sets and callback behaviours, all iteration orders", "why_tests_cant": "iteration order is random", "anchors": ["znet/connmanager.go:ConnManager.Range", "znet/connmanager.go:ConnManager.Range2"]}
{"id": "C34", "title": "Buffered sends keep order and integrity", "statement": "The bytes put on the wire are the concatenation of whole packed messages; messages sent through the buffer by one goroutine appear in the order sent.", "quantifier": "all schedules of any number of senders and the writer", "why_tests_cant": "schedules", "anchors": ["znet/connection.go:Connection.SendToQueue", "znet/connection.go:Connection.StartWriter", "znet/connection.go:Connection.Send"]}
{"id": "C35", "title": "Accepted buffered sends reach the wire", "statement": "A buffered send that returned nil is eventually written unless the peer or network fails.", "quantifier": "all schedules including a local Stop", "why_tests_cant": "schedules", "anchors": ["znet/connection.go:Connection.SendToQueue", "znet/connection.go:Connection.StartWriter", "znet/connection.go:Connection.finalizer"]}
{"id": "C36", "title": "Concurrent senders around close", "statement": "Concurrent buffered sends during shutdown never panic.", "quantifier": "all schedules of senders and close", "why_tests_cant": "schedules", "anchors": ["znet/connection.go:Connection.SendToQueue", "znet/kcp_connection.go:KcpConnection.SendToQueue"]}
{"id": "C37", "title": "Close callbacks", "statement": "The callback registry behaves as an ordered list: Invoke runs exactly the callbacks added and not removed, once each, in the order of addition; adding nil has no effect; removal removes exactly the first matching entry.", "quantifier": "all sequences of Add, Remove, Invoke, Count", "why_tests_cant": "arbitrary histories", "anchors": ["znet/callbacks.go"]}
{"id": "C38", "title": "Heartbeat liveness", "statement": "A connection is declared dead by a heartbeat check iff no activity was recorded for at least the configured maximum (or it is closed); each check of a live connection sends exactly one heartbeat and each check of a dead one runs the not-alive action once; a connection active at intervals shorter than the maximum is never declared dead.", "quantifier": "all schedules of activity and checks, all clock values", "why_tests_cant": "arbitrary histories", "anchors": ["znet/heartbeat.go:HeartbeatChecker.check", "znet/connection.go:Connection.IsAlive", "znet/connection.go:Connection.updateActivity"]}
{"id": "C39", "title": "Heartbeat routing", "statement": "Configuring a heartbeat with a custom ID and router makes exactly that router handle the heartbeat messages of that ID.", "quantifier": "all option combinations", "why_tests_cant": "combinations of options and modes", "anchors": ["znet/heartbeat.go:HeartbeatChecker.BindRouter", "znet/heartbeat.go:HeartbeatChecker.BindRouterSlices", "znet/server.go:Server.StartHeartBeatWithOption"]}
{"id": "C40", "title": "Accept back-off", "statement": "After k consecutive accept failures the delay is min(5ms*2^(k-1), 1s) and a success resets it to zero.", "quantifier": "all sequences of Up/Reset", "why_tests_cant": "unbounded sequences", "anchors": ["znet/acceptdelay.go"]}
{"id": "C41", "title": "Sharded map refines a map", "statement": "For any sequence of operations the sharded map answers as one plain map from strings to values would; in particular Set is seen by Get of the same key only, SetNX stores iff absent, Pop removes and returns, Count/Keys/Items list every entry once.", "quantifier": "all operation sequences, all keys", "why_tests_cant": "arbitrary histories and hash collisions", "anchors": ["zutils/shard_lock_map.go", "zutils/hash.go"]}
{"id": "C42", "title": "Sharded map operations are linearizable", "statement": "Under every interleaving of concurrent single-key calls, results are those of some sequential order consistent with real time; atomic check-and-set (SetNX, RemoveCb) admits exactly one winner.", "quantifier": "all schedules", "why_tests_cant": "schedules", "anchors": ["zutils/shard_lock_map.go"]}
{"id": "C43", "title": "Snowflake IDs are unique", "statement": "All IDs returned by one generator are strictly increasing and IDs of generators with different worker numbers never coincide, for every behaviour of the clock in the supported time range.", "quantifier": "all clock sequences (including backward jumps and stalls), all call counts", "why_tests_cant": "clock behaviours are unbounded", "anchors": ["zutils/snowflake_uuid.go:IDWorker.NextID"]}
{"id": "C44", "title": "Snowflake liveness and range errors", "statement": "NewIDWorker accepts exactly 0..1023; NextID fails exactly when the clock is behind the last ID's time; generated IDs are non-negative in the supported time range.", "quantifier": "all worker numbers and clock sequences", "why_tests_cant": "unbounded", "anchors": ["zutils/snowflake_uuid.go:NewIDWorker", "zutils/snowflake_uuid.go:IDWorker.NextID"]}
{"id": "C45", "title": "Log writer keeps every byte", "statement": "Every byte accepted by Write ends up exactly once, in order, in the concatenation of the rotated files and the current file.", "quantifier": "all sequences of writes, flushes, day changes, rotations and Close/reopen", "why_tests_cant": "arbitrary histories and clock behaviour", "anchors": ["zutils/witer.go:Writer.Write", "zutils/witer.go:Writer.rotate"]}
{"id": "C46", "title": "Log file size bound", "statement": "No log file exceeds the configured maximum unless it holds a single oversized record (or was already larger when opened).", "quantifier": "all write sequences", "why_tests_cant": "arbitrary histories", "anchors": ["zutils/witer.go:Writer.Write"]}
{"id": "C47", "title": "Timers fire at most once", "statement": "A timer is handed to the trigger channel at most once.", "quantifier": "all schedules of ticks of the three wheels, polls, additions and cancellations, all clocks", "why_tests_cant": "schedules", "anchors": ["ztimer/timewheel.go", "ztimer/timerscheduler.go"]}
{"id": "C48", "title": "Timers never fire early", "statement": "A timer is never handed out 100 ms or more before its due time.", "quantifier": "all schedules", "why_tests_cant": "schedules", "anchors": ["ztimer/timewheel.go:TimeWheel.GetTimerWithIn", "ztimer/timerscheduler.go:TimerScheduler.Start"]}
{"id": "C49", "title": "Cancelled timers do not fire", "statement": "Once CancelTimer has returned, the timer is never handed out afterwards.", "quantifier": "all interleavings of the cancel's scan with ticks and polls", "why_tests_cant": "schedules", "anchors": ["ztimer/timerscheduler.go:TimerScheduler.CancelTimer", "ztimer/timewheel.go:TimeWheel.RemoveTimer"]}
{"id": "C50", "title": "Timers are not lost", "statement": "Every timer created and neither cancelled nor yet handed out is stored in exactly one place of the wheel hierarchy.", "quantifier": "all schedules", "why_tests_cant": "schedules", "anchors": ["ztimer/timewheel.go:TimeWheel.addTimer", "ztimer/timewheel.go:TimeWheel.run"]}
{"id": "C51", "title": "Timers fire in time", "statement": "With punctual ticks and polls every timer created with a delay below 12 hours is handed out before its due time plus a fixed bound.", "quantifier": "all creation times, delays and tick phases", "why_tests_cant": "continuous parameters", "anchors": ["ztimer/timewheel.go:TimeWheel.addTimer", "ztimer/timerscheduler.go:NewTimerScheduler"]}
{"id": "C52", "title": "Async callback runs exactly once", "statement": "When both a completion callback and a result are supplied, in either order and concurrently, the callback is scheduled exactly once; with only one of them supplied it is not scheduled.", "quantifier": "all interleavings", "why_tests_cant": "schedules", "anchors": ["zasync_op/async_op_result.go"]}
{"id": "C53", "title": "Async callback sees the result", "statement": "When the completion callback runs, the returned object is already visible to it.", "quantifier": "all interleavings", "why_tests_cant": "schedules", "anchors": ["zasync_op/async_op_result.go:AsyncOpResult.SetReturnedObj", "zasync_op/async_op_result.go:AsyncOpResult.OnComplete"]}
{"id": "C54", "title": "Async operations with one ID are serialized", "statement": "Operations submitted with the same ID run one at a time in submission order; a panic in one does not stop later ones; every int ID maps to a valid worker.", "quantifier": "all IDs, all submission sequences, all schedules", "why_tests_cant": "schedules and 2^64 IDs", "anchors": ["zasync_op/async_op.go:Process", "zasync_op/async_worker.go:AsyncWorker.loopExecTask"]}
{"id": "C55", "title": "Notifier registry", "statement": "Set, Delete, Has and Get behave as a map from ID to connection; NotifyToConnByID sends to exactly the registered connection or errors; NotifyAll sends once to each registered connection.", "quantifier": "all operation sequences", "why_tests_cant": "arbitrary histories", "anchors": ["znotify/notify.go"]}
{"id": "C56", "title": "NotifyAll reports failures", "statement": "NotifyAll returns an error when sending to some connection failed.", "quantifier": "all connection sets and failures", "why_tests_cant": "combinatorial", "anchors": ["znotify/notify.go:notify.NotifyAll"]}
{"id": "C57", "title": "AOI neighbourhood", "statement": "The surrounding grids of a grid are exactly the grids of the map at row and column distance at most one, each listed once, and being a neighbour is symmetric.", "quantifier": "all map sizes and grid IDs", "why_tests_cant": "all grid dimensions", "anchors": ["zinx_app_demo/mmo_game/core/aoi.go:AOIManager.GetSurroundGrIDsByGID"]}
{"id": "C58", "title": "Position to grid mapping", "statement": "Every position inside the map bounds maps to the grid whose rectangle contains it.", "quantifier": "all map parameters and positions", "why_tests_cant": "all parameters", "anchors": ["zinx_app_demo/mmo_game/core/aoi.go:AOIManager.GetGIDByPos", "zinx_app_demo/mmo_game/core/aoi.go:NewAOIManager"]}
{"id": "C59", "title": "Player membership in grids", "statement": "After any sequence of joins, moves and leaves each online player is a member of exactly one grid, the one of the player's last position, and an offline player of none.", "quantifier": "all histories of joins, moves and leaves", "why_tests_cant": "arbitrary histories", "anchors": ["zinx_app_demo/mmo_game/core/player.go:Player.UpdatePos", "zinx_app_demo/mmo_game/core/player.go:Player.OnExchangeAoiGrID", "zinx_app_demo/mmo_game/core/world_manager.go"]}
{"id": "C60", "title": "View updates on grid change", "statement": "When a player crosses into another grid, disappear messages go exactly to the grids left behind and appear messages exactly to the grids newly surrounding the player.", "quantifier": "all map sizes and all pairs of grids", "why_tests_cant": "all pairs", "anchors": ["zinx_app_demo/mmo_game/core/player.go:Player.OnExchangeAoiGrID"]}
{"id": "C61", "title": "Log record framing", "statement": "Every emitted record ends with exactly the newline the caller supplied or one added, and its text is the formatted header followed by the message unchanged.", "quantifier": "all flags, prefixes, messages", "why_tests_cant": "all strings", "anchors": ["zlog/logger_core.go:ZinxLoggerCore.OutPut"]}
{"id": "C62", "title": "Log level isolation", "statement": "With isolation level v exactly the records of levels at least v are written.", "quantifier": "all levels, all call sequences", "why_tests_cant": "all histories", "anchors": ["zlog/logger_core.go:ZinxLoggerCore.verifyLogIsolation"]}
{"id": "C63", "title": "Log header integers", "statement": "Numbers in log headers are printed in decimal, left-padded with zeros to the requested width, for every value.", "quantifier": "all non-negative integers and widths below 32", "why_tests_cant": "unbounded", "anchors": ["zlog/logger_core.go:itoa"]}
{"id": "C64", "title": "Log header fields", "statement": "When the level flag is set the level tag is printed; when a file flag is set file and line are printed.", "quantifier": "all flag combinations", "why_tests_cant": "2^n combinations", "anchors": ["zlog/logger_core.go:ZinxLoggerCore.formatHeader"]}
{"id": "C65", "title": "Configuration overlay", "statement": "User configuration overrides exactly the fields the user set and leaves the others at their previous value.", "quantifier": "all user and global configurations", "why_tests_cant": "all field combinations", "anchors": ["zconf/userconf.go:UserConfToGlobal"]}
{"id": "C66", "title": "Logger follows the configuration", "statement": "After the configuration is loaded or overlaid, the standard logger filters at the configured level and writes to the configured directory and file with the configured size, age and console settings.", "quantifier": "all configurations", "why_tests_cant": "all field combinations", "anchors": ["zconf/zconf.go:Config.InitLogConfig", "zconf/userconf.go:UserConfToGlobal"]}
{"id": "C67", "title": "Request context while handlers run", "statement": "While the phases or the handler slice of one request run, every Get and GetResponse returns what this request's handlers stored last under that key (or as response), nothing if none did, and every GetMessage returns the request's message.", "quantifier": "all routers and handler slices, all code of the handlers (including nested RouterSlicesNext, Abort, Goto and panics), all keys and values", "why_tests_cant": "all handler programs and nestings", "anchors": ["znet/request.go:Request.Call", "znet/request.go:Request.RouterSlicesNext", "znet/request.go:Request.Set", "znet/request.go:Request.Get", "znet/request.go:Request.SetResponse"]}
{"id": "C68", "title": "Send errors have a cause", "statement": "On a started connection that nobody stops and whose network works, SendMsg never returns an error, and a buffered send returns an error only if its timer fired while the send queue stayed full.", "quantifier": "all senders, messages, queue sizes and schedules", "why_tests_cant": "schedules", "anchors": ["znet/connection.go:Connection.SendToQueue", "znet/connection.go:Connection.SendMsg", "znet/ws_connection.go:WsConnection.SendToQueue", "znet/kcp_connection.go:KcpConnection.SendToQueue"]}
{"id": "C69", "title": "Server.Stop and ClearConn when they return", "statement": "When ClearConn or Server.Stop returns, every connection that was in the connection manager when it began has been stopped. After Server.Stop has returned the listener gets closed, and from then on a Tcp or Kcp server creates at most one more connection. At most one Server.Stop returns; a single one that begins with all connections started can always return, except in websocket mode.", "quantifier": "all interleavings of accept loops, connection goroutines and any number of Stop and ClearConn calls", "why_tests_cant": "schedules", "anchors": ["znet/server.go:Server.Stop", "znet/server.go:Server.ListenTcpConn", "znet/server.go:Server.ListenKcpConn", "znet/server.go:Server.ListenWebsocketConn", "znet/connmanager.go:ConnManager.ClearConn"]}
{"id": "C70", "title": "Starting and stopping a client", "statement": "A Stop of a client that was started once and has a connection stops that connection before it returns, and it does return. After a Stop has returned the client makes no further connection and reports no further error. At most one call of Stop returns. Each failed dial is delivered on ErrChan exactly once to whoever receives. A stopped client can be started again with Restart and stopped again, and a client whose connection ended can be reconnected with Restart, without leaving goroutines behind.", "quantifier": "all interleavings of Start, Restart, Stop, dial results, the connection's own start and end, and receives from ErrChan", "why_tests_cant": "schedules", "anchors": ["znet/client.go:Client.Restart", "znet/client.go:Client.Start", "znet/client.go:Client.Stop", "znet/client.go:Client.Conn", "znet/client.go:Client.GetErrChan"]}
{"id": "C71", "title": "Daily log files", "statement": "Each log file holds only records of one local day: the files of a session, oldest first, are the records written, in order, cut into consecutive groups of one day each.", "quantifier": "all sessions of writes, flushes, size limits, clock readings and system results", "why_tests_cant": "dates, midnight and arbitrary sessions", "anchors": ["zutils/witer.go:Writer.Write", "zutils/witer.go:Writer.rotate"]}
{"id": "C72", "title": "What players' clients show", "statement": "After any joins, moves and leaves, what an online player's client has been sent makes it show exactly the online players in the grids around that player's own, each at their last position. A joining player is announced once to everyone around and is sent the list of exactly those players; a move is reported once to everyone around the new position; a lost connection is reported once to everyone around; chat reaches every online player exactly once.", "quantifier": "all maps, histories and players", "why_tests_cant": "the screen is the product of an unbounded history of messages about every other player", "anchors": ["zinx_app_demo/mmo_game/core/player.go:Player.SyncSurrounding", "zinx_app_demo/mmo_game/core/player.go:Player.UpdatePos", "zinx_app_demo/mmo_game/core/player.go:Player.OnExchangeAoiGrID", "zinx_app_demo/mmo_game/core/player.go:Player.LostConnection", "zinx_app_demo/mmo_game/core/player.go:Player.Talk", "zinx_app_demo/mmo_game/server.go:OnConnectionAdd"]}
{"id": "C73", "title": "From a send call to the peer's handler", "statement": "The messages one side's sends accepted (returned nil) reach the handlers of the other side's connection unchanged, in the order accepted, one at a time, none skipped or repeated: at any moment the handlers have begun on the first few of them, and while the network works and nobody calls Stop all of them can still be handled.", "quantifier": "all messages, senders' and receivers' schedules, network failures, read boundaries, and both the TLV and LTV formats", "why_tests_cant": "composition of sender, network, decoder and worker schedules", "anchors": ["znet/connection.go:Connection.SendBuffMsg", "znet/connection.go:Connection.SendMsg", "znet/connection.go:Connection.StartReader", "znet/msghandler.go:MsgHandle.SendMsgToTaskQueue", "znet/msghandler.go:MsgHandle.StartOneWorker", "znet/ws_connection.go:WsConnection.StartReader"]}
{"id": "C74", "title": "Iterating over the shared map while it changes", "statement": "Items, IterBuffered, Keys, Count and IterCb (and so the connection manager's Range, GetAllConnID, ClearConn and Len) called while other goroutines use the map report every key as it was at some moment of the call: none twice, an entry nobody touches exactly once, a key that is never there not at all. They need nobody else to finish, and a loop over IterBuffered may be left early: its goroutines end and no lock stays held.", "quantifier": "all maps, calls of other goroutines, goroutine schedules and map orders", "why_tests_cant": "64 goroutines and channels per call interleave with other callers", "anchors": ["zutils/shard_lock_map.go:ShardLockMaps.IterBuffered", "zutils/shard_lock_map.go:snapshot", "zutils/shard_lock_map.go:fanIn", "zutils/shard_lock_map.go:ShardLockMaps.Keys", "zutils/shard_lock_map.go:ShardLockMaps.Count", "zutils/shard_lock_map.go:ShardLockMaps.IterCb", "znet/connmanager.go:ConnManager.Range", "znet/connmanager.go:ConnManager.Len"]}
{"id": "C75", "title": "Connection properties", "statement": "SetProperty, GetProperty and RemoveProperty on one connection behave, from any goroutines at once, as one plain map that starts empty: every call takes effect at one moment between its call and its return, a get returns the value last set or an error when there is none. Other connections' properties have no influence. No call panics and every call can return.", "quantifier": "all connections, goroutines, calls and schedules", "why_tests_cant": "concurrent calls interleave instruction by instruction, including the lazy creation of the map", "anchors": ["znet/connection.go:Connection.SetProperty", "znet/connection.go:Connection.GetProperty", "znet/connection.go:Connection.RemoveProperty", "znet/ws_connection.go:WsConnection.SetProperty", "znet/kcp_connection.go:KcpConnection.SetProperty"]}
{"id": "C76", "title": "Messages and the life of their connection", "statement": "No handler begins on a message of a connection before the connection's OnConnStart hook has returned, none at all if that hook panics, and none after OnConnStop has returned. After Stop has been called at most one more read of the network delivers messages. Every message taken from the network is handed to a handler exactly once, whatever happens to the connection meanwhile. A panic in a decoder, an interceptor or a hook ends at most that connection.", "quantifier": "all connections, messages and schedules of reader, workers, heartbeat and Stop calls", "why_tests_cant": "the reader, the workers and the closing goroutine interleave freely", "anchors": ["znet/connection.go:Connection.StartReader", "znet/connection.go:Connection.Start", "znet/connection.go:Connection.finalizer", "znet/ws_connection.go:WsConnection.StartReader", "znet/kcp_connection.go:KcpConnection.StartReader"]}
{"id": "C77", "title": "Servers with a configuration of their own", "statement": "A server made with a user configuration listens on the address and ports that configuration asks for, and runs with the connection limit, mode, certificate, queue length, heartbeat limit, worker mode and kind of routing it asks for, whatever other servers and clients the same process makes before or after. Its registered handlers get its messages, and starting one server does not disturb another.", "quantifier": "all sequences of constructors, registrations, starts, connections, messages and closes, any number of servers, all configurations", "why_tests_cant": "the servers interact through shared state in orders no test enumerates", "anchors": ["znet/server.go:NewServer", "znet/server.go:NewUserConfServer", "znet/server.go:NewDefaultRouterSlicesServer", "znet/server.go:Server.Start", "znet/server.go:Server.ListenWebsocketConn", "znet/msghandler.go:newMsgHandle", "znet/msghandler.go:useWorker", "znet/msghandler.go:freeWorker", "zconf/userconf.go:UserConfToGlobal"]}
{"id": "C78", "title": "Every log line reaches its place", "statement": "Each log call at an enabled level adds exactly one line, with its header and message, to the log file SetLogFile set last, or to standard error if none was set; lines are never mixed, repeated or reordered, and once written or after the process ends they are in the file. SetCons copies them to standard error and the hook is given each of them once.", "quantifier": "all calls from any number of goroutines, all SetLogFile, SetCons, SetLogHook, size and level settings, flushes, rotations and exits", "why_tests_cant": "interleavings of calls, switches of files and the end of the process", "anchors": ["zlog/logger_core.go:ZinxLoggerCore.OutPut", "zlog/logger_core.go:ZinxLoggerCore.SetLogFile", "zlog/logger_core.go:ZinxLoggerCore.Fatal", "zlog/logger_core.go:ZinxLoggerCore.SetLogHook", "zutils/witer.go:Writer.Write", "zutils/witer.go:Writer.Close"]}
{"id": "C79", "title": "Due timers are called", "statement": "A scheduler made with NewAutoExecTimerScheduler calls the function of each due timer exactly once, with the arguments it was given, however long other functions take and even if they panic; functions are called in the order their timers are due. A failing function is logged and does no other harm. Timer.Run calls its function once and not early.", "quantifier": "all timers, functions, arguments, clock readings and interleavings of the scheduler's goroutines with the functions called", "why_tests_cant": "any number of timers, blocked or failing functions, a full channel and goroutine scheduling", "anchors": ["ztimer/timerscheduler.go:NewAutoExecTimerScheduler", "ztimer/timerscheduler.go:TimerScheduler.Start", "ztimer/delayfunc.go:DelayFunc.Call", "ztimer/delayfunc.go:DelayFunc.String", "ztimer/timer.go:Timer.Run"]}
{"id": "C80", "title": "Full task queues", "statement": "When requests arrive faster than they are handled, none is lost, repeated or reordered: a queue holds at most MaxWorkerTaskLen requests (2048 for asynchronous operations), a reader holds at most one more and waits. A busy worker delays only the connections it serves. If handlers return, every request is handled after finitely many steps, also when handlers and asynchronous operations send further requests to connections or to asynchronous workers.", "quantifier": "all pool sizes, queue lengths (zero included), requests, handlers' sends and interleavings of readers, workers and asynchronous workers", "why_tests_cant": "unbounded load, deadlock depends on full queues and scheduling", "anchors": ["znet/msghandler.go:MsgHandle.SendMsgToTaskQueue", "znet/msghandler.go:MsgHandle.StartOneWorker", "znet/msghandler.go:MsgHandle.StartWorkerPool", "zasync_op/async_op_result.go:AsyncOpResult.doComplete", "zasync_op/async_worker.go:AsyncWorker.process", "zasync_op/async_op.go:Process", "znet/connection.go:Connection.StartReader"]}
{"id": "C81", "title": "A request's data stays what was read", "statement": "The data of a request, seen by an interceptor or handler at any time after it was read, however long it waited in a queue, is the data decoded for it (with the changes made to that very data), no matter what is read or written for other requests meanwhile.", "quantifier": "all interleavings of reads, looks and stores, all three kinds of connection, all decoders or none, all buffer sizes and allocation strategies of append", "why_tests_cant": "memory sharing shows only when a later read overlaps a request still waiting", "anchors": ["znet/connection.go:Connection.StartReader", "znet/kcp_connection.go:KcpConnection.StartReader", "znet/ws_connection.go:WsConnection.StartReader", "zinterceptor/framedecoder.go:FrameDecoder.Decode", "zdecoder/tlvdecoder.go:TLVDecoder.decode", "zdecoder/ltvdecoder_little.go:LTV_Little_Decoder.decode"]}
{"id": "C82", "title": "Requests are not mixed up when objects are reused", "statement": "Whoever holds a request - interceptors of the reader, its handler, code after Proceed, goroutines a handler started - sees the connection and message it was read with and the context values set on that very request, also when RequestPoolMode lets the request object be used again for a later request of any connection.", "quantifier": "all interleavings of readers, interceptor code before and after Proceed, workers or goroutines running handlers, pool contents and choices; with and without the pool", "why_tests_cant": "reuse happens only when a handler finishes while others still hold the request; sync.Pool chooses freely", "anchors": ["znet/request.go:GetRequest", "znet/request.go:PutRequest", "znet/request.go:Request.Reset", "znet/msghandler.go:MsgHandle.Intercept", "znet/msghandler.go:MsgHandle.SendMsgToTaskQueue", "znet/msghandler.go:MsgHandle.doMsgHandler", "znet/connection.go:Connection.StartReader"]}
{"id": "C83", "title": "What a connection keeps of unread data is bounded", "statement": "While a connection's reader runs, every byte read so far has been handed on as part of a whole frame or is still kept, and what is kept is the unfinished beginning of a single frame, shorter than the configured maximum frame length: a peer cannot make the server keep more than that.", "quantifier": "all length-field configurations, all byte streams and all ways they are cut into reads, unbounded", "why_tests_cant": "how much is kept depends on arbitrary bytes of an arbitrarily long stream; a test sees a few short streams", "anchors": ["zinterceptor/framedecoder.go:FrameDecoder.Decode", "zinterceptor/framedecoder.go:FrameDecoder.decode", "znet/connection.go:Connection.StartReader", "zdecoder/tlvdecoder.go:TLVDecoder.GetLengthField", "zdecoder/htlvcrcdecoder.go:HTLVCRCDecoder.GetLengthField"]}
{"id": "C84", "title": "Stop ends a connection whatever the peer does", "statement": "After Stop the socket is closed, the connection's goroutines end, and every send call in progress or made later returns, whether or not the peer reads what is sent. While the peer reads, every send call returns; a buffered send call returns in any case.", "quantifier": "all infinite executions in which goroutines that can go on do go on, any number of senders of both kinds, any moments at which the peer takes data (possibly none), TCP, websocket and KCP", "why_tests_cant": "a call that never returns and a socket that is never closed are facts about infinite executions with a peer that stops reading and full socket buffers", "anchors": ["znet/connection.go:Connection.Stop", "znet/connection.go:Connection.finalizer", "znet/connection.go:Connection.StartWriter", "znet/ws_connection.go:WsConnection.finalizer", "znet/ws_connection.go:WsConnection.SendMsg", "znet/ws_connection.go:WsConnection.SendToQueue", "znet/kcp_connection.go:KcpConnection.finalizer", "znet/kcp_connection.go:KcpConnection.Send"]}
{"id": "C85", "title": "One peer cannot disturb the others", "statement": "What is handled for a connection depends on that connection's own bytes alone: whatever other peers send, whenever they connect and leave, its requests are the messages in its own bytes, in order and one at a time. No bytes a peer sends end another connection or the server, and a connection's requests go on being handled however other connections' handlers behave.", "quantifier": "any number of connections of all three kinds, any bytes on each in any pieces, all decoders, all interleavings of accepts, starts, reads, queueing, workers, and connection ends; Hash and Bind worker modes", "why_tests_cant": "non-interference compares all pairs of executions that agree on one connection; a test fixes the other peers' bytes and one schedule", "anchors": ["znet/connection.go:Connection.StartReader", "znet/ws_connection.go:WsConnection.StartReader", "znet/kcp_connection.go:KcpConnection.StartReader", "znet/msghandler.go:MsgHandle.SendMsgToTaskQueue", "znet/msghandler.go:MsgHandle.StartOneWorker", "znet/msghandler.go:useWorker"]}
{"id": "C86", "title": "Calls on the shared map come back", "statement": "Goroutines calling Get, Set, SetNX, Has, Remove, RemoveCb and Pop at the same time do not block each other for good. A call waits only while another call on a key of the same shard is under way and at least one of the two may change the map: lookups never wait for lookups, nor for other shards. A call that has the lock returns after a bounded number of its own instructions whatever the others do, and from every situation every waiting call can still return.", "quantifier": "any hash, any map, any number of goroutines and calls, all interleavings", "why_tests_cant": "deadlock freedom is over all interleavings of lock operations of any number of goroutines", "anchors": ["zutils/shard_lock_map.go:ShardLockMaps.Get", "zutils/shard_lock_map.go:ShardLockMaps.Set", "zutils/shard_lock_map.go:ShardLockMaps.SetNX", "zutils/shard_lock_map.go:ShardLockMaps.Has", "zutils/shard_lock_map.go:ShardLockMaps.Remove", "zutils/shard_lock_map.go:ShardLockMaps.RemoveCb", "zutils/shard_lock_map.go:ShardLockMaps.Pop"]}
{"id": "C87", "title": "Clear and MSet while other goroutines use the map", "statement": "A Clear that has returned has removed everything: every key was absent at some moment of the call, and a key nobody else writes meanwhile is absent when it returns. It removes a key once: what another goroutine puts there afterwards stays. Clear can always return, whatever the others do, and MSet leaves every one of its entries in the map at some moment, touches no other key, and does not undo what others write under a key it is done with. (Refuted as one step: the map need not be empty at any moment of a Clear, and the entries of an MSet appear one by one.)", "quantifier": "any hash, any map, any calls of other goroutines, all interleavings", "why_tests_cant": "quantifies over all interleavings of the 64 goroutines behind the loop with any calls of others", "anchors": ["zutils/shard_lock_map.go:ShardLockMaps.Clear", "zutils/shard_lock_map.go:ShardLockMaps.MSet", "zutils/shard_lock_map.go:ShardLockMaps.IterBuffered", "zutils/shard_lock_map.go:ShardLockMaps.Remove"]}
{"id": "C88", "title": "The decoder of a server or client", "statement": "A server or client cuts frames and decodes them with the decoder last asked for, TLV by default, and every frame goes once to that decoder, then to the user's interceptors in the order in which they were added, then to the message's handler; so interceptors start on the decoded message, and what a client packs is what the handlers get, whenever the interceptors were added and however often the endpoint was started. (Refuted for a decoder set after Start, and for a client whose interceptors are added before Start or which is started twice.)", "quantifier": "any sequence of AddInterceptor, SetDecoder, Start and Restart calls, any decoder and interceptors, any messages and any split of the bytes into reads", "why_tests_cant": "quantifies over all orders of the set-up calls and all messages; the order in which calls are made is the user's", "anchors": ["znet/server.go:Server.Start", "znet/server.go:Server.SetDecoder", "znet/server.go:Server.AddInterceptor", "znet/client.go:Client.Start", "znet/client.go:Client.Restart", "znet/client.go:Client.SetDecoder", "znet/client.go:Client.AddInterceptor", "znet/msghandler.go:MsgHandle.SetHeadInterceptor"]}
{"id": "C89", "title": "What one log call does", "statement": "A call of a level method of a logger, of a package function or of a method of Ins() writes one record, with the severity of that method and the file and line of the call, and gives the same bytes to the hook; then Panic panics with the text, Fatal ends the process and the others return. Below the level set nothing is written and the call returns. After SetLogger the methods of Ins() are those of the logger set. (Refuted: the methods of StdZinxLog called directly and OutPut name the caller's caller; methods with a context print it whatever the level.)", "quantifier": "any settings made before, any place, any chain of callers, any text, any time", "why_tests_cant": "quantifies over all settings, call stacks and entry points; tests look at a few records", "anchors": ["zlog/logger_core.go:ZinxLoggerCore.OutPut", "zlog/logger_core.go:ZinxLoggerCore.Infof", "zlog/stdzlog.go:init", "zlog/stdzlog.go:Infof", "zlog/default.go:zinxDefaultLog.InfoF", "zlog/default.go:SetLogger"]}
{"id": "C90", "title": "JSON of the sharded map", "statement": "Unmarshalling a document into a map sets the entries the document names and leaves all others; a document that is no JSON object is reported and changes nothing. What a map marshals to, read into a new map, gives the same entries, up to what JSON makes of the values. (Refuted for a ShardLockMaps that was declared and not made: any document with an entry panics.)", "quantifier": "any history of calls, any hash of either map, any document, any JSON codec that reads back what it writes", "why_tests_cant": "arbitrary histories, keys, hashes and documents", "anchors": ["zutils/shard_lock_map.go:ShardLockMaps.MarshalJSON", "zutils/shard_lock_map.go:ShardLockMaps.UnmarshalJSON"]}
{"id": "C91", "title": "Websocket requests", "statement": "A websocket request becomes a connection only if the check set with SetWebsocketAuth lets it in (when one is set), and the connection carries what the check put into that request's context, never another's. Each request is answered exactly once: 101 with the first subprotocol the client offered if and only if a connection is made, and otherwise an error status, also when the server is full.", "quantifier": "all requests, any number handled at once, all interleavings, all checks, changed at any time", "why_tests_cant": "requests are handled at the same time and share the server's upgrader", "anchors": ["znet/server.go:Server.ListenWebsocketConn", "znet/server.go:Server.SetWebsocketAuth", "znet/ws_connection.go:newWebsocketConn"]}
{"id": "C92", "title": "What a log hook is given", "statement": "The function set with SetLogHook is given exactly the bytes of each record, and the slice it is given keeps those bytes for as long as the function's owner holds it.", "quantifier": "all sequences of records of any length, any growth of the logger's buffer", "why_tests_cant": "whether a slice is overwritten depends on capacities and on what is logged later", "anchors": ["zlog/logger_core.go:ZinxLoggerCore.OutPut", "zlog/logger_core.go:ZinxLoggerCore.SetLogHook"]}
{"id": "C93", "title": "The configuration file", "statement": "When the program starts, and at every Reload, a field named in the configuration file (capital and small letters alike) has the value given last for it and every other field keeps its value, the built-in one at the start; a missing file changes nothing; a file that cannot be read, is no JSON object or has a value that does not fit its field stops the program. The logger then does what the configuration says.", "quantifier": "all files, all configurations and logger states in force before, any number of members in any order", "why_tests_cant": "tests run with one file and one fresh logger; unknown, repeated, null and ill-typed members in every order cannot be listed", "anchors": ["zconf/zconf.go:Config.Reload", "zconf/zconf.go:Config.InitLogConfig", "zconf/zconf.go:init"]}
{"id": "C94", "title": "A copied request is passive", "statement": "Whatever is called on a copied request runs no handler, comes back without a panic of its own, and leaves the original alone; nor does anything done to the original or to other requests change the copy.", "quantifier": "all requests in any phase, both router modes, all programs of calls on the copy, all histories of pooled and plain requests", "why_tests_cant": "tests call a few methods on one copy; which call leaves which counter in what state is a matter of every program of calls", "anchors": ["znet/request.go:Request.Copy", "znet/request.go:Request.RouterSlicesNext", "znet/request.go:Request.Call"]}
{"id": "C95", "title": "Connections that wait get accepted", "statement": "From any moment on, while connections wait, there is room under MaxConn, the process lives and (Tcp) the listener is open, the accept loop creates a connection within four of its own steps, whatever failed accepts, full periods, stops and other connections came before or go on beside it. The Tcp accept loop ends once its listener is closed and not before.", "quantifier": "all reachable states of a server, all interleavings of the accept loop with connections, Stop and ClearConn calls", "why_tests_cant": "schedules; the state the loop is left in by every earlier history of failures and full periods", "anchors": ["znet/server.go:Server.ListenTcpConn", "znet/server.go:Server.ListenKcpConn"]}
{"id": "C96", "title": "The robot client and the game server understand each other", "statement": "Every message the robot client sends reaches the game server's handlers whole and in order, however the network cuts the bytes, and the robot handles every message the server has sent it that has arrived whole, in order. After the messages a joining player is sent, the robot knows its player ID and its place and has started its action loop once; messages about other players change neither. Each step it takes stays on its rectangle, moves at most nine units per axis and, from where the server puts new players, leads to a place that has a grid.", "quantifier": "all messages that fit, all ways to cut the bytes, all histories of joins, moves and leaves before, all random choices of the robot", "why_tests_cant": "all cuts and prefixes of the stream, all histories of the world, all random choices", "anchors": ["zinx_app_demo/mmo_game/client_AI_robot.go:TcpClient.Pack", "zinx_app_demo/mmo_game/client_AI_robot.go:TcpClient.Start", "zinx_app_demo/mmo_game/client_AI_robot.go:TcpClient.DoMsg", "zinx_app_demo/mmo_game/client_AI_robot.go:TcpClient.AIRobotAction", "zinx_app_demo/mmo_game/server.go:main"]}
{"id": "C97", "title": "The recovery and timing handlers", "statement": "In a list of slice handlers that contains the recovery or timing handler anywhere, each handler begins at most once, in order, without a gap. Each panic is recorded exactly once, with the message's ID, by a recovery handler around it, or leaves the list; with the recovery handler first no panic leaves it, and a handler that panics keeps the handlers after it from running. The timing handler prints once each time it returns. The record names the function that panicked and its two callers, with file and line.", "quantifier": "all lists of handlers, all user code in them (Next, Abort, panics, keys), all messages, all call stacks", "why_tests_cant": "all lists and all programs as handlers; what runs after a recovered panic", "anchors": ["znet/defaultrouterfunc.go:RouterRecovery", "znet/defaultrouterfunc.go:RouterTime", "znet/defaultrouterfunc.go:getInfo", "znet/request.go:Request.RouterSlicesNext", "znet/server.go:NewDefaultRouterSlicesServer"]}
{"id": "C98", "title": "Several iterations of the sharded map at the same time", "statement": "Any number of goroutines may run Items, Keys, Count and IterCb (Range, Range2) on one map at the same time as others call Set, Remove and the other single-key calls. Each iteration that ends has reported every key as it was at one moment of its own call, and no key twice. If callbacks do not use the map, then from every situation all the iterations can end and every waiting call can be carried out.", "quantifier": "all reachable maps, all numbers and kinds of iterations, all callbacks, all calls of others and all interleavings", "why_tests_cant": "interleavings of any number of goroutines; a deadlock needs one particular order", "anchors": ["zutils/shard_lock_map.go:ShardLockMaps.Items", "zutils/shard_lock_map.go:ShardLockMaps.Keys", "zutils/shard_lock_map.go:ShardLockMaps.Count", "zutils/shard_lock_map.go:ShardLockMaps.IterCb", "zutils/shard_lock_map.go:ShardLockMaps.Range"]}
{"id": "C99", "title": "The back-off shared by all listeners", "statement": "The accept loops of all listeners and all websocket requests of a process share one back-off. However many of them fail at the same time, each sleeps at most one second, and after a success the next failure sleeps 5 ms; calls that do not overlap sleep what C40 says about the history of the whole process; no call waits for another.", "quantifier": "all numbers of goroutines, all histories of failures and successes, all interleavings of the reads and writes of the delay", "why_tests_cant": "interleavings inside the computation of the delay; unbounded histories", "anchors": ["znet/acceptdelay.go", "znet/server.go:ListenTcpConn", "znet/server.go:ListenWebsocketConn", "znet/server.go:ListenKcpConn"]}
{"id": "C100", "title": "Starting servers", "statement": "Several servers can be started in one process, in any order. If they use different addresses and websocket paths, each of them gets to listen where it is configured to, its websocket path is answered by its own handlers, and nothing one of them does ends the process. A stopped server can be started again. A server that cannot listen does not disturb the others.", "quantifier": "all numbers of servers, modes, ports, paths and orders in which the listening goroutines run", "why_tests_cant": "orders of goroutines and combinations of servers; the failure is a panic of the whole process", "anchors": ["znet/server.go:Server.Start", "znet/server.go:Server.ListenTcpConn", "znet/server.go:Server.ListenWebsocketConn", "znet/server.go:Server.ListenKcpConn", "znet/server.go:Server.Stop"]}
{"id": "C101", "title": "The heartbeat of a client that reconnects", "statement": "A client with a heartbeat can be restarted at any time, also from the stop hook of its connection. Each of its open connections is then watched by the heartbeat: one that is not alive is stopped, and one that has just been made is not stopped for lack of activity. Whatever the client's connections do, the heartbeat does not end the process.", "quantifier": "any number of restarts, all schedules of the dialling, starting, closing and heartbeat goroutines", "why_tests_cant": "schedules: the failures need a tick in a short window", "anchors": ["znet/client.go:Client.Restart", "znet/client.go:Client.StartHeartBeat", "znet/heartbeat.go:HeartbeatChecker.BindConn", "znet/heartbeat.go:HeartbeatChecker.check", "znet/heartbeat.go:HeartbeatChecker.Stop", "znet/connection.go:Connection.Start", "znet/connection.go:Connection.IsAlive"]}
{"id": "C102", "title": "Closing a connection that has a worker beyond the pool", "statement": "In DynamicBind mode, when a connection that was given a worker beyond the pool closes, the requests already queued for it are all handled, in the order in which they were read. Closing it loses no request that was read and never ends the process, however full its queue is.", "quantifier": "any number of such connections of any kind, any queue length, all schedules of readers, workers, Stop calls and closes", "why_tests_cant": "schedules: the failures need a close while a request is on its way into the queue", "anchors": ["znet/msghandler.go:useWorker", "znet/msghandler.go:freeWorker", "znet/msghandler.go:MsgHandle.StopOneWorker", "znet/msghandler.go:MsgHandle.SendMsgToTaskQueue", "znet/ws_connection.go:WsConnection.StartReader", "znet/ws_connection.go:WsConnection.Start"]}
{"id": "C103", "title": "The HTLV example server answers its devices", "statement": "The example server for HTLV+CRC devices answers every well-formed device frame of the functions 10, 13, 14, 15 and 16 (hexadecimal), in order, with one well-formed HTLV+CRC frame that has head code A1, the same function code and the device code, card number or body of the request; the device can read the answers with the same decoder, however the network cuts up either direction.", "quantifier": "any number of frames, all bodies and header bytes, all chunkings of both directions", "why_tests_cant": "unbounded input space; the failures show only for the bytes that follow", "anchors": ["examples/zinx_decoder/bili/main.go:main", "examples/zinx_decoder/bili/router/bili0x10router.go:pack10", "examples/zinx_decoder/bili/router/bili0x13router.go:pack13", "examples/zinx_decoder/bili/router/bili0x14router.go:pack14", "examples/zinx_decoder/bili/router/bili0x15router.go:pack15", "examples/zinx_decoder/bili/router/bili0x16router.go:pack16", "zdecoder/htlvcrcdecoder.go:HtlvCrcDecoder.Intercept"]}
{"id": "C104", "title": "Adding routes while the server runs", "statement": "Routes and common handlers may be added from any goroutine, also while messages are being handled: every call takes effect as if it happened at once, a second registration of an ID is refused with a panic, a message that comes after the registration of its ID returned finds the handlers registered for that ID, with the common handlers added before it in front, and the process goes on.", "quantifier": "any number of goroutines adding routes and of messages, all schedules", "why_tests_cant": "schedules: the failures need a lookup or a second call inside another call", "anchors": ["znet/msghandler.go:MsgHandle.AddRouter", "znet/msghandler.go:MsgHandle.AddRouterSlices", "znet/msghandler.go:MsgHandle.doMsgHandler", "znet/router.go:RouterSlices.AddHandler", "znet/router.go:RouterSlices.Use", "znet/router.go:RouterSlices.GetHandlers"]}
{"id": "C105", "title": "Changing the settings of a running server", "statement": "A connection keeps for its whole life the hooks, packer, frame decoder and name its server had when it was accepted, and the heartbeat the server had when the connection was started; what is set on the server later changes only later connections. Routes hold for all connections at once. A heartbeat asked for later replaces the earlier one for the connections started after it.", "quantifier": "all histories of setting calls, accepted, started and closed connections and messages, unbounded", "why_tests_cant": "every interleaving of settings with connections counts; a test tries a few", "anchors": ["znet/connection.go:newServerConn", "znet/ws_connection.go:newWebsocketConn", "znet/kcp_connection.go:newKcpServerConn", "znet/server.go:Server.StartConn", "znet/server.go:Server.SetOnConnStart", "znet/server.go:Server.SetOnConnStop", "znet/server.go:Server.SetPacket", "znet/server.go:Server.SetDecoder", "znet/server.go:Server.StartHeartBeatWithOption", "znet/heartbeat.go:HeartbeatChecker.Clone"]}
{"id": "C106", "title": "Interrupting a serving program", "statement": "Serve returns when the program gets SIGINT or SIGTERM, every Serve of several servers, and for no other reason. By the time the program has ended that way its connections have been closed and their stop hooks called. A program that goes on after Serve can be interrupted again.", "quantifier": "all histories of any number of servers, connections and signals, in any order, unbounded", "why_tests_cant": "a signal can arrive at any point, before Serve has asked for it, while another server still starts, or after it returned; a test sends one", "anchors": ["znet/server.go:Server.Serve", "znet/server.go:Server.Stop", "znet/server.go:Server.Start"]}
{"id": "C107", "title": "Starting a server again", "statement": "A server can be stopped and started again: every request read before or after is handled exactly once, a connection's requests are handled one at a time in the order they were read, and never more than WorkerPoolSize handlers run at the same time.", "quantifier": "all pool sizes, queue lengths, numbers of starts, connections and requests, all interleavings of readers, workers and Start", "why_tests_cant": "what breaks needs a request that waits in one pool while its connection reads on into the next; a test would have to hit that interleaving", "anchors": ["znet/server.go:Server.Start", "znet/server.go:Server.Stop", "znet/msghandler.go:MsgHandle.StartWorkerPool", "znet/msghandler.go:MsgHandle.StartOneWorker", "znet/msghandler.go:MsgHandle.SendMsgToTaskQueue"]}
{"id": "C108", "title": "Choosing a packet format", "statement": "A packet format given to a server or client (WithPacket, WithPacketClient, SetPacket) is the format its messages are sent in, the last one given if there are several, and the format messages are read in: two sides that were given the same format understand each other.", "quantifier": "all packers, all sequences of options and setting calls, all messages and all ways of cutting the stream", "why_tests_cant": "needs every format against every order of options and calls, and all messages", "anchors": ["znet/options.go:WithPacket", "znet/options.go:WithPacketClient", "znet/server.go:Server.SetPacket", "znet/client.go:Client.SetPacket", "znet/server.go:Server.SetDecoder", "znet/client.go:NewClient", "znet/client.go:NewWsClient"]}
{"id": "C109", "title": "Client messages in every worker mode", "statement": "Whatever the worker mode, a client handles every message it receives exactly once and in the order received, and its connections can be closed and opened again any number of times without a panic.", "quantifier": "all worker modes, pool sizes and connection limits, all numbers of connections of either kind, all messages and all schedules of openings, closings, receptions and handlers", "why_tests_cant": "handlers run in goroutines of their own and worker IDs come from map iteration, so a test sees one of arbitrarily many schedules", "anchors": ["znet/msghandler.go:newCliMsgHandle", "znet/msghandler.go:useWorker", "znet/msghandler.go:freeWorker", "znet/msghandler.go:MsgHandle.StopOneWorker", "znet/msghandler.go:MsgHandle.Intercept", "znet/ws_connection.go:WsConnection.Start", "znet/connection.go:Connection.Start"]}
{"id": "C110", "title": "Adding interceptors while messages are processed", "statement": "An interceptor may be added at any time, by any goroutine: every message whose processing starts after AddInterceptor has returned goes through it, after the interceptors added before it and before those added later, and messages being processed meanwhile go through a proper chain without it or with it; neither adding nor processing waits for the other.", "quantifier": "all numbers of goroutines adding interceptors and processing messages, all schedules down to single loads and stores of the slice, all growth policies of append", "why_tests_cant": "depends on the order of single loads and stores in several goroutines, and on how append grows", "anchors": ["znet/chainbuilder.go:chainBuilder.AddInterceptor", "znet/chainbuilder.go:chainBuilder.Execute", "znet/msghandler.go:MsgHandle.AddInterceptor", "znet/msghandler.go:MsgHandle.Execute"]}
{"id": "C111", "title": "Where the configuration is read from", "statement": "At the start and at every Reload the configuration is read from the file that ZINX_CONFIG_FILE_PATH named when the program started, relative names being taken from the working directory of that moment, and from conf/zinx.json in that directory if the variable was empty or not set; later changes of the variable or of the working directory make no difference. GetConfigFilePath gives an absolute path without empty elements, '.' and '..'.", "quantifier": "all values of the variable, all working directories, all file systems, all histories of Reload calls and changes of variable and directory", "why_tests_cant": "a test has one variable value, one working directory and one file system; the path is fixed before tests run", "anchors": ["zconf/env.go:init", "zconf/env.go:GetConfigFilePath", "zconf/zconf.go:Config.Reload"]}
{"id": "C112", "title": "Where a client connects to", "statement": "A client made for a host and a port connects to that port of that host, whether the host is given as an IP address of either version or by name, encrypted if it was made by NewTLSClient; a websocket client with a URL connects to the URL given last. If the host cannot be found the error is reported.", "quantifier": "all hosts, ports, kinds of clients, lists of options and networks (what texts are IPs, what names stand for)", "why_tests_cant": "tests connect to 127.0.0.1 only, which is also where a wrong address leads", "anchors": ["znet/client.go:NewClient", "znet/client.go:NewWsClient", "znet/client.go:NewTLSClient", "znet/client.go:Client.Restart", "znet/options.go:WithUrl"]}
{"id": "C113", "title": "Log calls end, whatever the hook does", "statement": "The function given to SetLogHook may do anything, also panic or use the logger: every log call and every setter of the logger ends, the records are written and given to the hook one at a time, and calls below the level return at once.", "quantifier": "all hooks, all numbers of goroutines, calls and interleavings, with and without file names in the header", "why_tests_cant": "a deadlock needs a particular hook; interleavings of any number of goroutines at a lock that is given up in between", "anchors": ["zlog/logger_core.go:ZinxLoggerCore.OutPut", "zlog/logger_core.go:ZinxLoggerCore.SetLogHook", "zlog/logger_core.go:ZinxLoggerCore.Flags"]}

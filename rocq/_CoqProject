-Q theories Verif
theories/Bytes.v
theories/Pack.v
theories/FrameDecoder.v
theories/Chain.v
theories/Crc.v
theories/Decoders.v
theories/Reader.v
theories/Spec_Framing.v
theories/Spec_Codec.v
theories/Spec_Crc.v
theories/Crc_proofs.v
theories/FrameDecoder_proofs.v
theories/Codec_proofs.v
theories/Spec_Htlv.v
theories/Codec2_proofs.v
theories/Codec3_proofs.v
theories/CodecAny_proofs.v
theories/Spec_Chain.v
theories/Chain_proofs.v
theories/Witness_Codec.v
theories/Props_Codec.v
theories/Request.v
theories/Spec_Request.v
theories/Request_proofs.v
theories/GoSlice.v
theories/Router.v
theories/Spec_Router.v
theories/Router_proofs.v
theories/RequestHeap.v
theories/Spec_RequestHeap.v
theories/RequestHeap_proofs.v
theories/Props_Request.v
theories/Dispatch.v
theories/Workers.v
theories/Spec_Workers.v
theories/Workers_proofs.v
theories/Workers2_proofs.v
theories/Workers3_proofs.v
theories/Dispatch_proofs.v
theories/Props_Workers.v
theories/ShardMap.v
theories/Spec_Map.v
theories/ShardMap_proofs.v
theories/ShardConc.v
theories/Spec_Lin.v
theories/ShardConc_proofs.v
theories/Callbacks.v
theories/Spec_Callbacks.v
theories/Callbacks_proofs.v
theories/Decimal.v
theories/ConnManager.v
theories/Spec_ConnManager.v
theories/ConnManager_proofs.v
theories/AcceptDelay.v
theories/AcceptDelay_proofs.v
theories/Props_Containers.v
theories/ConnLife.v
theories/Spec_ConnLife.v
theories/ConnLife_proofs.v
theories/ConnServer.v
theories/Spec_ConnServer.v
theories/ConnServer_proofs.v
theories/ConnServer2_proofs.v
theories/Props_Conn.v
theories/SendQueue.v
theories/Spec_Send.v
theories/SendQueue_proofs.v
theories/SendQueue2_proofs.v
theories/SendQueue3_proofs.v
theories/SendQueue4_proofs.v
theories/Witness_Send.v
theories/SendLocked.v
theories/Spec_SendLocked.v
theories/SendLocked_proofs.v
theories/SendLocked2_proofs.v
theories/SendLocked3_proofs.v
theories/SendLocked4_proofs.v
theories/Props_Send.v
theories/Heartbeat.v
theories/Spec_Heartbeat.v
theories/Heartbeat_proofs.v
theories/Props_Heartbeat.v
theories/Snowflake.v
theories/Spec_Snowflake.v
theories/Snowflake_proofs.v
theories/Props_Snowflake.v
theories/LogWriter.v
theories/Spec_LogWriter.v
theories/LogWriter_proofs.v
theories/LogWriter2_proofs.v
theories/LogWriter3_proofs.v
theories/Props_LogWriter.v
theories/LogDaily_proofs.v
theories/Props_LogDaily.v
theories/TimeWheel.v
theories/Spec_TimeWheel.v
theories/TimeWheel_proofs.v
theories/TimeWheel2_proofs.v
theories/TimedWheel.v
theories/Spec_TimedWheel.v
theories/TimedWheel_proofs.v
theories/TimeWheel3_proofs.v
theories/Props_TimeWheel.v
theories/AsyncResult.v
theories/Spec_Async.v
theories/Async_proofs.v
theories/AsyncWorker.v
theories/Spec_AsyncWorker.v
theories/AsyncWorker_proofs.v
theories/AsyncWorker2_proofs.v
theories/Props_Async.v
theories/Notify.v
theories/Spec_Notify.v
theories/Notify_proofs.v
theories/Props_Notify.v
theories/Aoi.v
theories/Spec_Aoi.v
theories/Aoi_proofs.v
theories/World.v
theories/Spec_World.v
theories/World_proofs.v
theories/WorldConc.v
theories/Spec_WorldConc.v
theories/WorldConc_proofs.v
theories/Props_Aoi.v
theories/LogCore.v
theories/Spec_LogCore.v
theories/LogCore_proofs.v
theories/Props_LogCore.v
theories/Conf.v
theories/Spec_Conf.v
theories/Conf_proofs.v
theories/Props_Conf.v
theories/SendErr_proofs.v
theories/SendErr2_proofs.v
theories/Props_SendErr.v
theories/ConnStop_proofs.v
theories/Props_ConnStop.v
theories/Client.v
theories/Spec_Client.v
theories/Client_proofs.v
theories/Client2_proofs.v
theories/Props_Client.v
theories/WorldMsg.v
theories/Spec_WorldMsg.v
theories/WorldMsg_proofs.v
theories/Props_WorldMsg.v
theories/Spec_EndToEnd.v
theories/EndToEnd_proofs.v
theories/EndToEnd2_proofs.v
theories/Props_EndToEnd.v
theories/ShardIter.v
theories/Spec_ShardIter.v
theories/ShardIter_proofs.v
theories/ShardIter2_proofs.v
theories/ShardIter3_proofs.v
theories/Props_ShardIter.v
theories/ShardIter4_proofs.v
theories/Props_ShardIter2.v
theories/ShardClear.v
theories/Spec_ShardClear.v
theories/ShardClear_proofs.v
theories/Props_ShardClear.v
theories/PropMap.v
theories/Spec_PropMap.v
theories/PropMap_proofs.v
theories/Props_PropMap.v
theories/ConnMsg.v
theories/Spec_ConnMsg.v
theories/ConnMsg_proofs.v
theories/Props_ConnMsg.v
theories/Servers.v
theories/Spec_Servers.v
theories/Servers_proofs.v
theories/Props_Servers.v
theories/LogFile.v
theories/Spec_LogFile.v
theories/LogFile_proofs.v
theories/Props_LogFile.v
theories/AutoExec.v
theories/Spec_AutoExec.v
theories/AutoExec_proofs.v
theories/AutoExec2_proofs.v
theories/Props_AutoExec.v
theories/Backlog.v
theories/Spec_Backlog.v
theories/Backlog_proofs.v
theories/Props_Backlog.v
theories/Payload.v
theories/Spec_Payload.v
theories/Payload_proofs.v
theories/Props_Payload.v
theories/ReqShare.v
theories/Spec_ReqShare.v
theories/ReqShare_proofs.v
theories/Props_ReqShare.v
theories/Spec_Fair.v
theories/WorkersFair_proofs.v
theories/SendFair_proofs.v
theories/Fair_proofs.v
theories/Props_Fair.v
theories/Spec_FairWs.v
theories/WsFair_proofs.v
theories/WsFair2_proofs.v
theories/Props_FairWs.v
theories/Spec_Kept.v
theories/Kept_proofs.v
theories/Props_Kept.v
theories/Spec_Ends.v
theories/EndsTcp_proofs.v
theories/EndsWs_proofs.v
theories/Props_Ends.v
theories/Hub.v
theories/Spec_Hub.v
theories/Hub_proofs.v
theories/Hub2_proofs.v
theories/Props_Hub.v
theories/LogArch_proofs.v
theories/Props_LogArch.v
theories/Props_LogFatal.v
theories/Bind_servers_proofs.v
theories/Props_Servers2.v
theories/Spec_ShardLive.v
theories/ShardLive_proofs.v
theories/Props_ShardLive.v
theories/Endpoint.v
theories/Spec_Endpoint.v
theories/Endpoint_proofs.v
theories/Props_Endpoint.v
theories/Props_Workers2.v
theories/LogCall.v
theories/Spec_LogCall.v
theories/LogCall_proofs.v
theories/Props_LogCall.v
theories/ShardJson.v
theories/Spec_ShardJson.v
theories/Props_ShardJson.v
theories/Props_LogFile2.v
theories/WsAdmit.v
theories/Spec_WsAdmit.v
theories/WsAdmit_proofs.v
theories/Props_WsAdmit.v
theories/LogBuf.v
theories/LogBuf_proofs.v
theories/Props_LogBuf.v
theories/ConfFile.v
theories/Spec_ConfFile.v
theories/ConfFile_proofs.v
theories/Props_ConfFile.v
theories/ReqCopy.v
theories/Spec_ReqCopy.v
theories/ReqCopy_proofs.v
theories/Props_ReqCopy.v
theories/Spec_Accept.v
theories/Accept_proofs.v
theories/Props_Accept.v
theories/Robot.v
theories/Spec_Robot.v
theories/Robot_proofs.v
theories/Props_Robot.v
theories/Recover.v
theories/Spec_Recover.v
theories/Recover_proofs.v
theories/Props_Recover.v
theories/ShardMany.v
theories/Spec_ShardMany.v
theories/ShardMany_proofs.v
theories/ShardMany2_proofs.v
theories/ShardMany3_proofs.v
theories/Props_ShardMany.v
theories/Props_ConnLife.v
theories/Dynamic_servers_proofs.v
theories/Props_Small.v
theories/GenFair_proofs.v
theories/Spec_Fair2.v
theories/FairAsync_proofs.v
theories/FairTimer_proofs.v
theories/Props_Fair2.v
theories/Props_Small2.v
theories/Props_ConnLife2.v
theories/DelayConc.v
theories/Spec_DelayConc.v
theories/Props_DelayConc.v
theories/Props_Fair3.v
theories/StartServers.v
theories/Spec_StartServers.v
theories/StartServers_proofs.v
theories/Props_StartServers.v
theories/Props_LogFail.v
theories/Props_ConnLife3.v
theories/ClientHb.v
theories/Spec_ClientHb.v
theories/ClientHb_proofs.v
theories/Props_ClientHb.v
theories/Props_HbSet.v
theories/DynStop.v
theories/Spec_DynStop.v
theories/DynStop_proofs.v
theories/Props_DynStop.v
theories/Props_DynStopFair.v
theories/Bili.v
theories/Spec_Bili.v
theories/Bili_proofs.v
theories/Props_Bili.v
theories/Props_PackKind.v
theories/Props_ReadEnd.v
theories/RouteConc.v
theories/Spec_RouteConc.v
theories/RouteConc_proofs.v
theories/Props_RouteConc.v
theories/Settings.v
theories/Spec_Settings.v
theories/Settings_proofs.v
theories/Props_Settings.v
theories/Spec_MuxPath.v
theories/Props_MuxPath.v
theories/Props_EndsHb.v
theories/Serve.v
theories/Spec_Serve.v
theories/Props_Serve.v
theories/Again.v
theories/Spec_Again.v
theories/Again_proofs.v
theories/Props_Again.v
theories/Format.v
theories/Spec_Format.v
theories/Props_Format.v
theories/CliWork.v
theories/Spec_CliWork.v
theories/Props_CliWork.v
theories/ChainConc.v
theories/Spec_ChainConc.v
theories/Props_ChainConc.v
theories/ConfPath.v
theories/Spec_ConfPath.v
theories/Props_ConfPath.v
theories/Dial.v
theories/Spec_Dial.v
theories/Props_Dial.v
theories/LogHook.v
theories/Spec_LogHook.v
theories/Props_LogHook.v

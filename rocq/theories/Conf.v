(* Model of zconf: the configuration, UserConfToGlobal and what they do to the logger.
   The struct (zconf.go 44-120) is a value per field, one sort of field for each Go type;
   int, uint32 and int64 are Z.  Reading the file is in ConfFile.v.  Not modelled: Show. *)
From Coq Require Import ZArith List Bool.
From Verif Require Import Bytes.
Import ListNotations.
Local Open Scope Z_scope.

(* zconf.go 44-120 *)
Inductive sfield := Host | WsPath | Name | Version | WorkerMode | Mode | LogDir | LogFile | CertFile | PrivateKeyFile.
Inductive ifield :=
| TCPPort | WsPort | KcpPort | KcpNoDelay | KcpInterval | KcpResend | KcpNc | KcpSendWindow | KcpRecvWindow
| KcpFecDataShards | KcpFecParityShards | MaxPacketSize | MaxConn | WorkerPoolSize | MaxWorkerTaskLen | MaxMsgChanLen
| IOReadBuffSize | LogSaveDays | LogFileSize | LogIsolationLevel | HeartbeatMax.
Inductive bfield := KcpACKNoDelay | KcpStreamMode | RouterSlicesMode | RequestPoolMode | LogCons.
Scheme Equality for sfield.
Scheme Equality for ifield.
Scheme Equality for bfield.
Record config := Config { strs : sfield -> list byte; ints : ifield -> Z; bools : bfield -> bool }.

Definition put_s (c : config) (f : sfield) (v : list byte) := Config (fun g => if sfield_beq g f then v else strs c g) (ints c) (bools c).
Definition put_i (c : config) (f : ifield) (v : Z) := Config (strs c) (fun g => if ifield_beq g f then v else ints c g) (bools c).
Definition put_b (c : config) (f : bfield) (v : bool) := Config (strs c) (ints c) (fun g => if bfield_beq g f then v else bools c g).

(* The standard logger as far as configuration reaches: its isolation level and its file
   writer (zutils/witer.go 42-61: a new writer has the default size, age and no console). *)
Record writer := Writer { w_dir : list byte; w_file : list byte; w_age : Z; w_size : Z; w_cons : bool }.
Record logger := Logger { o_level : Z; o_file : option writer }.
Definition defMaxAge := 31.
Definition defMaxSize := 64 * 1024 * 1024.
(* zlog/logger_core.go 380-385, 388-395, 398-405, 408-415, 425-427 *)
Definition set_log_file (l : logger) (dir file : list byte) := Logger (o_level l) (Some (Writer dir file defMaxAge defMaxSize false)).
Definition on_writer (l : logger) (g : writer -> writer) := Logger (o_level l) (match o_file l with Some w => Some (g w) | None => None end).
Definition set_age (l : logger) (a : Z) := on_writer l (fun w => Writer (w_dir w) (w_file w) a (w_size w) (w_cons w)).
Definition set_size (l : logger) (a : Z) := on_writer l (fun w => if a <? 1 then w else Writer (w_dir w) (w_file w) (w_age w) a (w_cons w)).
Definition set_cons (l : logger) (b : bool) := on_writer l (fun w => Writer (w_dir w) (w_file w) (w_age w) (w_size w) b).
Definition set_level (l : logger) (v : Z) := Logger v (o_file l).

(* The statements UserConfToGlobal is made of. *)
Inductive stmt :=
| S (f : sfield)       (* if config.f != "" { GlobalObject.f = config.f } *)
| I (f : ifield)       (* if config.f != 0  { GlobalObject.f = config.f } *)
| B (f : bfield)       (* if config.f       { GlobalObject.f = config.f } *)
| Stream               (* if !config.KcpStreamMode { GlobalObject.KcpStreamMode = config.KcpStreamMode } *)
| Level                (* GlobalObject.LogIsolationLevel = config.LogIsolationLevel; the logger if > LogDebug *)
| File.                (* LogFile, and the logger *)
Definition is_empty (l : list byte) : bool := match l with [] => true | _ => false end.
Definition exec (u : config) (st : config * logger) (s : stmt) : config * logger :=
  let (g, l) := st in
  match s with
  | S f => (if is_empty (strs u f) then g else put_s g f (strs u f), l)
  | I f => (if ints u f =? 0 then g else put_i g f (ints u f), l)
  | B f => (if bools u f then put_b g f (bools u f) else g, l)
  | Stream => (if negb (bools u KcpStreamMode) then put_b g KcpStreamMode (bools u KcpStreamMode) else g, l)
  | Level => let g' := put_i g LogIsolationLevel (ints u LogIsolationLevel) in
             (g', if ints g' LogIsolationLevel >? 0 then set_level l (ints g' LogIsolationLevel) else l)
  | File => if is_empty (strs u LogFile) then (g, l)
            else let g' := put_s g LogFile (strs u LogFile) in (g', set_log_file l (strs g' LogDir) (strs g' LogFile))
  end.

(* userconf.go 9-143, in order *)
Definition overlay_code : list stmt :=
  [S Name; S Host; I TCPPort; S Version; I MaxPacketSize; I MaxConn; I WorkerPoolSize; I MaxWorkerTaskLen; S WorkerMode;
   I MaxMsgChanLen; I IOReadBuffSize; Level; S LogDir; File; I HeartbeatMax; S CertFile; S PrivateKeyFile; S Mode;
   I WsPort; S WsPath; B RouterSlicesMode; B RequestPoolMode; I KcpPort; B KcpACKNoDelay; Stream; I KcpNoDelay;
   I KcpInterval; I KcpResend; I KcpNc; I KcpSendWindow; I KcpRecvWindow; I KcpFecDataShards; I KcpFecParityShards].
Definition user_conf_to_global (u : config) (st : config * logger) : config * logger := fold_left (exec u) overlay_code st.

(* zconf.go 187-201: InitLogConfig *)
Definition init_log_config (g : config) (l : logger) : logger :=
  let l := if is_empty (strs g LogFile) then l else set_cons (set_log_file l (strs g LogDir) (strs g LogFile)) (bools g LogCons) in
  let l := if 0 <? ints g LogSaveDays then set_age l (ints g LogSaveDays) else l in
  let l := if 0 <? ints g LogFileSize then set_size l (ints g LogFileSize) else l in
  if ints g LogIsolationLevel >? 0 then set_level l (ints g LogIsolationLevel) else l.

(* Model of zconf reading its file: Reload (zconf.go 142-170) and the package's init
   (zconf.go 205-259).  os.Stat, os.ReadFile and the JSON grammar are given; what
   json.Unmarshal does with an object and a *Config (encoding/json decode.go: object,
   literalStore) is modelled: members in order, names compared without regard to the case of
   ASCII letters (Go also folds U+017F and U+212A; not modelled), unknown names skipped, null
   leaves a field as it is, a value of another type or out of range is an error but the rest
   is still read. *)
From Coq Require Import String ZArith List Bool.
From Verif Require Import Bytes Conf.
Import ListNotations.
Local Open Scope list_scope.
Local Open Scope Z_scope.

(* A JSON value, as far as a field can take one.  [JOther]: arrays, objects and numbers with a
   fraction or an exponent. *)
Inductive jval := JStr (s : list byte) | JInt (n : Z) | JBool (b : bool) | JNull | JOther.
Definition members := list (list byte * jval).

(* What is at the path of the configuration file. *)
Inductive file :=
| Missing                      (* os.Stat: does not exist *)
| NoStat                       (* os.Stat fails otherwise; PathExists gives (false, err) *)
| NoRead                       (* os.ReadFile fails *)
| NotJson                      (* no valid JSON *)
| NotObject                    (* valid JSON, but an array, a string, a number or a switch *)
| NullDoc                      (* the JSON null *)
| Object (ms : members).

(* zconf.go 44-120: a field of Config *)
Inductive field := FS (f : sfield) | FI (f : ifield) | FB (f : bfield).

(* zconf.go 44-120: the names of the fields; there are no JSON tags *)
Definition sname (f : sfield) : string :=
  match f with Host => "Host" | WsPath => "WsPath" | Name => "Name" | Version => "Version" | WorkerMode => "WorkerMode" | Mode => "Mode"
  | LogDir => "LogDir" | LogFile => "LogFile" | CertFile => "CertFile" | PrivateKeyFile => "PrivateKeyFile" end.
Definition iname (f : ifield) : string :=
  match f with TCPPort => "TCPPort" | WsPort => "WsPort" | KcpPort => "KcpPort" | KcpNoDelay => "KcpNoDelay" | KcpInterval => "KcpInterval"
  | KcpResend => "KcpResend" | KcpNc => "KcpNc" | KcpSendWindow => "KcpSendWindow" | KcpRecvWindow => "KcpRecvWindow"
  | KcpFecDataShards => "KcpFecDataShards" | KcpFecParityShards => "KcpFecParityShards" | MaxPacketSize => "MaxPacketSize" | MaxConn => "MaxConn"
  | WorkerPoolSize => "WorkerPoolSize" | MaxWorkerTaskLen => "MaxWorkerTaskLen" | MaxMsgChanLen => "MaxMsgChanLen" | IOReadBuffSize => "IOReadBuffSize"
  | LogSaveDays => "LogSaveDays" | LogFileSize => "LogFileSize" | LogIsolationLevel => "LogIsolationLevel" | HeartbeatMax => "HeartbeatMax" end.
Definition bname (f : bfield) : string :=
  match f with KcpACKNoDelay => "KcpACKNoDelay" | KcpStreamMode => "KcpStreamMode" | RouterSlicesMode => "RouterSlicesMode"
  | RequestPoolMode => "RequestPoolMode" | LogCons => "LogCons" end.
Definition fname (f : field) : list byte :=
  list_byte_of_string match f with FS f => sname f | FI f => iname f | FB f => bname f end.

(* encoding/json: names without regard to case (the Kelvin sign and the long s, which it also
   takes for k and s, are not modelled) *)
Definition lower (b : byte) : Z := let z := b2z b in if (65 <=? z) && (z <=? 90) then z + 32 else z.
Fixpoint same_name (a b : list byte) : bool :=
  match a, b with [], [] => true | x :: a', y :: b' => (lower x =? lower y) && same_name a' b' | _, _ => false end.
Definition fields : list field :=
  map FS [Host; WsPath; Name; Version; WorkerMode; Mode; LogDir; LogFile; CertFile; PrivateKeyFile] ++
  map FI [TCPPort; WsPort; KcpPort; KcpNoDelay; KcpInterval; KcpResend; KcpNc; KcpSendWindow; KcpRecvWindow; KcpFecDataShards; KcpFecParityShards;
          MaxPacketSize; MaxConn; WorkerPoolSize; MaxWorkerTaskLen; MaxMsgChanLen; IOReadBuffSize; LogSaveDays; LogFileSize; LogIsolationLevel; HeartbeatMax] ++
  map FB [KcpACKNoDelay; KcpStreamMode; RouterSlicesMode; RequestPoolMode; LogCons].
Definition field_of (k : list byte) : option field := find (fun f => same_name k (fname f)) fields.

(* zconf.go 71-76: these are uint32; all other numbers are int or int64, 64 bits *)
Definition unsigned (f : ifield) : bool :=
  match f with MaxPacketSize | WorkerPoolSize | MaxWorkerTaskLen | MaxMsgChanLen | IOReadBuffSize => true | _ => false end.
Definition in_range (f : ifield) (n : Z) : bool :=
  if unsigned f then (0 <=? n) && (n <? 2^32) else (- 2^63 <=? n) && (n <? 2^63).

(* encoding/json: one member; the switch says that an error was met *)
Definition store (st : config * bool) (m : list byte * jval) : config * bool :=
  let (g, bad) := st in
  match field_of (fst m), snd m with
  | None, _ => st
  | Some _, JNull => st
  | Some (FS f), JStr s => (put_s g f s, bad)
  | Some (FI f), JInt n => if in_range f n then (put_i g f n, bad) else (g, true)
  | Some (FB f), JBool b => (put_b g f b, bad)
  | _, _ => (g, true)
  end.
Definition unmarshal (ms : members) (g : config) : config * bool := fold_left store ms (g, false).

(* zconf.go 142-170: Reload; the switch says that it panicked *)
Definition reload (fl : file) (g : config) (l : logger) : (config * logger) * bool :=
  match fl with
  | Missing | NoStat => ((g, init_log_config g l), false)
  | NoRead | NotJson | NotObject => ((g, l), true)
  | NullDoc => ((g, init_log_config g l), false)
  | Object ms => let (g', bad) := unmarshal ms g in if bad then ((g', l), true) else ((g', init_log_config g' l), false)
  end.

(* zconf.go 205-258: init; [pwd] is the working directory *)
Definition defaults (pwd : list byte) : config :=
  let s := list_byte_of_string in
  Config
    (fun f => match f with Name => s "ZinxServerApp"%string | Version => s "V1.0"%string | WsPath => s "/"%string | Host => s "0.0.0.0"%string
                         | WorkerMode => [] | LogDir => pwd ++ s "/log"%string | LogFile => [] | CertFile => [] | PrivateKeyFile => [] | Mode => s "tcp"%string end)
    (fun f => match f with TCPPort => 8999 | WsPort => 9000 | KcpPort => 9001 | MaxConn => 12000 | MaxPacketSize => 4096 | WorkerPoolSize => 10
                         | MaxWorkerTaskLen => 1024 | MaxMsgChanLen => 1024 | LogIsolationLevel => 0 | HeartbeatMax => 10 | IOReadBuffSize => 1024
                         | KcpNoDelay => 1 | KcpInterval => 10 | KcpResend => 2 | KcpNc => 1 | KcpRecvWindow => 32 | KcpSendWindow => 32
                         | KcpFecDataShards => 0 | KcpFecParityShards => 0 | LogSaveDays => 0 | LogFileSize => 0 end)
    (fun f => match f with KcpStreamMode => true | _ => false end).
Definition start (pwd : list byte) (fl : file) : (config * logger) * bool := reload fl (defaults pwd) (Logger 0 None).

(* What C93 says. *)
From Coq Require Import String ZArith List Bool.
From Verif Require Import Bytes Conf ConfFile.
Import ListNotations.
Local Open Scope Z_scope.

(* The same letter, capital or small (A is 65, a is 97), or the same byte. *)
Definition same_letter (a b : byte) : Prop :=
  a = b \/ exists i, 0 <= i < 26 /\ ((b2z a = 65 + i /\ b2z b = 97 + i) \/ (b2z a = 97 + i /\ b2z b = 65 + i)).
(* The name of each field in the file: its name in the Go structure. *)
Definition known_as (f : field) : list byte :=
  list_byte_of_string match f with
  | FS Host => "Host" | FS WsPath => "WsPath" | FS Name => "Name" | FS Version => "Version"
  | FS WorkerMode => "WorkerMode" | FS Mode => "Mode" | FS LogDir => "LogDir" | FS LogFile => "LogFile"
  | FS CertFile => "CertFile" | FS PrivateKeyFile => "PrivateKeyFile" | FI TCPPort => "TCPPort" | FI WsPort => "WsPort"
  | FI KcpPort => "KcpPort" | FI KcpNoDelay => "KcpNoDelay" | FI KcpInterval => "KcpInterval" | FI KcpResend => "KcpResend"
  | FI KcpNc => "KcpNc" | FI KcpSendWindow => "KcpSendWindow" | FI KcpRecvWindow => "KcpRecvWindow" | FI KcpFecDataShards => "KcpFecDataShards"
  | FI KcpFecParityShards => "KcpFecParityShards" | FI MaxPacketSize => "MaxPacketSize" | FI MaxConn => "MaxConn" | FI WorkerPoolSize => "WorkerPoolSize"
  | FI MaxWorkerTaskLen => "MaxWorkerTaskLen" | FI MaxMsgChanLen => "MaxMsgChanLen" | FI IOReadBuffSize => "IOReadBuffSize" | FI LogSaveDays => "LogSaveDays"
  | FI LogFileSize => "LogFileSize" | FI LogIsolationLevel => "LogIsolationLevel" | FI HeartbeatMax => "HeartbeatMax" | FB KcpACKNoDelay => "KcpACKNoDelay"
  | FB KcpStreamMode => "KcpStreamMode" | FB RouterSlicesMode => "RouterSlicesMode" | FB RequestPoolMode => "RequestPoolMode" | FB LogCons => "LogCons"
  end%string.
(* The name [k] means the field [f]: the letters of its Go name, capital or small. *)
Definition means (k : list byte) (f : field) : Prop := Forall2 same_letter k (known_as f).

(* A member that gives the field [f] a value: any value but null. *)
Definition gives (m : list byte * jval) (f : field) : Prop := means (fst m) f /\ snd m <> JNull.

(* The value the file gives a field is that of the last member that gives it one. *)
Definition given (ms : members) (f : field) (v : jval) : Prop :=
  exists ms1 k ms2, ms = ms1 ++ (k, v) :: ms2 /\ gives (k, v) f /\ forall m, In m ms2 -> ~ gives m f.
Definition silent (ms : members) (f : field) : Prop := forall m, In m ms -> ~ gives m f.

(* The value fits the field: a text, a number its Go type can hold, or a switch. *)
Definition holds (f : field) (v : jval) : Prop :=
  match f, v with
  | FS _, JStr _ => True
  | FI (MaxPacketSize | WorkerPoolSize | MaxWorkerTaskLen | MaxMsgChanLen | IOReadBuffSize), JInt n => 0 <= n < 2^32
  | FI _, JInt n => - 2^63 <= n < 2^63
  | FB _, JBool _ => True
  | _, _ => False
  end.
Definition fits (ms : members) : Prop := forall m f, In m ms -> gives m f -> holds f (snd m).

(* What a configuration has in a field, as a JSON value. *)
Definition has (g : config) (f : field) : jval :=
  match f with FS f => JStr (strs g f) | FI f => JInt (ints g f) | FB f => JBool (bools g f) end.

(* What every field is when neither file nor user says anything; the log directory is "log" in
   the working directory. *)
Definition built_in (pwd : list byte) (f : field) : jval :=
  let text s := JStr (list_byte_of_string s) in
  match f with
  | FS Name => text "ZinxServerApp"%string
  | FS Version => text "V1.0"%string
  | FS Host => text "0.0.0.0"%string
  | FS WsPath => text "/"%string
  | FS Mode => text "tcp"%string
  | FS LogDir => JStr (pwd ++ list_byte_of_string "/log"%string)%list
  | FS _ => JStr []
  | FI TCPPort => JInt 8999
  | FI WsPort => JInt 9000
  | FI KcpPort => JInt 9001
  | FI MaxConn => JInt 12000
  | FI MaxPacketSize => JInt 4096
  | FI (MaxWorkerTaskLen | MaxMsgChanLen | IOReadBuffSize) => JInt 1024
  | FI (WorkerPoolSize | HeartbeatMax | KcpInterval) => JInt 10
  | FI (KcpNoDelay | KcpNc) => JInt 1
  | FI KcpResend => JInt 2
  | FI (KcpSendWindow | KcpRecvWindow) => JInt 32
  | FI _ => JInt 0
  | FB KcpStreamMode => JBool true
  | FB _ => JBool false
  end.

(* C65, C66: the configuration. *)
From Coq Require Import String ZArith List Bool Lia.
From Verif Require Import Bytes Conf Spec_Conf Conf_proofs.
Import ListNotations.
Local Open Scope list_scope.
Local Open Scope Z_scope.
Notation str := list_byte_of_string.

(* C65, all string fields, and all numbers and switches but five: for every user and global
   configuration, a field the user set takes the user's value and any other keeps its own. *)
Theorem C65_overlay_partial : forall u g l, let r := fst (user_conf_to_global u (g, l)) in
  (forall f, str_ok u g r f) /\
  (forall f, f <> LogIsolationLevel -> f <> LogSaveDays -> f <> LogFileSize -> int_ok u g r f) /\
  (forall f, f <> KcpStreamMode -> f <> LogCons -> bool_ok u g r f).
Proof.
  intros u g l r. split; [|split].
  - intros f. apply strs_final.
  - intros f. apply ints_final.
  - intros f. apply bools_final.
Qed.
Print Assumptions C65_overlay_partial.

(* The other five, for every user and global configuration. *)
Theorem C65_odd_fields : forall u g l, let r := fst (user_conf_to_global u (g, l)) in
  ints r LogIsolationLevel = ints u LogIsolationLevel /\
  ints r LogSaveDays = ints g LogSaveDays /\ ints r LogFileSize = ints g LogFileSize /\ bools r LogCons = bools g LogCons /\
  bools r KcpStreamMode = bools u KcpStreamMode && bools g KcpStreamMode.
Proof. intros u g l r. destruct (ints_odd u g l) as (A & B & C). destruct (bools_odd u g l) as (D & E). auto. Qed.
Print Assumptions C65_odd_fields.

(* A configuration like the built-in one (zconf.go 218-256). *)
Definition builtin : config :=
  Config (fun f => match f with Host => str "0.0.0.0" | WsPath => str "/" | Name => str "ZinxServerApp" | Version => str "V1.0" | Mode => str "tcp" | LogDir => str "/w/log" | _ => [] end)
    (fun f => match f with TCPPort => 8999 | WsPort => 9000 | KcpPort => 9001 | KcpNoDelay => 1 | KcpInterval => 10 | KcpResend => 2 | KcpNc => 1 | KcpSendWindow => 32 | KcpRecvWindow => 32
       | MaxPacketSize => 4096 | MaxConn => 12000 | WorkerPoolSize => 10 | MaxWorkerTaskLen => 1024 | MaxMsgChanLen => 1024 | IOReadBuffSize => 1024 | HeartbeatMax => 10 | _ => 0 end)
    (fun f => match f with KcpStreamMode => true | _ => false end).
Definition mine : config := put_b (put_i (put_s nothing_set Name (str "mine")) MaxConn 3) RequestPoolMode true.
Example C65_case : let r := fst (user_conf_to_global mine (builtin, Logger 0 None)) in
  strs r Name = str "mine" /\ strs r Host = str "0.0.0.0" /\ ints r MaxConn = 3 /\ ints r TCPPort = 8999 /\ bools r RequestPoolMode = true /\ bools r RouterSlicesMode = false.
Proof. vm_compute. auto 10. Qed.

(* C65 is false of the log level: a user configuration that does not set it erases any level
   v set before (the logger itself keeps filtering at v). *)
Theorem C65_level_refuted : forall u g l v, ints u LogIsolationLevel = 0 -> ints g LogIsolationLevel = v -> o_level l = v -> v > 0 ->
  let r := user_conf_to_global u (g, l) in ~ overlaid u g (fst r) /\ ints (fst r) LogIsolationLevel = 0 /\ o_level (snd r) = v.
Proof.
  intros u g l v U G O V r. destruct (ints_odd u g l) as (A & _). destruct (logger_final u g l) as (B & _). rewrite U in *. split; [|split; [exact A|]].
  - intros (_ & H & _). destruct (H LogIsolationLevel) as (_ & K). specialize (K U). fold r in A. rewrite A in K. lia.
  - fold r in B. rewrite B. exact O.
Qed.
Print Assumptions C65_level_refuted.

(* C65 is false of KcpStreamMode: leaving it unset turns it off, setting it cannot turn it on. *)
Theorem C65_stream_refuted : forall u g l, bools u KcpStreamMode <> bools g KcpStreamMode ->
  let r := fst (user_conf_to_global u (g, l)) in ~ overlaid u g r /\ bools r KcpStreamMode = false.
Proof.
  intros u g l N r. destruct (bools_odd u g l) as (A & _). fold r in A. split.
  - intros (_ & _ & H). destruct (H KcpStreamMode) as (K1 & K2). rewrite A in *.
    destruct (bools u KcpStreamMode), (bools g KcpStreamMode); cbn in *; try congruence; [specialize (K1 ltac:(discriminate))|specialize (K2 eq_refl)]; discriminate.
  - rewrite A. destruct (bools u KcpStreamMode), (bools g KcpStreamMode); cbn; congruence.
Qed.
Print Assumptions C65_stream_refuted.

(* C65 is false of LogSaveDays, LogFileSize and LogCons: the user's values are ignored. *)
Theorem C65_ignored_refuted : forall u g l,
  (ints u LogSaveDays <> 0 /\ ints u LogSaveDays <> ints g LogSaveDays) \/ (ints u LogFileSize <> 0 /\ ints u LogFileSize <> ints g LogFileSize) \/
  (bools u LogCons = true /\ bools g LogCons = false) -> ~ overlaid u g (fst (user_conf_to_global u (g, l))).
Proof.
  intros u g l H (_ & Hi & Hb). destruct (ints_odd u g l) as (_ & B & C). destruct (bools_odd u g l) as (_ & D). 
  destruct H as [[N1 N2]|[[N1 N2]|[N1 N2]]].
  - destruct (Hi LogSaveDays) as (K & _). specialize (K N1). congruence.
  - destruct (Hi LogFileSize) as (K & _). specialize (K N1). congruence.
  - destruct (Hb LogCons) as (K & _). specialize (K ltac:(congruence)). congruence.
Qed.
Print Assumptions C65_ignored_refuted.
(* All three refutations have their case: the built-in configuration and a user who sets
   only the archive size, after a configuration file with level 2. *)
Definition sized : config := put_i nothing_set LogFileSize 1048576.
Example C65_refuted_case : let g := put_i builtin LogIsolationLevel 2 in
  ints sized LogIsolationLevel = 0 /\ ints g LogIsolationLevel = 2 /\ bools sized KcpStreamMode <> bools g KcpStreamMode /\ ints sized LogFileSize <> 0 /\ ints sized LogFileSize <> ints g LogFileSize.
Proof. vm_compute. repeat split; discriminate. Qed.

(* C66: loading the configuration file puts the logger in the state it describes. *)
Theorem C66_loaded : forall g, ints g LogIsolationLevel >= 0 -> reflects g (init_log_config g (Logger 0 None)).
Proof. exact init_ok. Qed.
Print Assumptions C66_loaded.
Definition filed : config := put_b (put_i (put_i (put_s builtin LogFile (str "a.log")) LogFileSize 1000) LogIsolationLevel 1) LogCons true.
Example C66_case : init_log_config filed (Logger 0 None) = Logger 1 (Some (Writer (str "/w/log") (str "a.log") 31 1000 true)).
Proof. vm_compute. reflexivity. Qed.

(* After a user configuration that names a log file, the logger no longer does what the
   configuration says: size, age and console fall back to the defaults. *)
Theorem C66_overlay_refuted : forall u g l, strs u LogFile <> [] -> bools g LogCons = true \/ (ints g LogFileSize > 0 /\ ints g LogFileSize <> defMaxSize) \/ (ints g LogSaveDays > 0 /\ ints g LogSaveDays <> defMaxAge) ->
  let r := user_conf_to_global u (g, l) in ~ reflects (fst r) (snd r).
Proof.
  intros u g l F H r (_ & K & _). destruct (ints_odd u g l) as (_ & B & C). destruct (bools_odd u g l) as (_ & D). fold r in B, C, D.
  destruct (logger_final u g l) as (_ & E). fold r in E. destruct (strs u LogFile) as [|c f] eqn:U; [congruence|]. cbn [is_empty] in E.
  destruct (strs_final u g l LogFile) as (S1 & _). fold r in S1. rewrite U in S1. specialize (S1 ltac:(discriminate)). clearbody r.
  destruct K as (w & W & _ & _ & W1 & W2 & W3); [rewrite S1; discriminate|]. rewrite E in W. injection W as <-. cbn [w_cons w_age w_size] in *.
  rewrite B, C, D in *. destruct H as [H|[[H N]|[H N]]]; [congruence|specialize (W3 H); congruence|specialize (W2 H); congruence].
Qed.
Print Assumptions C66_overlay_refuted.
(* A user configuration that sets only the directory does not move the log. *)
Theorem C66_dir_refuted : forall u g l w, strs u LogDir <> [] -> strs u LogFile = [] -> strs g LogFile <> [] -> o_file l = Some w -> w_dir w <> strs u LogDir ->
  let r := user_conf_to_global u (g, l) in ~ reflects (fst r) (snd r).
Proof.
  intros u g l w D F G W N r (_ & K & _). destruct (logger_final u g l) as (_ & E). fold r in E. rewrite F in E. cbn [is_empty] in E.
  destruct (strs_final u g l LogFile) as (_ & S2). fold r in S2. specialize (S2 F).
  destruct (strs_final u g l LogDir) as (S3 & _). fold r in S3. specialize (S3 D). clearbody r.
  destruct K as (w' & W' & W1 & _); [congruence|]. rewrite E, W in W'. injection W' as <-. congruence.
Qed.
Print Assumptions C66_dir_refuted.
Example C66_refuted_case : strs (put_s nothing_set LogFile (str "b.log")) LogFile <> [] /\ bools filed LogCons = true /\
  strs (put_s nothing_set LogDir (str "/v")) LogDir <> [] /\ strs (put_s nothing_set LogDir (str "/v")) LogFile = [] /\ strs filed LogFile <> [] /\
  exists w, o_file (init_log_config filed (Logger 0 None)) = Some w /\ w_dir w <> str "/v".
Proof. vm_compute. repeat split; try discriminate. eexists. split; [reflexivity|discriminate]. Qed.

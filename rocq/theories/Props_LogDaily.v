(* C71: each log file holds the records of one day. *)
From Coq Require Import ZArith List Bool Lia.
From Verif Require Import LogWriter Spec_LogWriter LogWriter_proofs LogDaily_proofs.
Import ListNotations.
Local Open Scope Z_scope.

(* C71. In a directory with any archives and no log file, after any session, the new files, oldest
   first, are the records written, in order, cut into consecutive groups of one day each.
   Proved for sessions with any sizes, flushes and failing compressions in which renames and opens succeed,
   archives get distinct names, the file stays open, nothing is expired and no Write lasts past midnight.
   Partial: refuted below across a restart, for a Write past midnight and for a failing rename. *)
Theorem C71_daily_partial : forall zone d os, d_cur d = None ->
  (forall o, In o os -> opens o /\ renames o /\ stays_open o /\ no_expiry o /\ within_day zone o) ->
  names_distinct d (fst (lw_run zone false (start d) os)) ->
  exists days, concat days = dated zone os /\ (forall x, In x days -> one_day x) /\
    log_files (fst (lw_run zone false (start d) os)) = map a_data (d_arch d) ++ map text days.
Proof. exact daily. Qed.
Print Assumptions C71_daily_partial.

Definition utc (t : Z) : Z := 0.
Definition second : Z := 1000000000.
(* A Write at a time, everything succeeding. *)
Definition at_time (t : Z) : wenv := let r := REnv t (t + 1000) true true true (t + 2000) in WEnv r t r r (t + 3000).
Definition write_at (t : Z) (p : bytes) : lop := LWrite p (at_time t).

(* Two records on the first day, one on the second, then two that do not fit in one file. *)
Definition two_days : list lop :=
  [write_at (10 * second) [1]; LFlush (15 * second); write_at (86399 * second) [2]; LFlush (86401 * second);
   write_at (86403 * second) [3]; LSetMax 5; write_at (86404 * second) [4; 4]; write_at (86405 * second) [5; 5]; write_at (86406 * second) [6]].
Example C71_daily_case :
  (forall o, In o two_days -> opens o /\ renames o /\ stays_open o /\ no_expiry o /\ within_day utc o) /\
  names_distinct (Dir None [Archive 5 true [9]]) (fst (lw_run utc false (start (Dir None [Archive 5 true [9]])) two_days)) /\
  log_files (fst (lw_run utc false (start (Dir None [Archive 5 true [9]])) two_days)) = [[9]; [1; 2]; [3; 4; 4]; [5; 5]; [6]].
Proof.
  split; [|split].
  - intros o Ho. unfold two_days in Ho. cbn [In] in Ho. repeat (destruct Ho as [<-|Ho]; [unfold write_at, at_time, opens, renames, stays_open, no_expiry, within_day; cbn; repeat split; try discriminate|]). contradiction.
  - unfold names_distinct. vm_compute. repeat (constructor; [cbn; intuition discriminate|]). constructor.
  - vm_compute. reflexivity.
Qed.

(* Across a restart: a record of the last second of a day flushed after midnight dates the file
   to the new day, and a new Writer goes on with it. *)
Theorem C71_restart_refuted : exists os,
  (forall o, In o os -> opens o /\ renames o /\ whole_close o /\ no_expiry o /\ within_day utc o) /\
  dated utc os = [(0, [1]); (1, [2])] /\ log_files (fst (lw_run utc false (start (Dir None [])) os)) = [[1; 2]].
Proof.
  exists [write_at (86399 * second) [1]; LFlush (86401 * second); LRestart (86402 * second); write_at (86403 * second) [2]].
  split; [|split; vm_compute; reflexivity].
  intros o Ho. cbn [In] in Ho. repeat (destruct Ho as [<-|Ho]; [unfold write_at, at_time, opens, renames, whole_close, no_expiry, within_day; cbn; repeat split; try discriminate|]). contradiction.
Qed.
Print Assumptions C71_restart_refuted.

(* A Write called before midnight whose rotation happens after it. *)
Theorem C71_midnight_refuted : exists os,
  (forall o, In o os -> opens o /\ renames o /\ stays_open o /\ no_expiry o) /\
  dated utc os = [(0, [0]); (1, [1]); (2, [2])] /\ log_files (fst (lw_run utc false (start (Dir None [])) os)) = [[0]; [1; 2]].
Proof.
  exists [write_at (10 * second) [0];
          LWrite [1] (WEnv (e_first (at_time 0)) (172799 * second) (e_daily (at_time (172801 * second))) (e_sized (at_time (172801 * second))) (172802 * second));
          write_at (172803 * second) [2]].
  split; [|split; vm_compute; reflexivity].
  intros o Ho. cbn [In] in Ho. repeat (destruct Ho as [<-|Ho]; [unfold write_at, at_time, opens, renames, stays_open, no_expiry; cbn; repeat split; try discriminate|]). contradiction.
Qed.
Print Assumptions C71_midnight_refuted.

(* The old file cannot be renamed: the new day's records are appended to it. *)
Theorem C71_rename_refuted : exists os,
  (forall o, In o os -> opens o /\ stays_open o /\ no_expiry o /\ within_day utc o) /\
  dated utc os = [(0, [1]); (1, [2])] /\ log_files (fst (lw_run utc false (start (Dir None [])) os)) = [[1; 2]].
Proof.
  exists [write_at (10 * second) [1];
          LWrite [2] (let t := 86403 * second in let r := REnv t (t + 1000) false true true (t + 2000) in WEnv r t r r (t + 3000))].
  split; [|split; vm_compute; reflexivity].
  intros o Ho. cbn [In] in Ho. repeat (destruct Ho as [<-|Ho]; [unfold write_at, at_time, opens, stays_open, no_expiry, within_day; cbn; repeat split; try discriminate|]). contradiction.
Qed.
Print Assumptions C71_rename_refuted.

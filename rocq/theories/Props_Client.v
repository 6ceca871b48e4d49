(* C70: starting and stopping a client. *)
From Coq Require Import List Bool Arith Lia.
From Verif Require Import GoSlice Client Spec_Client Client_proofs Client2_proofs.
Import ListNotations.

(* A usual session: Start, the dial succeeds, the connection starts. *)
Definition session : list clabel := [CRestart; CDial 0 true; CGo 0; CGo 0; CConnStart 0; CGo 0].
Definition stopping : list clabel := [CStopStep 0 0; CStopStep 0 0; CStopStep 0 0; CStopStep 0 0; CStopStep 0 0; CStopStep 0 0].

(* C70: of a client that was started once, a Stop that found a connection has stopped it
   when it returns.  Partial: see the refutations below for Stops that return
   without, that panic, and that never return. *)
Theorem C70_stop_partial : forall before during k,
  starts (before ++ during) <= 1 -> ci_conn (after before) = Some k ->
  In (CeReturned (cstops before)) (trace (before ++ CStopCall :: during)) ->
  cstopped (after (before ++ CStopCall :: during)) k.
Proof.
  intros a b k Hs C R. apply stop_stops; auto. rewrite trace_app, in_app_iff in R. destruct R as [R|R]; [|exact R].
  exfalso. apply returned_lt in R. lia.
Qed.
Print Assumptions C70_stop_partial.
Example C70_stop_case : running (after session) 0 /\ cstopped (after (session ++ CStopCall :: stopping)) 0.
Proof.
  split; [eexists; split; [reflexivity|split; reflexivity]|].
  apply (C70_stop_partial session stopping 0); [cbn; lia|reflexivity|]. vm_compute. auto.
Qed.

(* C70: once a Stop has returned, such a client makes no further connection and reports no error. *)
Theorem C70_ends : forall before rest g,
  starts (before ++ rest) <= 1 -> In (CeReturned g) (trace before) ->
  length (ci_conns (after (before ++ rest))) = length (ci_conns (after before)) /\
  forall d, occurs (CeError d) (trace (before ++ rest)) = occurs (CeError d) (trace before).
Proof.
  intros a b g Hs R. destruct (stop_ends a b g Hs R) as [E N]. split; [exact E|]. intros d. unfold occurs. rewrite trace_app, count_occ_app.
  rewrite (proj1 (count_occ_not_In _ _ _) (N d)). lia.
Qed.
Print Assumptions C70_ends.
Example C70_ends_case : forall rest, starts rest = 0 -> length (ci_conns (after ((session ++ CStopCall :: stopping) ++ rest))) = 1.
Proof.
  intros rest H. destruct (C70_ends (session ++ CStopCall :: stopping) rest 0) as [E _].
  - rewrite starts_app, H. cbn. lia.
  - vm_compute. auto.
  - rewrite E. reflexivity.
Qed.

(* C70: however a client is used, at most one of the calls of Stop ever made returns. *)
Theorem C70_once : forall ls, stop_returns (trace ls) <= 1.
Proof. exact few_returns. Qed.
Print Assumptions C70_once.
Example C70_once_case : In (CeReturned 0) (trace (session ++ CStopCall :: stopping)) /\
  In (CePanic 1) (trace (session ++ CStopCall :: stopping ++ [CStopCall; CStopStep 1 0; CStopStep 1 0; CStopStep 1 0; CStopStep 1 0])).
Proof. split; vm_compute; auto. Qed.

(* C70: every dial that failed is reported on ErrChan, and once: whoever receives gets the error,
   as long as no Stop has closed the channel. *)
Theorem C70_errors : forall ls d,
  occurs (CeError d) (trace ls) <= occurs (CeFailed d) (trace ls) <= 1 /\
  (occurs (CeFailed d) (trace ls) = 1 -> occurs (CeError d) (trace ls) = 0 ->
   ci_crashed (after ls) = false -> ci_err_closed (after ls) = false -> trace (ls ++ [CRecv d]) = trace ls ++ [CeError d]).
Proof. 
  intros ls d. split; [apply errors_once|]. intros F N. apply errors_wait.
  - apply (count_occ_In cev_eq_dec). unfold occurs in F. lia.
  - apply (count_occ_not_In cev_eq_dec). exact N.
 Qed.
Print Assumptions C70_errors.
Example C70_errors_case : trace [CRestart; CDial 0 false; CRecv 0; CRestart; CDial 1 true; CRecv 1; CRestart; CDial 2 false; CRecv 2] = [CeFailed 0; CeError 0; CeFailed 2; CeError 2].
Proof. reflexivity. Qed.

(* C70: a Stop of a connected client does return: it never panics, and from whatever point
   it and the rest of the program have reached, it can run to its end.  Partial: for one Start
   and one Stop, the connection having started. *)
Theorem C70_returns_partial : forall before during,
  starts (before ++ during) <= 1 -> cstops (before ++ during) = 0 -> connected (after before) ->
  (forall g, ~ In (CePanic g) (trace (before ++ CStopCall :: during))) /\
  exists rest, starts rest = 0 /\ cstops rest = 0 /\ In (CeReturned 0) (trace (before ++ CStopCall :: during ++ rest)).
Proof. exact stop_finishes. Qed.
Print Assumptions C70_returns_partial.
Example C70_returns_case : connected (after session) /\
  exists rest, starts rest = 0 /\ cstops rest = 0 /\ In (CeReturned 0) (trace (session ++ CStopCall :: [CConnEnd 0; CStopStep 0 0] ++ rest)).
Proof.
  assert (H : connected (after session)) by (exists 0; eexists; split; [reflexivity|split; reflexivity]).
  split; [exact H|]. apply C70_returns_partial; [cbn; lia|reflexivity|exact H].
Qed.

(* C70 fails when the dial failed: every Stop then waits forever, whether or not the error was received. *)
Theorem C70_failed_refuted : forall ls d g, starts ls <= 1 -> In (CeFailed d) (trace ls) -> ~ In (CeReturned g) (trace ls).
Proof. exact stop_hangs. Qed.
Print Assumptions C70_failed_refuted.
Example C70_failed_case : In (CeFailed 0) (trace [CRestart; CDial 0 false; CRecv 0; CStopCall]).
Proof. vm_compute. auto. Qed.
(* and when the client was never started: the send is on a nil channel. *)
Theorem C70_unstarted_refuted : forall ls g, starts ls = 0 -> ~ In (CeReturned g) (trace ls).
Proof. exact stop_unstarted. Qed.
Print Assumptions C70_unstarted_refuted.
(* A Stop called while the client is dialling returns and leaves the connection running. *)
Theorem C70_early_refuted : exists ls, starts ls = 1 /\ cstops ls = 1 /\ In (CeReturned 0) (trace ls) /\ running (after ls) 0.
Proof.
  exists [CRestart; CStopCall; CStopStep 0 0; CDial 0 true; CGo 0; CGo 0; CConnStart 0; CGo 0; CStopStep 0 0; CStopStep 0 0; CStopStep 0 0; CStopStep 0 0].
  split; [reflexivity|]. split; [reflexivity|]. split; [vm_compute; auto|]. eexists. split; [reflexivity|]. split; reflexivity.
Qed.
Print Assumptions C70_early_refuted.
(* A Stop right after the dial, before the connection has started, panics; the connection then runs. *)
Theorem C70_nil_cancel_refuted : exists ls, starts ls = 1 /\ cstops ls = 1 /\ In (CePanic 0) (trace ls) /\ running (after ls) 0.
Proof.
  exists [CRestart; CDial 0 true; CGo 0; CStopCall; CStopStep 0 0; CStopStep 0 0; CGo 0; CConnStart 0].
  split; [reflexivity|]. split; [reflexivity|]. split; [vm_compute; auto|]. eexists. split; [reflexivity|]. split; reflexivity.
Qed.
Print Assumptions C70_nil_cancel_refuted.
(* Start, Stop, Restart, Stop, each done when the one before has finished: the second Stop panics. *)
Theorem C70_restart_refuted : exists first second,
  starts first = 1 /\ cstops first = 1 /\ In (CeReturned 0) (trace first) /\
  starts second = 1 /\ cstops second = 1 /\ running (after (first ++ firstn 6 second)) 1 /\ In (CePanic 1) (trace (first ++ second)).
Proof.
  exists (session ++ CStopCall :: stopping).
  exists ([CRestart; CDial 1 true; CGo 1; CGo 1; CConnStart 1; CGo 1] ++ [CStopCall; CStopStep 1 1; CStopStep 1 1; CStopStep 1 1; CStopStep 1 1; CStopStep 1 1; CStopStep 1 1]).
  split; [reflexivity|]. split; [reflexivity|]. split; [vm_compute; auto|]. split; [reflexivity|]. split; [reflexivity|].
  split; [eexists; split; [vm_compute; reflexivity|split; reflexivity]|]. vm_compute. auto.
Qed.
Print Assumptions C70_restart_refuted.
(* Start, Stop, Restart with a failing dial: the process ends with a panic. *)
Theorem C70_crash_refuted : exists first, starts first = 1 /\ cstops first = 1 /\ In (CeReturned 0) (trace first) /\
  ci_crashed (after (first ++ [CRestart; CDial 1 false; CGo 1])) = true.
Proof. exists (session ++ CStopCall :: stopping). split; [reflexivity|]. split; [reflexivity|]. split; [vm_compute; auto|]. reflexivity. Qed.
Print Assumptions C70_crash_refuted.
(* The connection ends and the client reconnects with Restart, without Stop: the goroutine of the
   first Start then waits forever, whatever happens afterwards. *)
Theorem C70_leak_refuted : forall rest, nth_error (ci_dials (after (session ++ [CConnEnd 0; CRestart] ++ rest))) 0 = Some (DWait 0).
Proof.
  intros rest. rewrite app_assoc. apply behind_run. split; [reflexivity|]. split; [vm_compute; lia|]. split; [reflexivity|]. split; [discriminate|].
  split; [|intros []]. intros e E. injection E as <-. vm_compute. lia.
Qed.
Print Assumptions C70_leak_refuted.
Example C70_leak_case : trace ((session ++ [CConnEnd 0; CRestart]) ++ [CDial 1 true; CGo 1; CGo 1; CConnStart 1; CGo 1; CStopCall; CStopStep 0 1; CStopStep 0 1; CStopStep 0 1; CStopStep 0 1; CStopStep 0 1; CStopStep 0 1]) = [CeReturned 0].
Proof. reflexivity. Qed.

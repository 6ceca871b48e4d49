(* Infinite executions of the asynchronous operations and of the timers: who goes on. *)
From Coq Require Import List Arith ZArith.
From Verif Require Import Spec_Fair.
From Verif Require AsyncResult AsyncWorker AutoExec TimeWheel.
Import ListNotations.

(* AsyncWorker: after the first n steps. *)
Definition async_at (progs : list (list (Z * option Z))) (sch : nat -> AsyncWorker.wlabel) (n : nat) : AsyncWorker.wsys :=
  AsyncWorker.w_run (AsyncWorker.w_new progs) (first sch n).
(* Worker w goes on: it looks for the next operation again and again, and its operations end. *)
Definition worker_goes_on (sch : nat -> AsyncWorker.wlabel) (w : nat) : Prop :=
  often (fun m => sch m = AsyncWorker.Take w) /\ often (fun m => exists b, sch m = AsyncWorker.Finish w b).
(* Goroutine g goes on calling Process. *)
Definition caller_goes_on (sch : nat -> AsyncWorker.wlabel) (g : nat) : Prop := often (fun m => sch m = AsyncWorker.Submit g).

(* AsyncOpResult: the calls go on, and the connection's worker does. *)
Definition result_at (calls : list AsyncResult.call) (sch : nat -> AsyncResult.alabel) (n : nat) : AsyncResult.asys :=
  AsyncResult.a_run (AsyncResult.a_new calls) (first sch n).
Definition result_goes_on (sch : nat -> AsyncResult.alabel) : Prop :=
  (forall i, often (fun m => sch m = AsyncResult.Go i)) /\ often (fun m => sch m = AsyncResult.Run).

(* The scheduler that calls the functions itself. *)
Definition auto_at (conf : list (Z * Z)) (sch : nat -> AutoExec.xlabel) (n : nat) : AutoExec.auto := AutoExec.x_run (AutoExec.new_auto conf) (first sch n).
(* The polling goroutine goes on sending what it has taken from the wheel (in any order), the
   consumer goes on receiving, and every goroutine goes on, at ever later times. *)
Definition timers_go_on (conf : list (Z * Z)) (sch : nat -> AutoExec.xlabel) : Prop :=
  often (fun m => exists i, sch m = AutoExec.XWheel (TimeWheel.PollSend i) /\
    let taken := TimeWheel.s_polled (AutoExec.x_sched (auto_at conf sch m)) in taken = [] \/ i < length taken) /\
  often (fun m => sch m = AutoExec.XReceive) /\
  forall i t, often (fun m => exists now, (t <= now)%Z /\ sch m = AutoExec.XBegin i now).

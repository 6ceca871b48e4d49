(* The timer scheduler with punctual ticks and polls: TimeWheel.v plus a clock. *)
From Coq Require Import ZArith List Bool.
From Verif Require Import Bytes TimeWheel.
Import ListNotations.
Local Open Scope Z_scope.

(* Times are in nanoseconds.  [t_due]: for each wheel, the latest moment of its next
   tick; [t_last]: when the last poll (or the start) was. *)
Record timed := Timed { t_sched : sched; t_now : Z; t_due : list Z; t_last : Z }.

(* Every clock reading of a step is the present time.  (CreateAfter's first reading as well.) *)
Definition stamp (now : Z) (n : nat) (l : tlabel) : tlabel :=
  match l with
  | TickMove k i _ => TickMove k i (repeat now n)
  | CreateAt ns _ => CreateAt ns (repeat now n)
  | CreateAfter _ dur _ => CreateAfter now dur (repeat now n)
  | Poll _ => Poll now
  | l => l
  end.

Fixpoint set_at {A} (k : nat) (x : A) (l : list A) : list A :=
  match l, k with [], _ => [] | _ :: r, O => x :: r | y :: r, S k' => y :: set_at k' x r end.

(* timewheel.go 163-164: a wheel sleeps for its interval, and wakes at most [late] after that. *)
Definition period (late : Z) (w : wheel) : Z := w_interval w * 1000000 + late.

Inductive tmlabel := Advance (d : Z) | Do (l : tlabel).

(* [gap]: the longest time between two polls (timerscheduler.go 101-114: 50 ms and the
   time the poll takes).  Time does not pass in the middle of a tick or of a poll
   ([s_polled] not empty), nor beyond the moment a tick or poll must happen by; ticks and polls may be early.
   The time taken by the steps themselves is part of [late] and [gap]. *)
Definition tm_step (late gap : Z) (t : timed) (l : tmlabel) : timed :=
  match l with
  | Advance d =>
    if (0 <=? d) && forallb idle (s_wheels (t_sched t)) && (match s_polled (t_sched t) with [] => true | _ => false end)
       && forallb (fun x => t_now t + d <=? x) (t_due t) && (t_now t + d <=? t_last t + gap)
    then Timed (t_sched t) (t_now t + d) (t_due t) (t_last t)
    else t
  | Do l =>
    match t_step1 (t_sched t) (stamp (t_now t) (length (s_wheels (t_sched t))) l) with
    | None => t
    | Some s' =>
      Timed s' (t_now t)
        (match l with
         | TickEnd k => match nth_error (s_wheels s') k with Some w => set_at k (t_now t + period late w) (t_due t) | None => t_due t end
         | _ => t_due t
         end)
        (match l with Poll _ => t_now t | _ => t_last t end)
    end
  end.
Definition tm_run (late gap : Z) (t : timed) (ls : list tmlabel) : timed := fold_left (tm_step late gap) ls t.

(* timerscheduler.go 39-61: at time [now] the wheels have started; [due]: when their first ticks are due. *)
Definition tm_start (conf : list (Z * Z)) (now : Z) (due : list Z) : timed := Timed (new_sched_of conf) now due now.
Definition first_ticks (late : Z) (conf : list (Z * Z)) (now : Z) (due : list Z) : Prop :=
  Forall2 (fun c d => now <= d <= now + fst c * 1000000 + late) conf due.

(* Vocabulary of the timer properties. *)
From Coq Require Import ZArith List Bool.
From Verif Require Import TimeWheel.
Import ListNotations.
Local Open Scope Z_scope.

(* The timers in a wheel: in its slots, or in the hands of its tick. *)
Definition pending (w : wheel) : list entry := match w_phase w with Idle => [] | Curs p => p | Nexts p => p end.
Definition wheel_timers (w : wheel) : list entry := map snd (w_queue w) ++ pending w.
Definition stored (s : sched) : list entry := flat_map wheel_timers (s_wheels s).
(* Handed to the trigger channel. *)
Definition handed (s : sched) : list entry := map fst (s_sent s).
(* Taken from the wheel by a poll, about to be handed out. *)
Definition taken (s : sched) : list entry := map fst (s_polled s).
Definition is_create (l : tlabel) : bool := match l with CreateAt _ _ | CreateAfter _ _ _ => true | _ => false end.
Definition creations (ls : list tlabel) : Z := Z.of_nat (length (filter is_create ls)).
(* The number of places where a timer is. *)
Definition places (x : entry) (l : list entry) : nat := length (filter (fun e => e_obj e =? e_obj x) l).
(* The moment (ns) at which the caller wants the timer: [now] is the time of the call. *)
Definition requested (now : Z) (l : tlabel) : Z :=
  match l with CreateAt ns _ => ns | CreateAfter _ dur _ => now + dur | _ => 0 end.
(* The reading of the clock NewTimerAfter makes. *)
Definition call_time (l : tlabel) : Z := match l with CreateAfter now _ _ => now | _ => 0 end.
(* That moment is an int64. *)
Definition fits (z : Z) : Prop := - 2 ^ 63 <= z < 2 ^ 63.
(* [l] creates timer e in state s. *)
Definition makes (s : sched) (l : tlabel) (e : entry) : Prop := is_create l = true /\ s_made (t_step s l) = s_made s ++ [e].

(* Vocabulary of C79: what a scheduler that calls the functions itself calls. *)
From Coq Require Import ZArith List Bool.
From Verif Require Import TimeWheel Spec_TimeWheel AutoExec.
Import ListNotations.
Local Open Scope Z_scope.

(* Step [l] from state [a] sets up the timer [src] with the DelayFunc [df]. *)
Definition sets_up (a : auto) (l : xlabel) (df : option nat) (src : source) : Prop :=
  match l with
  | XCreate t d => d = df /\ exists e, s_made (x_sched (x_step a l)) = s_made (x_sched a) ++ [e] /\ src = OfSched (e_obj e)
  | XRun t d now => d = df /\ x_lone (x_step a l) = S (x_lone a) /\ src = Lone (x_lone a)
  | _ => False
  end.

(* Nobody writes to slice [sl]. *)
Definition unwritten (sl : nat) (ls : list xlabel) : Prop := forall i v, ~ In (XWrite sl i v) ls.

(* The DelayFunc a label hands over is nil. *)
Definition passes_nil (l : xlabel) : bool := match l with XCreate _ None | XRun _ None _ => true | _ => false end.

(* Steps of the scheduler's own goroutines that put due timers in the channel, take them out and
   start the functions.  No function ends, no wheel turns. *)
Definition own_step (l : xlabel) : bool :=
  match l with XWheel (PollSend _) | XReceive | XBegin _ _ => true | _ => false end.

Definition due_out (a : auto) : list entry := handed (x_sched a).
Definition called (a : auto) (e : entry) : Prop := exists c, In c (x_begun a) /\ c_src c = OfSched (e_obj e).
(* The timer has a function. *)
Definition has_function (a : auto) (e : entry) : Prop :=
  exists d f sl, df_of a (e_obj e) = Some d /\ nth_error (x_funcs a) d = Some (DFunc (Some f) sl).

Definition of_sched (s : source) : bool := match s with OfSched _ => true | _ => false end.
(* The timers of the scheduler that have a goroutine of their own, in the order they got it. *)
Definition launched (a : auto) : list source := filter of_sched (map g_src (x_gos a)).
Definition in_channel (a : auto) : list source := map fst (x_chan a).

(* The same execution in which every function that panics returns instead. *)
Definition no_panic (l : xlabel) : xlabel := match l with XPanic i => XReturn i | l => l end.
(* Everything but the lines logged. *)
Definition all_but_log (a : auto) := (x_sched a, x_df a, x_funcs a, x_slices a, x_chan a, x_gos a, x_lone a, x_dead a, x_begun a).

(* x comes before y. *)
Definition before {A} (l : list A) (x y : A) : Prop := exists u v w, l = u ++ x :: v ++ y :: w.

(* Infinite executions of a websocket connection. *)
From Coq Require Import List Arith.
From Verif Require Import SendQueue SendLocked Spec_SendLocked Spec_Fair.
Import ListNotations.

(* The connection after the first n steps (the first thing is Start). *)
Definition ws_at (c : nat) (sch : nat -> llabel) (n : nat) : lst * list lev := l_run c Ws l_new (MStart :: first sch n).
(* Every sender goes on again and again, and the timeout of its select fires some time; the
   writer goes on again and again and receives if there is something. *)
Definition ws_go_on (sch : nat -> llabel) : Prop :=
  (forall t, often (fun m => sch m = MSend t ChTimer NetOk)) /\ often (fun m => sch m = MWriter 0 ChChan NetOk).
(* If the lock is free again and again, the writer gets its turn when it is free. *)
Definition lock_fair (c : nat) (sch : nat -> llabel) : Prop :=
  often (fun m => l_excl (fst (ws_at c sch m)) = None) ->
  often (fun m => l_excl (fst (ws_at c sch m)) = None /\ sch m = MWriter 0 ChChan NetOk).
(* No Stop, and a network that works. *)
Definition ws_undisturbed (sch : nat -> llabel) : Prop := forall n, never_stopped_l (first sch n) /\ network_fine_l (first sch n).

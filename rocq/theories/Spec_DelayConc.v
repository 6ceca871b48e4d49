(* What is meant by calls that do not run at the same time, for the shared back-off. *)
From Coq Require Import ZArith List Bool.
From Verif Require Import AcceptDelay DelayConc.
Import ListNotations.

(* Is the goroutine still working out how long to sleep (in Up)? *)
Definition in_up (p : dpc) : Prop := match p with DIdle | DDo0 | DDo1 => False | _ => True end.
(* At no time are two goroutines in Up. *)
Definition never_two_up (ls : list dlabel) : Prop :=
  forall before after, ls = before ++ after -> forall g h,
    in_up (sh_pc (fst (d_run sh_new before)) g) -> in_up (sh_pc (fst (d_run sh_new before)) h) -> g = h.
(* Calls of several goroutines one after the other: each call runs to its end before the next one
   begins (Delay reads or writes the field at most seven times). *)
Definition whole_call (call : nat * dop) : list dlabel :=
  match call with (g, DOk) => [AOk g] | (g, DFail) => AFail g :: repeat (AGo g) 7 end.
(* How long each Delay sleeps, in order. *)
Definition sleeps (es : list dev) : list Z := map (fun e => match e with Sleeps _ t => t end) es.
(* How many calls of Delay there were. *)
Definition fails (ls : list dlabel) : nat := length (filter (fun l => match l with AFail _ => true | _ => false end) ls).

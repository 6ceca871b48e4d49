(* What C106 says. *)
From Coq Require Import List.
From Verif Require Import Serve.
Import ListNotations.

(* What happened in a history of a program with [n] servers. *)
Definition happened (n : nat) (ls : list plabel) : list pev := snd (p_run (p_new n) ls).
Definition ended (tr : list pev) : Prop := exists g, In (EEnded g) tr.
Definition interrupts (g : sig) : Prop := g = Sigint \/ g = Sigterm.
(* Only signals, and what Serve and main do then: no call of Stop, no connection ended by its peer. *)
Definition only_interrupted (l : plabel) : Prop := match l with LSignal _ | LReceive _ | LExit => True | _ => False end.

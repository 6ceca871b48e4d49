(* What users of a client can say about it. *)
From Coq Require Import List Bool Arith.
From Verif Require Import Client.
Import ListNotations.

Definition is_restart (l : clabel) : bool := match l with CRestart => true | _ => false end.
Definition is_cstop (l : clabel) : bool := match l with CStopCall => true | _ => false end.
(* Calls of Start and Restart; calls of Stop. *)
Definition starts (ls : list clabel) : nat := length (filter is_restart ls).
Definition cstops (ls : list clabel) : nat := length (filter is_cstop ls).
Definition after (ls : list clabel) : cli := fst (cli_run cli_new ls).
Definition trace (ls : list clabel) : list cev := snd (cli_run cli_new ls).

Definition cev_eq_dec (a b : cev) : {a = b} + {a <> b}.
Proof. decide equality; apply Nat.eq_dec. Defined.
Definition occurs (e : cev) (tr : list cev) : nat := count_occ cev_eq_dec tr e.

(* Connection k has been stopped. *)
Definition cstopped (s : cli) (k : nat) : Prop := exists n, nth_error (ci_conns s) k = Some n /\ cc_stopped n = true.
(* Connection k is running: its Start has begun and nobody stopped it. *)
Definition running (s : cli) (k : nat) : Prop := exists n, nth_error (ci_conns s) k = Some n /\ cc_ctx n = true /\ cc_stopped n = false.
(* Conn() returns a connection whose Start has begun. *)
Definition connected (s : cli) : Prop := exists k n, ci_conn s = Some k /\ nth_error (ci_conns s) k = Some n /\ cc_ctx n = true.
(* How many calls of Stop have returned. *)
Definition is_returned (e : cev) : bool := match e with CeReturned _ => true | _ => false end.
Definition stop_returns (tr : list cev) : nat := length (filter is_returned tr).

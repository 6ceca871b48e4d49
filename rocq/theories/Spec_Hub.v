(* Reading the events of a server with many connections. *)
From Coq Require Import ZArith List Bool.
From Verif Require Import Bytes Pack Chain Reader Request Dispatch Workers Spec_Workers Payload Hub.
From Verif Require Spec_EndToEnd.
Import ListNotations.

(* What connection c's reads have returned, in order. *)
Definition reads (c : nat) (tr : list bev) : list (list byte) :=
  flat_map (fun e => match e with BRead d x => if Nat.eqb d c then [x] else [] | _ => [] end) tr.
(* The events of the worker pool. *)
Definition pool_events (tr : list bev) : list wev := flat_map (fun e => match e with BPool x => [x] | _ => [] end) tr.
(* Requests of connection c whose handling has begun, whose handling is over: ID and data. *)
Definition begun (c : nat) (tr : list bev) := Spec_EndToEnd.begun c (pool_events tr).
Definition done (c : nat) (tr : list bev) := Spec_EndToEnd.done c (pool_events tr).
(* What the server makes of these reads. *)
Definition made (d : dec) (chunks : list (list byte)) : list (option (Z * list byte)) := map seen (fst (fst (run_reader (new_reader d) chunks))).
Definition ends_up (d : dec) (chunks : list (list byte)) : status := snd (fst (run_reader (new_reader d) chunks)).

(* Connection c has been started and uses worker w; it is of kind k. *)
Definition uses (s : hub) (c w : nat) : Prop := exists x, nth_error (ws_conns (hb_pool s)) c = Some x /\ co_worker x = Some w.
Definition is_link (s : hub) (c : nat) (k : link) : Prop := exists x, nth_error (hb_conns s) c = Some x /\ hc_link x = k.
(* Requests that worker w has in hand or in its queue. *)
Definition at_worker (s : hub) (w : nat) : list job :=
  match nth_error (ws_workers (hb_pool s)) w with Some k => match wk_cur k with Some x => [snd x] | None => [] end | None => [] end ++
  match nth_error (ws_chans (hb_pool s)) w with Some ch => map snd (ch_buf ch) | None => [] end.
(* Requests that connection c's reader has still to queue. *)
Definition to_queue (s : hub) (c : nat) : list job := match nth_error (hb_conns s) c with Some x => hc_next x | None => [] end.
(* Steps of connection c's reader and of worker w. *)
Definition of_conn_and_worker (c w : nat) (l : hlabel) : Prop :=
  match l with HPass d => d = c | HPool (LTake v) | HPool (LFinish v _) => v = w | _ => False end.

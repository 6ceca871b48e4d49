(* What C107 says. *)
From Coq Require Import List Arith.
From Verif Require Import Again.
Import ListNotations.

(* What happened in a history of a server with [size] workers and room for [cap] requests in a queue. *)
Definition seen (size cap : nat) (ls : list alabel) : list aev := snd (a_run size cap (a_new size) ls).
(* The requests of connection c, in the order they were read, begun, ended. *)
Definition reads (c : nat) (tr : list aev) : list nat := flat_map (fun e => match e with ERead d r => if Nat.eqb d c then [r] else [] | _ => [] end) tr.
Definition begun (c : nat) (tr : list aev) : list nat := flat_map (fun e => match e with EBegin d r => if Nat.eqb d c then [r] else [] | _ => [] end) tr.
Definition done (c : nat) (tr : list aev) : list nat := flat_map (fun e => match e with EEnd d r => if Nat.eqb d c then [r] else [] | _ => [] end) tr.
(* How many handlers were begun, how many have ended, how many workers were started. *)
Definition begins (tr : list aev) : nat := length (filter (fun e => match e with EBegin _ _ => true | _ => false end) tr).
Definition ends (tr : list aev) : nat := length (filter (fun e => match e with EEnd _ _ => true | _ => false end) tr).
Definition started (size : nat) (ls : list alabel) : nat := length (filter (fun l => match l with LNew i => Nat.ltb i size | _ => false end) ls).
(* One call of Start: a queue and a worker for every index. *)
Definition start (size : nat) : list alabel := map LNew (seq 0 size).
(* The worker of c's index is not started again once c has read something. *)
Definition not_again (size c : nat) (ls : list alabel) : Prop :=
  forall a b r, ls = a ++ LNew (c mod size) :: b -> ~ In (LRead c r) a.
(* Nothing new: no Start, nothing read. *)
Definition quiet (l : alabel) : Prop := match l with LNew _ | LRead _ _ => False | _ => True end.

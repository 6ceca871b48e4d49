(* What C110 says. *)
From Coq Require Import List Arith.
From Verif Require Import ChainConc.
Import ListNotations.

(* What happened in a history; append grows arrays as grow says. *)
Definition told (grow : nat -> nat) (head tail : option nat) (ls : list klabel) : list kev := snd (k_run grow head tail k_new ls).
(* The interceptors AddInterceptor was called with, in order, and how many of these calls have returned. *)
Definition called (tr : list kev) : list nat := flat_map (fun e => match e with ECalled _ x => [x] | _ => [] end) tr.
Definition returned (tr : list kev) : nat := length (filter (fun e => match e with EReturned _ _ => true | _ => false end) tr).
(* Only goroutine 0 adds interceptors. *)
Definition one_adder (l : klabel) : Prop := match l with LAdd t _ => t = 0 | _ => True end.
Definition no_add (l : klabel) : Prop := match l with LAdd _ _ => False | _ => True end.
(* A chain: the head, then these, then the tail. *)
Definition chain (head tail : option nat) (l : list (option nat)) : list (option nat) :=
  match head with Some x => [Some x] | None => [] end ++ l ++ match tail with Some x => [Some x] | None => [] end.
(* The capacities append chooses for small slices of interfaces. *)
Definition doubling (n : nat) : nat := if Nat.eqb n 0 then 1 else 2 * n.
(* How often goroutine r in Execute, goroutine t in AddInterceptor, gets to go on. *)
Definition exec_turns (r : nat) (ls : list klabel) : nat := length (filter (fun l => match l with LExecGo u _ => Nat.eqb u r | _ => false end) ls).
Definition add_turns (t : nat) (ls : list klabel) : nat := length (filter (fun l => match l with LAddGo u => Nat.eqb u t | _ => false end) ls).

(* What C113 says. *)
From Coq Require Import List Bool Arith.
From Verif Require Import LogHook.
Import ListNotations.

(* What happened in a history of calls of a logger by any number of goroutines. *)
Definition told (lvl : nat) (files : bool) (hook : nat -> list act) (ls : list label) : list ev := snd (l_run lvl files hook l_new ls).
(* How many calls goroutine g has made, and how many of them are over. *)
Definition calls (g : nat) (tr : list ev) : nat := length (filter (fun e => match e with ECall h => Nat.eqb h g | _ => false end) tr).
Definition over (g : nat) (tr : list ev) : nat := length (filter (fun e => match e with EEnd h | EPanicked h _ => Nat.eqb h g | _ => false end) tr).
Definition is_go (l : label) : Prop := match l with LGo _ => True | _ => False end.
(* The hook does not use the logger, except for levels that are not logged; it may panic. *)
Definition keeps_off (lvl : nat) (hook : nat -> list act) : Prop :=
  forall r, Forall (fun a => match a with ALog lev => lev < lvl | ALock => False | APanic | AOther => True end) (hook r).
(* The hook uses the logger first thing with record r. *)
Definition uses (lvl : nat) (hook : nat -> list act) (r : nat) : Prop :=
  exists a l, hook r = a :: l /\ match a with ALog lev => lvl <= lev | ALock => True | _ => False end.
(* From the writing of a record to the end of its call nothing else is written: who is in between, None if that was broken. *)
Fixpoint one_at_a_time (cur : option nat) (tr : list ev) : option (option nat) :=
  match tr with
  | [] => Some cur
  | EWritten g _ :: tr' => match cur with None => one_at_a_time (Some g) tr' | Some _ => None end
  | (EEnd g | EPanicked g _) :: tr' => one_at_a_time (match cur with Some h => if Nat.eqb h g then None else cur | None => None end) tr'
  | ECall _ :: tr' => one_at_a_time cur tr'
  end.

(* What C109 says. *)
From Coq Require Import List Arith.
From Verif Require Import CliWork.
Import ListNotations.

(* What happened in a history of a client: worker mode, WorkerPoolSize and MaxConn as configured. *)
Definition told (mode : wmode) (pool maxconn : nat) (ls : list clabel) : list cev := snd (c_run mode (c_new mode pool maxconn) ls).
Definition received (c : nat) (tr : list cev) : list nat := flat_map (fun e => match e with EReceived d m => if Nat.eqb d c then [m] else [] | _ => [] end) tr.
Definition begun (c : nat) (tr : list cev) : list nat := flat_map (fun e => match e with EBegin d m => if Nat.eqb d c then [m] else [] | _ => [] end) tr.
Definition done (c : nat) (tr : list cev) : list nat := flat_map (fun e => match e with EEnd d m => if Nat.eqb d c then [m] else [] | _ => [] end) tr.
(* Only handlers' goroutines run. *)
Definition handlers_only (l : clabel) : Prop := match l with CBegin _ | CEnd _ => True | _ => False end.
Definition no_websocket (l : clabel) : Prop := match l with COpen Ws _ => False | _ => True end.
(* The first n steps of an infinite schedule; every goroutine gets its turn again and again. *)
Definition steps (sch : nat -> clabel) (n : nat) : list clabel := map sch (seq 0 n).
Definition fair (sch : nat -> clabel) : Prop := forall g n, (exists k, n <= k /\ sch k = CBegin g) /\ (exists k, n <= k /\ sch k = CEnd g).

(* Vocabulary of C91: what becomes of websocket requests. *)
From Coq Require Import ZArith List Bool.
From Verif Require Import WsAdmit.
Import ListNotations.
Local Open Scope Z_scope.

(* The requests that come in, in order: the h-th is handler h's. *)
Definition requests (tr : list wlabel) : list wsreq := flat_map (fun l => match l with WReq r => [r] | _ => [] end) tr.
(* The checks in force at some time: the one at the start and those set later. *)
Definition checks (f0 : option wsauth) (tr : list wlabel) : list (option wsauth) :=
  f0 :: flat_map (fun l => match l with WSetAuth f => [f] | _ => [] end) tr.
(* What a check makes of a request: refused, or accepted with something for the connection. *)
Definition lets_in (f : option wsauth) (r : wsreq) : option Z := match f with None => Some (q_info r) | Some g => g r end.
(* The statements request h has been given. *)
Definition turns (h : nat) (tr : list wlabel) : nat := length (filter (fun l => match l with WStep k _ => Nat.eqb k h | _ => false end) tr).
Definition answers (h : nat) (es : list wevent) : list answer := flat_map (fun e => match e with Answered k a => if Nat.eqb k h then [a] else [] | _ => [] end) es.
Definition opened (h : nat) (es : list wevent) : list (Z * Z) := flat_map (fun e => match e with Opened k _ c i => if Nat.eqb k h then [(c, i)] else [] | _ => [] end) es.
Definition is_step (l : wlabel) : bool := match l with WStep _ _ => true | _ => false end.
Definition first_offered (r : wsreq) : option Z := hd_error (q_protos r).
(* An answer that says no. *)
Definition refusal (a : answer) : Prop := a = Unauthorized \/ a = Failed.

(* What C97 says, on traces. *)
From Coq Require Import ZArith List Bool.
From Verif Require Import Bytes Request Recover.
Import ListNotations.
Local Open Scope Z_scope.

(* The handlers begun, in order. *)
Definition begun (es : list pev) : list Z := flat_map (fun e => match e with Ev (HvStart n) => [n] | _ => [] end) es.
Definition panics (es : list pev) : nat := length (filter (fun e => match e with Ev HvPanic => true | _ => false end) es).
Definition records (es : list pev) : list Z := flat_map (fun e => match e with Logged id => [id] | _ => [] end) es.
Definition aborts (es : list pev) : Prop := In (Ev HvAbort) es.
(* How often the eight bit index is counted up: handlers that returned and calls of RouterSlicesNext. *)
Definition counted (es : list pev) : Z := Z.of_nat (length (filter (fun e => match e with Ev (HvEnd _) | Ev HvNext => true | _ => false end) es)).
(* The list is not near the limit of that index (C17_too_many_refuted, C17_wrap_refuted). *)
Definition small (fs : list fn) (es : list pev) : Prop := zlen fs + counted es <= 126.
(* The process's own recover (msghandler.go 383-387) is not needed. *)
Definition returned (o : rout) : Prop := exists s, o = RDone s.

(* Vocabulary of the interleaved world. *)
From Coq Require Import ZArith List Bool.
From Verif Require Import Aoi World Spec_World WorldConc.
Import ListNotations.
Local Open Scope Z_scope.

Definition op_pid (o : wop) : Z := match o with WJoin p _ _ | WMove p _ _ | WLeave p => p end.
(* No two goroutines make calls for the same player. *)
Definition own_calls (progs : list (list wop)) : Prop :=
  forall i j p q o o', nth_error progs i = Some p -> nth_error progs j = Some q -> In o p -> In o' q -> op_pid o = op_pid o' -> i = j.
(* No call for this player is in progress. *)
Definition resting (s : cworld) (pid : Z) : Prop :=
  forall t o r pc, nth_error (c_thr s) t = Some (Thr (o :: r) pc) -> op_pid o = pid -> pc = Idle.

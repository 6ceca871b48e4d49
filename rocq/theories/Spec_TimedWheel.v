(* Vocabulary of the timing property. *)
From Coq Require Import ZArith List Bool.
From Verif Require Import TimeWheel Spec_TimeWheel TimedWheel.
Import ListNotations.
Local Open Scope Z_scope.

(* In a timed run, [l] creates timer e. *)
Definition tm_makes (late gap : Z) (t : timed) (l : tlabel) (e : entry) : Prop :=
  is_create l = true /\ s_made (t_sched (tm_step late gap t (Do l))) = s_made (t_sched t) ++ [e].
Definition tm_creations (ls : list tmlabel) : Z :=
  Z.of_nat (length (filter (fun l => match l with Do l => is_create l | Advance _ => false end) ls)).

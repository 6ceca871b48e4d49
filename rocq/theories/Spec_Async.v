(* Vocabulary of the async result properties. *)
From Coq Require Import ZArith List Bool.
From Verif Require Import AsyncResult.
Import ListNotations.

(* All callbacks put in the worker's queue so far: those run and those waiting. *)
Definition scheduled (s : asys) : list (option Z) := map fst (r_ran (a_mem s)) ++ r_queue (a_mem s).
Definition is_set (c : call) : bool := match c with SetCall _ => true | CbCall _ => false end.
Definition all_returned (s : asys) : Prop := forall c p, In (c, p) (a_calls s) -> p = End.
(* Every call of this kind has returned / none has begun. *)
Definition returned (which : call -> bool) (s : asys) : Prop := forall c p, In (c, p) (a_calls s) -> which c = true -> p = End.
Definition untouched (which : call -> bool) (s : asys) : Prop := forall c p, In (c, p) (a_calls s) -> which c = true -> p = P0.

(* What C94 says. *)
From Coq Require Import ZArith List.
From Verif Require Import Request RequestHeap.

(* A call that changes the request with handle [h]: ending it, Set, SetResponse, or anything that
   moves its phase or index.  Reading and copying do not. *)
Definition writes_to (h : nat) (o : qop) : Prop :=
  match o with QPut h' | QSet h' _ _ | QSetResp h' _ | QControl h' _ _ _ => h' = h | _ => False end.

(* Which server a websocket request reaches (C100): the rules of net/http's mux. *)
From Coq Require Import ZArith List.
From Verif Require Import StartServers.
Import ListNotations.
Local Open Scope Z_scope.

Definition begins (q p : path) : Prop := exists r, p = q ++ r.
Definition slashed (p : path) : Prop := exists r, p = r ++ [47].
(* The patterns that stand for a whole subtree the path is in. *)
Definition covers (q p : path) : Prop := slashed q /\ begins q p.

(* [m]: the patterns, each with the server it belongs to. *)
Definition answers (m : list (path * nat)) (p : path) (a : answer) : Prop :=
  let known q := exists i, In (q, i) m in
  (exists i, a = Served i /\ In (p, i) m) \/
  ~ known p /\
  (~ slashed p /\ known (p ++ [47]) /\ a = Redirected \/
   (slashed p \/ ~ known (p ++ [47])) /\
   ((exists q i, a = Served i /\ In (q, i) m /\ covers q p /\ forall q', known q' -> covers q' p -> (length q' <= length q)%nat) \/
    a = NotFound /\ forall q, known q -> ~ covers q p)).

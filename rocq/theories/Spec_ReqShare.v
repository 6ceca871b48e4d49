(* What a request contains, from the recorded events: what was read, and what was done to
   that very request. *)
From Coq Require Import ZArith List Bool.
From Verif Require Import ReqShare.
Import ListNotations.

Definition content_step (ser : nat) (x : option ob) (e : rsev) : option ob :=
  match e with
  | RsRead s c m => if Nat.eqb s ser then Some (Ob c m []) else x
  | RsSet _ s w => if Nat.eqb s ser then option_map (apply_write w) x else x
  | _ => x
  end.
Definition content (ser : nat) (tr : list rsev) : option ob := fold_left (content_step ser) tr None.

(* The requests passed on to the handlers, with repetitions. *)
Definition handed (tr : list rsev) : list nat := flat_map (fun e => match e with RsHand s => [s] | _ => [] end) tr.
(* Interceptors pass a request on at most once. *)
Definition once (tr : list rsev) : Prop := NoDup (handed tr).
(* Nobody writes to a request after it was passed on, other than its handler. *)
Definition quiet (tr : list rsev) : Prop := forall s w, ~ In (RsSet After s w) tr.

(* Event e shows what its request contains after tr. *)
Definition true_to (tr : list rsev) (e : rsev) : Prop :=
  match e with
  | RsLook _ s c m => exists ks, content s tr = Some (Ob c m ks)
  | RsGet _ s k v => exists x, content s tr = Some x /\ v = get_key (ob_keys x) k
  | _ => True
  end.
(* Interceptors before passing on, and handlers. *)
Definition in_time (e : rsev) : Prop := match e with RsLook After _ _ _ | RsGet After _ _ _ => False | _ => True end.

(* Vocabulary for interceptor chains. *)
From Coq Require Import ZArith List Bool.
From Verif Require Import Chain.
Import ListNotations.

(* The positions of the interceptors started, in order of start. *)
Definition started (es : list event) : list nat :=
  flat_map (fun e => match e with Enter p _ => [p] | Deliver _ => [] end) es.

(* A run of an interceptor that never calls Proceed. *)
Inductive no_proceed : act -> Prop :=
| NP_return r : no_proceed (Return r)
| NP_panic : no_proceed PanicAct
| NP_dispatch q a : no_proceed a -> no_proceed (Dispatch q a).

(* Two simple interceptor behaviours: pass a transformed request on and
   transform the response on the way back, or answer without proceeding. *)
Inductive behaviour :=
| Pass (f : icreq -> icreq) (g : icreq -> icreq)
| Halt (v : icreq).
Definition interceptor_of (b : behaviour) : interceptor := fun r =>
  match b with
  | Pass f g => Proceed (f r) (fun v => Return (g v))
  | Halt v => Return v
  end.

(* The requests seen by the interceptors that run: each sees what its
   predecessor passed on; nobody runs after a Halt. *)
Fixpoint requests_seen (bs : list behaviour) (r : icreq) : list icreq :=
  match bs with
  | [] => []
  | Pass f _ :: bs' => r :: requests_seen bs' (f r)
  | Halt _ :: _ => [r]
  end.
(* The response of the chain: responses travel back through the same interceptors. *)
Fixpoint response (bs : list behaviour) (r : icreq) : icreq :=
  match bs with
  | [] => r
  | Pass f g :: bs' => g (response bs' (f r))
  | Halt v :: _ => v
  end.

(* Registration calls on the chain builder, and the order they ask for. *)
Inductive registration := RHead (i : interceptor) | RAdd (i : interceptor) | RTail (i : interceptor).
Definition register (b : builder) (g : registration) : builder :=
  match g with
  | RHead i => set_head b i
  | RAdd i => add_interceptor b i
  | RTail i => set_tail b i
  end.
Definition last_of (sel : registration -> option interceptor) (gs : list registration) : list interceptor :=
  match rev (flat_map (fun g => match sel g with Some i => [i] | None => [] end) gs) with
  | [] => []
  | i :: _ => [i]
  end.
Definition added (gs : list registration) : list interceptor :=
  flat_map (fun g => match g with RAdd i => [i] | _ => [] end) gs.
Definition requested_order (gs : list registration) : list interceptor :=
  last_of (fun g => match g with RHead i => Some i | _ => None end) gs
  ++ added gs
  ++ last_of (fun g => match g with RTail i => Some i | _ => None end) gs.

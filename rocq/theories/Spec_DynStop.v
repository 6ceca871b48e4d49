(* Vocabulary of C102, in terms of what happened (a list of dev). *)
From Coq Require Import List Bool Arith.
From Verif Require Import DynStop.
Import ListNotations.

(* The requests of connection c that its reader read, that got into a queue, that
   were lost in a panic, and that a worker took, in order. *)
Definition reads (c : nat) (tr : list dev) : list nat :=
  flat_map (fun e => match e with DeRead d m => if Nat.eqb d c then [m] else [] | _ => [] end) tr.
Definition queued (c : nat) (tr : list dev) : list nat :=
  flat_map (fun e => match e with DeQueued d m => if Nat.eqb d c then [m] else [] | _ => [] end) tr.
Definition lost (c : nat) (tr : list dev) : list nat :=
  flat_map (fun e => match e with DeLost d m => if Nat.eqb d c then [m] else [] | _ => [] end) tr.
Definition handled (c : nat) (tr : list dev) : list nat :=
  flat_map (fun e => match e with DeHandled d m => if Nat.eqb d c then [m] else [] | _ => [] end) tr.

Definition begins {A} (a b : list A) : Prop := exists r, b = a ++ r.

(* No extra worker ID was handed out twice. *)
Definition unshared (tr : list dev) : Prop :=
  forall c d lk lk' w, In (DeStart c lk w) tr -> In (DeStart d lk' w) tr -> c = d.
(* Two connections that were given the same ID. *)
Definition same_worker (tr : list dev) (c d : nat) : Prop :=
  exists lk lk' w, In (DeStart c lk w) tr /\ In (DeStart d lk' w) tr.
(* A worker is stopped only when the reader of its connection has queued what it
   read, and it reads no more afterwards. *)
Definition quiet_stops (tr : list dev) : Prop :=
  forall a b c, tr = a ++ DeFreed c :: b -> reads c a = queued c a /\ reads c b = [].
(* Handlers and workers at work: nothing but receiving and returning. *)
Definition worker_only (l : dlabel) : Prop := match l with DlTake _ | DlDone _ => True | _ => False end.

(* Linearizability, by linearization points (Herlihy and Wing): one can insert
   into the history, between each call and its return, one point at which the
   call takes effect, so that the calls in the order of their points are a
   history of the plain map.  Calls still running may or may not have a point. *)
From Coq Require Import List Bool Arith.
From Verif Require Import Bytes ShardMap ShardConc Spec_Map.
Import ListNotations.

Section Lin.
Context {V : Type}.

Inductive item := ItEv (e : cev V) | ItPoint (t : nat) (o : mop V) (r : mret V).

Definition history (w : list item) : list (cev V) :=
  flat_map (fun i => match i with ItEv e => [e] | _ => [] end) w.
Definition points (w : list item) : list (mop V * mret V) :=
  flat_map (fun i => match i with ItPoint _ o r => [(o, r)] | _ => [] end) w.

Inductive titem := TCall (o : mop V) | TPoint (o : mop V) (r : mret V) | TRet (r : mret V).
(* What goroutine t does in w. *)
Definition of_thread (t : nat) (w : list item) : list titem :=
  flat_map (fun i => match i with
    | ItEv (CCall u o) => if Nat.eqb u t then [TCall o] else []
    | ItEv (CRet u r) => if Nat.eqb u t then [TRet r] else []
    | ItPoint u o r => if Nat.eqb u t then [TPoint o r] else []
    end) w.
(* Calls one after the other; each has its point between call and return, and
   the answer of the point is the answer returned. *)
Inductive thread_ok : list titem -> Prop :=
| TokNil : thread_ok []
| TokCalled o : thread_ok [TCall o]
| TokPointed o r : thread_ok [TCall o; TPoint o r]
| TokDone o r rest : thread_ok rest -> thread_ok (TCall o :: TPoint o r :: TRet r :: rest).

Definition linearizable (a0 : amap V) (h : list (cev V)) : Prop :=
  exists w, history w = h /\ (forall t, thread_ok (of_thread t w)) /\ exists a, a_calls a0 (points w) a.

(* Counting on histories. *)
Definition calls_of (h : list (cev V)) : list (mop V) :=
  flat_map (fun e => match e with CCall _ o => [o] | _ => [] end) h.
Definition answers (h : list (cev V)) : list (mret V) :=
  flat_map (fun e => match e with CRet _ r => [r] | _ => [] end) h.
Definition winners (h : list (cev V)) : nat :=
  length (filter (fun r => match r with RBool true => true | _ => false end) (answers h)).
(* A RemoveCb callback: remove when there is something to remove. *)
Definition when_present (k : key) (v : option V) : bool := match v with Some _ => true | None => false end.
End Lin.

(* Reading the state of concurrent calls on the shard map. *)
From Coq Require Import ZArith List Bool Arith.
From Verif Require Import Bytes ShardMap ShardConc.
Import ListNotations.

Section L.
Context {V : Type}.
(* Goroutine t has called o and waits for the lock; it has the lock. *)
Definition waiting (s : cst V) (t : nat) (o : mop V) : Prop := cs_thr s t = PCalled o.
Definition inside (s : cst V) (t : nat) (o : mop V) : Prop :=
  match cs_thr s t with PHold o' | PRead o' _ | PUnlock o' _ => o' = o | _ => False end.
(* Calls that may change the map. *)
Definition changes (o : mop V) : Prop := match o with MGet _ | MHas _ => False | _ => True end.
(* The two calls are for keys of the same shard. *)
Definition same_shard (hash : key -> Z) (o o' : mop V) : Prop :=
  exists k k', op_key o = Some k /\ op_key o' = Some k' /\ shard_of hash k = shard_of hash k'.
(* How often goroutine t gets to run. *)
Definition turns (t : nat) (ls : list (clabel V)) : nat :=
  length (filter (fun l => match l with LStep u => Nat.eqb u t | LCall _ _ => false end) ls).
Definition no_new_calls (l : clabel V) : Prop := match l with LStep _ => True | LCall _ _ => False end.
End L.

(* What an iteration that overlaps other calls may report. *)
From Coq Require Import ZArith List Bool.
From Verif Require Import Bytes ShardMap Spec_Map ShardIter.
Import ListNotations.

Section Spec.
Context {V : Type}.

(* l reports every key as it was at one of the moments listed: there with the
   value it then had, or not there.  No key is reported twice. *)
Definition each_key_as_once (during : list (amap V)) (l : list (key * V)) : Prop :=
  NoDup (map fst l) /\ forall k, exists a, In a during /\ forall v, In (k, v) l <-> a k = Some v.
Definition each_key_as_once_keys (during : list (amap V)) (l : list key) : Prop :=
  NoDup l /\ forall k, exists a, In a during /\ (In k l <-> a k <> None).
(* l is the whole map at one of those moments. *)
Definition as_a_whole (during : list (amap V)) (l : list (key * V)) : Prop :=
  exists a, In a during /\ lists_entries a l.

(* The content of the map at every moment of a call. *)
Definition iter_during (tr : list (iter V)) : list (amap V) := map (fun s => sm_get (ir_map s)) tr.
Definition keys_during (tr : list (keys V)) : list (amap V) := map (fun s => sm_get (ks_map s)) tr.
Definition count_during (tr : list (count V)) : list (amap V) := map (fun s => sm_get (ct_map s)) tr.
Definition cb_during (tr : list (cbs V)) : list (amap V) := map (fun s => sm_get (cb_map s)) tr.

(* Steps of the iterator's own goroutines: not other callers, not the range loop. *)
Definition own (l : ilabel V) : Prop := match l with IOther _ | INext => False | _ => True end.
Definition kown (l : klabel V) : Prop := match l with KOther _ => False | _ => True end.
Definition nobody_else (l : cblabel V) : Prop := match l with QOther _ => False | _ => True end.
(* Some goroutine of the iteration holds a lock of the map. *)
Definition locked (s : iter V) : Prop := exists i, held (ir_lanes s) i = true.
End Spec.

(* The call is a single-key call on k. *)
Definition touches {V} (o : mop V) (k : key) : Prop := writes o = Some k \/ reads o = Some k.
(* Called for a key, the callback only uses keys of other shards. *)
Definition elsewhere {V} (hash : key -> Z) (cb : key -> V -> list (mop V)) : Prop :=
  forall k v o, In o (cb k v) -> exists k', touches o k' /\ shard_of hash k' <> shard_of hash k.

(* Model of MarshalJSON and UnmarshalJSON of the sharded map (zutils/shard_lock_map.go 275-297)
   and of a ShardLockMaps that was declared and not made (the zero value: no shards, no hash).
   json.Marshal and json.Unmarshal of a map[string]interface{} are any functions. *)
From Coq Require Import List Permutation.
From Verif Require Import Bytes ShardMap.
Import ListNotations.

Section Json.
Context {V : Type}.
Variable marshal : gomap V -> option (list byte).    (* json.Marshal; None: an error *)
Variable unmarshal : list byte -> option (gomap V).  (* json.Unmarshal into an empty map; None: an error *)

(* 276-283: the entries go into a Go map, which json.Marshal ranges over in any order. *)
Definition to_json (m : smap V) (r : option (list byte)) : Prop := exists ord, Permutation ord (sm_entries m) /\ r = marshal ord.

(* A ShardLockMaps value: None is the zero value. *)
Inductive answer := Done (m : option (smap V)) | Err (m : option (smap V)) | NilPanic.
(* 286-297; GetShard (45-47) calls the nil hash of a zero value *)
Inductive from_json (m : option (smap V)) (b : list byte) : answer -> Prop :=
| JErr : unmarshal b = None -> from_json m b (Err m)
| JDone tmp ord m0 : unmarshal b = Some tmp -> Permutation ord tmp -> m = Some m0 -> from_json m b (Done (Some (sm_mset m0 ord)))
| JEmpty : unmarshal b = Some [] -> m = None -> from_json m b (Done None)
| JNil e tmp : unmarshal b = Some (e :: tmp) -> m = None -> from_json m b NilPanic.
End Json.

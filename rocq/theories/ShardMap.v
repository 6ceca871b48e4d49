(* Model of zutils/shard_lock_map.go and zutils/hash.go, called by one goroutine
   at a time (interleaved calls: ShardConc.v).  A Go map is an association list
   with distinct keys.  Where Go ranges over a map or collects from several
   goroutines the order is any order: those operations are relations. *)
From Coq Require Import ZArith List Bool Arith Permutation.
From Verif Require Import Bytes GoSlice.
Import ListNotations.
Local Open Scope Z_scope.

Definition key := list byte.
(* Go: == on strings. *)
Fixpoint key_eqb (a b : key) : bool :=
  match a, b with
  | [], [] => true
  | x :: a', y :: b' => Byte.eqb x y && key_eqb a' b'
  | _, _ => false
  end.

(* zutils/hash.go 3-6, 19-28: Fnv32Hash.Sum *)
Definition fnv_offset : Z := 2166136261.
Definition fnv_prime : Z := 16777619.
Definition fnv32 (k : key) : Z :=
  fold_left (fun h b => Z.lxor (u32 (h * fnv_prime)) (b2z b)) k fnv_offset.

(* zutils/shard_lock_map.go 8 *)
Definition shard_count : nat := 32.

Section Maps.
Context {V : Type}.

(* Go: map[string]interface{} *)
Definition gomap := list (key * V).
(* Go: v, ok := m[k] *)
Fixpoint gm_get (k : key) (m : gomap) : option V :=
  match m with
  | [] => None
  | (k', v) :: m' => if key_eqb k' k then Some v else gm_get k m'
  end.
(* Go: delete(m, k) *)
Definition gm_del (k : key) (m : gomap) : gomap := filter (fun e => negb (key_eqb (fst e) k)) m.
(* Go: m[k] = v *)
Definition gm_set (k : key) (v : V) (m : gomap) : gomap := (k, v) :: gm_del k m.

(* zutils/shard_lock_map.go 12-21.  The hash is any IHash. *)
Record smap := Smap { sm_hash : key -> Z; sm_shards : list gomap }.

(* zutils/shard_lock_map.go 24-42: createShardLockMaps *)
Definition sm_new (hash : key -> Z) : smap :=
  {| sm_hash := hash; sm_shards := repeat [] shard_count |}.

(* zutils/shard_lock_map.go 45-47: GetShard; Sum returns a uint32. *)
Definition shard_of (hash : key -> Z) (k : key) : nat :=
  Z.to_nat (u32 (hash k) mod Z.of_nat shard_count).
Definition get_shard (m : smap) (k : key) : gomap := nth (shard_of (sm_hash m) k) (sm_shards m) [].
Definition put_shard (m : smap) (k : key) (g : gomap) : smap :=
  {| sm_hash := sm_hash m; sm_shards := set_nth (shard_of (sm_hash m) k) g (sm_shards m) |}.

(* zutils/shard_lock_map.go 50-59: Count *)
Definition sm_count (m : smap) : nat := fold_left (fun n g => n + length g)%nat (sm_shards m) O.
(* zutils/shard_lock_map.go 62-68: Get *)
Definition sm_get (m : smap) (k : key) : option V := gm_get k (get_shard m k).
(* zutils/shard_lock_map.go 71-76: Set *)
Definition sm_set (m : smap) (k : key) (v : V) : smap := put_shard m k (gm_set k v (get_shard m k)).
(* zutils/shard_lock_map.go 79-88: SetNX *)
Definition sm_setnx (m : smap) (k : key) (v : V) : smap * bool :=
  match gm_get k (get_shard m k) with
  | Some _ => (m, false)
  | None => (put_shard m k (gm_set k v (get_shard m k)), true)
  end.
(* zutils/shard_lock_map.go 91-98, 285-297: MSet and the loop of UnmarshalJSON,
   on the entries in the order of the range. *)
Definition sm_mset (m : smap) (data : gomap) : smap := fold_left (fun m e => sm_set m (fst e) (snd e)) data m.
(* zutils/shard_lock_map.go 101-107: Has *)
Definition sm_has (m : smap) (k : key) : bool := match gm_get k (get_shard m k) with Some _ => true | None => false end.
(* zutils/shard_lock_map.go 110-115: Remove *)
Definition sm_remove (m : smap) (k : key) : smap := put_shard m k (gm_del k (get_shard m k)).
(* zutils/shard_lock_map.go 124-135: RemoveCb; the callback is any function. *)
Definition sm_remove_cb (m : smap) (k : key) (cb : key -> option V -> bool) : smap * bool :=
  let v := gm_get k (get_shard m k) in
  let remove := cb k v in
  (if remove && match v with Some _ => true | None => false end
   then put_shard m k (gm_del k (get_shard m k)) else m, remove).
(* zutils/shard_lock_map.go 138-145: Pop *)
Definition sm_pop (m : smap) (k : key) : smap * option V :=
  (put_shard m k (gm_del k (get_shard m k)), gm_get k (get_shard m k)).
(* zutils/shard_lock_map.go 155-157: IsEmpty *)
Definition sm_is_empty (m : smap) : bool := Nat.eqb (sm_count m) 0.
(* zutils/shard_lock_map.go 169-215: what IterBuffered delivers, up to order. *)
Definition sm_entries (m : smap) : gomap := concat (sm_shards m).
(* zutils/shard_lock_map.go 148-152: Clear, on the entries in the order delivered. *)
Definition sm_clear (m : smap) (ord : gomap) : smap := fold_left (fun m e => sm_remove m (fst e)) ord m.

Inductive mop :=
| MGet (k : key) | MHas (k : key) | MSet1 (k : key) (v : V) | MSetNX (k : key) (v : V)
| MMSet (data : gomap) | MRemove (k : key) | MRemoveCb (k : key) (cb : key -> option V -> bool)
| MPop (k : key) | MClear | MCount | MIsEmpty | MKeys | MItems | MIterCb.
Inductive mret :=
| RUnit | RVal (v : option V) | RBool (b : bool) | RNat (n : nat) | RKeys (l : list key) | RItems (l : gomap).

(* One call and its answer.  Items returns a Go map; IterCb (zutils/shard_lock_map.go
   264-273) answers with the entries passed to the callback, in order. *)
Inductive sm_call : smap -> mop -> mret -> smap -> Prop :=
| SMGet m k : sm_call m (MGet k) (RVal (sm_get m k)) m
| SMHas m k : sm_call m (MHas k) (RBool (sm_has m k)) m
| SMSet m k v : sm_call m (MSet1 k v) RUnit (sm_set m k v)
| SMSetNX m k v : sm_call m (MSetNX k v) (RBool (snd (sm_setnx m k v))) (fst (sm_setnx m k v))
| SMMSet m data ord : Permutation ord data -> sm_call m (MMSet data) RUnit (sm_mset m ord)
| SMRemove m k : sm_call m (MRemove k) RUnit (sm_remove m k)
| SMRemoveCb m k cb : sm_call m (MRemoveCb k cb) (RBool (snd (sm_remove_cb m k cb))) (fst (sm_remove_cb m k cb))
| SMPop m k : sm_call m (MPop k) (RVal (snd (sm_pop m k))) (fst (sm_pop m k))
| SMClear m ord : Permutation ord (sm_entries m) -> sm_call m MClear RUnit (sm_clear m ord)
| SMCount m : sm_call m MCount (RNat (sm_count m)) m
| SMIsEmpty m : sm_call m MIsEmpty (RBool (sm_is_empty m)) m
| SMKeys m l : Permutation l (map fst (sm_entries m)) -> sm_call m MKeys (RKeys l) m
| SMItems m l : Permutation l (sm_entries m) -> sm_call m MItems (RItems l) m
| SMIterCb m l : Permutation l (sm_entries m) -> sm_call m MIterCb (RItems l) m.

(* A history of calls and their answers. *)
Inductive sm_calls : smap -> list (mop * mret) -> smap -> Prop :=
| SMNil m : sm_calls m [] m
| SMCons m o r m1 h m2 : sm_call m o r m1 -> sm_calls m1 h m2 -> sm_calls m ((o, r) :: h) m2.
End Maps.
Arguments gomap : clear implicits.
Arguments smap : clear implicits.
Arguments mop : clear implicits.
Arguments mret : clear implicits.

(* Model of znet/connmanager.go over the sharded map. *)
From Coq Require Import ZArith List Bool Permutation.
From Verif Require Import Bytes ShardMap Decimal.
Import ListNotations.

(* A connection object: which one, and its connID (connIdStr is
   strconv.FormatUint(connID, 10), znet/connection.go 129-130). *)
Record conn := Conn { cn_obj : nat; cn_id : Z }.
Definition conn_id_str (c : conn) : key := format_uint (cn_id c).

Definition manager := smap conn.
(* znet/connmanager.go 16-20 *)
Definition cm_new : manager := sm_new fnv32.
(* znet/connmanager.go 22-27: Add *)
Definition cm_add (m : manager) (c : conn) : manager := sm_set m (conn_id_str c) c.
(* znet/connmanager.go 29-34: Remove *)
Definition cm_remove (m : manager) (c : conn) : manager := sm_remove m (conn_id_str c).
(* znet/connmanager.go 36-44: Get *)
Definition cm_get (m : manager) (id : Z) : option conn := sm_get m (format_uint id).
(* znet/connmanager.go 47-54: Get2 *)
Definition cm_get2 (m : manager) (s : key) : option conn := sm_get m s.
(* znet/connmanager.go 56-61: Len *)
Definition cm_len (m : manager) : nat := sm_count m.
(* znet/connmanager.go 78-93: GetAllConnID, on the keys in the order delivered *)
Definition cm_ids (keys : list key) : list Z :=
  flat_map (fun s => if snd (parse_uint s) then [fst (parse_uint s)] else []) keys.

(* zutils/shard_lock_map.go 264-273: the orders in which IterCb can visit the
   entries: shard after shard, each in any order. *)
Definition iter_order (m : manager) (l : list (key * conn)) : Prop :=
  exists ords, Forall2 (@Permutation _) ords (sm_shards m) /\ l = concat ords.

(* znet/connmanager.go 99-111: Range.  The callback may depend on anything,
   including how often it was called; true is a non-nil error.  The result is
   the calls made and the error returned. *)
Section Range.
Variable cb : nat -> Z -> conn -> bool.
Fixpoint range_loop (n : nat) (err : bool) (l : list (key * conn)) : list (Z * conn) * bool :=
  match l with
  | [] => ([], err)
  | (k, c) :: l' =>
    let id := fst (parse_uint k) in
    let err := cb n id c in
    let '(calls, e) := range_loop (S n) err l' in ((id, c) :: calls, e)
  end.
End Range.
Definition cm_range (cb : nat -> Z -> conn -> bool) (ord : list (key * conn)) := range_loop cb 0 false ord.

(* znet/connmanager.go 114-125: Range2 *)
Section Range2.
Variable cb : nat -> key -> conn -> bool.
Fixpoint range2_loop (n : nat) (err : bool) (l : list (key * conn)) : list (key * conn) * bool :=
  match l with
  | [] => ([], err)
  | (_, c) :: l' =>
    let err := cb n (conn_id_str c) c in
    let '(calls, e) := range2_loop (S n) err l' in ((conn_id_str c, c) :: calls, e)
  end.
End Range2.
Definition cm_range2 (cb : nat -> key -> conn -> bool) (ord : list (key * conn)) := range2_loop cb 0 false ord.

Inductive cmop :=
| CmAdd (c : conn) | CmRemove (c : conn) | CmGet (id : Z) | CmGet2 (s : key) | CmLen
| CmClear | CmAllIDs | CmAllIdStr
| CmRange (cb : nat -> Z -> conn -> bool) | CmRange2 (cb : nat -> key -> conn -> bool).
Inductive cmret :=
| CrUnit | CrConn (c : option conn) | CrNat (n : nat)
| CrStopped (l : list conn)                       (* Stop called on these *)
| CrIDs (l : list Z) | CrStrs (l : list key)
| CrRange (calls : list (Z * conn)) (err : bool) | CrRange2 (calls : list (key * conn)) (err : bool).

(* One call.  ClearConn (znet/connmanager.go 63-76) calls Stop on every
   connection and removes none; what Stop does is in ConnLife.v. *)
Inductive cm_call : manager -> cmop -> cmret -> manager -> Prop :=
| CMAdd m c : cm_call m (CmAdd c) CrUnit (cm_add m c)
| CMRemove m c : cm_call m (CmRemove c) CrUnit (cm_remove m c)
| CMGet m id : cm_call m (CmGet id) (CrConn (cm_get m id)) m
| CMGet2 m s : cm_call m (CmGet2 s) (CrConn (cm_get2 m s)) m
| CMLen m : cm_call m CmLen (CrNat (cm_len m)) m
| CMClear m ord : Permutation ord (sm_entries m) -> cm_call m CmClear (CrStopped (map snd ord)) m
| CMAllIDs m ord : Permutation ord (map fst (sm_entries m)) -> cm_call m CmAllIDs (CrIDs (cm_ids ord)) m
| CMAllIdStr m ord : Permutation ord (map fst (sm_entries m)) -> cm_call m CmAllIdStr (CrStrs ord) m
| CMRange m cb ord : iter_order m ord ->
    cm_call m (CmRange cb) (CrRange (fst (cm_range cb ord)) (snd (cm_range cb ord))) m
| CMRange2 m cb ord : iter_order m ord ->
    cm_call m (CmRange2 cb) (CrRange2 (fst (cm_range2 cb ord)) (snd (cm_range2 cb ord))) m.
Inductive cm_calls : manager -> list (cmop * cmret) -> manager -> Prop :=
| CMNil m : cm_calls m [] m
| CMCons m o r m1 h m2 : cm_call m o r m1 -> cm_calls m1 h m2 -> cm_calls m ((o, r) :: h) m2.

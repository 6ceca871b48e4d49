(* A plain map: what each call must answer. *)
From Coq Require Import List.
From Verif Require Import Bytes ShardMap.
Import ListNotations.

Section Spec.
Context {V : Type}.
Definition amap := key -> option V.
Definition a_empty : amap := fun _ => None.
Definition a_set (a : amap) (k : key) (v : V) : amap := fun k' => if key_eqb k k' then Some v else a k'.
Definition a_del (a : amap) (k : key) : amap := fun k' => if key_eqb k k' then None else a k'.
Definition a_has (a : amap) (k : key) : bool := match a k with Some _ => true | None => false end.

(* l lists the entries of a, each once. *)
Definition lists_entries (a : amap) (l : list (key * V)) : Prop :=
  NoDup (map fst l) /\ forall k v, In (k, v) l <-> a k = Some v.
Definition lists_keys (a : amap) (l : list key) : Prop :=
  NoDup l /\ forall k, In k l <-> a k <> None.

(* Calls that touch one key. *)
Inductive a_call1 : amap -> mop V -> mret V -> amap -> Prop :=
| AGet a k : a_call1 a (MGet k) (RVal (a k)) a
| AHas a k : a_call1 a (MHas k) (RBool (a_has a k)) a
| ASet a k v : a_call1 a (MSet1 k v) RUnit (a_set a k v)
| ASetNX a k v : a_call1 a (MSetNX k v) (RBool (negb (a_has a k))) (if a_has a k then a else a_set a k v)
| ARemove a k : a_call1 a (MRemove k) RUnit (a_del a k)
| ARemoveCb a k cb : a_call1 a (MRemoveCb k cb) (RBool (cb k (a k))) (if cb k (a k) then a_del a k else a)
| APop a k : a_call1 a (MPop k) (RVal (a k)) (a_del a k).

Inductive a_call : amap -> mop V -> mret V -> amap -> Prop :=
| AOne a o r a1 : a_call1 a o r a1 -> a_call a o r a1
| AMSet a data a1 :   (* data is a Go map: distinct keys *)
    NoDup (map fst data) ->
    (forall k v, In (k, v) data -> a1 k = Some v) ->
    (forall k, ~ In k (map fst data) -> a1 k = a k) -> a_call a (MMSet data) RUnit a1
| AClear a a1 : (forall k, a1 k = None) -> a_call a MClear RUnit a1
| ACount a l : lists_keys a l -> a_call a MCount (RNat (length l)) a
| AIsEmpty a b : (b = true <-> forall k, a k = None) -> a_call a MIsEmpty (RBool b) a
| AKeys a l : lists_keys a l -> a_call a MKeys (RKeys l) a
| AItems a l : lists_entries a l -> a_call a MItems (RItems l) a
| AIterCb a l : lists_entries a l -> a_call a MIterCb (RItems l) a.

Inductive a_calls : amap -> list (mop V * mret V) -> amap -> Prop :=
| ANil a : a_calls a [] a
| ACons a o r a1 h a2 : a_call a o r a1 -> a_calls a1 h a2 -> a_calls a ((o, r) :: h) a2.

(* The arguments of a call are well formed: MSet takes a Go map. *)
Definition op_ok (o : mop V) : Prop := match o with MMSet data => NoDup (map fst data) | _ => True end.
End Spec.
Arguments amap : clear implicits.

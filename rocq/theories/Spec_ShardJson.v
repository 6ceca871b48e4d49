(* What is assumed of encoding/json. *)
From Coq Require Import List.
From Verif Require Import Bytes ShardMap.
Import ListNotations.

(* Unmarshal gives a map: every key once. *)
Definition gives_maps {V} (unmarshal : list byte -> option (gomap V)) : Prop := forall b tmp, unmarshal b = Some tmp -> NoDup (map fst tmp).
(* What Marshal writes, Unmarshal reads back, up to what JSON makes of the values (numbers
   become float64, structs become maps, ...); Marshal fails on values that have no JSON. *)
Definition reads_back {V} (marshal : gomap V -> option (list byte)) (unmarshal : list byte -> option (gomap V)) (conv : V -> V) : Prop :=
  forall m b, NoDup (map fst m) -> marshal m = Some b -> exists tmp, unmarshal b = Some tmp /\ forall k v, In (k, v) tmp <-> exists w, In (k, w) m /\ v = conv w.

(* What C96 says. *)
From Coq Require Import ZArith List Bool.
From Verif Require Import Bytes Aoi World Robot.
Import ListNotations.
Local Open Scope Z_scope.

(* A message that has a length field: the ID and the length fit 32 bits. *)
Definition fits (p : Z * list byte) : Prop := 0 <= fst p < 2 ^ 32 /\ zlen (snd p) < 2 ^ 32.

(* Where NewPlayer puts a player (core/player.go 35-39). *)
Definition start_at (x z : Z) : Prop := exists i j, 0 <= i < 50 /\ 0 <= j < 50 /\ x = (160 + i) * unit /\ z = (134 + j) * unit.
(* What rand.Intn(10) gives. *)
Definition fair (c : chance) : Prop := match c with Chat => True | Walk _ dx dz => 0 <= dx < 10 /\ 0 <= dz < 10 end.
(* The messages of a list that go to one player, in order. *)
Definition sent_to (pid : Z) (ms : list msg) : list msg := filter (fun m => m_to m =? pid) ms.

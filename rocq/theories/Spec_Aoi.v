(* Vocabulary of the grid properties: a map of cx columns and cy rows. *)
From Coq Require Import ZArith List Bool.
From Verif Require Import Aoi.
Import ListNotations.
Local Open Scope Z_scope.

(* The grid in this row and column is on the map, and its number. *)
Definition on_map (cx cy row col : Z) : Prop := 0 <= row < cy /\ 0 <= col < cx.
Definition number (cx row col : Z) : Z := row * cx + col.
(* Two grids of the map are neighbours (a grid is its own neighbour). *)
Definition near (cx cy g h : Z) : Prop :=
  exists r c r' c', on_map cx cy r c /\ on_map cx cy r' c' /\ g = number cx r c /\ h = number cx r' c' /\ Z.abs (r - r') <= 1 /\ Z.abs (c - c') <= 1.
(* Position (x, y), in units of 2^-149, lies in the grid's rectangle. *)
Definition contains (g : grid) (x y : Z) : Prop :=
  g_minx g * unit <= x < g_maxx g * unit /\ g_miny g * unit <= y < g_maxy g * unit.
(* The position lies within the bounds the map was made with. *)
Definition in_bounds (m : aoi) (x y : Z) : Prop :=
  a_minx m * unit <= x < a_maxx m * unit /\ a_miny m * unit <= y < a_maxy m * unit.
(* Truncation rounds this coordinate down. *)
Definition rounds_down (x : Z) : Prop := 0 <= x \/ (unit | x).

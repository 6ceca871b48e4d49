(* Model of zinx_app_demo/mmo_game/core/aoi.go and grid.go: the geometry.  Who is in a
   grid is in World.v.  Go int is Z (no wrap-around: the parameters are far from 2^63).
   A float32 position is exact: every finite float32 is a multiple of 2^-149, and is
   written here as that multiple; NaN and infinities are left out. *)
From Coq Require Import ZArith List Bool.
Import ListNotations.
Local Open Scope Z_scope.

Definition unit : Z := 2 ^ 149.
(* Go: int(x) for a float32 x *)
Definition int_of (x : Z) : Z := Z.quot x unit.

(* grid.go 9-17, 20-29 *)
Record grid := Grid { g_id : Z; g_minx : Z; g_maxx : Z; g_miny : Z; g_maxy : Z }.
(* aoi.go 15-23; the map of grids as an association list, last assignment first. *)
Record aoi := Aoi { a_minx : Z; a_maxx : Z; a_cx : Z; a_miny : Z; a_maxy : Z; a_cy : Z; a_grids : list (Z * grid) }.

Fixpoint g_get (id : Z) (l : list (Z * grid)) : option grid :=
  match l with [] => None | (i, g) :: l' => if i =? id then Some g else g_get id l' end.

(* aoi.go 62-64, 68-70.  None: division by zero. *)
Definition width (m : aoi) : option Z := if a_cx m =? 0 then None else Some (Z.quot (a_maxx m - a_minx m) (a_cx m)).
Definition len (m : aoi) : option Z := if a_cy m =? 0 then None else Some (Z.quot (a_maxy m - a_miny m) (a_cy m)).

(* Go: for i := 0; i < n; i++ *)
Definition upto (n : Z) : list Z := map Z.of_nat (seq 0 (Z.to_nat n)).

(* aoi.go 27-58: in the loop neither count is zero, so width and len are defined. *)
Definition grid_at (minx miny cx w l y x : Z) : Z * grid :=
  let id := y * cx + x in (id, Grid id (minx + x * w) (minx + (x + 1) * w) (miny + y * l) (miny + (y + 1) * l)).
Definition new_aoi (minx maxx cx miny maxy cy : Z) : aoi :=
  let m := Aoi minx maxx cx miny maxy cy [] in
  let w := match width m with Some w => w | None => 0 end in
  let l := match len m with Some l => l | None => 0 end in
  Aoi minx maxx cx miny maxy cy
    (fold_left (fun gs y => fold_left (fun gs x => grid_at minx miny cx w l y x :: gs) (upto cx) gs) (upto cy) []).

(* aoi.go 108-109 *)
Definition dirs : list (Z * Z) := [(-1, -1); (-1, 0); (-1, 1); (0, -1); (0, 1); (1, -1); (1, 0); (1, 1)].

(* aoi.go 86-132: GetSurroundGrIDsByGID; None in the list would be a nil *GrID. *)
Definition surround (m : aoi) (gid : Z) : list (option grid) :=
  match g_get gid (a_grids m) with
  | None => []
  | Some g =>
    let x := Z.rem gid (a_cx m) in let y := Z.quot gid (a_cx m) in
    Some g :: map (fun id => g_get id (a_grids m))
      (flat_map (fun d => let nx := x + fst d in let ny := y + snd d in
                          if (0 <=? nx) && (nx <? a_cx m) && (0 <=? ny) && (ny <? a_cy m) then [ny * a_cx m + nx] else []) dirs)
  end.

(* aoi.go 136-141: GetGIDByPos; None: division by zero. *)
Definition gid_by_pos (m : aoi) (x y : Z) : option Z :=
  match width m, len m with
  | Some w, Some l =>
    if (w =? 0) || (l =? 0) then None
    else Some (Z.quot (int_of y - a_miny m) l * a_cx m + Z.quot (int_of x - a_minx m) w)
  | _, _ => None
  end.

(* aoi.go 6-11, world_manager.go 21-24: the map of the demo. *)
Definition demo_aoi : aoi := new_aoi 85 410 10 75 400 20.

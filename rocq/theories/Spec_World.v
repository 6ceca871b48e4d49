(* Vocabulary of the properties of the game world. *)
From Coq Require Import ZArith List Bool.
From Verif Require Import Aoi Spec_Aoi World.
Import ListNotations.
Local Open Scope Z_scope.

(* Where a player is after a history of joins, moves and leaves; None: not online. *)
Definition pos_after (cur : option (Z * Z)) (pid : Z) (o : wop) : option (Z * Z) :=
  match o with
  | WJoin q x z => if q =? pid then Some (x, z) else cur
  | WMove q x z => if q =? pid then match cur with Some _ => Some (x, z) | None => None end else cur
  | WLeave q => if q =? pid then None else cur
  end.
Definition last_pos (h : list wop) (pid : Z) : option (Z * Z) := fold_left (fun cur o => pos_after cur pid o) h None.

(* The position has a grid on the map. *)
Definition placed (a : aoi) (x z : Z) : Prop := exists gid g, gid_by_pos a x z = Some gid /\ g_get gid (a_grids a) = Some g.
Definition op_placed (a : aoi) (o : wop) : Prop := match o with WJoin _ x z | WMove _ x z => placed a x z | WLeave _ => True end.
(* Every join is by a new player ID. *)
Definition joined (h : list wop) : list Z := flat_map (fun o => match o with WJoin pid _ _ => [pid] | _ => [] end) h.

Definition disappear (m : msg) : bool := m_id m =? 201.
Definition appear (m : msg) : bool := (m_id m =? 200) && (m_tp m =? 2).
(* Players, each once, who are now in a grid that neighbours g and does not neighbour g'. *)
Definition lists_players (cx cy : Z) (s : world) (g g' : Z) (qs : list Z) : Prop :=
  NoDup qs /\ forall q, In q qs <-> exists h, In q (w_mem s h) /\ near cx cy g h /\ ~ near cx cy g' h.

(* The calls of World.v interleaved step by step, as goroutines run them.  A *Player
   outlives its entry in Players, so the objects are kept apart (c_obj; one object per
   player ID, as NewPlayer numbers them).  Only what changes or reads shared state is a
   step; what follows the last change of a call (the broadcasts) is left out, except in
   LostConnection, where the lookup of the surrounding players comes first and can panic
   before the player is removed. *)
From Coq Require Import ZArith List Bool.
From Verif Require Import AsyncResult Aoi World.
Import ListNotations.
Local Open Scope Z_scope.

Inductive cpc :=
| Idle
| J1                          (* AddPlayer: in Players, not yet in the grid *)
| M1                          (* UpdatePos entered: the handler holds the *Player *)
| M2 (old new : Z)            (* position written, grids differ *)
| M3 (new : Z)                (* removed from the old grid *)
| L1                          (* LostConnection entered *)
| L2 (todo : list Z)          (* IDs around the player read; players being looked up *)
| L3                          (* looked up, told *)
| L4.                         (* out of the grid *)
(* One goroutine: the calls it still has to make (the first one in progress unless Idle). *)
Record thr := Thr { c_prog : list wop; c_pc : cpc }.
Record cworld := CWorld { c_players : list Z; c_obj : Z -> pl; c_mem : Z -> list Z; c_thr : list thr }.

Definition set_obj (f : Z -> pl) (pid : Z) (p : pl) : Z -> pl := fun q => if q =? pid then p else f q.

(* A panic ends the call: the panics of these calls are recovered (message handler) or end
   the hook. *)
Definition c_step1 (a : aoi) (s : cworld) (t : nat) : option cworld :=
  match nth_error (c_thr s) t with
  | Some (Thr (o :: prog) pc) =>
    let upd_thr (s : cworld) x := CWorld (c_players s) (c_obj s) (c_mem s) (upd t x (c_thr s)) in
    let over := upd_thr s (Thr prog Idle) in
    let go (s : cworld) pc' := Some (upd_thr s (Thr (o :: prog) pc')) in
    let fin (s : cworld) := Some (upd_thr s (Thr prog Idle)) in
    match o, pc with
    (* world_manager.go 31-42 *)
    | WJoin p x z, Idle => go (CWorld (s_add p (c_players s)) (set_obj (c_obj s) p (Pl x z)) (c_mem s) (c_thr s)) J1
    | WJoin p x z, J1 =>
      match gid_by_pos a x z with
      | None => Some over
      | Some g => match add_to a p g (c_mem s) with None => Some over | Some f => fin (CWorld (c_players s) (c_obj s) f (c_thr s)) end
      end
    (* api/move.go 42-46; a nil player panics *)
    | WMove p x z, Idle => if mem p (c_players s) then go s M1 else Some over
    (* player.go 184-197 *)
    | WMove p x z, M1 =>
      match gid_by_pos a (pl_x (c_obj s p)) (pl_z (c_obj s p)), gid_by_pos a x z with
      | Some old, Some new =>
        let s1 := CWorld (c_players s) (set_obj (c_obj s) p (Pl x z)) (c_mem s) (c_thr s) in
        if old =? new then fin s1 else go s1 (M2 old new)
      | _, _ => Some over
      end
    (* player.go 203, 207 *)
    | WMove p x z, M2 old new => match del_from a p old (c_mem s) with None => Some over | Some f => go (CWorld (c_players s) (c_obj s) f (c_thr s)) (M3 new) end
    | WMove p x z, M3 new => match add_to a p new (c_mem s) with None => Some over | Some f => fin (CWorld (c_players s) (c_obj s) f (c_thr s)) end
    (* server.go 54-62 *)
    | WLeave p, Idle => if mem p (c_players s) then go s L1 else Some over
    (* player.go 371, 351-364 *)
    | WLeave p, L1 =>
      match gid_by_pos a (pl_x (c_obj s p)) (pl_z (c_obj s p)) with
      | None => Some over
      | Some g => match gids (surround a g) with None => Some over | Some r => go s (L2 (flat_map (c_mem s) r)) end
      end
    (* 361-362, 381-383: a nil player panics *)
    | WLeave p, L2 (q :: r) => if mem q (c_players s) then go s (L2 r) else Some over
    | WLeave p, L2 [] => go s L3
    (* 387 *)
    | WLeave p, L3 =>
      match gid_by_pos a (pl_x (c_obj s p)) (pl_z (c_obj s p)) with
      | None => Some over
      | Some g => match del_from a p g (c_mem s) with None => Some over | Some f => go (CWorld (c_players s) (c_obj s) f (c_thr s)) L4 end
      end
    (* 388 *)
    | WLeave p, L4 => fin (CWorld (s_del p (c_players s)) (c_obj s) (c_mem s) (c_thr s))
    | _, _ => None
    end
  | _ => None
  end.
Definition c_step (a : aoi) (s : cworld) (t : nat) : cworld := match c_step1 a s t with Some s' => s' | None => s end.
Definition c_new (progs : list (list wop)) : cworld := CWorld [] (fun _ => Pl 0 0) (fun _ => []) (map (fun p => Thr p Idle) progs).
Definition c_run (a : aoi) (s : cworld) (ts : list nat) : cworld := fold_left (c_step a) ts s.

(* Model of zinx_app_demo/mmo_game/core/world_manager.go and player.go, and of who is in
   which grid (aoi.go 156-194, grid.go 32-58); calls one at a time (WorldConc.v interleaves
   them).  Left out: SyncPID, BroadCastStartPosition, SyncSurrounding and Talk, which only
   send (WorldMsg.v); height and rotation; the 200 ms pauses; failures of SendMsg, which are only
   printed.  Coordinates are in the unit of Aoi.v. *)
From Coq Require Import ZArith List Bool.
From Verif Require Import Aoi.
Import ListNotations.
Local Open Scope Z_scope.

(* player.go 14-21 *)
Record pl := Pl { pl_x : Z; pl_z : Z }.
(* world_manager.go 8-12: Players; the playerIDs of every grid (order: any range order). *)
Record world := World { w_players : list (Z * pl); w_mem : Z -> list Z }.

Fixpoint p_get (pid : Z) (l : list (Z * pl)) : option pl :=
  match l with [] => None | (i, p) :: l' => if i =? pid then Some p else p_get pid l' end.
Definition p_del (pid : Z) (l : list (Z * pl)) : list (Z * pl) := filter (fun e => negb (fst e =? pid)) l.
Definition p_set (pid : Z) (p : pl) (l : list (Z * pl)) : list (Z * pl) := (pid, p) :: p_del pid l.
Definition mem (x : Z) (l : list Z) : bool := existsb (Z.eqb x) l.
(* grid.go 32-45: Add, Remove *)
Definition s_add (pid : Z) (l : list Z) : list Z := if mem pid l then l else l ++ [pid].
Definition s_del (pid : Z) (l : list Z) : list Z := filter (fun x => negb (x =? pid)) l.
Definition put (f : Z -> list Z) (g : Z) (l : list Z) : Z -> list Z := fun x => if x =? g then l else f x.

(* aoi.go 170-186: adding to or removing from a grid number; None: the grid is nil. *)
Definition add_to (a : aoi) (pid gid : Z) (f : Z -> list Z) : option (Z -> list Z) :=
  match g_get gid (a_grids a) with None => None | Some _ => Some (put f gid (s_add pid (f gid))) end.
Definition del_from (a : aoi) (pid gid : Z) (f : Z -> list Z) : option (Z -> list Z) :=
  match g_get gid (a_grids a) with None => None | Some _ => Some (put f gid (s_del pid (f gid))) end.

(* A message to player m_to: its ID, the Tp field (0: none), about whom, and where. *)
Record msg := Msg { m_to : Z; m_id : Z; m_tp : Z; m_pid : Z; m_at : option (Z * Z) }.
(* The state after a call, what it sent, and whether it returned (false: it panicked). *)
Record out := Out { o_world : world; o_msgs : list msg; o_ok : bool }.

(* Numbers of the grids in a list of *GrID; None: a nil among them. *)
Fixpoint gids (l : list (option grid)) : option (list Z) :=
  match l with
  | [] => Some []
  | None :: _ => None
  | Some g :: l' => match gids l' with None => None | Some r => Some (g_id g :: r) end
  end.

(* Go: for _, player := range players { ... }; a nil player panics at its first SendMsg. *)
Fixpoint each (f : Z -> pl -> list msg) (ps : list (Z * option pl)) : list msg * bool :=
  match ps with
  | [] => ([], true)
  | (_, None) :: _ => ([], false)
  | (q, Some p) :: ps' => let (ms, b) := each f ps' in (f q p ++ ms, b)
  end.

(* world_manager.go 50-56, 79-97: players looked up by their IDs. *)
Definition look (s : world) (pids : list Z) : list (Z * option pl) := map (fun q => (q, p_get q (w_players s))) pids.

(* world_manager.go 31-42: AddPlayer *)
Definition add_player (a : aoi) (s : world) (pid x z : Z) : out :=
  let s1 := World (p_set pid (Pl x z) (w_players s)) (w_mem s) in
  match gid_by_pos a x z with
  | None => Out s1 [] false
  | Some gid => match add_to a pid gid (w_mem s1) with None => Out s1 [] false | Some f => Out (World (w_players s1) f) [] true end
  end.

(* player.go 235-347: OnExchangeAoiGrID, for a player now at (x, z). *)
Definition exchange (a : aoi) (s : world) (pid x z old new : Z) : list msg * bool :=
  match gids (surround a old), gids (surround a new) with
  | Some olds, Some news =>
    let leaving := filter (fun g => negb (mem g news)) olds in
    let (m1, b1) := each (fun q _ => [Msg q 201 0 pid None; Msg pid 201 0 q None]) (look s (flat_map (w_mem s) leaving)) in
    if b1 then
      let entering := filter (fun g => negb (mem g olds)) news in
      let (m2, b2) := each (fun q p => [Msg q 200 2 pid (Some (x, z)); Msg pid 200 2 q (Some (pl_x p, pl_z p))]) (look s (flat_map (w_mem s) entering)) in
      (m1 ++ m2, b2)
    else (m1, false)
  | _, _ => ([], false)
  end.

(* aoi.go 145-160: GetPIDsByPos; None: division by zero or a nil grid. *)
Definition pids_by_pos (a : aoi) (s : world) (x z : Z) : option (list Z) :=
  match gid_by_pos a x z with
  | None => None
  | Some gid => option_map (flat_map (w_mem s)) (gids (surround a gid))
  end.

(* api/move.go 42-46, player.go 177-233: the handler and UpdatePos. *)
Definition update_pos (a : aoi) (s : world) (pid x z : Z) : out :=
  match p_get pid (w_players s) with
  | None => Out s [] false
  | Some (Pl ox oz) =>
    match gid_by_pos a ox oz, gid_by_pos a x z with
    | Some old, Some new =>
      let s1 := World (p_set pid (Pl x z) (w_players s)) (w_mem s) in
      let finish (s : world) (ms : list msg) :=                                              (* 211-232 *)
        match pids_by_pos a s x z with
        | None => Out s ms false
        | Some qs => let (m2, b) := each (fun q _ => [Msg q 200 4 pid (Some (x, z))]) (look s qs) in Out s (ms ++ m2) b
        end in
      if old =? new then finish s1 []
      else
        match del_from a pid old (w_mem s1) with
        | None => Out s1 [] false
        | Some f1 =>
          let s2 := World (w_players s1) f1 in
          match add_to a pid new f1 with
          | None => Out s2 [] false
          | Some f2 =>
            let s3 := World (w_players s1) f2 in
            let (ms, b) := exchange a s3 pid x z old new in
            if b then finish s3 ms else Out s3 ms false
          end
        end
    | _, _ => Out s [] false
    end
  end.

(* server.go 45-66 (OnConnectionLost), player.go 368-389: LostConnection *)
Definition lost (a : aoi) (s : world) (pid : Z) : out :=
  match p_get pid (w_players s) with
  | None => Out s [] true
  | Some (Pl x z) =>
    match pids_by_pos a s x z with
    | None => Out s [] false
    | Some qs =>
      let (ms, b) := each (fun q _ => [Msg q 201 0 pid None]) (look s qs) in
      if b then
        match gid_by_pos a x z with
        | None => Out s ms false
        | Some gid => match del_from a pid gid (w_mem s) with
                      | None => Out s ms false
                      | Some f => Out (World (p_del pid (w_players s)) f) ms true
                      end
        end
      else Out s ms false
    end
  end.

Inductive wop := WJoin (pid x z : Z) | WMove (pid x z : Z) | WLeave (pid : Z).
Definition w_call (a : aoi) (s : world) (o : wop) : out :=
  match o with WJoin pid x z => add_player a s pid x z | WMove pid x z => update_pos a s pid x z | WLeave pid => lost a s pid end.
Definition new_world : world := World [] (fun _ => []).
Definition w_run (a : aoi) (h : list wop) : world := fold_left (fun s o => o_world (w_call a s o)) h new_world.

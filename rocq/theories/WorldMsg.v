(* What a player who comes online is sent, and chat: zinx_app_demo/mmo_game/server.go 16-41
   and core/player.go 49-173.  Calls one at a time, as in World.v.  Message 202 carries a
   list of players: here it is one msg for each of them. *)
From Coq Require Import ZArith List Bool.
From Verif Require Import Aoi World.
Import ListNotations.
Local Open Scope Z_scope.

(* server.go 16-41 (OnConnectionAdd) with player.go 49-83 (SyncPID, BroadCastStartPosition),
   world_manager.go 29-40 (AddPlayer) and player.go 87-150 (SyncSurrounding), in two parts. *)
Definition enter_first (a : aoi) (s : world) (pid x z : Z) : out * list (Z * option pl) :=
  let hello := [Msg pid 1 0 pid None; Msg pid 200 2 pid (Some (x, z))] in
  let o := add_player a s pid x z in
  if o_ok o then
    match pids_by_pos a (o_world o) x z with
    | None => (Out (o_world o) hello false, [])
    | Some qs =>
      let (m1, b1) := each (fun q _ => [Msg q 200 2 pid (Some (x, z))]) (look (o_world o) qs) in
      (Out (o_world o) (hello ++ m1) b1, look (o_world o) qs)
    end
  else (Out (o_world o) hello false, []).
(* player.go 126-149: message 202, made from the *Player objects looked up before. *)
Definition enter_last (pid : Z) (ps : list (Z * option pl)) : list msg * bool :=
  each (fun q p => [Msg pid 202 0 q (Some (pl_x p, pl_z p))]) ps.
Definition enter (a : aoi) (s : world) (pid x z : Z) : out :=
  let (o, ps) := enter_first a s pid x z in
  if o_ok o then let (m2, b2) := enter_last pid ps in Out (o_world o) (o_msgs o ++ m2) b2 else o.

(* api/world_chat.go 19-44 and player.go 154-173 (Talk) to world_manager.go 60-76
   (GetAllPlayers): every entry of the Players map, in any order. *)
Definition talk (s : world) (pid : Z) : out :=
  match p_get pid (w_players s) with
  | None => Out s [] false
  | Some _ => Out s (map (fun e => Msg (fst e) 200 1 pid None) (w_players s)) true
  end.

(* Joins, moves and leaves with all their messages. *)
Definition v_call (a : aoi) (s : world) (o : wop) : out :=
  match o with WJoin pid x z => enter a s pid x z | _ => w_call a s o end.
Fixpoint v_run (a : aoi) (s : world) (h : list wop) : world * list msg :=
  match h with
  | [] => (s, [])
  | o :: h' => let r := v_call a s o in let (s', ms) := v_run a (o_world r) h' in (s', o_msgs r ++ ms)
  end.

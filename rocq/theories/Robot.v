(* Model of the robot client of the game demo: zinx_app_demo/mmo_game/client_AI_robot.go.
   The protobuf coding of the payloads (golang/protobuf) is left out: messages to the robot
   are those of World.v and WorldMsg.v, messages from it are [up].  Left out too: the text of chat
   messages, rotation, height, printing and the pauses.  Coordinates are in the unit of
   Aoi.v; the sums of the code are exact for whole coordinates below 2^24. *)
From Coq Require Import ZArith List Bool.
From Verif Require Import Bytes Pack Aoi World.
Import ListNotations.
Local Open Scope Z_scope.

(* 60-79: Pack; binary.Write into a bytes.Buffer cannot fail for these operands. *)
Definition robot_pack (p : Z * list byte) : list byte :=
  put_uint LittleEndian 4 (u32 (zlen (snd p))) ++ put_uint LittleEndian 4 (fst p) ++ snd p.

(* 37-58: Unpack of the eight bytes of a head: length and ID. *)
Definition robot_unpack (h : list byte) : option (Z * Z) :=
  match read_u32 LittleEndian h with
  | None => None
  | Some (len, h1) => match read_u32 LittleEndian h1 with None => None | Some (id, _) => Some (len, id) end
  end.

(* 203-228: the reading goroutine, given the bytes that have arrived: what it has handled,
   and the bytes of the message it waits for.  io.ReadFull waits until all are there, so how the
   network cuts them is of no matter. *)
Fixpoint robot_loop (fuel : nat) (bytes : list byte) : list (Z * list byte) * list byte :=
  match fuel with
  | O => ([], bytes)
  | S n =>
    if zlen bytes <? 8 then ([], bytes) else
    match robot_unpack (ztake 8 bytes) with
    | None => ([], bytes)
    | Some (len, id) =>
      let rest := zdrop 8 bytes in
      if zlen rest <? len then ([], bytes)
      else let (ms, t) := robot_loop n (zdrop len rest) in ((id, ztake len rest) :: ms, t)
    end
  end.
(* every round takes at least a head *)
Definition robot_read (bytes : list byte) : list (Z * list byte) * list byte := robot_loop (length bytes) bytes.

(* 26-35: who and where the robot takes itself to be; how many action loops it has started
   (230-239: one goroutine for each value received from isOnline). *)
Record robot := Robot { r_pid : Z; r_x : Z; r_z : Z; r_loops : nat }.
(* 247-268 *)
Definition new_robot : robot := Robot 0 0 0 0.

(* 163-199: DoMsg; None: GetP() of a broadcast without a position is nil. *)
Definition do_msg (r : robot) (m : msg) : option robot :=
  if m_id m =? 1 then Some (Robot (m_pid m) (r_x r) (r_z r) (r_loops r))
  else if m_id m =? 200 then
    if (m_tp m =? 2) && (m_pid m =? r_pid r) then
      match m_at m with
      | Some (x, z) => Some (Robot (r_pid r) x z (S (r_loops r)))
      | None => None
      end
    else Some r
  else Some r.
Fixpoint do_msgs (r : robot) (ms : list msg) : option robot :=
  match ms with [] => Some r | m :: ms' => match do_msg r m with None => None | Some r1 => do_msgs r1 ms' end end.

(* What rand gives (104, 116-123): chat or walk, which way, how far. *)
Inductive chance := Chat | Walk (back : bool) (dx dz : Z).
Inductive up := UTalk | UMove (x z : Z).
(* 126-136 *)
Definition clamp (lo hi x : Z) : Z := if hi <? x then hi else if x <? lo then lo else x.
(* 100-157: AIRobotAction *)
Definition act (r : robot) (c : chance) : up :=
  match c with
  | Chat => UTalk
  | Walk back dx dz =>
    let x := if back then r_x r - dx * unit else r_x r + dx * unit in
    let z := if back then r_z r - dz * unit else r_z r + dz * unit in
    UMove (clamp (85 * unit) (410 * unit) x) (clamp (75 * unit) (400 * unit) z)
  end.

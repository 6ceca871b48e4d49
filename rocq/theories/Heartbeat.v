(* Model of znet/heartbeat.go, of the heartbeat parts of znet/server.go (224-236,
   537-582) and znet/client.go (StartHeartBeat, StartHeartBeatWithOption), and of
   the activity bookkeeping of the connections (connection.go 245-263, 300-309,
   543-555; ws_connection.go 220-245, 286-291, 561-575; kcp_connection.go 240-246,
   288-293, 549-561). *)
From Coq Require Import ZArith List Bool.
From Verif Require Import Bytes Router.
Import ListNotations.
Local Open Scope Z_scope.

(* A router, slice handler, message maker or not-alive function: the package's
   own, or one of the user's, named by a number. *)
Inductive who := Default | User (n : Z).

(* ziface/iheartbeat.go: HeartBeatDefaultMsgID. *)
Definition default_id : Z := 99999.

(* heartbeat.go 11-25: HeartbeatChecker, without the quit channel and interval. *)
Record checker := Checker {
  ck_make : who;                  (* makeMsg *)
  ck_dead : who;                  (* onRemoteNotAlive *)
  ck_id : Z;                      (* msgID *)
  ck_router : who;
  ck_slices : list who;
  ck_beat : option Z              (* beatFunc, nil by default *)
}.

(* heartbeat.go 56-72: NewHeartbeatChecker. *)
Definition new_checker : checker :=
  {| ck_make := Default; ck_dead := Default; ck_id := default_id; ck_router := Default;
     ck_slices := [Default]; ck_beat := None |}.
(* heartbeat.go 74-90: the setters; None is nil. *)
Definition set_dead (h : checker) (f : option Z) : checker :=
  match f with
  | None => h
  | Some n => Checker (ck_make h) (User n) (ck_id h) (ck_router h) (ck_slices h) (ck_beat h)
  end.
Definition set_make (h : checker) (f : option Z) : checker :=
  match f with
  | None => h
  | Some n => Checker (User n) (ck_dead h) (ck_id h) (ck_router h) (ck_slices h) (ck_beat h)
  end.
Definition set_beat (h : checker) (f : option Z) : checker :=
  match f with
  | None => h
  | Some n => Checker (ck_make h) (ck_dead h) (ck_id h) (ck_router h) (ck_slices h) (Some n)
  end.
(* heartbeat.go 92-97: BindRouter. *)
Definition bind_router (h : checker) (id : Z) (r : option Z) : checker :=
  match r with
  | Some n => if id =? default_id then h
              else Checker (ck_make h) (ck_dead h) id (User n) (ck_slices h) (ck_beat h)
  | None => h
  end.
(* heartbeat.go 99-104: BindRouterSlices. *)
Definition bind_slices (h : checker) (id : Z) (hs : list Z) : checker :=
  match hs with
  | [] => h
  | _ => if id =? default_id then h
         else Checker (ck_make h) (ck_dead h) id (ck_router h) (ck_slices h ++ map User hs) (ck_beat h)
  end.
(* heartbeat.go 166-183: Clone. *)
Definition clone (h : checker) : checker :=
  Checker (ck_make h) (ck_dead h) (ck_id h) (ck_router h) ([] ++ ck_slices h) (ck_beat h).

(* ziface/iheartbeat.go: HeartBeatOption; None is nil. *)
Record hb_option := HbOption {
  op_make : option Z; op_dead : option Z; op_id : Z; op_router : option Z; op_slices : list Z
}.

(* ---- who handles what ---- *)

(* The server or the client: its routes.  The two tables are those of Router.v;
   handler slices are by value here (C19: registration shares nothing). *)
Record host := Host {
  ho_client : bool;
  ho_slices : bool;                    (* Server.RouterSlicesMode = the global mode (server.go 141) *)
  ho_apis : list (Z * who);            (* Apis *)
  ho_table : list (Z * list who);      (* RouterSlices.Apis *)
  ho_use : list who;                   (* RouterSlices.Handlers *)
  ho_hc : option checker
}.
Definition host_new (client slices : bool) : host := Host client slices [] [] [] None.

(* server.go 473-498, client.go AddRouter: registration; None is a panic (wrong mode
   or repeated ID).  A client has no AddRouterSlices. *)
Definition add_route (s : host) (id : Z) (r : who) : option host :=
  if ho_slices s && negb (ho_client s) then None else
  match add_router (ho_apis s) id r with
  | None => None
  | Some a => Some (Host (ho_client s) (ho_slices s) a (ho_table s) (ho_use s) (ho_hc s))
  end.
Definition add_slices (s : host) (id : Z) (hs : list who) : option host :=
  if negb (ho_slices s) || ho_client s then None else
  match find (fun p => Z.eqb (fst p) id) (ho_table s) with
  | Some _ => None
  | None => Some (Host (ho_client s) (ho_slices s) (ho_apis s) ((id, ho_use s ++ hs) :: ho_table s) (ho_use s) (ho_hc s))
  end.
Definition use_slices (s : host) (hs : list who) : option host :=
  if negb (ho_slices s) || ho_client s then None
  else Some (Host (ho_client s) (ho_slices s) (ho_apis s) (ho_table s) (ho_use s ++ hs) (ho_hc s)).

(* msghandler.go 266-274, 310-352: the handlers a message of this ID runs, in
   order (the mode is the global one, for clients too); [] when none is found. *)
Definition handled_by (s : host) (id : Z) : list who :=
  if ho_slices s
  then match find (fun p => Z.eqb (fst p) id) (ho_table s) with Some p => snd p | None => [] end
  else match find_router (ho_apis s) id with Some r => [r] | None => [] end.

(* server.go 537-550, 557-582; client.go StartHeartBeat, StartHeartBeatWithOption.
   [None] is nil. *)
Definition configured (s : host) (o : option hb_option) : checker :=
  match o with
  | None => new_checker
  | Some op =>
    let h := set_dead (set_make new_checker (op_make op)) (op_dead op) in
    if ho_slices s && negb (ho_client s) then bind_slices h (op_id op) (op_slices op)
    else bind_router h (op_id op) (op_router op)
  end.
Definition start_heartbeat (s : host) (o : option hb_option) : option host :=
  let h := configured s o in
  let r := if ho_slices s && negb (ho_client s) then add_slices s (ck_id h) (ck_slices h)
           else add_route s (ck_id h) (ck_router h) in
  match r with
  | None => None
  | Some s' => Some (Host (ho_client s') (ho_slices s') (ho_apis s') (ho_table s') (ho_use s') (Some h))
  end.

(* server.go 224-236: StartConn, and client.go Start: the checker a connection gets. *)
Definition conn_checker (s : host) : option checker :=
  match ho_hc s with None => None | Some h => Some (if ho_client s then h else clone h) end.

(* What a program does with a host; a call that panics changes nothing and the
   program may go on. *)
Inductive hostop :=
| HoRoute (id : Z) (r : Z)              (* AddRouter *)
| HoSlices (id : Z) (hs : list Z)       (* AddRouterSlices *)
| HoUse (hs : list Z)                   (* Use *)
| HoBeat (o : option hb_option).        (* StartHeartBeat / StartHeartBeatWithOption *)
Definition host_try (s : host) (o : hostop) : option host :=
  match o with
  | HoRoute id r => add_route s id (User r)
  | HoSlices id hs => add_slices s id (map User hs)
  | HoUse hs => use_slices s (map User hs)
  | HoBeat o => start_heartbeat s o
  end.
Definition host_step (s : host) (o : hostop) : host := match host_try s o with Some s' => s' | None => s end.
Fixpoint host_run (s : host) (os : list hostop) : host :=
  match os with [] => s | o :: os' => host_run (host_step s o) os' end.

(* ---- liveness ---- *)

(* zconf.go 183-185: HeartbeatMaxDuration, nanoseconds in an int64. *)
Definition max_duration (secs : Z) : Z := s64 (secs * 1000000000).

(* What a connection has: lastActivityTime (None is the zero time), isClosed, its
   checker, and whether the checker's goroutine runs. *)
Record hconn := Hconn {
  hn_last : option Z;
  hn_closed : bool;
  hn_ck : option checker;
  hn_ticking : bool
}.
Definition hconn_new (k : option checker) : hconn := Hconn None false k false.

Inductive hact1 :=
| ASent (id : Z) (m : who)         (* conn.SendMsg(id, m(conn)) *)
| ABeat (f : Z)                    (* the user's beat function *)
| ANotAlive (f : who).             (* the not-alive function *)

(* Clock readings are on every label that reads the clock; the clock is Go's
   monotonic one, in nanoseconds.  Reads of lastActivityTime are atomic here. *)
Inductive hlabel :=
| KStart                           (* Start: c.hc.Start() *)
| KStarted (now : Z)               (* Start: c.updateActivity() *)
| KRead (n : Z) (now : Z)          (* n bytes read *)
| KPing (now : Z)                  (* a websocket ping seen by the reader *)
| KClosed                          (* isClosed becomes true *)
| KTick (now : Z)                  (* the ticker fires and the checker's goroutine runs check *)
| KQuit.                           (* it takes the quit message *)

(* connection.go 553-555: updateActivity. *)
Definition update (s : hconn) (now : Z) : hconn := Hconn (Some now) (hn_closed s) (hn_ck s) (hn_ticking s).

(* connection.go 543-551: IsAlive.  time.Sub saturates: a reading before the zero
   time is never within the maximum. *)
Definition is_alive (secs : Z) (s : hconn) (now : Z) : bool :=
  if hn_closed s then false
  else match hn_last s with
       | None => 2 ^ 63 - 1 <? max_duration secs
       | Some a => now - a <? max_duration secs
       end.

(* heartbeat.go 127-157: check, SendHeartBeatMsg. *)
Definition check (secs : Z) (s : hconn) (h : checker) (now : Z) : hact1 :=
  if is_alive secs s now then
    match ck_beat h with Some f => ABeat f | None => ASent (ck_id h) (ck_make h) end
  else ANotAlive (ck_dead h).

Definition h_step (secs : Z) (s : hconn) (l : hlabel) : hconn * list hact1 :=
  match l with
  | KStart => match hn_ck s with
              | None => (s, [])
              | Some _ => (Hconn (hn_last s) (hn_closed s) (hn_ck s) true, [])
              end
  | KStarted now => match hn_ck s with None => (s, []) | Some _ => (update s now, []) end
  | KRead n now => match hn_ck s with
                   | Some _ => if 0 <? n then (update s now, []) else (s, [])
                   | None => (s, [])
                   end
  | KPing now => (update s now, [])
  | KClosed => (Hconn (hn_last s) true (hn_ck s) (hn_ticking s), [])
  | KTick now => match hn_ck s with
                 | Some h => if hn_ticking s then (s, [check secs s h now]) else (s, [])
                 | None => (s, [])
                 end
  | KQuit => (Hconn (hn_last s) (hn_closed s) (hn_ck s) false, [])
  end.
Fixpoint h_run (secs : Z) (s : hconn) (ls : list hlabel) : hconn * list hact1 :=
  match ls with
  | [] => (s, [])
  | l :: ls' => let '(s1, e) := h_step secs s l in let '(s2, es) := h_run secs s1 ls' in (s2, e ++ es)
  end.

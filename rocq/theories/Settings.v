(* Model of the settings of a server and of the connections made with them: which of a
   connection's settings are copied from the server, and when (znet/server.go 224-236, 473-478,
   505-590; znet/connection.go 123-159; znet/ws_connection.go 119-154; znet/kcp_connection.go
   124-160; znet/heartbeat.go 159-183).  User functions, packers and decoders are named by
   numbers.  A call is one step: two goroutines writing one field at the same moment are not
   modelled. *)
From Coq Require Import ZArith List Bool.
Import ListNotations.

(* znet/heartbeat.go 13-27: what a checker sends and what it does when the peer is not alive *)
Record beat := Beat { bt_make : nat; bt_dead : nat }.

(* znet/connection.go 88-113: what a connection has of its own.  [cn_hb] is what StartConn bound;
   [Fresh] is a connection that was accepted and whose StartConn goroutine has not run yet. *)
Inductive phase := Fresh | Up | Over.
Record conn := Conn { cn_name : nat; cn_start : option nat; cn_stop : option nat; cn_pack : nat; cn_dec : option nat; cn_hb : option beat; cn_phase : phase }.

(* znet/server.go 25-95; the routes are those of the message handler, shared by all connections *)
Record server := Server { sv_name : nat; sv_start : option nat; sv_stop : option nat; sv_pack : nat; sv_dec : option nat; sv_hb : option beat;
                          sv_routes : list (Z * nat); sv_conns : list conn }.
(* server.go 130-165: no hooks, the default packer and decoder, no heartbeat, no routes *)
Definition new_server (name pack dec : nat) : server := Server name None None pack (Some dec) None [] [].

Inductive op :=
| SetOnConnStart (h : option nat)      (* server.go 505-507 *)
| SetOnConnStop (h : option nat)       (* server.go 509-511 *)
| SetPacket (p : nat)                  (* server.go 525-527 *)
| SetDecoder (d : option nat)          (* server.go 588-590 *)
| AddRouter (id : Z) (h : nat)         (* server.go 473-478 *)
| StartHeartBeat (id : Z) (h : nat) (b : beat) (* server.go 537-582; [h] handles the heartbeat messages *)
| SetHeartbeatMsgFunc (f : nat)        (* GetHeartBeat().SetHeartbeatMsgFunc: server.go 584-586 *)
| SetOnRemoteNotAlive (f : nat)        (* GetHeartBeat().SetOnRemoteNotAlive *)
| Accept                               (* server.go 295-297, 353-354, 396-405: a new connection *)
| StartConn (c : nat)                  (* server.go 224-236, in a goroutine of its own *)
| Send (c : nat)                       (* SendMsg on the connection *)
| Receive (c : nat) (id : Z)           (* a message arrives on it *)
| Tick (c : nat)                       (* its heartbeat is due *)
| TimeOut (c : nat)                    (* its heartbeat finds the peer not alive *)
| Close (c : nat).                     (* it is stopped *)

Inductive event :=
| Started (c : nat) (h : option nat)   (* the start hook called, if any *)
| Stopped (c : nat) (h : option nat)
| Packed (c : nat) (p : nat)           (* a message sent, packed by [p] *)
| Cut (c : nat) (d : option nat)       (* data read, cut into frames by [d] *)
| Handled (c : nat) (id : Z) (h : option nat) (* the message given to the handler, if there is one *)
| Beats (c : nat) (f : nat)            (* a heartbeat made by [f] *)
| NotAlive (c : nat) (f : nat)
| Panics.                              (* the call panics in the caller's goroutine *)

(* znet/msghandler.go 320-350, 383-400: the handler of a message *)
Definition route_of (rs : list (Z * nat)) (id : Z) : option nat := option_map snd (find (fun r => Z.eqb (fst r) id) rs).
Fixpoint upd (c : nat) (x : conn) (l : list conn) : list conn :=
  match l, c with [], _ => [] | _ :: l', O => x :: l' | y :: l', S c' => y :: upd c' x l' end.

Definition with_hb (s : server) (b : option beat) : server := Server (sv_name s) (sv_start s) (sv_stop s) (sv_pack s) (sv_dec s) b (sv_routes s) (sv_conns s).
Definition with_routes (s : server) (rs : list (Z * nat)) : server := Server (sv_name s) (sv_start s) (sv_stop s) (sv_pack s) (sv_dec s) (sv_hb s) rs (sv_conns s).
Definition with_conns (s : server) (cs : list conn) : server := Server (sv_name s) (sv_start s) (sv_stop s) (sv_pack s) (sv_dec s) (sv_hb s) (sv_routes s) cs.

(* connection.go 123-159 and its websocket and Kcp versions: newServerConn *)
Definition new_conn (s : server) : conn := Conn (sv_name s) (sv_start s) (sv_stop s) (sv_pack s) (sv_dec s) None Fresh.

(* msghandler.go 354-364, router.go 59-63: a message that has a handler panics *)
Definition add_router (s : server) (id : Z) (h : nat) : server * list event :=
  match route_of (sv_routes s) id with
  | Some _ => (s, [Panics])
  | None => (with_routes s (sv_routes s ++ [(id, h)]), [])
  end.

Definition on_conn (s : server) (c : nat) (k : conn -> server * list event) : server * list event :=
  match nth_error (sv_conns s) c with Some x => k x | None => (s, []) end.
Definition live (s : server) (c : nat) (k : conn -> list event) : server * list event :=
  on_conn s c (fun x => match cn_phase x with Up => (s, k x) | _ => (s, []) end).

Definition step (s : server) (o : op) : server * list event :=
  match o with
  | SetOnConnStart h => (Server (sv_name s) h (sv_stop s) (sv_pack s) (sv_dec s) (sv_hb s) (sv_routes s) (sv_conns s), [])
  | SetOnConnStop h => (Server (sv_name s) (sv_start s) h (sv_pack s) (sv_dec s) (sv_hb s) (sv_routes s) (sv_conns s), [])
  | SetPacket p => (Server (sv_name s) (sv_start s) (sv_stop s) p (sv_dec s) (sv_hb s) (sv_routes s) (sv_conns s), [])
  | SetDecoder d => (Server (sv_name s) (sv_start s) (sv_stop s) (sv_pack s) d (sv_hb s) (sv_routes s) (sv_conns s), [])
  | AddRouter id h => add_router s id h
  | StartHeartBeat id h b => (* the route first; the checker only if that did not panic *)
    match add_router s id h with (s', []) => (with_hb s' (Some b), []) | r => r end
  | SetHeartbeatMsgFunc f => match sv_hb s with Some b => (with_hb s (Some (Beat f (bt_dead b))), []) | None => (s, [Panics]) end
  | SetOnRemoteNotAlive f => match sv_hb s with Some b => (with_hb s (Some (Beat (bt_make b) f)), []) | None => (s, [Panics]) end
  | Accept => (with_conns s (sv_conns s ++ [new_conn s]), [])
  | StartConn c => on_conn s c (fun x => match cn_phase x with
      | Fresh => (with_conns s (upd c (Conn (cn_name x) (cn_start x) (cn_stop x) (cn_pack x) (cn_dec x) (sv_hb s) Up) (sv_conns s)), [Started c (cn_start x)])
      | _ => (s, []) end)
  | Send c => live s c (fun x => [Packed c (cn_pack x)])
  | Receive c id => live s c (fun x => [Cut c (cn_dec x); Handled c id (route_of (sv_routes s) id)])
  | Tick c => live s c (fun x => match cn_hb x with Some b => [Beats c (bt_make b)] | None => [] end)
  | TimeOut c => live s c (fun x => match cn_hb x with Some b => [NotAlive c (bt_dead b)] | None => [] end)
  | Close c => on_conn s c (fun x => match cn_phase x with
      | Up => (with_conns s (upd c (Conn (cn_name x) (cn_start x) (cn_stop x) (cn_pack x) (cn_dec x) (cn_hb x) Over) (sv_conns s)), [Stopped c (cn_stop x)])
      | _ => (s, []) end)
  end.
Fixpoint run (s : server) (os : list op) : server * list event :=
  match os with [] => (s, []) | o :: os' => let '(s1, e1) := step s o in let '(s2, e2) := run s1 os' in (s2, e1 ++ e2) end.

(* Model of the websocket handler of a server: znet/server.go 318-357, with
   newWebsocketConn's context (znet/ws_connection.go 119-122).  Requests are handled by
   goroutines of net/http, any number at a time. *)
From Coq Require Import ZArith List Bool.
Import ListNotations.
Local Open Scope Z_scope.

(* An upgrade request.  [q_header]: the Sec-Websocket-Protocol header is not empty;
   [q_protos]: websocket.Subprotocols(r) (gorilla/websocket 1.5.0, server.go: nil for a blank
   header); [q_info]: what r.Context() holds; [q_good]: Upgrade finds the request in order. *)
Record wsreq := WsReq { q_id : Z; q_header : bool; q_protos : list Z; q_info : Z; q_good : bool }.

(* websocketAuth (server.go 86, 603-605): an error, or nil, having put something in the context. *)
Definition wsauth := wsreq -> option Z.

Inductive answer :=
| Switching (proto : option Z)     (* 101, with the chosen subprotocol *)
| Unauthorized                     (* 401 *)
| Failed                           (* Upgrade's own error; the later WriteHeader(500) has no effect *)
| Plain.                           (* the handler returns without writing: net/http sends 200 *)

(* Where a handler stands. *)
Inductive wpc :=
| PLimit
| PAuth
| PProto (info : Z)
| PUpgrade (info : Z)
| PMake (info : Z) (proto : option Z)
| PDone.

Record wsrv := Wsrv {
  w_auth : option wsauth;
  w_subs : list Z;                       (* s.upgrader.Subprotocols; nil and empty alike *)
  w_len : Z;                             (* ConnMgr.Len() *)
  w_cid : Z;                             (* s.cID *)
  w_reqs : list (wsreq * wpc)
}.
(* server.go 149-157: no subprotocols at first *)
Definition new_wsrv (auth : option wsauth) : wsrv := Wsrv auth [] 0 0 [].

Inductive wlabel :=
| WReq (r : wsreq)                       (* a request comes in *)
| WStep (h : nat) (ok : bool)            (* one statement of handler h; ok: the network works for Upgrade *)
| WSetAuth (f : option wsauth)           (* SetWebsocketAuth *)
| WOther (n : Z) (c : Z).                (* other connections come and go: the manager's length, IDs taken *)

Inductive wevent :=
| Answered (h : nat) (a : answer)
| Opened (h : nat) (r : wsreq) (cid info : Z).   (* connection cid is managed and started for request r *)

Fixpoint set_nth {A} (n : nat) (x : A) (l : list A) : list A :=
  match l, n with
  | [], _ => []
  | _ :: t, O => x :: t
  | y :: t, S n' => y :: set_nth n' x t
  end.

(* gorilla/websocket 1.5.0 server.go, selectSubprotocol: the first of the server's that the client offers *)
Definition select_proto (subs offered : list Z) : option Z := find (fun p => existsb (Z.eqb p) offered) subs.

Section WithLimit.
Variable max_conn : Z.   (* zconf.GlobalObject.MaxConn *)

Definition at_pc (s : wsrv) (h : nat) (r : wsreq) (p : wpc) : wsrv := Wsrv (w_auth s) (w_subs s) (w_len s) (w_cid s) (set_nth h (r, p) (w_reqs s)).

Definition handler_step (s : wsrv) (h : nat) (r : wsreq) (p : wpc) (ok : bool) : wsrv * list wevent :=
  match p with
  | PLimit => (* 321-325 *)
    if w_len s >=? max_conn then (at_pc s h r PDone, [Answered h Plain]) else (at_pc s h r PAuth, [])
  | PAuth => (* 328-336 *)
    match w_auth s with
    | None => (at_pc s h r (PProto (q_info r)), [])
    | Some f => match f r with
                | None => (at_pc s h r PDone, [Answered h Unauthorized])
                | Some info => (at_pc s h r (PProto info), [])
                end
    end
  | PProto info => (* 339-341 *)
    let s1 := at_pc s h r (PUpgrade info) in
    (if q_header r then Wsrv (w_auth s1) (q_protos r) (w_len s1) (w_cid s1) (w_reqs s1) else s1, [])
  | PUpgrade info => (* 344-350 *)
    if q_good r && ok then
      let proto := select_proto (w_subs s) (q_protos r) in
      (at_pc s h r (PMake info proto), [Answered h (Switching proto)])
    else (at_pc s h r PDone, [Answered h Failed])
  | PMake info proto => (* 351-356, ws_connection.go 119-156 *)
    let s1 := at_pc s h r PDone in
    (Wsrv (w_auth s1) (w_subs s1) (w_len s1 + 1) (w_cid s1 + 1) (w_reqs s1), [Opened h r (w_cid s + 1) info])
  | PDone => (s, [])
  end.

Definition ws_step (s : wsrv) (l : wlabel) : wsrv * list wevent :=
  match l with
  | WReq r => (Wsrv (w_auth s) (w_subs s) (w_len s) (w_cid s) (w_reqs s ++ [(r, PLimit)]), [])
  | WStep h ok => match nth_error (w_reqs s) h with Some (r, p) => handler_step s h r p ok | None => (s, []) end
  | WSetAuth f => (Wsrv f (w_subs s) (w_len s) (w_cid s) (w_reqs s), [])
  | WOther n c => (Wsrv (w_auth s) (w_subs s) n (w_cid s + Z.abs c) (w_reqs s), [])
  end.

Fixpoint ws_run (s : wsrv) (tr : list wlabel) : wsrv :=
  match tr with [] => s | l :: r => ws_run (fst (ws_step s l)) r end.
Fixpoint ws_seen (s : wsrv) (tr : list wlabel) : list wevent :=
  match tr with [] => [] | l :: r => snd (ws_step s l) ++ ws_seen (fst (ws_step s l)) r end.
End WithLimit.

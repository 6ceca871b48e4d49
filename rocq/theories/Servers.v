(* Model of several servers living in one process: the constructors of znet/server.go, the
   one zconf.GlobalObject they all share, the one http.DefaultServeMux, and the decisions a
   running server takes from either.
   Simplified: each step is atomic; opening a port and loading a certificate always succeed;
   uint32/int are Z; middlewares and options are left out (RouterSlices.v); a websocket
   request names a registered pattern or none (no subtree patterns); the shut down of an
   extra DynamicBind worker is in Bind.v. *)
From Coq Require Import ZArith List Bool.
From Verif Require Import Bytes Conf.
Import ListNotations.
Local Open Scope Z_scope.

Definition str_eq (a b : list byte) : bool := if list_eq_dec Byte.byte_eq_dec a b then true else false.

(* zconf.go 20-22, 26-36: the constants *)
Definition m_tcp : list byte := [x74; x63; x70].
Definition m_ws : list byte := [x77; x65; x62; x73; x6f; x63; x6b; x65; x74].
Definition m_kcp : list byte := [x6b; x63; x70].
Definition w_bind : list byte := [x42; x69; x6e; x64].
Definition w_dynamic : list byte := [x44; x79; x6e; x61; x6d; x69; x63; x42; x69; x6e; x64].

Inductive proto := Tcp | Ws | Kcp.

(* server.go 30-98: the Server struct, and of its MsgHandle (msghandler.go 18-48) the worker
   counts, the two sets of free workers (None: a nil map), whether freeWorkerMu was left
   locked, and the two routing tables.  v_conns: the worker of each managed connection, None
   for one whose Start never got past useWorker. *)
Record server := Server {
  v_name : list byte; v_host : list byte; v_path : list byte;
  v_tcp : Z; v_ws : Z; v_kcp : Z; v_kcpset : bool * bool * list Z;
  v_slices : bool;
  v_workers : Z; v_free : option (list Z); v_extra : option (list Z); v_stuck : bool;
  v_apis : list (Z * nat); v_hands : list (Z * list nat);
  v_conns : list (option Z); v_cid : Z }.

Definition set_apis (s : server) x := Server (v_name s) (v_host s) (v_path s) (v_tcp s) (v_ws s) (v_kcp s) (v_kcpset s) (v_slices s) (v_workers s) (v_free s) (v_extra s) (v_stuck s) x (v_hands s) (v_conns s) (v_cid s).
Definition set_hands (s : server) x := Server (v_name s) (v_host s) (v_path s) (v_tcp s) (v_ws s) (v_kcp s) (v_kcpset s) (v_slices s) (v_workers s) (v_free s) (v_extra s) (v_stuck s) (v_apis s) x (v_conns s) (v_cid s).
Definition set_free (s : server) x := Server (v_name s) (v_host s) (v_path s) (v_tcp s) (v_ws s) (v_kcp s) (v_kcpset s) (v_slices s) (v_workers s) x (v_extra s) (v_stuck s) (v_apis s) (v_hands s) (v_conns s) (v_cid s).
Definition set_extra (s : server) x := Server (v_name s) (v_host s) (v_path s) (v_tcp s) (v_ws s) (v_kcp s) (v_kcpset s) (v_slices s) (v_workers s) (v_free s) x (v_stuck s) (v_apis s) (v_hands s) (v_conns s) (v_cid s).
Definition set_stuck (s : server) x := Server (v_name s) (v_host s) (v_path s) (v_tcp s) (v_ws s) (v_kcp s) (v_kcpset s) (v_slices s) (v_workers s) (v_free s) (v_extra s) x (v_apis s) (v_hands s) (v_conns s) (v_cid s).
Definition set_conns (s : server) x n := Server (v_name s) (v_host s) (v_path s) (v_tcp s) (v_ws s) (v_kcp s) (v_kcpset s) (v_slices s) (v_workers s) (v_free s) (v_extra s) (v_stuck s) (v_apis s) (v_hands s) x n.

(* the worker numbers lo, lo+1, ..., hi-1 *)
Definition numbers (lo hi : Z) : list Z := map (fun k => lo + Z.of_nat k) (seq 0 (Z.to_nat (hi - lo))).

(* msghandler.go 54-102 and 108-157, which differ in the number of workers only:
   in Bind mode WorkerPoolSize of the shared configuration is overwritten. *)
Definition is_bind (g : config) : bool := str_eq (strs g WorkerMode) w_bind.
Definition is_dynamic (g : config) : bool := str_eq (strs g WorkerMode) w_dynamic.
Definition handle_conf (g : config) : config := if is_bind g then put_i g WorkerPoolSize (ints g MaxConn) else g.
Definition handle_free (g : config) : option (list Z) :=
  if is_bind g || is_dynamic g then Some (numbers 0 (ints g WorkerPoolSize)) else None.
Definition handle_extra (g : config) : option (list Z) :=
  if is_dynamic g then Some (numbers (ints g WorkerPoolSize) (ints g MaxConn)) else None.

(* server.go 129-178: newServerWithConfig(zconf.GlobalObject) *)
Definition new_server (g : config) : server * config :=
  let g1 := handle_conf g in
  (Server (strs g Name) (strs g Host) (strs g WsPath) (ints g TCPPort) (ints g WsPort) (ints g KcpPort)
     (bools g1 KcpACKNoDelay, bools g1 KcpStreamMode,
      [ints g1 KcpNoDelay; ints g1 KcpInterval; ints g1 KcpResend; ints g1 KcpNc; ints g1 KcpSendWindow; ints g1 KcpRecvWindow; ints g1 KcpFecDataShards; ints g1 KcpFecParityShards])
     (bools g1 RouterSlicesMode) (ints g1 WorkerPoolSize) (handle_free g1) (handle_extra g1) false [] [] [] 0, g1).

(* server.go 182-184, 188-196, 200-205, 210-222: the four constructors; None is the panic of
   NewUserConfDefaultRouterSlicesServer *)
Inductive ctor := NewServer | NewUserConfServer (u : config) | NewDefaultRouterSlicesServer | NewUserConfDefaultRouterSlicesServer (u : config).
Definition construct (c : ctor) (g : config) (l : logger) : option (server * config * logger) :=
  match c with
  | NewServer => let (s, g') := new_server g in Some (s, g', l)
  | NewUserConfServer u => let (g1, l1) := user_conf_to_global u (g, l) in let (s, g') := new_server g1 in Some (s, g', l1)
  | NewDefaultRouterSlicesServer => let (s, g') := new_server (put_b g RouterSlicesMode true) in Some (s, g', l)
  | NewUserConfDefaultRouterSlicesServer u =>
      if bools u RouterSlicesMode then
        let (g1, l1) := user_conf_to_global u (g, l) in let (s, g') := new_server g1 in Some (s, g', l1)
      else None
  end.

(* The process: the shared configuration and logger, the servers, the patterns registered
   with http.HandleFunc, and whether an unrecovered panic ended it. *)
Record proc := Proc { p_conf : config; p_log : logger; p_servers : list server; p_mux : list (list byte * nat); p_down : bool }.
Definition set_servers (p : proc) x := Proc (p_conf p) (p_log p) x (p_mux p) (p_down p).

Fixpoint put {A} (n : nat) (a : A) (l : list A) : list A :=
  match l, n with [], _ => [] | _ :: t, O => a :: t | h :: t, Datatypes.S m => h :: put m a t end.
Definition put_server (p : proc) (i : nat) (s : server) := set_servers p (put i s (p_servers p)).

Fixpoint find_id {A} (id : Z) (l : list (Z * A)) : option A :=
  match l with [] => None | (k, v) :: t => if k =? id then Some v else find_id id t end.
Fixpoint find_path (w : list byte) (l : list (list byte * nat)) : option nat :=
  match l with [] => None | (k, v) :: t => if str_eq k w then Some v else find_path w t end.
Fixpoint drop_nth {A} (n : nat) (l : list A) : list A :=
  match l, n with [], _ => [] | _ :: t, O => t | h :: t, Datatypes.S m => h :: drop_nth m t end.

(* What can be seen from outside. *)
Inductive event :=
| Created (i : nat)                               (* a constructor returned server i *)
| Refused                                         (* the call panicked *)
| Listening (i : nat) (q : proto) (host : list byte) (port : Z) (tls : bool)
| Pool (i : nat) (workers len : Z)                (* workers started, length of each queue *)
| Accepted (i : nat) (open : Z)                   (* a connection taken on, with so many already open *)
| Held (i : nat) (open : Z)                       (* a connection not taken on: the limit *)
| Serving (i : nat) (worker : Z)                  (* the connection's messages are being read *)
| Hung (i : nat)                                  (* they never will be *)
| Handled (i : nat) (id : Z) (hs : list nat)      (* a message and the handlers it was given to *)
| NoHandler (i : nat) (id : Z)
| WsRequest (port_of served_by : nat) (path : list byte)
| Judged (i : nat) (idle : Z) (alive : bool)      (* IsAlive *)
| Crash.

(* msghandler.go 162-217: useWorker; pick stands for Go's map order.
   None: blocked for ever on freeWorkerMu.  The extra worker is not taken out of its set. *)
Definition use_worker (g : config) (s : server) (pick : nat) : option (Z * server) :=
  let hash := if v_workers s =? 0 then 0 else v_cid s mod v_workers s in
  let free := match v_free s with Some f => f | None => [] end in
  let extra := match v_extra s with Some f => f | None => [] end in
  let k := Nat.modulo pick (length free) in
  if is_bind g then
    if v_stuck s then None
    else match nth_error free k with Some w => Some (w, set_free s (Some (drop_nth k free))) | None => Some (hash, s) end
  else if is_dynamic g then
    if v_stuck s then None
    else match nth_error free k with
         | Some w => Some (w, set_free s (Some (drop_nth k free)))
         | None => match nth_error extra (Nat.modulo pick (length extra)) with Some w => Some (w, s) | None => Some (hash, s) end
         end
  else Some (hash, s).

(* msghandler.go 221-251: freeWorker.  Storing into a nil map panics; Connection.Start
   recovers.  In Bind mode the unlock is deferred; in DynamicBind mode it is not run. *)
Definition free_worker (g : config) (s : server) (w : Z) : server :=
  if is_bind g then
    if v_stuck s then s else match v_free s with Some f => set_free s (Some (w :: f)) | None => s end
  else if is_dynamic g then
    if w <? v_workers s then
      if v_stuck s then s else match v_free s with Some f => set_free s (Some (w :: f)) | None => set_stuck s true end
    else match v_extra s with Some f => set_extra s (Some (w :: f)) | None => s end
  else s.

(* server.go 277-303, 321-325, 354-356, 381-409, 224-236 and connection.go 292-325: the limit,
   the next connection ID, and Connection.Start as far as the worker *)
Definition admit_conn (p : proc) (i : nat) (s : server) (pick : nat) : proc * list event :=
  let n := zlen (v_conns s) in
  if n >=? ints (p_conf p) MaxConn then (p, [Held i n])
  else let s1 := set_conns s (v_conns s) (v_cid s + 1) in
       match use_worker (p_conf p) s1 pick with
       | Some (w, s2) => (put_server p i (set_conns s2 (v_conns s2 ++ [Some w]) (v_cid s2)), [Accepted i n; Serving i w])
       | None => (put_server p i (set_conns s1 (v_conns s1 ++ [None]) (v_cid s1)), [Accepted i n; Hung i])
       end.

(* server.go 248-270: which of the two kinds of listener ListenTcpConn opens *)
Definition tls_on (g : config) : bool := negb (is_empty (strs g CertFile)) && negb (is_empty (strs g PrivateKeyFile)).
(* server.go 316-364: ListenWebsocketConn; a pattern registered twice makes http.HandleFunc panic *)
Definition listen_ws (p : proc) (i : nat) (s : server) : proc * list event :=
  match find_path (v_path s) (p_mux p) with
  | Some _ => (Proc (p_conf p) (p_log p) (p_servers p) (p_mux p) true, [Crash])
  | None => (Proc (p_conf p) (p_log p) (p_servers p) (p_mux p ++ [(v_path s, i)]) (p_down p), [Listening i Ws (v_host s) (v_ws s) false])
  end.
Definition listen_tcp (p : proc) (i : nat) (s : server) : proc * list event := (p, [Listening i Tcp (v_host s) (v_tcp s) (tls_on (p_conf p))]).
(* server.go 366-420 *)
Definition listen_kcp (p : proc) (i : nat) (s : server) : proc * list event := (p, [Listening i Kcp (v_host s) (v_kcp s) false]).

(* server.go 423-449, msghandler.go 447-461: Start, up to the listeners *)
Definition start_server (p : proc) (i : nat) (s : server) : proc * list event :=
  let g := p_conf p in
  let pool := Pool i (v_workers s) (ints g MaxWorkerTaskLen) in
  let (p', es) :=
    if str_eq (strs g Mode) m_tcp then listen_tcp p i s
    else if str_eq (strs g Mode) m_ws then listen_ws p i s
    else if str_eq (strs g Mode) m_kcp then listen_kcp p i s
    else let (p1, e1) := listen_tcp p i s in let (p2, e2) := listen_ws p1 i s in (p2, e1 ++ e2) in
  (p', pool :: es).

(* msghandler.go 255-281, 434-442, 320-343, 383-401: the tables a message is looked up in *)
Definition dispatch (g : config) (i : nat) (s : server) (id : Z) : event :=
  if bools g RouterSlicesMode then match find_id id (v_hands s) with Some hs => Handled i id hs | None => NoHandler i id end
  else match find_id id (v_apis s) with Some h => Handled i id [h] | None => NoHandler i id end.

Inductive op :=
| New (c : ctor)
| NewClient                              (* client.go: NewClient makes a MsgHandle too *)
| AddRouter (i : nat) (id : Z) (h : nat)
| AddRouterSlices (i : nat) (id : Z) (hs : list nat)
| Start (i : nat)
| Connect (i pick : nat)                 (* to the TCP or KCP port of server i *)
| WsConnect (j : nat) (path : list byte) (pick : nat)  (* to the websocket port of server j *)
| Message (i k : nat) (id : Z)           (* on the k-th open connection of server i *)
| Close (i k : nat)
| Alive (i : nat) (idle : Z).

Definition step (p : proc) (o : op) : proc * list event :=
  if p_down p then (p, [])
  else match o with
  | New c => match construct c (p_conf p) (p_log p) with
             | Some (s, g, l) => (Proc g l (p_servers p ++ [s]) (p_mux p) false, [Created (length (p_servers p))])
             | None => (p, [Refused])
             end
  | NewClient => (Proc (handle_conf (p_conf p)) (p_log p) (p_servers p) (p_mux p) false, [])
  | AddRouter i id h => (* server.go 473-478, msghandler.go 354-366 *)
      match nth_error (p_servers p) i with
      | Some s => if v_slices s then (p, [Refused])
                  else match find_id id (v_apis s) with Some _ => (p, [Refused]) | None => (put_server p i (set_apis s ((id, h) :: v_apis s)), []) end
      | None => (p, [])
      end
  | AddRouterSlices i id hs => (* server.go 480-485, router.go 59-70 *)
      match nth_error (p_servers p) i with
      | Some s => if v_slices s
                  then match find_id id (v_hands s) with Some _ => (p, [Refused]) | None => (put_server p i (set_hands s ((id, hs) :: v_hands s)), []) end
                  else (p, [Refused])
      | None => (p, [])
      end
  | Start i => match nth_error (p_servers p) i with Some s => start_server p i s | None => (p, []) end
  | Connect i pick => match nth_error (p_servers p) i with Some s => admit_conn p i s pick | None => (p, []) end
  | WsConnect j path pick => (* server.go 318-356: the mux, not the port, chooses the server *)
      match find_path path (p_mux p) with
      | Some i => match nth_error (p_servers p) i with
                  | Some s => let (p', es) := admit_conn p i s pick in (p', WsRequest j i path :: es)
                  | None => (p, [])
                  end
      | None => (p, [])
      end
  | Message i k id =>
      match nth_error (p_servers p) i with
      | Some s => match nth_error (v_conns s) k with Some (Some _) => (p, [dispatch (p_conf p) i s id]) | _ => (p, []) end
      | None => (p, [])
      end
  | Close i k => (* connection.go 317-324: a connection hung in useWorker never gets here *)
      match nth_error (p_servers p) i with
      | Some s => match nth_error (v_conns s) k with
                  | Some (Some w) => (put_server p i (free_worker (p_conf p) (set_conns s (drop_nth k (v_conns s)) (v_cid s)) w), [])
                  | _ => (p, [])
                  end
      | None => (p, [])
      end
  | Alive i idle => (* connection.go 543-551: IsAlive, in seconds *)
      match nth_error (p_servers p) i with Some s => (p, [Judged i idle (idle <? ints (p_conf p) HeartbeatMax)]) | None => (p, []) end
  end.

Definition begin (g : config) (l : logger) : proc := Proc g l [] [] false.
Fixpoint run (p : proc) (os : list op) : proc := match os with [] => p | o :: os => run (fst (step p o)) os end.
Fixpoint seen (p : proc) (os : list op) : list event := match os with [] => [] | o :: os => snd (step p o) ++ seen (fst (step p o)) os end.

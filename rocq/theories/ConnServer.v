(* Model of the accept loops and of stopping the server: znet/server.go 238-460,
   znet/connmanager.go 63-76, over the connection lives of ConnLife.v and the
   connection manager of ConnManager.v.  The server has been started. *)
From Coq Require Import ZArith List Bool Arith.
From Verif Require Import Bytes ShardMap ConnManager GoSlice ConnLife.
Import ListNotations.

(* znet/server.go 438-447: zconf.GlobalObject.Mode *)
Inductive smode := ServeTcp | ServeWs | ServeKcp | ServeBoth.
Definition has_tcp (m : smode) : bool := match m with ServeTcp | ServeBoth => true | _ => false end.
Definition has_ws (m : smode) : bool := match m with ServeWs | ServeBoth => true | _ => false end.
Definition has_kcp (m : smode) : bool := match m with ServeKcp => true | _ => false end.

Record scfg := Scfg { sf_mode : smode; sf_max : nat; sf_hc : bool; sf_start_panics : bool; sf_stop_panics : bool }.
Definition lcfg_of (c : scfg) (k : kind) : lcfg := Lcfg k (sf_hc c) (sf_start_panics c) (sf_stop_panics c).

Record sconn := Sconn { sn_conn : conn; sn_kind : kind; sn_life : life }.

(* Where an accepting goroutine is: znet/server.go 274-305 (Tcp), 318-356 (one
   per websocket request), 377-409 (Kcp). *)
Inductive apc :=
| ACheck              (* about to compare ConnMgr.Len() with MaxConn *)
| AAccept             (* about to accept (Ws: authenticate and upgrade) *)
| AId                 (* about to take an ID: atomic.AddUint64(&s.cID, 1) *)
| AAdd (id : Z)       (* about to create the connection, which adds it to the manager *)
| AEnd.               (* returned *)

(* A goroutine in ConnManager.ClearConn, or in Server.Stop, which calls it first. *)
Inductive spc :=
| PClear (todo : list nat) (exit : bool)  (* connections still to Stop; exit: Server.Stop goes on *)
| PSend               (* s.exitChan <- struct{}{} *)
| PClose              (* close(s.exitChan) *)
| PDone.

Record srv := Srv {
  sv_cid : Z;
  sv_conns : list sconn;         (* all connections accepted, newest last *)
  sv_mgr : manager;
  sv_tcp : apc; sv_kcp : apc; sv_ws : list apc;
  sv_stops : list spc;
  sv_waiting : bool;             (* a listener still receives from exitChan *)
  sv_lclosed : bool;             (* the listener has been closed *)
  sv_exit_closed : bool;         (* exitChan is closed *)
  sv_crashed : bool
}.
Definition srv_new (c : scfg) : srv :=
  Srv 0 [] cm_new ACheck ACheck [] [] (has_tcp (sf_mode c) || has_kcp (sf_mode c)) false false false.

Inductive sev :=
| SvAdded (i : nat)                (* connection i created and added to the manager *)
| SvLife (i : nat) (e : lev)
| SvReturned (g : nat)             (* call number g of ClearConn or Server.Stop returned *)
| SvClearPanic (i : nat)           (* the Stop of connection i panicked inside ClearConn *)
| SvSendPanic.                     (* Server.Stop: send on closed exitChan *)

Inductive slabel :=
| STcp (ok : bool)            (* the Tcp accept loop goes on; ok: Accept succeeds *)
| SKcp (ok : bool)
| SWsNew                      (* a websocket request arrives *)
| SWs (i : nat) (ok : bool)   (* handler i goes on *)
| SConn (i : nat) (l : llabel)
| SClearCall | SStopCall      (* some goroutine calls ClearConn / Server.Stop *)
| SStopStep (g k : nat)       (* that goroutine goes on; k: which connection is next *)
| SListener.                  (* the listening goroutine, having received from exitChan, closes the listener *)

Definition with_acc (s : srv) (cid : Z) (conns : list sconn) (m : manager) : srv :=
  Srv cid conns m (sv_tcp s) (sv_kcp s) (sv_ws s) (sv_stops s) (sv_waiting s) (sv_lclosed s) (sv_exit_closed s) (sv_crashed s).
Definition with_tcp (s : srv) (p : apc) : srv :=
  Srv (sv_cid s) (sv_conns s) (sv_mgr s) p (sv_kcp s) (sv_ws s) (sv_stops s) (sv_waiting s) (sv_lclosed s) (sv_exit_closed s) (sv_crashed s).
Definition with_kcp (s : srv) (p : apc) : srv :=
  Srv (sv_cid s) (sv_conns s) (sv_mgr s) (sv_tcp s) p (sv_ws s) (sv_stops s) (sv_waiting s) (sv_lclosed s) (sv_exit_closed s) (sv_crashed s).
Definition with_ws (s : srv) (p : list apc) : srv :=
  Srv (sv_cid s) (sv_conns s) (sv_mgr s) (sv_tcp s) (sv_kcp s) p (sv_stops s) (sv_waiting s) (sv_lclosed s) (sv_exit_closed s) (sv_crashed s).
Definition with_stops (s : srv) (p : list spc) (w l e : bool) : srv :=
  Srv (sv_cid s) (sv_conns s) (sv_mgr s) (sv_tcp s) (sv_kcp s) (sv_ws s) p w l e (sv_crashed s).

(* One step of an accepting goroutine; "again" is where it goes afterwards:
   ACheck for the loops, AEnd for a websocket handler.  ConnMgr.Len is taken as
   one atomic read; it really locks shard after shard, so with removals alone in
   between it can only be too large.  On a closed listener the Tcp Accept fails with
   net.ErrClosed; kcp-go's Accept selects among the sessions that wait and the closing, so
   it may still hand one out. *)
Definition accept_step (c : scfg) (k : kind) (again : apc) (s : srv) (p : apc) (ok : bool) : srv * apc * list sev :=
  match p with
  | ACheck => if sf_max c <=? cm_len (sv_mgr s) then (s, again, []) else (s, AAccept, [])
  | AAccept =>
    match k with
    | KTcp => if sv_lclosed s then (s, AEnd, []) else if ok then (s, AId, []) else (s, ACheck, [])
    | KKcp => if ok then (s, AId, []) else (s, ACheck, [])
    | KWs => if ok then (s, AId, []) else (s, AEnd, [])
    end
  | AId => let id := ((sv_cid s + 1) mod 2 ^ 64)%Z in
    (with_acc s id (sv_conns s) (sv_mgr s), AAdd id, [])
  | AAdd id =>
    let cn := Conn (length (sv_conns s)) id in
    (with_acc s (sv_cid s) (sv_conns s ++ [Sconn cn k (life_new (lcfg_of c k))]) (cm_add (sv_mgr s) cn),
     again, [SvAdded (length (sv_conns s))])
  | AEnd => (s, AEnd, [])
  end.

(* A step of connection i; its IRemove acts on the manager. *)
Definition conn_step (c : scfg) (s : srv) (i : nat) (l : llabel) : srv * list sev :=
  match nth_error (sv_conns s) i with
  | None => (s, [])
  | Some n =>
    let '(lf, es) := life_step (lcfg_of c (sn_kind n)) (sn_life n) l in
    let m := fold_left (fun m e => match e with EvRemove => cm_remove m (sn_conn n) | _ => m end) es (sv_mgr s) in
    (Srv (sv_cid s) (set_nth i (Sconn (sn_conn n) (sn_kind n) lf) (sv_conns s)) m
       (sv_tcp s) (sv_kcp s) (sv_ws s) (sv_stops s) (sv_waiting s) (sv_lclosed s) (sv_exit_closed s)
       (sv_crashed s || lf_dead lf), map (SvLife i) es)
  end.

(* ClearConn takes the connections of IterBuffered's snapshot; the order in which
   it stops them is left to the labels. *)
Definition snapshot (s : srv) : list nat := map (fun e => cn_obj (snd e)) (sm_entries (sv_mgr s)).

Fixpoint drop_nth {A} (k : nat) (l : list A) : list A :=
  match l, k with [], _ => [] | _ :: l', O => l' | x :: l', S k' => x :: drop_nth k' l' end.

Definition stop_step (c : scfg) (s : srv) (g k : nat) : srv * list sev :=
  let put (s : srv) (p : spc) (w l e : bool) := with_stops s (set_nth g p (sv_stops s)) w l e in
  let keep (s : srv) (p : spc) := put s p (sv_waiting s) (sv_lclosed s) (sv_exit_closed s) in
  match nth_error (sv_stops s) g with
  | Some (PClear [] exit) => if exit then (keep s PSend, []) else (keep s PDone, [SvReturned g])
  | Some (PClear todo exit) =>
    match nth_error todo k with
    | None => (s, [])
    | Some i =>
      match nth_error (sv_conns s) i with
      | Some n =>
        if lf_ctx (sn_life n)
        then let '(s1, _) := conn_step c s i LStop in (keep s1 (PClear (drop_nth k todo) exit), [])
        else (keep s PDone, [SvClearPanic i])
      | None => (s, [])
      end
    end
  | Some PSend => (* znet/server.go 458 *)
    if sv_exit_closed s then (keep s PDone, [SvSendPanic])
    else if sv_waiting s then (put s PClose false (sv_lclosed s) (sv_exit_closed s), []) else (s, [])
  | Some PClose => (put s PDone (sv_waiting s) (sv_lclosed s) true, [SvReturned g])
  | _ => (s, [])
  end.

Definition srv_step (c : scfg) (s : srv) (l : slabel) : srv * list sev :=
  if sv_crashed s then (s, []) else
  match l with
  | STcp ok => if has_tcp (sf_mode c)
      then let '(s1, p, e) := accept_step c KTcp ACheck s (sv_tcp s) ok in (with_tcp s1 p, e) else (s, [])
  | SKcp ok => if has_kcp (sf_mode c)
      then let '(s1, p, e) := accept_step c KKcp ACheck s (sv_kcp s) ok in (with_kcp s1 p, e) else (s, [])
  | SWsNew => if has_ws (sf_mode c) then (with_ws s (sv_ws s ++ [ACheck]), []) else (s, [])
  | SWs i ok =>
    match nth_error (sv_ws s) i with
    | Some p => let '(s1, p1, e) := accept_step c KWs AEnd s p ok in (with_ws s1 (set_nth i p1 (sv_ws s1)), e)
    | None => (s, [])
    end
  | SConn i l => conn_step c s i l
  | SClearCall => (with_stops s (sv_stops s ++ [PClear (snapshot s) false]) (sv_waiting s) (sv_lclosed s) (sv_exit_closed s), [])
  | SStopCall => (with_stops s (sv_stops s ++ [PClear (snapshot s) true]) (sv_waiting s) (sv_lclosed s) (sv_exit_closed s), [])
  | SStopStep g k => stop_step c s g k
  | SListener => (* znet/server.go 307-313, 412-418 *)
    if (has_tcp (sf_mode c) || has_kcp (sf_mode c)) && negb (sv_waiting s)
    then (with_stops s (sv_stops s) (sv_waiting s) true (sv_exit_closed s), []) else (s, [])
  end.
Fixpoint srv_run (c : scfg) (s : srv) (ls : list slabel) : srv * list sev :=
  match ls with
  | [] => (s, [])
  | l :: ls' => let '(s1, e) := srv_step c s l in let '(s2, es) := srv_run c s1 ls' in (s2, e ++ es)
  end.

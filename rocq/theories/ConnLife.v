(* Model of the life of one server-side connection: znet/server.go 224-236
   (StartConn), znet/connection.go 292-331 and 498-527, znet/ws_connection.go
   276-314 and 497-547, znet/kcp_connection.go 277-316 and 486-533 (Start, Stop,
   finalizer), and the heartbeat goroutine znet/heartbeat.go 105-157.
   Goroutines are interleaved by an arbitrary list of labels; a label that is
   not enabled does nothing.  User code in the two hooks may panic; everything
   else it may do (Stop, sends) is covered by the other labels, which can happen
   between any two instructions. *)
From Coq Require Import List Bool.
Import ListNotations.

Inductive kind := KTcp | KWs | KKcp.
Record lcfg := Lcfg {
  lc_kind : kind;
  lc_hc : bool;            (* a heartbeat checker is set on the server *)
  lc_start_panics : bool;  (* the OnConnStart hook panics *)
  lc_stop_panics : bool    (* the OnConnStop hook panics *)
}.

(* The statements of the goroutine that runs StartConn, in order. *)
Inductive instr :=
| IBind          (* server.go 226-232: clone and bind the heartbeat checker *)
| ICtx           (* c.ctx, c.cancel = context.WithCancel(..) *)
| IStartHook     (* callOnConnStart *)
| IHcStart       (* if c.hc != nil: hc.Start *)
| IUse           (* useWorker *)
| IGoReader      (* go c.StartReader() *)
| IWait          (* <-c.ctx.Done() *)
| ISetClose      (* Kcp 487-495: return if closed, else set closed *)
| IStopHook      (* callOnConnStop *)
| ILock          (* msgLock.Lock (Ws, Kcp) *)
| IIfClosed      (* Ws 506-508: return if closed *)
| IHcStop        (* if c.hc != nil: hc.Stop, a send on the unbuffered quitChan *)
| IClose         (* conn.Close *)
| IRemove        (* connManager.Remove(c) *)
| ICloseChan     (* close(msgBuffChan) (Ws, Kcp) *)
| ISetClosed     (* Ws 534: isClosed = true *)
| IGoCallbacks   (* go InvokeCloseCallbacks *)
| IUnlock        (* deferred msgLock.Unlock *)
| IFree.         (* freeWorker *)

Definition start_prog : list instr := [IBind; ICtx; IStartHook; IHcStart; IUse; IGoReader; IWait].
Definition final_prog (k : kind) : list instr :=
  match k with
  | KTcp => (* connection.go 498-527 *)
    [IStopHook; IHcStop; IClose; IRemove; IGoCallbacks; IFree]
  | KWs => (* ws_connection.go 497-547 *)
    [IStopHook; ILock; IIfClosed; IHcStop; IClose; IRemove; ICloseChan; ISetClosed; IGoCallbacks; IUnlock; IFree]
  | KKcp => (* kcp_connection.go 486-533 *)
    [ISetClose; IStopHook; ILock; IHcStop; IClose; IRemove; ICloseChan; IGoCallbacks; IUnlock; IFree]
  end.

(* The heartbeat goroutine, heartbeat.go 105-120, 140-157, with the default
   beat (conn.SendMsg) and the default not-alive reaction (conn.Stop). *)
Inductive hbpc :=
| HbNone       (* not started *)
| HbSelect     (* in the select: can take a tick or the quit message *)
| HbLock       (* in SendMsg, waiting for msgLock (Ws 400, Kcp 352) *)
| HbWrite      (* in SendMsg, writing to the socket *)
| HbGone.      (* returned *)

Record life := Life {
  lf_todo : list instr;    (* what the StartConn goroutine still has to do *)
  lf_ctx : bool;           (* ctx and cancel have been set by Start *)
  lf_cancelled : bool;     (* cancel has been called *)
  lf_closed : bool;        (* Ws isClosed, Kcp closed *)
  lf_lock : bool;          (* msgLock is held *)
  lf_hb : hbpc;
  lf_reader : bool;        (* the reader goroutine is running *)
  lf_dead : bool           (* an unrecovered panic has ended the process *)
}.
(* newServerConn (connection.go 123-159; ws_connection.go 119-152;
   kcp_connection.go 123-155), after which the accept loop runs "go StartConn". *)
Definition life_new (c : lcfg) : life :=
  Life (start_prog ++ final_prog (lc_kind c)) false false false false HbNone false false.

Inductive lev :=
| EvStartHook | EvStopHook | EvClose | EvRemove | EvChanClosed | EvCallbacks | EvFree
| EvStopPanic      (* Stop panicked: cancel is nil *)
| EvRecovered      (* a hook panicked, Start recovered and returned *)
| EvCrash.         (* a hook panicked and nothing recovered *)

Inductive llabel :=
| LMain            (* the StartConn goroutine does its next statement *)
| LStop            (* some goroutine calls Stop *)
| LReaderEnd       (* StartReader returns; deferred Stop *)
| LTick (fresh : bool)  (* heartbeat tick; fresh: last activity is recent enough *)
| LBeat.           (* the heartbeat goroutine goes on: gets msgLock, or finishes writing *)

Definition set_todo (s : life) (t : list instr) : life :=
  Life t (lf_ctx s) (lf_cancelled s) (lf_closed s) (lf_lock s) (lf_hb s) (lf_reader s) (lf_dead s).
Definition set_cancelled (s : life) : life :=
  Life (lf_todo s) (lf_ctx s) true (lf_closed s) (lf_lock s) (lf_hb s) (lf_reader s) (lf_dead s).
Definition set_hb (s : life) (h : hbpc) : life :=
  Life (lf_todo s) (lf_ctx s) (lf_cancelled s) (lf_closed s) (lf_lock s) h (lf_reader s) (lf_dead s).
Definition set_lock (s : life) (b : bool) : life :=
  Life (lf_todo s) (lf_ctx s) (lf_cancelled s) (lf_closed s) b (lf_hb s) (lf_reader s) (lf_dead s).
Definition set_closed (s : life) : life :=
  Life (lf_todo s) (lf_ctx s) (lf_cancelled s) true (lf_lock s) (lf_hb s) (lf_reader s) (lf_dead s).

(* A hook panics: Tcp and Kcp Start have a deferred recover (connection.go
   293-297, kcp_connection.go 278-282), Ws Start has none. *)
Definition hook_panic (c : lcfg) (s : life) : life * list lev :=
  match lc_kind c with
  | KWs => (Life [] (lf_ctx s) (lf_cancelled s) (lf_closed s) (lf_lock s) (lf_hb s) (lf_reader s) true, [EvCrash])
  | _ => (set_todo s [], [EvRecovered])
  end.

(* isClosed: connection.go 577-579; Ws field isClosed; kcp_connection.go 583-585. *)
Definition is_closed (c : lcfg) (s : life) : bool :=
  match lc_kind c with KTcp => negb (lf_ctx s) || lf_cancelled s | _ => lf_closed s end.

Definition main_step (c : lcfg) (s : life) : life * list lev :=
  match lf_todo s with
  | [] => (s, [])
  | i :: rest =>
    let s1 := set_todo s rest in
    match i with
    | IBind | IUse => (s1, [])
    | ICtx => (Life rest true (lf_cancelled s) (lf_closed s) (lf_lock s) (lf_hb s) (lf_reader s) (lf_dead s), [])
    | IStartHook =>
      if lc_start_panics c then let '(s2, e) := hook_panic c s1 in (s2, EvStartHook :: e) else (s1, [EvStartHook])
    | IHcStart => ((if lc_hc c then set_hb s1 HbSelect else s1), [])
    | IGoReader => (Life rest (lf_ctx s) (lf_cancelled s) (lf_closed s) (lf_lock s) (lf_hb s) true (lf_dead s), [])
    | IWait => if lf_cancelled s then (s1, []) else (s, [])
    | ISetClose => if lf_closed s then (set_todo s [IFree], []) else (set_closed s1, [])
    | IStopHook =>
      if lc_stop_panics c then let '(s2, e) := hook_panic c s1 in (s2, EvStopHook :: e) else (s1, [EvStopHook])
    | ILock => if lf_lock s then (s, []) else (set_lock s1 true, [])
    | IIfClosed => if lf_closed s then (set_todo s [IUnlock; IFree], []) else (s1, [])
    | IHcStop =>
      if lc_hc c then match lf_hb s with HbSelect => (set_hb s1 HbGone, []) | _ => (s, []) end else (s1, [])
    | IClose => (s1, [EvClose])
    | IRemove => (s1, [EvRemove])
    | ICloseChan => (s1, [EvChanClosed])
    | ISetClosed => (set_closed s1, [])
    | IGoCallbacks => (s1, [EvCallbacks])
    | IUnlock => (set_lock s1 false, [])
    | IFree => (s1, [EvFree])
    end
  end.

(* Stop: connection.go 329-331, ws_connection.go 312-314, kcp_connection.go 314-316 *)
Definition stop_call (s : life) : life * list lev :=
  if lf_ctx s then (set_cancelled s, []) else (s, [EvStopPanic]).

Definition life_step (c : lcfg) (s : life) (l : llabel) : life * list lev :=
  if lf_dead s then (s, []) else
  match l with
  | LMain => main_step c s
  | LStop => stop_call s
  | LReaderEnd =>
    if lf_reader s
    then (set_cancelled (Life (lf_todo s) (lf_ctx s) (lf_cancelled s) (lf_closed s) (lf_lock s) (lf_hb s) false (lf_dead s)), [])
    else (s, [])
  | LTick fresh => (* heartbeat.go 140-157 *)
    match lf_hb s with
    | HbSelect =>
      if fresh && negb (is_closed c s)
      then (set_hb s (match lc_kind c with KTcp => HbWrite | _ => HbLock end), [])
      else stop_call s
    | _ => (s, [])
    end
  | LBeat =>
    match lf_hb s with
    | HbLock => if lf_lock s then (s, []) else (set_lock (set_hb s HbWrite) true, [])
    | HbWrite => (set_lock (set_hb s HbSelect) (match lc_kind c with KTcp => lf_lock s | _ => false end), [])
    | _ => (s, [])
    end
  end.

Fixpoint life_run (c : lcfg) (s : life) (ls : list llabel) : life * list lev :=
  match ls with
  | [] => (s, [])
  | l :: ls' => let '(s1, e) := life_step c s l in let '(s2, es) := life_run c s1 ls' in (s2, e ++ es)
  end.

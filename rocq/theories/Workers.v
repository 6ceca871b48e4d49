(* Model of the worker pool: znet/msghandler.go 54-104, 162-280, 299-305, 403-460
   and the calls to it in znet/connection.go 292-325, 498-527 and the accept loop
   znet/server.go 274-306.  Goroutines are interleaved by an arbitrary list of
   labels.  Channel capacity is not modelled: a run with bounded channels is a
   run with unbounded ones in which some sends happen later.  (Not so for a reader
   that waits on the full queue of an extra DynamicBind worker while that queue is
   replaced or closed: DynStop.v.) *)
From Coq Require Import ZArith List Bool Arith.
From Verif Require Import Bytes Pack Request Router GoSlice Dispatch.
Import ListNotations.

(* zconf/zconf.go: WorkerMode. *)
Inductive wmode := ModeHash | ModeBind | ModeDynamicBind.

Record wcfg := Wcfg {
  cf_mode : wmode;
  cf_pool : nat;          (* zconf.GlobalObject.WorkerPoolSize *)
  cf_max : nat;           (* zconf.GlobalObject.MaxConn *)
  cf_routes : routes
}.

(* A request in the pool: the connection (by position) and the job. *)
Definition work : Type := nat * job.

Record chan := Chan { ch_buf : list work; ch_closed : bool }.
Record worker := Worker { wk_chan : nat; wk_cur : option work; wk_alive : bool }.
Record wconn := Wconn {
  co_id : Z;
  co_worker : option nat;      (* workerID, once useWorker has run *)
  co_mgr : bool;               (* in the connection manager *)
  co_freed : bool              (* freeWorker has run *)
}.

Record wst := Wst {
  ws_chans : list chan;
  ws_tq : list (option nat);   (* TaskQueue; None is a nil channel *)
  ws_workers : list worker;
  ws_free : list nat;          (* freeWorkers, a set *)
  ws_extra : list nat;         (* extraFreeWorkers, a set *)
  ws_conns : list wconn;
  ws_crashed : bool            (* a panic nobody recovered *)
}.

Inductive wev :=
| EvSend (c : nat) (j : job)                       (* request queued *)
| EvBegin (c : nat) (j : job)                      (* handling starts *)
| EvEnd (c : nat) (j : job) (es : list hev)        (* handling ends; what user code did *)
| EvExtra (c : nat)                                (* an extra worker was started *)
| EvIndexPanic (c : nat)                           (* TaskQueue index out of range *)
| EvNilQueue (c : nat)                             (* send on a nil channel: blocks for ever *)
| EvClosedPanic (c : nat)                          (* send on a closed channel *)
| EvClosePanic (c : nat).                          (* close of a nil or closed channel *)

Inductive wlabel :=
| LAccept                         (* the accept loop takes a connection *)
| LStart (c pick : nat)           (* Connection.Start up to useWorker; pick: map order *)
| LSend (c : nat) (j : job)       (* MsgHandle.Intercept / SendMsgToTaskQueue *)
| LTake (w : nat)                 (* worker w receives from its channel *)
| LFinish (w fuel : nat)          (* worker w finishes its request *)
| LRemove (c : nat)               (* finalizer: connManager.Remove *)
| LFree (c : nat).                (* freeWorker *)

(* znet/msghandler.go 58-68, 96: the effective pool size. *)
Definition pool_size (cf : wcfg) : nat :=
  match cf_mode cf with ModeBind => cf_max cf | _ => cf_pool cf end.

(* znet/msghandler.go 70-84, 98: newMsgHandle, then StartWorkerPool 447-460; None
   is its index panic. *)
Definition queue_len (cf : wcfg) : nat :=
  match cf_mode cf with ModeDynamicBind => cf_max cf | _ => pool_size cf end.
Definition start_pool (cf : wcfg) : option wst :=
  if queue_len cf <? pool_size cf then None
  else
    let n := pool_size cf in
    Some {| ws_chans := repeat {| ch_buf := []; ch_closed := false |} n;
            ws_tq := map Some (seq 0 n) ++ repeat None (queue_len cf - n);
            ws_workers := map (fun i => {| wk_chan := i; wk_cur := None; wk_alive := true |}) (seq 0 n);
            ws_free := match cf_mode cf with ModeHash => [] | _ => seq 0 n end;
            ws_extra := match cf_mode cf with ModeDynamicBind => seq n (cf_max cf - n) | _ => [] end;
            ws_conns := [];
            ws_crashed := false |}.

(* Go: range over a map yields any key first. *)
Definition pick_one (l : list nat) (pick : nat) : option nat :=
  nth_error l (Nat.modulo pick (length l)).
Definition remove_id (x : nat) (l : list nat) : list nat := filter (fun y => negb (Nat.eqb y x)) l.
Definition add_id (x : nat) (l : list nat) : list nat :=
  if existsb (Nat.eqb x) l then l else x :: l.

Definition with_conn (s : wst) (c : nat) (k : wconn) : wst :=
  {| ws_chans := ws_chans s; ws_tq := ws_tq s; ws_workers := ws_workers s; ws_free := ws_free s;
     ws_extra := ws_extra s; ws_conns := set_nth c k (ws_conns s); ws_crashed := ws_crashed s |}.
Definition with_free (s : wst) (l : list nat) : wst :=
  {| ws_chans := ws_chans s; ws_tq := ws_tq s; ws_workers := ws_workers s; ws_free := l;
     ws_extra := ws_extra s; ws_conns := ws_conns s; ws_crashed := ws_crashed s |}.
Definition with_extra (s : wst) (l : list nat) : wst :=
  {| ws_chans := ws_chans s; ws_tq := ws_tq s; ws_workers := ws_workers s; ws_free := ws_free s;
     ws_extra := l; ws_conns := ws_conns s; ws_crashed := ws_crashed s |}.
Definition with_chan (s : wst) (i : nat) (ch : chan) : wst :=
  {| ws_chans := set_nth i ch (ws_chans s); ws_tq := ws_tq s; ws_workers := ws_workers s; ws_free := ws_free s;
     ws_extra := ws_extra s; ws_conns := ws_conns s; ws_crashed := ws_crashed s |}.
Definition with_worker (s : wst) (i : nat) (w : worker) : wst :=
  {| ws_chans := ws_chans s; ws_tq := ws_tq s; ws_workers := set_nth i w (ws_workers s); ws_free := ws_free s;
     ws_extra := ws_extra s; ws_conns := ws_conns s; ws_crashed := ws_crashed s |}.

(* make(chan ...) and go mh.StartOneWorker on it. *)
Definition spawn (s : wst) (ch : chan) : wst * nat :=
  ({| ws_chans := ws_chans s ++ [ch]; ws_tq := ws_tq s;
      ws_workers := ws_workers s ++ [{| wk_chan := length (ws_chans s); wk_cur := None; wk_alive := true |}];
      ws_free := ws_free s; ws_extra := ws_extra s; ws_conns := ws_conns s; ws_crashed := ws_crashed s |},
   length (ws_chans s)).
Definition with_tq (s : wst) (i : nat) (ch : nat) : wst :=
  {| ws_chans := ws_chans s; ws_tq := set_nth i (Some ch) (ws_tq s); ws_workers := ws_workers s;
     ws_free := ws_free s; ws_extra := ws_extra s; ws_conns := ws_conns s; ws_crashed := ws_crashed s |}.

(* znet/msghandler.go 203-216: the ConnID rule. *)
Definition hash_worker (cf : wcfg) (id : Z) : nat :=
  if pool_size cf =? 0 then 0 else Z.to_nat (Z.modulo id (Z.of_nat (pool_size cf))).

(* znet/msghandler.go 162-217: useWorker; the flag says an extra worker was started. *)
Definition use_worker (cf : wcfg) (s : wst) (id : Z) (pick : nat) : wst * nat * bool :=
  match cf_mode cf with
  | ModeHash => (s, hash_worker cf id, false)
  | ModeBind =>
    match pick_one (ws_free s) pick with
    | Some k => (with_free s (remove_id k (ws_free s)), k, false)
    | None => (s, hash_worker cf id, false)
    end
  | ModeDynamicBind =>
    match pick_one (ws_free s) pick with
    | Some k => (with_free s (remove_id k (ws_free s)), k, false)
    | None =>
      match pick_one (ws_extra s) pick with
      | Some k =>
        (* the ID stays in extraFreeWorkers *)
        let '(s1, ch) := spawn s {| ch_buf := []; ch_closed := false |} in
        (with_tq s1 k ch, k, true)
      | None => (s, hash_worker cf id, false)
      end
    end
  end.

(* znet/msghandler.go 221-251, 403-408: freeWorker; true when it panics (Start
   recovers on TCP, connection.go 293-297, and KCP; not on the websocket: DynStop.v). *)
Definition free_worker (cf : wcfg) (s : wst) (wid : nat) : wst * bool :=
  match cf_mode cf with
  | ModeHash => (s, false)
  | ModeBind => (with_free s (add_id wid (ws_free s)), false)
  | ModeDynamicBind =>
    if wid <? pool_size cf then (with_free s (add_id wid (ws_free s)), false)
    else
      match nth_error (ws_tq s) wid with
      | Some (Some i) =>
        match nth_error (ws_chans s) i with
        | Some ch =>
          if ch_closed ch then (s, true)
          else
            let s1 := with_chan s i {| ch_buf := ch_buf ch; ch_closed := true |} in
            (with_extra s1 (add_id wid (ws_extra s1)), false)
        | None => (s, true)
        end
      | _ => (s, true)
      end
  end.

(* znet/msghandler.go 255-280, 299-305: queue a request, or without a pool start
   a goroutine for it: a worker on a closed channel that holds just this request. *)
Definition send_task (cf : wcfg) (s : wst) (c wid : nat) (j : job) : wst * list wev :=
  if pool_size cf =? 0 then
    (fst (spawn s {| ch_buf := [(c, j)]; ch_closed := true |}), [EvSend c j])
  else
    match nth_error (ws_tq s) wid with
    | None => (s, [EvIndexPanic c])
    | Some None => (s, [EvNilQueue c])
    | Some (Some i) =>
      match nth_error (ws_chans s) i with
      | None => (s, [])
      | Some ch =>
        if ch_closed ch then (s, [EvClosedPanic c])
        else (with_chan s i {| ch_buf := ch_buf ch ++ [(c, j)]; ch_closed := false |}, [EvSend c j])
      end
    end.

Definition in_manager (s : wst) : nat := length (filter co_mgr (ws_conns s)).

(* One step of some goroutine; a label that is not enabled changes nothing. *)
Definition wstep (cf : wcfg) (s : wst) (l : wlabel) : wst * list wev :=
  if ws_crashed s then (s, []) else
  match l with
  | LAccept =>
    (* server.go 277, 300-301; connection.go newServerConn adds it to the manager *)
    if in_manager s <? cf_max cf then
      ({| ws_chans := ws_chans s; ws_tq := ws_tq s; ws_workers := ws_workers s; ws_free := ws_free s;
          ws_extra := ws_extra s;
          ws_conns := ws_conns s ++ [{| co_id := (Z.of_nat (S (length (ws_conns s))) mod 2 ^ 64)%Z;
                                        co_worker := None; co_mgr := true; co_freed := false |}];
          ws_crashed := ws_crashed s |}, [])
    else (s, [])
  | LStart c pick =>
    match nth_error (ws_conns s) c with
    | Some k =>
      match co_worker k with
      | Some _ => (s, [])
      | None =>
        let '(s1, wid, extra) := use_worker cf s (co_id k) pick in
        (with_conn s1 c {| co_id := co_id k; co_worker := Some wid; co_mgr := co_mgr k; co_freed := co_freed k |},
         if extra then [EvExtra c] else [])
      end
    | None => (s, [])
    end
  | LSend c j =>
    match nth_error (ws_conns s) c with
    | Some k =>
      match co_worker k with
      | Some wid => send_task cf s c wid j
      | None => (s, [])
      end
    | None => (s, [])
    end
  | LTake w =>
    (* msghandler.go 416-427 *)
    match nth_error (ws_workers s) w with
    | Some k =>
      match wk_alive k, wk_cur k, nth_error (ws_chans s) (wk_chan k) with
      | true, None, Some ch =>
        match ch_buf ch with
        | x :: rest =>
          (with_chan (with_worker s w {| wk_chan := wk_chan k; wk_cur := Some x; wk_alive := true |})
                     (wk_chan k) {| ch_buf := rest; ch_closed := ch_closed ch |},
           [EvBegin (fst x) (snd x)])
        | [] =>
          if ch_closed ch
          then (with_worker s w {| wk_chan := wk_chan k; wk_cur := None; wk_alive := false |}, [])
          else (s, [])
        end
      | _, _, _ => (s, [])
      end
    | None => (s, [])
    end
  | LFinish w fuel =>
    match nth_error (ws_workers s) w with
    | Some k =>
      match wk_cur k with
      | Some (c, j) =>
        let '(es, r) := handle fuel (cf_routes cf) j in
        match r with
        | GoHang => (s, [])
        | GoRet => (with_worker s w {| wk_chan := wk_chan k; wk_cur := None; wk_alive := wk_alive k |},
                    [EvEnd c j es])
        | GoPanic =>
          ({| ws_chans := ws_chans s; ws_tq := ws_tq s; ws_workers := ws_workers s; ws_free := ws_free s;
              ws_extra := ws_extra s; ws_conns := ws_conns s; ws_crashed := true |}, [])
        end
      | None => (s, [])
      end
    | None => (s, [])
    end
  | LRemove c =>
    match nth_error (ws_conns s) c with
    | Some k =>
      match co_worker k with
      | Some _ => (with_conn s c {| co_id := co_id k; co_worker := co_worker k; co_mgr := false; co_freed := co_freed k |}, [])
      | None => (s, [])
      end
    | None => (s, [])
    end
  | LFree c =>
    match nth_error (ws_conns s) c with
    | Some k =>
      match co_worker k, co_mgr k, co_freed k with
      | Some wid, false, false =>
        let '(s1, p) := free_worker cf s wid in
        (with_conn s1 c {| co_id := co_id k; co_worker := co_worker k; co_mgr := false; co_freed := true |},
         if p then [EvClosePanic c] else [])
      | _, _, _ => (s, [])
      end
    | None => (s, [])
    end
  end.

Fixpoint wrun (cf : wcfg) (s : wst) (ls : list wlabel) : wst * list wev :=
  match ls with
  | [] => (s, [])
  | l :: ls' =>
    let '(s1, e1) := wstep cf s l in
    let '(s2, e2) := wrun cf s1 ls' in (s2, e1 ++ e2)
  end.

(* A server run: the pool is started, then any schedule. *)
Definition server_run (cf : wcfg) (ls : list wlabel) : option (wst * list wev) :=
  match start_pool cf with
  | None => None
  | Some s => Some (wrun cf s ls)
  end.

(* Model of the workers beyond the pool in DynamicBind mode, with queues that can be
   full: useWorker (znet/msghandler.go 188-197), SendMsgToTaskQueue (299-305),
   StopOneWorker and StartOneWorker (403-442) and freeWorker (236-249), called by the
   goroutines of the connections: the one in Start (connection.go 292-325,
   ws_connection.go 276-312, kcp_connection.go 278-312) and the reader
   (connection.go 226-288, ws_connection.go 209-272, kcp_connection.go 214-273).
   Workers.v has the pool and the same functions with queues that are never full.
   Simplified: every connection here got an extra worker; interceptors and decoding
   are a request appearing in the reader; a queue of length 0 behaves as one of 1. *)
From Coq Require Import List Bool Arith.
From Verif Require Import Bytes GoSlice.
Import ListNotations.

Inductive link := LkTcp | LkWs | LkKcp.

(* The reader: waiting for data; with request m, before TaskQueue[workerID] is
   evaluated; in the send to channel k; ended. *)
Inductive rdpc := RdWait | RdHas (m : nat) | RdSend (k : nat) (m : nat) | RdGone.
(* The goroutine in Start: waiting for ctx.Done; done. *)
Inductive mnpc := MnWait | MnGone.

Record dconn := Dconn {
  dc_link : link;
  dc_wid : nat;                  (* workerID, an extra one *)
  dc_stopped : bool;             (* the context is cancelled *)
  dc_reader : rdpc;
  dc_main : mnpc
}.
(* A queue with its worker: StartOneWorker is started once per channel. *)
Record dchan := Dchan { dh_q : list (nat * nat); dh_closed : bool; dh_cur : option (nat * nat); dh_quit : bool }.
Record dst := Dst {
  d_chans : list dchan;
  d_slot : nat -> option nat;    (* TaskQueue, for the extra IDs: a channel *)
  d_conns : list dconn;
  d_dead : bool                  (* the process ended by a panic nobody recovers *)
}.
Definition dyn_init : dst := Dst [] (fun _ => None) [] false.

Inductive dev :=
| DeStart (c : nat) (lk : link) (w : nat)   (* connection c of that kind runs with extra worker ID w *)
| DeRead (c m : nat)             (* its reader has request m *)
| DeQueued (c m : nat)           (* the request is in a queue *)
| DeLost (c m : nat)             (* the send panicked: send on closed channel *)
| DeHandled (c m : nat)          (* a worker has taken the request *)
| DeStop (c : nat)               (* c's context is cancelled *)
| DeFreed (c : nat)              (* its worker is stopped *)
| DeTwice (c : nat).             (* close of closed channel *)

Inductive dlabel :=
| DlStart (lk : link) (w : nat)  (* w: whichever key the range over extraFreeWorkers yields first *)
| DlRead (c m : nat)
| DlReader (c : nat)
| DlEnd (c : nat)                (* the reader returns: read error or cancelled *)
| DlStop (c : nat)               (* Stop, by anybody *)
| DlMain (c : nat)
| DlTake (k : nat)               (* the worker of channel k receives *)
| DlDone (k : nat).              (* its handler returns *)

Definition upd_slot (f : nat -> option nat) (w k : nat) : nat -> option nat := fun v => if Nat.eqb v w then Some k else f v.
Definition put_conn (s : dst) (c : nat) (x : dconn) : dst := Dst (d_chans s) (d_slot s) (set_nth c x (d_conns s)) (d_dead s).
Definition put_chan (s : dst) (k : nat) (x : dchan) : dst := Dst (set_nth k x (d_chans s)) (d_slot s) (d_conns s) (d_dead s).
Definition at_reader (x : dconn) (r : rdpc) : dconn := Dconn (dc_link x) (dc_wid x) (dc_stopped x) r (dc_main x).
(* A panic in the reader: recovered by the deferred functions of StartReader on TCP
   (connection.go 231-235) and KCP (kcp_connection.go 218-222), by nothing on the
   websocket; Stop is deferred (connection.go 230). *)
Definition reader_panics (s : dst) (c : nat) (x : dconn) : dst :=
  let s' := put_conn s c (Dconn (dc_link x) (dc_wid x) true RdGone (dc_main x)) in
  match dc_link x with
  | LkWs => Dst (d_chans s') (d_slot s') (d_conns s') true
  | _ => s'
  end.
(* A panic in Start: recovered on TCP (connection.go 293-297) and KCP
   (kcp_connection.go 279-283), by nothing on the websocket. *)
Definition main_panics (s : dst) (c : nat) (x : dconn) : dst :=
  let s' := put_conn s c (Dconn (dc_link x) (dc_wid x) (dc_stopped x) (dc_reader x) MnGone) in
  match dc_link x with
  | LkWs => Dst (d_chans s') (d_slot s') (d_conns s') true
  | _ => s'
  end.

Section Dyn_.
Variable cap : nat.              (* MaxWorkerTaskLen *)

(* SendMsgToTaskQueue: 303, the channel is evaluated, then the send waits for room. *)
Definition reader_step (s : dst) (c : nat) (x : dconn) : dst * list dev :=
  match dc_reader x with
  | RdHas m =>
    match d_slot s (dc_wid x) with
    | Some k => (put_conn s c (at_reader x (RdSend k m)), [])
    | None => (s, [])            (* a nil channel: never ready *)
    end
  | RdSend k m =>
    match nth_error (d_chans s) k with
    | Some h =>
      if dh_closed h then (reader_panics s c x, DeLost c m :: if dc_stopped x then [] else [DeStop c])
      else if length (dh_q h) <? max 1 cap
           then (put_chan (put_conn s c (at_reader x RdWait)) k (Dchan (dh_q h ++ [(c, m)]) false (dh_cur h) (dh_quit h)), [DeQueued c m])
           else (s, [])
    | None => (s, [])
    end
  | _ => (s, [])
  end.

(* finalizer and freeWorker 236-249; StopOneWorker 403-408 closes what TaskQueue
   holds now. *)
Definition main_step (s : dst) (c : nat) (x : dconn) : dst * list dev :=
  match dc_main x, dc_stopped x with
  | MnWait, true =>
    match d_slot s (dc_wid x) with
    | Some k =>
      match nth_error (d_chans s) k with
      | Some h =>
        if dh_closed h then (main_panics s c x, [DeTwice c])
        else (put_chan (put_conn s c (Dconn (dc_link x) (dc_wid x) true (dc_reader x) MnGone)) k (Dchan (dh_q h) true (dh_cur h) (dh_quit h)), [DeFreed c])
      | None => (s, [])
      end
    | None => (s, [])
    end
  | _, _ => (s, [])
  end.

(* StartOneWorker 411-441 *)
Definition take_step (s : dst) (k : nat) : dst * list dev :=
  match nth_error (d_chans s) k with
  | Some h =>
    match dh_quit h, dh_cur h, dh_q h with
    | false, None, (c, m) :: q => (put_chan s k (Dchan q (dh_closed h) (Some (c, m)) false), [DeHandled c m])
    | false, None, [] => if dh_closed h then (put_chan s k (Dchan [] true None true), []) else (s, [])
    | _, _, _ => (s, [])
    end
  | None => (s, [])
  end.
Definition done_step (s : dst) (k : nat) : dst * list dev :=
  match nth_error (d_chans s) k with
  | Some h =>
    match dh_cur h with
    | Some _ => (put_chan s k (Dchan (dh_q h) (dh_closed h) None (dh_quit h)), [])
    | None => (s, [])
    end
  | None => (s, [])
  end.

Definition dyn_step (s : dst) (l : dlabel) : dst * list dev :=
  if d_dead s then (s, []) else
  match l with
  | DlStart lk w =>
    (* 191-194: a new channel in TaskQueue[w], a new worker; w stays available *)
    (Dst (d_chans s ++ [Dchan [] false None false]) (upd_slot (d_slot s) w (length (d_chans s)))
         (d_conns s ++ [Dconn lk w false RdWait MnWait]) false, [DeStart (length (d_conns s)) lk w])
  | DlRead c m =>
    match nth_error (d_conns s) c with
    | Some x => match dc_reader x with RdWait => (put_conn s c (at_reader x (RdHas m)), [DeRead c m]) | _ => (s, []) end
    | None => (s, [])
    end
  | DlReader c => match nth_error (d_conns s) c with Some x => reader_step s c x | None => (s, []) end
  | DlEnd c =>
    (* connection.go 230, 243-251: Stop is deferred; a read fails or the context is cancelled *)
    match nth_error (d_conns s) c with
    | Some x => match dc_reader x with
                | RdWait => (put_conn s c (Dconn (dc_link x) (dc_wid x) true RdGone (dc_main x)), if dc_stopped x then [] else [DeStop c])
                | _ => (s, [])
                end
    | None => (s, [])
    end
  | DlStop c =>
    match nth_error (d_conns s) c with
    | Some x => if dc_stopped x then (s, []) else (put_conn s c (Dconn (dc_link x) (dc_wid x) true (dc_reader x) (dc_main x)), [DeStop c])
    | None => (s, [])
    end
  | DlMain c => match nth_error (d_conns s) c with Some x => main_step s c x | None => (s, []) end
  | DlTake k => take_step s k
  | DlDone k => done_step s k
  end.
Fixpoint dyn_run (s : dst) (ls : list dlabel) : dst * list dev :=
  match ls with
  | [] => (s, [])
  | l :: rest => let (s1, e1) := dyn_step s l in let (s2, e2) := dyn_run s1 rest in (s2, e1 ++ e2)
  end.
End Dyn_.

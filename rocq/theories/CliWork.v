(* Model of how a client's messages get to their handlers, and of what its connections do
   with the worker modes:
   - newCliMsgHandle (znet/msghandler.go 106-158): the tables of the worker mode, but WorkerPoolSize 0 and no worker started;
   - useWorker (162-218) and freeWorker (221-251), StopOneWorker (403-408), which the connections of clients call
     as those of servers do (connection.go 311-323, ws_connection.go 294-306, kcp_connection.go 296-308; clients use the first two);
   - Intercept (252-277) with WorkerPoolSize 0: a goroutine per request.
   A connection's Start recovers panics (connection.go 293-297), a websocket connection's does not
   (ws_connection.go 276-308): there a panic ends the process.
   Simplified: which key a range over a map gives first is part of the step; hooks, heartbeats and decoding are
   left out; handlers end; connections and messages are named by numbers; extra workers have nothing to do and are left out. *)
From Coq Require Import List Bool Arith.
From Verif Require Import GoSlice.
Import ListNotations.

Inductive wmode := Hash | Bind | Dyn.
Inductive wire := Tcp | Ws.
Inductive qst := QNil | QOpen | QClosed. (* an entry of TaskQueue *)
Record cconn := Cc { cc_wire : wire; cc_wid : nat; cc_open : bool }.
Inductive gpc := GStart | GRun | GDone. (* a goroutine of 270 or 272 *)
Record cst := Cst { c_free : list nat; c_extra : list nat; c_queues : list qst; c_conns : list cconn; c_gos : list (nat * nat * gpc); c_dead : bool }.

Inductive clabel :=
| COpen (w : wire) (pick : nat) (* Start of a new connection, up to the reader *)
| CClose (c : nat)              (* the rest of Start, when the connection was stopped *)
| CReceive (c m : nat)          (* the reader has message m: Execute *)
| CBegin (g : nat)              (* goroutine g starts its handler *)
| CEnd (g : nat).
Inductive cev := EReceived (c m : nat) | EBegin (c m : nat) | EEnd (c m : nat) | ERecovered (c : nat) | ECrash.

Section Client.
Variable mode : wmode.
Variable pool maxconn : nat. (* WorkerPoolSize and MaxConn of the configuration *)

(* msghandler.go 108-158 *)
Definition c_new : cst :=
  match mode with
  | Hash => Cst [] [] (repeat QNil pool) [] [] false
  | Bind => Cst (seq 0 maxconn) [] (repeat QNil maxconn) [] [] false
  | Dyn => Cst (seq 0 pool) (seq pool (maxconn - pool)) (repeat QNil maxconn) [] [] false
  end.

(* the pick-th key of a map, as range may give it first *)
Definition any_of (l : list nat) (pick : nat) : option nat := nth_error l (pick mod length l).
Definition drop_id (k : nat) (l : list nat) : list nat := filter (fun x => negb (Nat.eqb x k)) l.

(* msghandler.go 162-218: the ID, and the tables afterwards.  204-206: WorkerPoolSize is 0, so ID 0 is left. *)
Definition use_worker (s : cst) (pick : nat) : nat * (list nat * list nat * list qst) :=
  match mode with
  | Hash => (0, (c_free s, c_extra s, c_queues s))
  | Bind =>
    match any_of (c_free s) pick with
    | Some k => (k, (drop_id k (c_free s), c_extra s, c_queues s))
    | None => (0, (c_free s, c_extra s, c_queues s))
    end
  | Dyn =>
    match any_of (c_free s) pick with
    | Some k => (k, (drop_id k (c_free s), c_extra s, c_queues s))
    | None =>
      match any_of (c_extra s) pick with
      | Some k => (k, (c_free s, c_extra s, set_nth k QOpen (c_queues s))) (* 193-197: not deleted *)
      | None => (0, (c_free s, c_extra s, c_queues s))
      end
    end
  end.

(* msghandler.go 221-251; None: a panic.  237: no ID is below a WorkerPoolSize of 0. *)
Definition free_worker (s : cst) (k : nat) : option (list nat * list nat * list qst) :=
  match mode with
  | Hash => Some (c_free s, c_extra s, c_queues s)
  | Bind => Some (k :: drop_id k (c_free s), c_extra s, c_queues s)
  | Dyn =>
    match nth_error (c_queues s) k with
    | Some QOpen => Some (c_free s, k :: drop_id k (c_extra s), set_nth k QClosed (c_queues s)) (* 407: close *)
    | _ => None (* index out of range, close of a nil channel, close of a closed channel *)
    end
  end.

Definition c_step (s : cst) (l : clabel) : cst * list cev :=
  if c_dead s then (s, []) else
  match l with
  | COpen w pick =>
    let '(k, (f, x, q)) := use_worker s pick in
    (Cst f x q (c_conns s ++ [Cc w k true]) (c_gos s) false, [])
  | CClose c =>
    match nth_error (c_conns s) c with
    | Some (Cc w k true) =>
      let conns := set_nth c (Cc w k false) (c_conns s) in
      match free_worker s k, w with
      | Some (f, x, q), _ => (Cst f x q conns (c_gos s) false, [])
      | None, Tcp => (Cst (c_free s) (c_extra s) (c_queues s) conns (c_gos s) false, [ERecovered c])
      | None, Ws => (Cst (c_free s) (c_extra s) (c_queues s) conns (c_gos s) true, [ECrash])
      end
    | _ => (s, [])
    end
  | CReceive c m =>
    match nth_error (c_conns s) c with
    | Some (Cc _ _ true) => (Cst (c_free s) (c_extra s) (c_queues s) (c_conns s) (c_gos s ++ [(c, m, GStart)]) false, [EReceived c m])
    | _ => (s, [])
    end
  | CBegin g =>
    match nth_error (c_gos s) g with
    | Some (c, m, GStart) => (Cst (c_free s) (c_extra s) (c_queues s) (c_conns s) (set_nth g (c, m, GRun) (c_gos s)) false, [EBegin c m])
    | _ => (s, [])
    end
  | CEnd g =>
    match nth_error (c_gos s) g with
    | Some (c, m, GRun) => (Cst (c_free s) (c_extra s) (c_queues s) (c_conns s) (set_nth g (c, m, GDone) (c_gos s)) false, [EEnd c m])
    | _ => (s, [])
    end
  end.
Fixpoint c_run (s : cst) (ls : list clabel) : cst * list cev :=
  match ls with
  | [] => (s, [])
  | l :: ls' => let '(s1, e1) := c_step s l in let '(s2, e2) := c_run s1 ls' in (s2, e1 ++ e2)
  end.
End Client.

(* Model of the heartbeat of a client that is restarted: znet/client.go 118-193 (Restart: a
   goroutine dials, makes the connection, binds the client's one heartbeat checker to it and
   starts it), znet/connection.go 292-331, 498-506, 543-559, 577-579 (Start, Stop, the finalizer
   up to hc.Stop, IsAlive) and znet/heartbeat.go 105-157, 171-174 (start, Start, Stop, check,
   BindConn) with the default beat and the default reaction, conn.Stop (heartbeat.go 45-48).
   A server clones its checker for every connection (server.go 226-232); a client does not.
   Tcp client; StartHeartBeat was called before Start.  The write of a beat returns. *)
From Coq Require Import List Bool Arith.
From Verif Require Import GoSlice.
Import ListNotations.

(* One connection of the client. *)
Record hconn := Hconn {
  k_bound : bool;     (* BindConn done, Start may run *)
  k_ctx : bool;       (* ctx and cancel are set *)
  k_go : bool;        (* hc.Start done *)
  k_act : bool;       (* updateActivity done: lastActivityTime is not the zero time *)
  k_cancel : bool;    (* cancel called *)
  k_quit : bool       (* the finalizer's hc.Stop has returned *)
}.
Definition hconn_made : hconn := Hconn false false false false false false.
(* A goroutine running HeartbeatChecker.start. *)
Inductive hpc :=
| GSelect            (* in the select *)
| GAlive             (* in check: IsAlive said true *)
| GDead              (* in check: IsAlive said false *)
| GEnded.
Record hst := Hst {
  hs_conns : list hconn;
  hs_gos : list hpc;
  hs_conn : option nat;    (* h.conn *)
  hs_crash : bool          (* a panic in a heartbeat goroutine has ended the process *)
}.
Definition hs_new : hst := Hst [] [] None false.

Inductive hlabel :=
| HMade                     (* a Restart goroutine has dialled and made the connection *)
| HBind (i : nat)           (* client.go 179: c.hc.BindConn(connect) *)
| HCtx (i : nat)            (* connection.go 298 *)
| HGo (i : nat)             (* 306 *)
| HActive (i : nat)         (* 307; later activity is the flag of HTick *)
| HCancel (i : nat)         (* Stop after 298: by the reader, the program, ... *)
| HQuit (i g : nat)         (* 505, heartbeat.go 120-123: the send to quitChan is received by goroutine g *)
| HTick (g : nat) (recent : bool)  (* 110, 146: the ticker; recent: the last activity is recent enough *)
| HReact (g : nat).         (* 147-156: what check does next *)
Inductive hev :=
| VBind (i : nat) | VGo (i : nat) | VQuit (i : nat)
| VCheck (g i : nat) (alive : bool)   (* goroutine g has looked at connection i *)
| VBeat (i : nat)                     (* SendMsg was called on connection i with the heartbeat message *)
| VStop (i : nat)                     (* Stop was called on connection i *)
| VCrash.                             (* Stop called a nil cancel *)

Definition put (s : hst) (i : nat) (k : hconn) : hst := Hst (set_nth i k (hs_conns s)) (hs_gos s) (hs_conn s) (hs_crash s).
Definition go (s : hst) (g : nat) (p : hpc) : hst := Hst (hs_conns s) (set_nth g p (hs_gos s)) (hs_conn s) (hs_crash s).

(* connection.go 543-551, 577-579 *)
Definition is_alive (k : hconn) (recent : bool) : bool := k_ctx k && negb (k_cancel k) && k_act k && recent.

Definition h_step (s : hst) (l : hlabel) : hst * list hev :=
  if hs_crash s then (s, []) else
  match l with
  | HMade => (Hst (hs_conns s ++ [hconn_made]) (hs_gos s) (hs_conn s) false, [])
  | HBind i =>
    match nth_error (hs_conns s) i with
    | Some (Hconn false x a b c q) => (Hst (set_nth i (Hconn true x a b c q) (hs_conns s)) (hs_gos s) (Some i) false, [VBind i])
    | _ => (s, [])
    end
  | HCtx i =>
    match nth_error (hs_conns s) i with
    | Some (Hconn true false a b c q) => (put s i (Hconn true true a b c q), [])
    | _ => (s, [])
    end
  | HGo i =>
    match nth_error (hs_conns s) i with
    | Some (Hconn bd true false b c q) => (Hst (set_nth i (Hconn bd true true b c q) (hs_conns s)) (hs_gos s ++ [GSelect]) (hs_conn s) false, [VGo i])
    | _ => (s, [])
    end
  | HActive i =>
    match nth_error (hs_conns s) i with
    | Some (Hconn bd x true false c q) => (put s i (Hconn bd x true true c q), [])
    | _ => (s, [])
    end
  | HCancel i =>
    match nth_error (hs_conns s) i with
    | Some (Hconn bd true a b _ q) => (put s i (Hconn bd true a b true q), [])
    | _ => (s, [])
    end
  | HQuit i g =>
    match nth_error (hs_conns s) i, nth_error (hs_gos s) g with
    | Some (Hconn bd x a true true false), Some GSelect => (go (put s i (Hconn bd x a true true true)) g GEnded, [VQuit i])
    | _, _ => (s, [])
    end
  | HTick g recent =>
    match nth_error (hs_gos s) g, hs_conn s with
    | Some GSelect, Some i =>
      match nth_error (hs_conns s) i with
      | Some k => let a := is_alive k recent in (go s g (if a then GAlive else GDead), [VCheck g i a])
      | None => (s, [])
      end
    | _, _ => (s, [])
    end
  | HReact g =>
    match nth_error (hs_gos s) g, hs_conn s with
    | Some GAlive, Some i => (go s g GSelect, [VBeat i])
    | Some GDead, Some i =>
      match nth_error (hs_conns s) i with
      | Some (Hconn bd true a b _ q) => (go (put s i (Hconn bd true a b true q)) g GSelect, [VStop i])
      | _ => (Hst (hs_conns s) (hs_gos s) (hs_conn s) true, [VCrash])
      end
    | _, _ => (s, [])
    end
  end.
Fixpoint h_run (s : hst) (ls : list hlabel) : hst * list hev :=
  match ls with
  | [] => (s, [])
  | l :: rest => let (s1, e1) := h_step s l in let (s2, e2) := h_run s1 rest in (s2, e1 ++ e2)
  end.

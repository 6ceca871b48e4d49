(* Model of starting and stopping a client: znet/client.go 56-108 (constructors),
   115-207 (Restart, Start), 246-255 (Stop), 261-271 (Conn, setConn), 315-317
   (GetErrChan).  Any number of goroutines call Start, Restart and Stop and
   receive from ErrChan; a schedule is any list of labels, and a label that is not
   enabled does nothing.  Of a connection only this is kept: whether its Start
   has set cancel and whether cancel was called (its whole life is ConnLife.v).
   Dialling succeeds or fails as the label says; the kind of socket, heartbeat
   checker and log lines are left out. *)
From Coq Require Import List Bool Arith.
From Verif Require Import GoSlice.
Import ListNotations.

Record ccn := Ccn {
  cc_go : bool;       (* "go connect.Start()" was executed (client.go 188) *)
  cc_ctx : bool;      (* connection.go 298: Start has set ctx and cancel *)
  cc_stopped : bool   (* cancel was called *)
}.
(* Where the goroutine of a Restart is. *)
Inductive dpc :=
| DDial            (* dialling: 118-172 *)
| DErr             (* 140, 160, 168: c.ErrChan <- err *)
| DSet (k : nat)   (* 177: c.setConn(connect), connect being connection k *)
| DGo (k : nat)    (* 188: go connect.Start() *)
| DSel             (* 190-191: about to evaluate c.exitChan *)
| DWait (ch : nat) (* waiting on that channel *)
| DEnd.
(* Where a goroutine in Stop is. *)
Inductive tpc :=
| TConn            (* 247: con := c.Conn() *)
| TStop (k : nat)  (* 250: con.Stop() *)
| TSend            (* 252: about to evaluate c.exitChan *)
| TSending (ch : option nat)  (* sending on that channel; None: nil *)
| TCloseExit       (* 253 *)
| TCloseErr        (* 254 *)
| TDone.
Record cli := Cli {
  ci_exit : option nat;     (* c.exitChan: nil, or the channel of that number *)
  ci_exits : list bool;     (* every exit channel made: closed? *)
  ci_err_closed : bool;     (* ErrChan is closed *)
  ci_conn : option nat;     (* c.conn *)
  ci_conns : list ccn;      (* every connection object made *)
  ci_dials : list dpc;
  ci_stops : list tpc;
  ci_crashed : bool         (* an unrecovered panic ended the process *)
}.
(* client.go 56-100: NewClient, NewWsClient *)
Definition cli_new : cli := Cli None [] false None [] [] [] false.

Inductive cev :=
| CeFailed (d : nat)     (* the dial of Restart number d failed *)
| CeError (d : nat)      (* its error was received from ErrChan *)
| CeEnd                  (* a receive found ErrChan closed *)
| CeReturned (g : nat)   (* Stop number g returned *)
| CePanic (g : nat)      (* Stop number g panicked *)
| CeCrash.               (* a Restart goroutine panicked *)
Inductive clabel :=
| CRestart                     (* Start or Restart is called *)
| CDial (d : nat) (ok : bool)  (* the dial of goroutine d ends *)
| CGo (d : nat)                (* goroutine d does its next statement *)
| CConnStart (k : nat)         (* the Start of connection k sets ctx and cancel *)
| CConnEnd (k : nat)           (* connection k is stopped by someone else, e.g. its reader *)
| CStopCall                    (* Stop is called *)
| CStopStep (g d : nat)        (* it goes on; d: which waiting goroutine takes its send *)
| CRecv (d : nat).             (* someone receives from ErrChan, from goroutine d if it is open *)

Definition cw_dials (s : cli) (x : list dpc) := Cli (ci_exit s) (ci_exits s) (ci_err_closed s) (ci_conn s) (ci_conns s) x (ci_stops s) (ci_crashed s).
Definition cw_stops (s : cli) (x : list tpc) := Cli (ci_exit s) (ci_exits s) (ci_err_closed s) (ci_conn s) (ci_conns s) (ci_dials s) x (ci_crashed s).
Definition cw_conns (s : cli) (x : list ccn) := Cli (ci_exit s) (ci_exits s) (ci_err_closed s) (ci_conn s) x (ci_dials s) (ci_stops s) (ci_crashed s).
Definition cw_conn (s : cli) (x : option nat) := Cli (ci_exit s) (ci_exits s) (ci_err_closed s) x (ci_conns s) (ci_dials s) (ci_stops s) (ci_crashed s).
Definition cw_exit (s : cli) (x : option nat) (l : list bool) := Cli x l (ci_err_closed s) (ci_conn s) (ci_conns s) (ci_dials s) (ci_stops s) (ci_crashed s).
Definition cw_err (s : cli) := Cli (ci_exit s) (ci_exits s) true (ci_conn s) (ci_conns s) (ci_dials s) (ci_stops s) (ci_crashed s).
Definition cw_crash (s : cli) := Cli (ci_exit s) (ci_exits s) (ci_err_closed s) (ci_conn s) (ci_conns s) (ci_dials s) (ci_stops s) true.

(* client.go 115-207: Restart; Start also adds the decoder to the interceptors. *)
Definition restart (s : cli) : cli :=
  cw_dials (cw_exit s (Some (length (ci_exits s))) (ci_exits s ++ [false])) (ci_dials s ++ [DDial]).
Definition dial_step (s : cli) (d : nat) (ok : bool) : cli * list cev :=
  match nth_error (ci_dials s) d with
  | Some DDial =>
    if ok then (cw_conns (cw_dials s (set_nth d (DSet (length (ci_conns s))) (ci_dials s))) (ci_conns s ++ [Ccn false false false]), [])
    else (cw_dials s (set_nth d DErr (ci_dials s)), [CeFailed d])
  | _ => (s, [])
  end.
Definition go_step (s : cli) (d : nat) : cli * list cev :=
  let put p := cw_dials s (set_nth d p (ci_dials s)) in
  match nth_error (ci_dials s) d with
  | Some DErr => if ci_err_closed s then (cw_crash s, [CeCrash]) else (s, [])
  | Some (DSet k) => (cw_conn (put (DGo k)) (Some k), [])
  | Some (DGo k) =>
    (cw_conns (put DSel) (match nth_error (ci_conns s) k with Some n => set_nth k (Ccn true (cc_ctx n) (cc_stopped n)) (ci_conns s) | None => ci_conns s end), [])
  | Some DSel => (match ci_exit s with Some ch => put (DWait ch) | None => s end, [])
  | Some (DWait ch) => if nth ch (ci_exits s) false then (put DEnd, []) else (s, [])
  | _ => (s, [])
  end.
(* connection.go 298 *)
Definition conn_start (s : cli) (k : nat) : cli :=
  match nth_error (ci_conns s) k with
  | Some n => if cc_go n then cw_conns s (set_nth k (Ccn true true (cc_stopped n)) (ci_conns s)) else s
  | None => s
  end.
(* connection.go 329-331: Stop, when cancel is set *)
Definition conn_end (s : cli) (k : nat) : cli :=
  match nth_error (ci_conns s) k with
  | Some n => if cc_ctx n then cw_conns s (set_nth k (Ccn (cc_go n) true true) (ci_conns s)) else s
  | None => s
  end.
(* client.go 246-255 *)
Definition cstop_step (s : cli) (g d : nat) : cli * list cev :=
  let put (s : cli) p := cw_stops s (set_nth g p (ci_stops s)) in
  match nth_error (ci_stops s) g with
  | Some TConn => (put s (match ci_conn s with Some k => TStop k | None => TSend end), [])
  | Some (TStop k) =>
    match nth_error (ci_conns s) k with
    | Some n => if cc_ctx n then (put (conn_end s k) TSend, []) else (put s TDone, [CePanic g])  (* cancel is nil *)
    | None => (s, [])
    end
  | Some TSend => (put s (TSending (ci_exit s)), [])
  | Some (TSending (Some ch)) =>
    if nth ch (ci_exits s) false then (put s TDone, [CePanic g])    (* send on closed channel *)
    else match nth_error (ci_dials s) d with
         | Some (DWait ch') => if ch' =? ch then (put (cw_dials s (set_nth d DEnd (ci_dials s))) TCloseExit, []) else (s, [])
         | _ => (s, [])
         end
  | Some TCloseExit =>
    match ci_exit s with
    | Some ch => if nth ch (ci_exits s) false then (put s TDone, [CePanic g])  (* close of closed channel *)
                 else (put (cw_exit s (Some ch) (set_nth ch true (ci_exits s))) TCloseErr, [])
    | None => (put s TDone, [CePanic g])
    end
  | Some TCloseErr =>
    if ci_err_closed s then (put s TDone, [CePanic g]) else (put (cw_err s) TDone, [CeReturned g])
  | _ => (s, [])
  end.
(* <-client.GetErrChan() *)
Definition recv_step (s : cli) (d : nat) : cli * list cev :=
  if ci_err_closed s then (s, [CeEnd])
  else match nth_error (ci_dials s) d with
       | Some DErr => (cw_dials s (set_nth d DEnd (ci_dials s)), [CeError d])
       | _ => (s, [])
       end.
Definition cli_step (s : cli) (l : clabel) : cli * list cev :=
  if ci_crashed s then (s, []) else
  match l with
  | CRestart => (restart s, [])
  | CDial d ok => dial_step s d ok
  | CGo d => go_step s d
  | CConnStart k => (conn_start s k, [])
  | CConnEnd k => (conn_end s k, [])
  | CStopCall => (cw_stops s (ci_stops s ++ [TConn]), [])
  | CStopStep g d => cstop_step s g d
  | CRecv d => recv_step s d
  end.
Fixpoint cli_run (s : cli) (ls : list clabel) : cli * list cev :=
  match ls with
  | [] => (s, [])
  | l :: ls' => let '(s1, e) := cli_step s l in let '(s2, es) := cli_run s1 ls' in (s2, e ++ es)
  end.

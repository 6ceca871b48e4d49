(* What is observed of a server run. *)
From Coq Require Import ZArith List Bool Arith.
From Verif Require Import Bytes ConnManager ConnLife Spec_ConnLife ConnServer.
Import ListNotations.

(* IDs given out: to connections, and to accepting goroutines that hold one but
   have not created the connection yet. *)
Definition holding (p : apc) : list Z := match p with AAdd id => [id] | _ => [] end.
Definition ids_given (s : srv) : list Z :=
  map (fun n => cn_id (sn_conn n)) (sv_conns s) ++ holding (sv_tcp s) ++ holding (sv_kcp s) ++ flat_map holding (sv_ws s).

(* Stopping panicked. *)
Definition stop_panic (e : sev) : Prop := (exists i, e = SvClearPanic i) \/ e = SvSendPanic.

(* No ClearConn or Server.Stop begins while some connection has been accepted but
   its Start has not yet set cancel. *)
Definition all_started (s : srv) : bool := forallb (fun n => lf_ctx (sn_life n)) (sv_conns s).
Fixpoint no_window (c : scfg) (s : srv) (ls : list slabel) : bool :=
  match ls with
  | [] => true
  | l :: ls' => (match l with SClearCall | SStopCall => all_started s | _ => true end) && no_window c (fst (srv_step c s l)) ls'
  end.
Definition is_stop_call (l : slabel) : bool := match l with SStopCall => true | _ => false end.
(* Server.Stop is called at most once. *)
Definition one_stop (ls : list slabel) : Prop := length (filter is_stop_call ls) <= 1.

(* How often e happened to connection i. *)
Definition sev_eq_dec (a b : sev) : {a = b} + {a <> b}.
Proof. decide equality; try apply Nat.eq_dec. apply lev_eq_dec. Defined.
Definition happened (i : nat) (e : lev) (tr : list sev) : nat := count_occ sev_eq_dec tr (SvLife i e).

(* Connection number i (in the order of acceptance) is in the connection manager. *)
Definition managed (s : srv) (i : nat) : Prop :=
  exists n, nth_error (sv_conns s) i = Some n /\ cm_get (sv_mgr s) (cn_id (sn_conn n)) = Some (sn_conn n).
(* Its Stop has been called (its context is cancelled). *)
Definition conn_stopped (s : srv) (i : nat) : Prop :=
  exists n, nth_error (sv_conns s) i = Some n /\ lf_cancelled (sn_life n) = true.
(* Calls of ClearConn and Server.Stop, in order. *)
Definition is_call (l : slabel) : bool := match l with SClearCall | SStopCall => true | _ => false end.
Definition calls (ls : list slabel) : list slabel := filter is_call ls.
(* How many connections were created. *)
Definition is_added (e : sev) : bool := match e with SvAdded _ => true | _ => false end.
Definition added (tr : list sev) : nat := length (filter is_added tr).

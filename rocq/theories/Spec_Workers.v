(* Vocabulary for the worker pool: what happened to the requests of one
   connection, on traces; and what workers connections hold. *)
From Coq Require Import ZArith List Bool.
From Verif Require Import Bytes Request Dispatch Workers.
Import ListNotations.

(* Requests of connection c that arrived, in order. *)
Definition sent (c : nat) (tr : list wev) : list job :=
  flat_map (fun e => match e with EvSend d j => if Nat.eqb d c then [j] else [] | _ => [] end) tr.

Inductive act := ABegin (j : job) | AEnd (j : job).
Definition activity (c : nat) (tr : list wev) : list act :=
  flat_map (fun e => match e with
    | EvBegin d j => if Nat.eqb d c then [ABegin j] else []
    | EvEnd d j _ => if Nat.eqb d c then [AEnd j] else []
    | _ => [] end) tr.

(* Handled in arrival order, one after the other; the last may still be running. *)
Inductive one_at_a_time : list job -> list act -> Prop :=
| OAT_nothing js : one_at_a_time js []
| OAT_running j js : one_at_a_time (j :: js) [ABegin j]
| OAT_done j js acts : one_at_a_time js acts -> one_at_a_time (j :: js) (ABegin j :: AEnd j :: acts).

(* Over all connections. *)
Definition all_sent (tr : list wev) : list work :=
  flat_map (fun e => match e with EvSend c j => [(c, j)] | _ => [] end) tr.
Definition all_ended (tr : list wev) : list work :=
  flat_map (fun e => match e with EvEnd c j _ => [(c, j)] | _ => [] end) tr.
Definition in_flight (s : wst) : list work :=
  flat_map (fun k => match wk_cur k with Some x => [x] | None => [] end) (ws_workers s).
Definition waiting (s : wst) : list work := flat_map ch_buf (ws_chans s).

(* User code run for connection c. *)
Definition ran_for (c : nat) (tr : list wev) : list (list hev) :=
  flat_map (fun e => match e with EvEnd d _ es => if Nat.eqb d c then [es] else [] | _ => [] end) tr.

(* A job whose handler comes back. *)
Definition returns (ro : routes) (j : job) : Prop := exists fuel, snd (handle fuel ro j) <> GoHang.

(* Connection c is live (in the connection manager) and uses worker w. *)
Definition live_worker (s : wst) (c w : nat) : Prop :=
  exists k, nth_error (ws_conns s) c = Some k /\ co_mgr k = true /\ co_worker k = Some w.
(* Connections that have a worker and have not given it back. *)
Definition holds (k : wconn) : bool :=
  match co_worker k with Some _ => negb (co_freed k) | None => false end.
Definition holding (s : wst) : nat := length (filter holds (ws_conns s)).
(* No connection is between its removal from the manager and freeWorker. *)
Definition no_close_in_progress (s : wst) : Prop :=
  forall k, In k (ws_conns s) -> co_mgr k = false -> co_freed k = true.

(* Condition P holds whenever a connection starts. *)
Definition at_every_start (cf : wcfg) (s0 : wst) (ls : list wlabel) (P : wst -> Prop) : Prop :=
  forall l1 c pick l2, ls = l1 ++ LStart c pick :: l2 -> P (fst (wrun cf s0 l1)).

(* The channel worker ID w stands for. *)
Definition queue_of (s : wst) (w : nat) : option chan :=
  match nth_error (ws_tq s) w with
  | Some (Some i) => nth_error (ws_chans s) i
  | _ => None
  end.

(* A message ID has a route. *)
Definition routed (ro : routes) (id : Z) : Prop :=
  if ro_slices_mode ro then In id (map fst (ro_slices ro)) else In id (map fst (ro_apis ro)).
(* Handling job j makes user code do es. *)
Definition does (ro : routes) (j : job) (es : list hev) : Prop :=
  exists fuel, handle fuel ro j = (es, GoRet).

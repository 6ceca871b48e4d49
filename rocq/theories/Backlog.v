(* Model of the bounded queues in front of the workers: znet/msghandler.go 255-280, 299-305
   (SendMsgToTaskQueue blocks while the queue of MaxWorkerTaskLen requests is full),
   415-460 (the workers), zasync_op/async_op_result.go 66-79 (doComplete, which sends to
   the task queue of a connection) and zasync_op/async_worker.go 15-50, async_op.go 47-88
   (Process, which sends to a queue of 2048 operations).
   Worker modes Hash and Bind, where a connection's worker never changes and is never
   stopped.  Asynchronous workers, which are made at their first use (AsyncWorker.v), are
   there from the start.  What a handler does besides sending to these queues is left out;
   one that panics is recovered (310-317, 322-327, async_worker.go 27-31) and is like one
   that returns after the sends made so far. *)
From Coq Require Import ZArith List Bool Arith.
From Verif Require Import GoSlice AsyncWorker.
Import ListNotations.

(* Where a request goes: SendMsgToTaskQueue for a connection's worker, or Process. *)
Inductive target := ForConn (c : Z) | ForAsync (op : Z).
(* A request; the sends its handling makes, in order, each waiting until it is accepted. *)
Inductive req := Req (id : nat) (sends : list (target * req)).
Definition sends_of (r : req) : list (target * req) := match r with Req _ l => l end.

Record bcfg := Bcfg {
  b_tasks : nat;           (* WorkerPoolSize *)
  b_len : nat;             (* MaxWorkerTaskLen *)
  b_worker : Z -> nat;     (* GetWorkerID of a connection *)
  b_readers : nat          (* goroutines that are not workers: readers of connections, the program's own *)
}.
(* async_op.go 45: the number of asynchronous workers. *)
Definition async_workers : nat := Z.to_nat worker_count.
(* msghandler.go 300, async_op.go 61-70: the queue, numbered with the task queues first. *)
Definition index (cf : bcfg) (t : target) : nat :=
  match t with ForConn c => b_worker cf c | ForAsync op => b_tasks cf + Z.to_nat (worker_index op) end.
(* msghandler.go 454, async_op.go 78: make(chan, n) *)
Definition capacity (cf : bcfg) (i : nat) : nat := if i <? b_tasks cf then b_len cf else queue_cap.

(* Who sends: a reader or a worker. *)
Inductive giver := Reader (s : nat) | Worker (i : nat).
(* A worker: its queue, and what it is handling with the sends still to be made. *)
Record bwork := Bwork { bw_buf : list (giver * req); bw_run : option (giver * req * list (target * req)) }.
Definition idle : bwork := Bwork [] None.
(* A reader is free or is sending one request. *)
Record bst := Bst { bs_work : list bwork; bs_read : list (option (target * req)) }.
Definition b_new (cf : bcfg) : bst := Bst (repeat idle (b_tasks cf + async_workers)) (repeat None (b_readers cf)).

Inductive blabel :=
| BOffer (s : nat) (t : target) (r : req)  (* a free reader has the next request and begins to send it *)
| BSend (s : nat) (direct : bool)          (* reader s's send is accepted: into the buffer, or straight to a waiting worker *)
| BTake (i : nat)                          (* worker i receives *)
| BPut (i : nat) (direct : bool)           (* the next send of the handler worker i runs is accepted *)
| BEnd (i : nat).                          (* the handler has made its sends and is over *)
Inductive bev :=
| BvOffer (s : nat) (t : target) (r : req)
| BvPut (g : giver) (i : nat) (r : req)    (* queue i has accepted r *)
| BvBegin (g : giver) (i : nat) (r : req)
| BvEnd (g : giver) (i : nat) (r : req).

(* ch <- r on queue i: None when it blocks (or there is no such queue). *)
Definition give (cf : bcfg) (ws : list bwork) (g : giver) (i : nat) (r : req) (direct : bool) : option (list bwork * list bev) :=
  match nth_error ws i with
  | None => None
  | Some w =>
    if direct then
      match bw_buf w, bw_run w with
      | [], None => Some (set_nth i (Bwork [] (Some (g, r, sends_of r))) ws, [BvPut g i r; BvBegin g i r])
      | _, _ => None
      end
    else if length (bw_buf w) <? capacity cf i
    then Some (set_nth i (Bwork (bw_buf w ++ [(g, r)]) (bw_run w)) ws, [BvPut g i r])
    else None
  end.

(* One step; None when the goroutine cannot take it now. *)
Definition b_step (cf : bcfg) (s : bst) (l : blabel) : option (bst * list bev) :=
  match l with
  | BOffer n t r =>                                    (* connection.go 269-286 *)
    match nth_error (bs_read s) n with
    | Some None => Some (Bst (bs_work s) (set_nth n (Some (t, r)) (bs_read s)), [BvOffer n t r])
    | _ => None
    end
  | BSend n d =>                                       (* msghandler.go 303 *)
    match nth_error (bs_read s) n with
    | Some (Some (t, r)) =>
      match give cf (bs_work s) (Reader n) (index cf t) r d with
      | Some (ws, e) => Some (Bst ws (set_nth n None (bs_read s)), e)
      | None => None
      end
    | _ => None
    end
  | BTake i =>                                         (* 419-420, async_worker.go 45 *)
    match nth_error (bs_work s) i with
    | Some (Bwork ((g, r) :: b) None) => Some (Bst (set_nth i (Bwork b (Some (g, r, sends_of r))) (bs_work s)) (bs_read s), [BvBegin g i r])
    | _ => None
    end
  | BPut i d =>                                        (* 303, async_worker.go 26 *)
    match nth_error (bs_work s) i with
    | Some (Bwork _ (Some (g, r, (t, x) :: rest))) =>
      match give cf (bs_work s) (Worker i) (index cf t) x d with
      | Some (ws, e) =>
        match nth_error ws i with
        | Some w => Some (Bst (set_nth i (Bwork (bw_buf w) (Some (g, r, rest))) ws) (bs_read s), e)
        | None => None
        end
      | None => None
      end
    | _ => None
    end
  | BEnd i =>
    match nth_error (bs_work s) i with
    | Some (Bwork b (Some (g, r, []))) => Some (Bst (set_nth i (Bwork b None) (bs_work s)) (bs_read s), [BvEnd g i r])
    | _ => None
    end
  end.
(* A schedule: steps that cannot be taken are skipped. *)
Fixpoint b_run (cf : bcfg) (s : bst) (ls : list blabel) : bst * list bev :=
  match ls with
  | [] => (s, [])
  | l :: rest =>
    match b_step cf s l with
    | Some (s1, e) => let (s2, e2) := b_run cf s1 rest in (s2, e ++ e2)
    | None => b_run cf s rest
    end
  end.

(* Model of a server that is started again after Stop, as far as its worker pool is concerned:
   - znet/server.go 425-434 (Start calls StartWorkerPool every time);
   - znet/msghandler.go 447-460 (StartWorkerPool: a new queue and a new worker per index; the
     queue replaces the one in TaskQueue, the worker keeps its own);
   - 299-305 (SendMsgToTaskQueue: looks up TaskQueue[workerID], then sends);
   - 412-444 (StartOneWorker: takes from its queue and handles, one request after the other;
     only a closed queue ends it, and nothing closes these: Stop, 450-460 of server.go, does not);
   - 213 (hash mode: the worker of a connection is ConnID modulo WorkerPoolSize).
   Simplified: handlers end (a handler that does not is one that is never scheduled), function
   requests and other worker modes are left out, connections and requests are named by numbers.
   Listening is in StartServers.v, what Stop does to connections in ConnServer.v: here any
   connection may go on reading at any time, as those do that survive a Stop (F52). *)
From Coq Require Import List Bool Arith.
From Verif Require Import GoSlice.
Import ListNotations.

(* One queue with its worker: what waits, and what the worker handles now. *)
Record wq := Wq { q_items : list (nat * nat); q_busy : option (nat * nat) }.
(* For every index the queues made for it, the one in TaskQueue last; for every connection the
   request its reader is about to send, with the queue it has looked up (303). *)
Record ast := Ast { a_slots : list (list wq); a_held : nat -> option (nat * nat) }.
Definition a_new (size : nat) : ast := Ast (repeat [] size) (fun _ => None).

Inductive alabel :=
| LNew (i : nat)            (* msghandler.go 454-458 for index i *)
| LRead (c r : nat)         (* connection c has read request r; 300-303: looks up its queue *)
| LPut (c : nat)            (* 303: the send *)
| LTake (i e : nat)         (* 420: worker of the e-th queue of index i takes a request *)
| LDone (i e : nat).        (* 432-439: the handler has returned *)
Inductive aev := ERead (c r : nat) | EBegin (c r : nat) | EEnd (c r : nat).

Definition hold (s : ast) (c : nat) (h : option (nat * nat)) : nat -> option (nat * nat) :=
  fun d => if Nat.eqb c d then h else a_held s d.
(* queue e of index i becomes w *)
Definition put_q (s : ast) (i e : nat) (w : wq) : list (list wq) :=
  match nth_error (a_slots s) i with
  | Some qs => set_nth i (set_nth e w qs) (a_slots s)
  | None => a_slots s
  end.
Definition get_q (s : ast) (i e : nat) : option wq :=
  match nth_error (a_slots s) i with Some qs => nth_error qs e | None => None end.

Section Machine.
Variable size : nat. (* WorkerPoolSize *)
Variable cap : nat.  (* MaxWorkerTaskLen, the room of a queue *)

(* msghandler.go 213 *)
Definition worker_of (c : nat) : nat := c mod size.

Definition a_step (s : ast) (l : alabel) : ast * list aev :=
  match l with
  | LNew i =>
    match nth_error (a_slots s) i with
    | Some qs => (Ast (set_nth i (qs ++ [Wq [] None]) (a_slots s)) (a_held s), [])
    | None => (s, [])
    end
  | LRead c r =>
    match a_held s c, nth_error (a_slots s) (worker_of c) with
    | None, Some (q :: qs) => (Ast (a_slots s) (hold s c (Some (length qs, r))), [ERead c r])
    | _, _ => (s, [])
    end
  | LPut c =>
    match a_held s c with
    | Some (e, r) =>
      match get_q s (worker_of c) e with
      | Some w => if length (q_items w) <? cap
                  then (Ast (put_q s (worker_of c) e (Wq (q_items w ++ [(c, r)]) (q_busy w))) (hold s c None), [])
                  else (s, [])
      | None => (s, [])
      end
    | None => (s, [])
    end
  | LTake i e =>
    match get_q s i e with
    | Some (Wq ((c, r) :: items) None) => (Ast (put_q s i e (Wq items (Some (c, r)))) (a_held s), [EBegin c r])
    | _ => (s, [])
    end
  | LDone i e =>
    match get_q s i e with
    | Some (Wq items (Some (c, r))) => (Ast (put_q s i e (Wq items None)) (a_held s), [EEnd c r])
    | _ => (s, [])
    end
  end.
Fixpoint a_run (s : ast) (ls : list alabel) : ast * list aev :=
  match ls with
  | [] => (s, [])
  | l :: ls' => let '(s1, e1) := a_step s l in let '(s2, e2) := a_run s1 ls' in (s2, e1 ++ e2)
  end.
End Machine.

(* Model of zasync_op/async_op.go and async_worker.go: Process called by any number of goroutines. *)
From Coq Require Import ZArith List Bool.
From Verif Require Import Bytes AsyncResult.
Import ListNotations.
Local Open Scope Z_scope.

(* async_op.go 61-70: the worker index.  opId is an int (64 bits), negation wraps, % truncates. *)
Definition worker_count : Z := 2048.
Definition worker_index (opId : Z) : Z := Z.rem (if opId <? 0 then s64 (- opId) else opId) worker_count.

(* A submitted operation: the goroutine it came from, the ID, which operation. *)
Record task := Task { t_from : nat; t_id : Z; t_op : Z }.

(* async_worker.go 11-13: AsyncWorker with its loop goroutine (38-50): the array index it was
   made for, the task channel, the operation its loop is running. *)
Record aworker := AWorker { k_idx : Z; k_queue : list task; k_running : option task }.
Definition queue_cap : nat := 2048.

(* sync.Once: not used, its function running, done. *)
Inductive once_st := Fresh | Busy | Made.

(* A goroutine calling Process for each element of g_prog in turn (None: a nil function). *)
Inductive gpc := GIdle | GCreate (i : Z) | GSend (i : Z).
Record gor := Gor { g_prog : list (Z * option Z); g_pc : gpc }.

(* async_op.go 45-46: the two arrays; the workers in the heap; the goroutines.  The last three record what
   happened: sends into task channels, operations started, operations ended (true: with a panic), each with the worker index. *)
Record wsys := WSys { y_once : Z -> once_st; y_arr : Z -> option nat; y_heap : list aworker; y_gors : list gor;
                      y_sent : list (Z * task); y_started : list (Z * task); y_ended : list (Z * task * bool) }.
Definition w_new (progs : list (list (Z * option Z))) : wsys :=
  WSys (fun _ => Fresh) (fun _ => None) [] (map (fun p => Gor p GIdle) progs) [] [] [].

Definition fset {A} (f : Z -> A) (i : Z) (x : A) : Z -> A := fun j => if j =? i then x else f j.

(* One step of goroutine number g. *)
Definition sub_step (s : wsys) (g : nat) : option wsys :=
  match nth_error (y_gors s) g with
  | None => None
  | Some (Gor prog pc) =>
    match pc, prog with
    | GIdle, [] => None
    | GIdle, (_, None) :: r =>                                         (* 49-51 *)
      Some (WSys (y_once s) (y_arr s) (y_heap s) (upd g (Gor r GIdle) (y_gors s)) (y_sent s) (y_started s) (y_ended s))
    | GIdle, (id, Some _) :: _ =>                                      (* 53, 74: Once.Do *)
      let i := worker_index id in
      match y_once s i with
      | Fresh => Some (WSys (fset (y_once s) i Busy) (y_arr s) (y_heap s) (upd g (Gor prog (GCreate i)) (y_gors s)) (y_sent s) (y_started s) (y_ended s))
      | Busy => None
      | Made => Some (WSys (y_once s) (y_arr s) (y_heap s) (upd g (Gor prog (GSend i)) (y_gors s)) (y_sent s) (y_started s) (y_ended s))
      end
    | GCreate i, _ =>                                                  (* 77-83 *)
      Some (WSys (fset (y_once s) i Made) (fset (y_arr s) i (Some (length (y_heap s)))) (y_heap s ++ [AWorker i [] None])
                 (upd g (Gor prog (GSend i)) (y_gors s)) (y_sent s) (y_started s) (y_ended s))
    | GSend i, (id, Some op) :: r =>                                   (* 86, 55-57; async_worker.go 26-35 *)
      let skip := WSys (y_once s) (y_arr s) (y_heap s) (upd g (Gor r GIdle) (y_gors s)) (y_sent s) (y_started s) (y_ended s) in
      match y_arr s i with
      | None => Some skip
      | Some w =>
        match nth_error (y_heap s) w with
        | None => Some skip
        | Some (AWorker k q run) =>
          if Nat.ltb (length q) queue_cap then
            Some (WSys (y_once s) (y_arr s) (upd w (AWorker k (q ++ [Task g id op]) run) (y_heap s)) (upd g (Gor r GIdle) (y_gors s))
                       (y_sent s ++ [(k, Task g id op)]) (y_started s) (y_ended s))
          else None
        end
      end
    | GSend i, _ => None
    end
  end.

(* async_worker.go 44-49: the loop of worker w takes a task. *)
Definition take_step (s : wsys) (w : nat) : option wsys :=
  match nth_error (y_heap s) w with
  | Some (AWorker k (t :: q) None) =>
    Some (WSys (y_once s) (y_arr s) (upd w (AWorker k q (Some t)) (y_heap s)) (y_gors s) (y_sent s) (y_started s ++ [(k, t)]) (y_ended s))
  | _ => None
  end.
(* 27-34: the operation returns, or panics and the panic is recovered; the loop goes on. *)
Definition end_step (s : wsys) (w : nat) (panics : bool) : option wsys :=
  match nth_error (y_heap s) w with
  | Some (AWorker k q (Some t)) =>
    Some (WSys (y_once s) (y_arr s) (upd w (AWorker k q None) (y_heap s)) (y_gors s) (y_sent s) (y_started s) (y_ended s ++ [(k, t, panics)]))
  | _ => None
  end.

Inductive wlabel := Submit (g : nat) | Take (w : nat) | Finish (w : nat) (panics : bool).
Definition w_step1 (s : wsys) (l : wlabel) : option wsys :=
  match l with Submit g => sub_step s g | Take w => take_step s w | Finish w b => end_step s w b end.
Definition w_step (s : wsys) (l : wlabel) : wsys := match w_step1 s l with Some s' => s' | None => s end.
Definition w_run (s : wsys) (ls : list wlabel) : wsys := fold_left w_step ls s.

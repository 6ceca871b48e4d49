(* Model of the calls timers make: ztimer/delayfunc.go, timer.go 77-92 and
   timerscheduler.go 94-136, on top of TimeWheel.v. *)
From Coq Require Import ZArith List Bool.
From Verif Require Import Bytes TimeWheel.
Import ListNotations.
Local Open Scope Z_scope.

(* delayfunc.go 22-26: a DelayFunc: its function (None: nil; functions are told apart by a
   number) and its argument slice (the number of the slice; arguments are integers).  The
   fields are never written after NewDelayFunc; the elements of the slice may be. *)
Record dfunc := DFunc { d_fun : option Z; d_args : nat }.

(* Not in the program: which timer a call is for: the timer object of the scheduler, or the
   n-th Timer.Run. *)
Inductive source := OfSched (obj : Z) | Lone (n : nat).

(* A goroutine that will Call, calls, or called: not earlier than [g_wake]. *)
Inductive stage := Waiting | Running | Ended.
Record gor := Gor { g_src : source; g_df : option nat; g_wake : Z; g_stage : stage }.

(* A call of a user function that began: for which timer, which function, with what
   arguments, when. *)
Record call := Call { c_src : source; c_fun : Z; c_args : list Z; c_now : Z }.

(* [x_df]: timer.go 50-52, the delayFunc of each timer made (None: nil pointer);
   [x_chan]: timerscheduler.go 33, the trigger channel; [x_gos]: the goroutines of 130 and of
   timer.go 79; [x_errs]: the calls whose panic was logged (delayfunc.go 46-48);
   [x_dead]: the process has crashed; [x_begun] is not in the program. *)
Record auto := Auto {
  x_sched : sched; x_df : list (option nat); x_funcs : list dfunc; x_slices : list (list Z);
  x_chan : list (source * option nat); x_gos : list gor; x_lone : nat; x_errs : list source; x_dead : bool; x_begun : list call }.

Inductive xlabel :=
| XSlice (args : list Z)                          (* the user makes a slice *)
| XFunc (f : option Z) (sl : nat)                 (* NewDelayFunc *)
| XWrite (sl i : nat) (v : Z)                     (* anybody, a called function as well, writes to a slice *)
| XCreate (l : tlabel) (df : option nat)          (* CreateTimerAt, CreateTimerAfter *)
| XWheel (l : tlabel)                             (* the other steps of the scheduler *)
| XReceive                                        (* one turn of the consumer's loop *)
| XRun (l : tlabel) (df : option nat) (now : Z)   (* NewTimerAt or NewTimerAfter, and Timer.Run *)
| XBegin (i : nat) (now : Z)                      (* goroutine i reaches the function *)
| XReturn (i : nat) | XPanic (i : nat).           (* the function ends *)

(* timer.go 62-75: the due time, in ms, of the timer NewTimerAt or NewTimerAfter makes. *)
Definition due_of (l : tlabel) : Z :=
  match l with
  | CreateAt ns _ => Z.quot ns 1000000
  | CreateAfter now dur _ => Z.quot (s64 (now + dur)) 1000000
  | _ => 0
  end.
Definition a_create (l : tlabel) : bool := match l with CreateAt _ _ | CreateAfter _ _ _ => true | _ => false end.

Definition set_nth {A} (i : nat) (x : A) (l : list A) : list A :=
  match nth_error l i with Some _ => firstn i l ++ x :: skipn (S i) l | None => l end.
(* A DelayFunc pointer that is nil or points to one that exists. *)
Definition known (a : auto) (df : option nat) : bool := match df with None => true | Some d => Nat.ltb d (length (x_funcs a)) end.
Definition df_of (a : auto) (obj : Z) : option nat := nth (Z.to_nat obj) (x_df a) None.

Definition with_sched (a : auto) (s : sched) : auto :=
  Auto s (x_df a) (x_funcs a) (x_slices a) (x_chan a) (x_gos a) (x_lone a) (x_errs a) (x_dead a) (x_begun a).
Definition with_gos (a : auto) (g : list gor) : auto :=
  Auto (x_sched a) (x_df a) (x_funcs a) (x_slices a) (x_chan a) g (x_lone a) (x_errs a) (x_dead a) (x_begun a).
Definition ended (g : gor) : gor := Gor (g_src g) (g_df g) (g_wake g) Ended.

(* timerscheduler.go 22: MaxChanBuff. *)
Definition chan_cap : Z := 2048.

(* timer.go 78-92, Timer.Run: the moment until which the goroutine sleeps: at once if the
   timer is due.  time.Sleep sleeps at least as long as asked. *)
Definition wake_at (due now : Z) : Z :=
  if unix_milli now <? due then now + Z.max 0 (s64 ((due - unix_milli now) * 1000000)) else now.

(* delayfunc.go 42-53, Call, up to the call of the user's function.  A nil DelayFunc: reading
   df.f panics, the deferred function recovers, and its df.String() reads df.f again: that panic is
   not recovered and ends the process.  A nil function: the call panics, which is logged. *)
Definition begin (a : auto) (i : nat) (g : gor) (now : Z) : auto :=
  match g_df g with
  | None => Auto (x_sched a) (x_df a) (x_funcs a) (x_slices a) (x_chan a) (x_gos a) (x_lone a) (x_errs a) true (x_begun a)
  | Some d =>
    match nth_error (x_funcs a) d with
    | Some (DFunc (Some f) sl) =>
      Auto (x_sched a) (x_df a) (x_funcs a) (x_slices a) (x_chan a) (set_nth i (Gor (g_src g) (g_df g) (g_wake g) Running) (x_gos a)) (x_lone a)
           (x_errs a) (x_dead a) (x_begun a ++ [Call (g_src g) f (nth sl (x_slices a) []) now])
    | Some (DFunc None _) =>
      Auto (x_sched a) (x_df a) (x_funcs a) (x_slices a) (x_chan a) (set_nth i (ended g) (x_gos a)) (x_lone a)
           (x_errs a ++ [g_src g]) (x_dead a) (x_begun a)
    | None => a
    end
  end.

Definition x_step (a : auto) (l : xlabel) : auto :=
  if x_dead a then a else
  match l with
  | XSlice args => Auto (x_sched a) (x_df a) (x_funcs a) (x_slices a ++ [args]) (x_chan a) (x_gos a) (x_lone a) (x_errs a) (x_dead a) (x_begun a)
  | XFunc f sl =>
    if Nat.ltb sl (length (x_slices a)) then
      Auto (x_sched a) (x_df a) (x_funcs a ++ [DFunc f sl]) (x_slices a) (x_chan a) (x_gos a) (x_lone a) (x_errs a) (x_dead a) (x_begun a)
    else a
  | XWrite sl i v =>
    Auto (x_sched a) (x_df a) (x_funcs a) (set_nth sl (set_nth i v (nth sl (x_slices a) [])) (x_slices a)) (x_chan a) (x_gos a) (x_lone a) (x_errs a) (x_dead a) (x_begun a)
  | XCreate l df =>                               (* timerscheduler.go 64-79 *)
    if a_create l && known a df then
      match t_step1 (x_sched a) l with
      | Some s => Auto s (x_df a ++ [df]) (x_funcs a) (x_slices a) (x_chan a) (x_gos a) (x_lone a) (x_errs a) (x_dead a) (x_begun a)
      | None => a
      end
    else a
  | XWheel (PollSend i) =>                        (* timerscheduler.go 111 *)
    if Z.of_nat (length (x_chan a)) <? chan_cap then
      match take i (s_polled (x_sched a)) with
      | Some ((e, _), _) =>
        Auto (t_step (x_sched a) (PollSend i)) (x_df a) (x_funcs a) (x_slices a) (x_chan a ++ [(OfSched (e_obj e), df_of a (e_obj e))])
             (x_gos a) (x_lone a) (x_errs a) (x_dead a) (x_begun a)
      | None => a
      end
    else a
  | XWheel l => if a_create l then a else with_sched a (t_step (x_sched a) l)
  | XReceive =>                                   (* timerscheduler.go 127-132 *)
    match x_chan a with
    | [] => a
    | (src, df) :: rest =>
      Auto (x_sched a) (x_df a) (x_funcs a) (x_slices a) rest (x_gos a ++ [Gor src df 0 Waiting]) (x_lone a) (x_errs a) (x_dead a) (x_begun a)
    end
  | XRun l df now =>
    if a_create l && known a df then
      Auto (x_sched a) (x_df a) (x_funcs a) (x_slices a) (x_chan a) (x_gos a ++ [Gor (Lone (x_lone a)) df (wake_at (due_of l) now) Waiting]) (S (x_lone a))
           (x_errs a) (x_dead a) (x_begun a)
    else a
  | XBegin i now =>
    match nth_error (x_gos a) i with
    | Some g => match g_stage g with
                | Waiting => if (match g_src g with OfSched _ => true | Lone _ => g_wake g <=? now end) then begin a i g now else a
                | _ => a
                end
    | None => a
    end
  | XReturn i =>
    match nth_error (x_gos a) i with
    | Some g => match g_stage g with Running => with_gos a (set_nth i (ended g) (x_gos a)) | _ => a end
    | None => a
    end
  | XPanic i =>                                   (* delayfunc.go 43-49 *)
    match nth_error (x_gos a) i with
    | Some g => match g_stage g with
                | Running => Auto (x_sched a) (x_df a) (x_funcs a) (x_slices a) (x_chan a) (set_nth i (ended g) (x_gos a)) (x_lone a)
                                  (x_errs a ++ [g_src g]) (x_dead a) (x_begun a)
                | _ => a
                end
    | None => a
    end
  end.
Definition x_run (a : auto) (ls : list xlabel) : auto := fold_left x_step ls a.

(* timerscheduler.go 119-136: NewAutoExecTimerScheduler. *)
Definition new_auto (conf : list (Z * Z)) : auto := Auto (new_sched_of conf) [] [] [] [] [] 0 [] false [].

(* Model of zlog/logger_core.go with its log files: the logger of LogCore.v, whose records go to
   standard error or, after SetLogFile, to the rotating writers of LogWriter.v; the hook of
   SetLogHook; the process' end.  A schedule is any list of the labels below, from any number of
   goroutines.  Simplified: a path is a number and its file is found by path, so two writers with
   the same file open at a time see each other's rotations (SetLogFile closes the old one first);
   no path ends in ".zip" (C45_zip_path_refuted). *)
From Coq Require Import ZArith List Bool.
From Verif Require Import Bytes LogCore LogWriter.
Import ListNotations.
Local Open Scope Z_scope.

(* witer.go 25-40: one Writer, its path and its console flag; the rest is LogWriter.lwriter. *)
Record sink := Sink { k_path : Z; k_w : lwriter; k_cons : bool }.
(* logger_core.go 119-121: what the function given to SetLogHook does: something of its own, or
   it calls a level method of the same logger. *)
Inductive hook := HPlain | HLogs (level : Z).
(* f_sinks: every Writer made so far (its flushing goroutine never ends, witer.go 62-66);
   f_cur: log.fw; f_err: what was written to standard error; f_seen: what the hook was given;
   f_hung: a goroutine holds log.mu and waits for it (sync.Mutex is not reentrant). *)
Record lf := Lf {
  f_lg : lg; f_sinks : list sink; f_cur : option nat; f_dirs : Z -> dir; f_used : Z -> list Z;
  f_err : list (list byte); f_hook : option hook; f_seen : list (list byte); f_hung : bool
}.
(* logger_core.go 102-112, on any file system *)
Definition new_lf (prefix : list byte) (flag : Z) (d : Z -> dir) : lf :=
  Lf (new_lg prefix flag) [] None d (fun _ => []) [] None [] false.

Inductive flabel :=
| FLog (l : llabel) (e : wenv)      (* a step of a log call; e: the system, if it writes to a file *)
| FSet (path t : Z)                 (* SetLogFile, with no step of another call in between *)
| FFlush (k : nat) (t : Z)          (* the k-th Writer flushes: its goroutine, or half of Close *)
| FCloseFile (k : nat)              (* the other half of Close *)
| FNew (path : Z)                   (* the end of SetLogFile *)
| FHook (h : option hook)
| FMax (ms : Z) | FAge (ma : Z) | FCons (b : bool)
| FDelete (k : nat) (now : Z).      (* the k-th Writer removes old files, witer.go 109, 168-189 *)

Definition on_path {A} (f : Z -> A) (p : Z) (x : A) : Z -> A := fun q => if q =? p then x else f q.
Definition state_of (s : lf) (k : sink) : lstate := LState (k_w k) (f_dirs s (k_path k)) (f_used s (k_path k)).
(* The n-th Writer moves to the given state. *)
Definition put (s : lf) (n : nat) (k : sink) (st : lstate) : lf :=
  Lf (f_lg s) (set_nth n (Sink (k_path k) (l_w st) (k_cons k)) (f_sinks s)) (f_cur s)
     (on_path (f_dirs s) (k_path k) (l_dir st)) (on_path (f_used s) (k_path k) (l_used st))
     (f_err s) (f_hook s) (f_seen s) (f_hung s).
Definition on_sink (s : lf) (n : nat) (f : lstate -> lstate) : lf :=
  match nth_error (f_sinks s) n with Some k => put s n k (f (state_of s k)) | None => s end.
Definition to_err (s : lf) (b : list byte) : lf :=
  Lf (f_lg s) (f_sinks s) (f_cur s) (f_dirs s) (f_used s) (f_err s ++ [b]) (f_hook s) (f_seen s) (f_hung s).
Definition with_lg (s : lf) (g : lg) : lf :=
  Lf g (f_sinks s) (f_cur s) (f_dirs s) (f_used s) (f_err s) (f_hook s) (f_seen s) (f_hung s).
(* logger_core.go 384: zutils.New; witer.go 42-61 *)
Definition new_sink (s : lf) (path : Z) : lf :=
  Lf (f_lg s) (f_sinks s ++ [Sink path new_writer false]) (Some (length (f_sinks s))) (f_dirs s) (f_used s)
     (f_err s) (f_hook s) (f_seen s) (f_hung s).
Definition set_hook (s : lf) (h : option hook) : lf :=
  Lf (f_lg s) (f_sinks s) (f_cur s) (f_dirs s) (f_used s) (f_err s) h (f_seen s) (f_hung s).
Definition set_cons (s : lf) (n : nat) (b : bool) : lf :=
  match nth_error (f_sinks s) n with
  | Some k => Lf (f_lg s) (set_nth n (Sink (k_path k) (k_w k) b) (f_sinks s)) (f_cur s) (f_dirs s) (f_used s) (f_err s) (f_hook s) (f_seen s) (f_hung s)
  | None => s
  end.

(* The record a step has just completed. *)
Definition new_record (g g' : lg) : option (list byte) :=
  match skipn (length (g_out g)) (g_out g') with r :: _ => Some (e_bytes r) | [] => None end.

Section WithZone.
Variable zone : Z -> Z.

(* logger_core.go 227-234, witer.go 92-128: a copy to standard error if SetCons asked for one,
   the write, and the record to standard error when the file cannot be opened at first.  The
   error OutPut returns is dropped by its callers. *)
Definition write_out (s : lf) (b : list byte) (e : wenv) : lf :=
  match f_cur s with
  | None => to_err s b
  | Some n =>
    match nth_error (f_sinks s) n with
    | None => s (* not reachable *)
    | Some k =>
      let st := state_of s k in
      let s1 := if k_cons k then to_err s b else s in
      let s2 := if negb (w_file (k_w k)) && negb (snd (rotate zone false st (e_first e))) then to_err s1 b else s1 in
      put s2 n k (fst (fst (lw_write zone false st (map b2z b) e)))
    end
  end.

(* logger_core.go 236-238, with log.mu held *)
Definition run_hook (before s : lf) (b : list byte) : lf :=
  match f_hook s with
  | None => s
  | Some h =>
    let hangs := match h with HPlain => false | HLogs level => negb (g_iso (f_lg s) >? level) end in
    (* a call that hangs does not reach the os.Exit of Fatal *)
    let g := f_lg s in
    let g' := if hangs then Lg (g_prefix g) (g_flag g) (g_iso g) (g_pend g) (g_out g) (g_exit (f_lg before)) (g_dead g) else g in
    Lf g' (f_sinks s) (f_cur s) (f_dirs s) (f_used s) (f_err s) (f_hook s) (f_seen s ++ [b]) hangs
  end.

(* Steps that take log.mu: all of a log call but the level check; the setters that lock. *)
Definition locks (l : llabel) : bool :=
  match l with LLook _ _ _ | LEmit _ | LResetFlags _ | LAddFlag _ | LSetPrefix _ => true | LStart _ _ _ | LExit | LSetLevel _ => false end.

Definition f_step (s : lf) (l : flabel) : lf :=
  if g_dead (f_lg s) then s else
  match l with
  | FLog l e =>
    if f_hung s && locks l then s
    else
      let g' := l_step (f_lg s) l in
      match new_record (f_lg s) g' with
      | None => with_lg s g'
      | Some b => run_hook s (write_out (with_lg s g') b e) b
      end
  | FSet path t =>   (* logger_core.go 380-385; witer.go 203-206 *)
    new_sink (match f_cur s with Some n => on_sink s n (fun st => lw_close (lw_flush st t)) | None => s end) path
  | FFlush n t => on_sink s n (fun st => lw_flush st t)
  | FCloseFile n => on_sink s n lw_close
  | FNew path => new_sink s path
  | FHook h => set_hook s h
  (* logger_core.go 388-413: nothing without a log file *)
  | FMax ms => match f_cur s with Some n => if f_hung s then s else on_sink s n (fun st => set_max st ms) | None => s end
  | FAge ma => match f_cur s with Some n => if f_hung s then s else on_sink s n (fun st => set_age st ma) | None => s end
  | FCons b => match f_cur s with Some n => if f_hung s then s else set_cons s n b | None => s end
  | FDelete n now => on_sink s n (fun st => lw_delete st now)
  end.
Definition f_run (s : lf) (tr : list flabel) : lf := fold_left f_step tr s.
End WithZone.

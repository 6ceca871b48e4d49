(* Model of one log call from the user's code to the record: the level methods, the package
   functions and Ins() (zlog/logger_core.go 102-120, 197-344; zlog/stdzlog.go 25, 72-130;
   zlog/default.go).  The call stack is a list of places, innermost call first. *)
From Coq Require Import ZArith List Bool String.
From Verif Require Import Bytes LogCore.
Import ListNotations.
Local Open Scope Z_scope.
Local Open Scope list_scope.

(* Go: the file and line a function is at. *)
Definition frame : Type := list byte * Z.
Inductive meth := Debugf | Debug | Infof | Info | Warnf | Warn | Errorf | Error | Fatalf | Fatal | Panicf | Panic | Stack.

(* 49-56 and the first argument of OutPut in 246-343 *)
Definition level_of (m : meth) : Z :=
  match m with
  | Debugf | Debug => 0 | Infof | Info => 1 | Warnf | Warn => 2 | Errorf | Error | Stack => LogError
  | Panicf | Panic => 4 | Fatalf | Fatal => LogFatal
  end.
(* The line of the call of OutPut. *)
Definition core_file : list byte := str "zlog/logger_core.go".
Definition core_line (m : meth) : Z :=
  match m with
  | Debugf => 250 | Debug => 257 | Infof => 264 | Info => 271 | Warnf => 278 | Warn => 285 | Errorf => 292 | Error => 299
  | Fatalf => 306 | Fatal => 314 | Panicf => 323 | Panic => 332 | Stack => 343
  end.

Record core := Core { c_prefix : list byte; c_flag : Z; c_iso : Z; c_depth : nat; c_hook : bool }.
(* 102-112 *)
Definition new_core (prefix : list byte) (flag : Z) : core := Core prefix flag 0 2 false.
(* stdzlog.go 25, 124-130; logger_core.go 43-44: BitStdFlag and BitDefault *)
Definition BitDefault := Z.lor BitLevel (Z.lor BitShortFile (Z.lor BitDate BitTime)).
Definition std_core : core := Core (c_prefix (new_core [] BitDefault)) (c_flag (new_core [] BitDefault)) (c_iso (new_core [] BitDefault)) 3 false.

Inductive setting := SetPrefix (p : list byte) | ResetFlags (f : Z) | AddFlag (f : Z) | SetLogLevel (v : Z) | SetLogHook.
(* 119-121, 356-376, 425-427; stdzlog.go 33-45, 68-70 *)
Definition set1 (l : core) (o : setting) : core :=
  match o with
  | SetPrefix p => Core p (c_flag l) (c_iso l) (c_depth l) (c_hook l)
  | ResetFlags f => Core (c_prefix l) f (c_iso l) (c_depth l) (c_hook l)
  | AddFlag f => Core (c_prefix l) (Z.lor (c_flag l) f) (c_iso l) (c_depth l) (c_hook l)
  | SetLogLevel v => Core (c_prefix l) (c_flag l) v (c_depth l) (c_hook l)
  | SetLogHook => Core (c_prefix l) (c_flag l) (c_iso l) (c_depth l) true
  end.

Inductive ilog := InfoF | ErrorF | DebugF | InfoFX | ErrorFX | DebugFX.
(* What a call does, in order, and how it ends. *)
Inductive eff := Wrote (b : list byte) | Hooked (b : list byte) | PrintedCtx | ToCustom (d : ilog) (s : list byte).
Inductive ending := Returns | Panics (s : list byte) | Exits.

(* 197-240; runtime.Caller(n): the n-th place, counted from OutPut's own *)
Definition out_put (l : core) (t : time) (stack : list frame) (level : Z) (s : list byte) : list eff * ending :=
  let (file, line) := look (c_flag l) (nth_error ((core_file, 208) :: stack) (c_depth l)) in
  match format_header (c_prefix l) (c_flag l) t file line level with
  | None => ([], Panics [])
  | Some h => let b := h ++ content s in (Wrote b :: (if c_hook l then [Hooked b] else []), Returns)
  end.

(* Go: Sprintln ends in a newline; 336-342 for Stack, trace is what runtime.Stack gives. *)
Definition text (m : meth) (s trace : list byte) : list byte :=
  match m with
  | Debugf | Infof | Warnf | Errorf | Fatalf | Panicf => s
  | Stack => s ++ [nl] ++ trace ++ [nl]
  | _ => s ++ [nl]
  end.

(* 242-344 *)
Definition isolated (l : core) (m : meth) : bool := match m with Stack => false | _ => c_iso l >? level_of m end.
Definition method (l : core) (t : time) (stack : list frame) (m : meth) (s trace : list byte) : list eff * ending :=
  if isolated l m then ([], Returns)
  else let (es, o) := out_put l t ((core_file, core_line m) :: stack) (level_of m) (text m s trace) in
       (es, match o, m with
            | Returns, Fatalf | Returns, Fatal => Exits
            | Returns, Panicf | Returns, Panic => Panics (text m s trace)
            | _, _ => o
            end).

(* stdzlog.go 72-122 *)
Definition std_line (m : meth) : Z :=
  match m with
  | Debugf => 73 | Debug => 77 | Infof => 81 | Info => 85 | Warnf => 89 | Warn => 93 | Errorf => 97 | Error => 101
  | Fatalf => 105 | Fatal => 109 | Panicf => 113 | Panic => 117 | Stack => 121
  end.
Definition pkg (l : core) (t : time) (stack : list frame) (m : meth) (s trace : list byte) : list eff * ending :=
  method l t ((str "zlog/stdzlog.go", std_line m) :: stack) m s trace.

(* default.go 14-39 *)
Definition def_meth (d : ilog) : meth := match d with InfoF | InfoFX => Infof | ErrorF | ErrorFX => Errorf | DebugF | DebugFX => Debugf end.
Definition def_line (d : ilog) : Z := match d with InfoF => 15 | ErrorF => 19 | DebugF => 23 | InfoFX => 28 | ErrorFX => 33 | DebugFX => 38 end.
Definition with_ctx (d : ilog) : bool := match d with InfoFX | ErrorFX | DebugFX => true | _ => false end.
Definition default_log (l : core) (t : time) (stack : list frame) (d : ilog) (s : list byte) : list eff * ending :=
  let (es, o) := method l t ((str "zlog/default.go", def_line d) :: stack) (def_meth d) s [] in
  ((if with_ctx d then [PrintedCtx] else []) ++ es, o).

(* The package logger, a logger of the user's own, and whether SetLogger was called. *)
Record logs := Logs { s_std : core; s_own : core; s_custom : bool }.
Inductive lop := OnStd (o : setting) | OnOwn (o : setting) | SetLogger.
Definition begin (prefix : list byte) (flag : Z) : logs := Logs std_core (new_core prefix flag) false.
Definition lop1 (p : logs) (o : lop) : logs :=
  match o with
  | OnStd x => Logs (set1 (s_std p) x) (s_own p) (s_custom p)
  | OnOwn x => Logs (s_std p) (set1 (s_own p) x) (s_custom p)
  | SetLogger => Logs (s_std p) (s_own p) true   (* default.go 41-43 *)
  end.
Definition lops (p : logs) (os : list lop) : logs := fold_left lop1 os p.

Inductive entry := Own (m : meth) | Pkg (m : meth) | Ins (d : ilog) | StdDirect (m : meth) | OwnOutPut (level : Z).
Definition call (p : logs) (t : time) (stack : list frame) (e : entry) (s trace : list byte) : list eff * ending :=
  match e with
  | Own m => method (s_own p) t stack m s trace
  | Pkg m => pkg (s_std p) t stack m s trace
  | Ins d => if s_custom p then ([ToCustom d s], Returns) else default_log (s_std p) t stack d s
  | StdDirect m => method (s_std p) t stack m s trace
  | OwnOutPut level => out_put (s_own p) t stack level s
  end.

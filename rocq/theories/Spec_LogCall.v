(* What a log call is to do. *)
From Coq Require Import ZArith List Bool.
From Verif Require Import Bytes LogCore Spec_LogCore LogCall.
Import ListNotations.
Local Open Scope Z_scope.

(* Severities: 0 debug, 1 info, 2 warning, 3 error, 4 panic, 5 fatal. *)
Definition severity (m : meth) : Z :=
  match m with Debugf | Debug => 0 | Infof | Info => 1 | Warnf | Warn => 2 | Errorf | Error | Stack => 3 | Panicf | Panic => 4 | Fatalf | Fatal => 5 end.
Definition kind (d : ilog) : meth := match d with DebugF | DebugFX => Debugf | InfoF | InfoFX => Infof | ErrorF | ErrorFX => Errorf end.
(* The text of a call: the arguments formatted, with a newline after those of Sprintln. *)
Definition said (m : meth) (s trace m' : list byte) : Prop :=
  match m with
  | Debugf | Infof | Warnf | Errorf | Panicf | Fatalf => m' = s
  | Stack => m' = s ++ [nl] ++ trace ++ [nl]
  | _ => m' = s ++ [nl]
  end.
Definition ends_as (m : meth) (m' : list byte) : ending := match m with Panicf | Panic => Panics m' | Fatalf | Fatal => Exits | _ => Returns end.

(* The settings made so far on a logger. *)
Definition own_settings (os : list lop) : list setting := flat_map (fun o => match o with OnOwn x => [x] | _ => [] end) os.
Definition std_settings (os : list lop) : list setting := flat_map (fun o => match o with OnStd x => [x] | _ => [] end) os.
Definition prefix_of (p0 : list byte) (xs : list setting) : list byte := fold_left (fun p x => match x with SetPrefix q => q | _ => p end) xs p0.
Definition flags_of (f0 : Z) (xs : list setting) : Z := fold_left (fun f x => match x with ResetFlags g => g | AddFlag g => Z.lor f g | _ => f end) xs f0.
Definition threshold (xs : list setting) : Z := fold_left (fun v x => match x with SetLogLevel w => w | _ => v end) xs 0.
Definition hooked (xs : list setting) : bool := existsb (fun x => match x with SetLogHook => true | _ => false end) xs.
Definition custom (os : list lop) : bool := existsb (fun o => match o with SetLogger => true | _ => false end) os.

(* A log call by one of the functions meant for it: its logger's first prefix and flags, the
   settings made, and the method. *)
Inductive asks (prefix : list byte) (flag : Z) (os : list lop) : entry -> list byte -> Z -> list setting -> meth -> Prop :=
| AskOwn m : asks prefix flag os (Own m) prefix flag (own_settings os) m
| AskPkg m : asks prefix flag os (Pkg m) [] BitDefault (std_settings os) m
| AskIns d : custom os = false -> asks prefix flag os (Ins d) [] BitDefault (std_settings os) (kind d).
Definition ctx_of (e : entry) : list eff := match e with Ins (InfoFX | ErrorFX | DebugFX) => [PrintedCtx] | _ => [] end.
(* The call is made at place, whatever called the function that makes it. *)
Definition made_at (stack : list frame) (file : list byte) (line : Z) : Prop := exists callers, stack = (file, line) :: callers.

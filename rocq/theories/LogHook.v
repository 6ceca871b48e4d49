(* Model of the logger's lock while its hook runs: OutPut (zlog/logger_core.go 197-240) locks, gives the lock up around
   runtime.Caller when file names are asked for, locks again, writes, calls the function of SetLogHook, and unlocks by
   defer also when that panics; the level methods (246-344) check the level first; Flags, ResetFlags, AddFlag, SetPrefix,
   SetMaxAge, SetMaxSize, SetCons (348-415) lock.  sync.Mutex is not reentrant.
   Simplified: the isolation level, the flags and the hook stay as they are; the records are numbers (LogCore.v and
   LogCall.v have their bytes), and what the hook does is a list of actions per record, those on other things as one. *)
From Coq Require Import List Bool Arith.
Import ListNotations.

Inductive act :=
| ALog (lev : nat) (* a level method of the same logger *)
| ALock            (* one of Flags, SetPrefix, ... of the same logger *)
| APanic
| AOther.
Inductive pc :=
| Idle
| W1 (r : nat)                 (* 201: at the lock *)
| H1 (r : nat)                 (* 204-205: holding it, file names asked for *)
| W2 (r : nat)                 (* 213: at the lock again *)
| Held (r : nat)               (* 215-234 *)
| Hook (r : nat) (l : list act) (* 236-238: in the hook, l to do *)
| WS                           (* a setter at the lock *)
| HS.
Record lst := Lst { l_lock : option nat; l_pc : nat -> pc }.
Inductive label := LLog (g lev r : nat) | LSet (g : nat) | LGo (g : nat).
Inductive ev := ECall (g : nat) | EWritten (g r : nat) | EEnd (g : nat) | EPanicked (g r : nat).

Definition upd (f : nat -> pc) (g : nat) (p : pc) : nat -> pc := fun x => if Nat.eqb x g then p else f x.
Definition l_new : lst := Lst None (fun _ => Idle).

Section Logger.
Variable lvl : nat.               (* isolationLevel *)
Variable files : bool.            (* flag has BitShortFile or BitLongFile *)
Variable hook : nat -> list act.  (* what the hook does with a record; nothing if none is set *)

(* sync.Mutex.Lock by g, then p *)
Definition acquire (s : lst) (g : nat) (p : pc) : lst :=
  match l_lock s with None => Lst (Some g) (upd (l_pc s) g p) | Some _ => s end.
(* Unlock, then p *)
Definition release (s : lst) (g : nat) (p : pc) : lst := Lst None (upd (l_pc s) g p).
Definition goto (s : lst) (g : nat) (p : pc) : lst := Lst (l_lock s) (upd (l_pc s) g p).

(* logger_core.go 197-240, 348-415 *)
Definition go (s : lst) (g : nat) : lst * list ev :=
  match l_pc s g with
  | Idle => (s, [])
  | W1 r => (acquire s g (if files then H1 r else Held r), [])
  | H1 r => (release s g (W2 r), [])
  | W2 r => (acquire s g (Held r), [])
  | Held r => (goto s g (Hook r (hook r)), [EWritten g r])
  | Hook r [] => (release s g Idle, [EEnd g])
  | Hook r (a :: l) =>
    match a with
    | AOther => (goto s g (Hook r l), [])
    | APanic => (release s g Idle, [EPanicked g r])
    | ALog lev => if lvl <=? lev then match l_lock s with None => (goto s g (Hook r l), []) | Some _ => (s, []) end else (goto s g (Hook r l), [])
    | ALock => match l_lock s with None => (goto s g (Hook r l), []) | Some _ => (s, []) end
    end
  | WS => (acquire s g HS, [])
  | HS => (release s g Idle, [EEnd g])
  end.
Definition l_step (s : lst) (l : label) : lst * list ev :=
  match l with
  | LLog g lev r =>
    match l_pc s g with
    | Idle => if lvl <=? lev then (goto s g (W1 r), [ECall g]) else (s, [ECall g; EEnd g]) (* 242-344 *)
    | _ => (s, [])
    end
  | LSet g => match l_pc s g with Idle => (goto s g WS, [ECall g]) | _ => (s, []) end
  | LGo g => go s g
  end.
Fixpoint l_run (s : lst) (ls : list label) : lst * list ev :=
  match ls with
  | [] => (s, [])
  | l :: ls' => let '(s1, e1) := l_step s l in let '(s2, e2) := l_run s1 ls' in (s2, e1 ++ e2)
  end.
End Logger.

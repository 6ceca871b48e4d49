(* Model of znet/acceptdelay.go when several goroutines use the one back-off AcceptDelay of the
   process at the same time: the accept loops of every listener and every websocket request
   (znet/server.go 279, 292, 296, 323, 333, 348, 351, 383, 391, 395) call it with no lock.  One
   step of a goroutine reads or writes the field duration once (reads and writes of the field are
   taken to be whole words, in one order for all); any list of labels is a schedule, and a label
   that is not enabled does nothing. *)
From Coq Require Import ZArith List Bool.
From Verif Require Import AcceptDelay.
Import ListNotations.
Local Open Scope Z_scope.

(* time.Duration is an int64: 2 * d.duration wraps *)
Definition to_int64 (z : Z) : Z := (z + 2 ^ 63) mod 2 ^ 64 - 2 ^ 63.

(* Where a goroutine stands in Delay. *)
Inductive dpc :=
| DIdle
| DUp0            (* 31: about to read duration and compare it with 0 *)
| DUp1            (* 32: about to write 5ms and return *)
| DUp2            (* 35: about to read duration *)
| DUp3 (t : Z)    (* 35: has read t, about to write 2 * t *)
| DUp4            (* 36: about to read duration and compare it with maxDelay *)
| DUp5            (* 37: about to write maxDelay *)
| DDo0            (* 42: about to read duration and compare it with 0 *)
| DDo1.           (* 43: about to read duration and sleep that long *)

Record shared := Shared { sh_dur : Z; sh_pc : nat -> dpc }.
Definition sh_new : shared := Shared 0 (fun _ => DIdle).   (* acceptdelay.go 13-15 *)
Definition at_pc (s : shared) (g : nat) (p : dpc) : shared :=
  Shared (sh_dur s) (fun h => if Nat.eqb h g then p else sh_pc s h).
Definition with_dur (s : shared) (d : Z) : shared := Shared d (sh_pc s).

Inductive dlabel :=
| AFail (g : nat)   (* goroutine g calls Delay (accept failed, no room, not authorised ...) *)
| AOk (g : nat)     (* goroutine g calls Reset, acceptdelay.go 26-28 *)
| AGo (g : nat).    (* goroutine g goes on in Delay *)
Inductive dev := Sleeps (g : nat) (ns : Z).

(* acceptdelay.go 21-24 (Delay), 30-39 (Up), 41-45 (do) *)
Definition d_step (s : shared) (l : dlabel) : shared * list dev :=
  match l with
  | AFail g => match sh_pc s g with DIdle => (at_pc s g DUp0, []) | _ => (s, []) end
  | AOk g => match sh_pc s g with DIdle => (with_dur s 0, []) | _ => (s, []) end
  | AGo g =>
    match sh_pc s g with
    | DIdle => (s, [])
    | DUp0 => (at_pc s g (if sh_dur s =? 0 then DUp1 else DUp2), [])
    | DUp1 => (at_pc (with_dur s 5000000) g DDo0, [])
    | DUp2 => (at_pc s g (DUp3 (sh_dur s)), [])
    | DUp3 t => (at_pc (with_dur s (to_int64 (2 * t))) g DUp4, [])
    | DUp4 => (at_pc s g (if sh_dur s >? max_delay then DUp5 else DDo0), [])
    | DUp5 => (at_pc (with_dur s max_delay) g DDo0, [])
    | DDo0 => (at_pc s g (if sh_dur s >? 0 then DDo1 else DIdle), [])
    | DDo1 => (at_pc s g DIdle, [Sleeps g (sh_dur s)])
    end
  end.
Fixpoint d_run (s : shared) (ls : list dlabel) : shared * list dev :=
  match ls with
  | [] => (s, [])
  | l :: ls' => let '(s1, e) := d_step s l in let '(s2, es) := d_run s1 ls' in (s2, e ++ es)
  end.

(* Counting what happened to a connection. *)
From Coq Require Import List Bool Arith.
From Verif Require Import ConnLife.
Import ListNotations.

Definition lev_eq_dec (a b : lev) : {a = b} + {a <> b}.
Proof. decide equality. Defined.
Definition times (e : lev) (tr : list lev) : nat := count_occ lev_eq_dec tr e.

(* The stop hook, the socket close and the removal from the manager. *)
Definition closing_event (e : lev) : Prop := e = EvStopHook \/ e = EvClose \/ e = EvRemove.
(* Steps of the connection's own goroutines that need no further call to Stop. *)
Definition own_step (l : llabel) : Prop := l = LMain \/ l = LBeat.
(* Somewhere in the run: Stop is called once the start hook has been called (in the hook or
   later), or the running reader ends, or the heartbeat, not sending, finds no recent activity. *)
Definition stop_asked (c : lcfg) (ls : list llabel) : Prop :=
  exists before l after, ls = before ++ l :: after /\
    let s := fst (life_run c (life_new c) before) in
    (l = LStop /\ In EvStartHook (snd (life_run c (life_new c) before)) \/
     l = LReaderEnd /\ lf_reader s = true \/
     l = LTick false /\ lf_hb s = HbSelect).

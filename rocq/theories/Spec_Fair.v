(* Infinite executions: a schedule gives the label of every step. *)
From Coq Require Import List Arith.
From Verif Require Import Workers SendQueue Spec_Send.
Import ListNotations.

(* The first n labels. *)
Definition first {L} (sch : nat -> L) (n : nat) : list L := map sch (seq 0 n).
(* Again and again. *)
Definition often (P : nat -> Prop) : Prop := forall n, exists m, n <= m /\ P m.

(* Every worker runs again and again: it looks for a request, and the handler it is in gets
   as far as wanted. *)
Definition workers_run (sch : nat -> wlabel) : Prop :=
  forall w, often (fun m => sch m = LTake w) /\
            forall steps, often (fun m => exists f, steps <= f /\ sch m = LFinish w f).

(* A TCP connection after the first n steps (the first thing is Start). *)
Definition conn_at (c : qcfg) (sch : nat -> qlabel) (n : nat) : qst * list qev := q_run c q_new (QStart :: first sch n).
(* Every goroutine goes on again and again, the writer too. *)
Definition all_go_on (sch : nat -> qlabel) : Prop :=
  (forall t, often (fun m => exists ch, sch m = QSend t ch NetOk)) /\ often (fun m => exists ch, sch m = QWriter ch NetOk).
(* If the writer comes to its select again and again, it takes each of the two cases that can
   happen on a running connection again and again.  (Taking the message case when there is no
   message is looking and going on to wait.) *)
Definition select_fair (c : qcfg) (sch : nat -> qlabel) : Prop :=
  forall ch, ch = ChTimer \/ ch = ChChan ->
    often (fun m => q_writer (fst (conn_at c sch m)) = WSelect) ->
    often (fun m => q_writer (fst (conn_at c sch m)) = WSelect /\ sch m = QWriter ch NetOk).
(* Only buffered sends, no Stop, and a network that works, at every moment. *)
Definition undisturbed (sch : nat -> qlabel) : Prop :=
  forall n, buffered_only (first sch n) /\ never_stopped (first sch n) /\ network_fine (first sch n).

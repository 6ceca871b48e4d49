(* Infinite executions of a connection whose peer takes data at some moments only.
   A write returns when the peer takes the data or the socket is closed (or broken). *)
From Coq Require Import List Bool Arith.
From Verif Require Import SendQueue SendLocked Spec_Fair Spec_FairWs.
Import ListNotations.

(* Again and again it does so when it can, unless from some time on it never can. *)
Definition goes_on (can does : nat -> Prop) : Prop :=
  forall n, exists m, n <= m /\ (can m /\ does m \/ forall k, m <= k -> ~ can k).

(* ---- TCP ---- *)
Inductive goroutine := Sending (t : nat) | Writing.
(* Inside conn.Write or a function that may call it. *)
Definition in_write (s : qst) (g : goroutine) : bool :=
  match g with
  | Sending t => match q_send s t with DWrite _ => true | _ => false end
  | Writing => match q_writer s with WPut _ | WFlush | WLast => true | _ => false end
  end.
Definition held_up (taking : bool) (s : qst) (g : goroutine) : bool := in_write s g && negb taking && negb (q_broken s).
(* The cases of the two selects that can be taken: sending to the queue with the timeout, and
   the writer's. *)
Definition send_ready (c : qcfg) (s : qst) (nonnil : bool) (ch : choice) : bool :=
  match ch with
  | ChTimer => true
  | ChDone => q_cancelled s
  | ChChan => nonnil && match q_chan s with Some (q, closed) => closed || (length q <? max 1 (qc_cap c)) | None => false end
  end.
Definition recv_ready (s : qst) (ch : choice) : bool :=
  match ch with
  | ChTimer => true
  | ChDone => q_cancelled s
  | ChChan => match q_chan s with Some (q, closed) => closed || negb (length q =? 0) | None => false end
  end.
(* l is a step of g; in a select, of a case that is ready. *)
Definition step_of (c : qcfg) (s : qst) (g : goroutine) (l : qlabel) : Prop :=
  match g with
  | Sending t => exists ch o, l = QSend t ch o /\ forall m b, q_send s t = SSel m b -> send_ready c s b ch = true
  | Writing => exists ch o, l = QWriter ch o /\ (q_writer s = WSelect -> recv_ready s ch = true)
  end.
(* Every goroutine goes on again and again, unless it is held up for ever; and when the
   connection has been stopped its socket is closed. *)
Definition tcp_fair (c : qcfg) (taking : nat -> bool) (sch : nat -> qlabel) : Prop :=
  (forall g, goes_on (fun m => held_up (taking m) (fst (conn_at c sch m)) g = false) (fun m => step_of c (fst (conn_at c sch m)) g (sch m))) /\
  often (fun m => sch m = QSockClose).

(* How many sends goroutine t has called, and how many have returned (or panicked). *)
Definition called (t : nat) (tr : list qev) : nat := length (filter (fun e => match e with QBegin u _ => u =? t | _ => false end) tr).
Definition returned (t : nat) (tr : list qev) : nat :=
  length (filter (fun e => match e with QOk u _ | QErr u _ | QPanic u => u =? t | _ => false end) tr).
(* Goroutine t uses the buffered sends only. *)
Definition buffered_sender (t : nat) (sch : nat -> qlabel) : Prop := forall n m, sch n <> QCall t true m.

(* ---- websocket and KCP ---- *)
Inductive lgoroutine := LSending (t : nat) | LWriting (i : nat) | Finalizing.
Definition locked_out (fl : flavour) (s : lst) (g : lgoroutine) : bool :=
  match l_excl s with Some _ => true | None =>
    match fl, g with Kcp, LSending _ | Kcp, LWriting _ => false | _, _ => match l_shared s with [] => false | _ => true end end
  end.
(* Waiting for the lock, in a write the peer does not let finish, or in a select with nothing ready. *)
Definition l_held_up (fl : flavour) (taking : bool) (s : lst) (g : lgoroutine) : bool :=
  let write := negb taking && negb (l_broken s) in
  match g with
  | LSending t => match l_send s t with LAcq _ | LDAcq _ => locked_out fl s g | LDWrite _ => write | _ => false end
  | LWriting i => match nth_error (l_writers s) i with
                  | Some (VAcq _ _) => locked_out fl s g
                  | Some (VWrite _ _) => write
                  | Some (VWait k) => negb (l_cancelled s) && match k with Some j => match chan_at s j with Some ([], false) | None => true | _ => false end | None => true end
                  | _ => false
                  end
  | Finalizing => match l_final s with FIdle => negb (l_cancelled s) | FLock => locked_out fl s g | _ => false end
  end.
Definition label_of (g : lgoroutine) (l : llabel) : Prop :=
  match g with
  | LSending t => exists ch o, l = MSend t ch o
  | LWriting i => exists ch o, l = MWriter i ch o
  | Finalizing => l = MFinal
  end.
(* l is a step of g; in a select, of a case that is ready. *)
Definition l_step_of (c : nat) (s : lst) (g : lgoroutine) (l : llabel) : Prop :=
  match g with
  | LSending t => exists ch o, l = MSend t ch o /\ forall lk m i, l_send s t = LSel lk m i ->
      match ch with
      | ChTimer => True
      | ChDone => False
      | ChChan => exists k q closed, i = Some k /\ chan_at s k = Some (q, closed) /\ (closed = true \/ length q < max 1 c)
      end
  | LWriting i => exists ch o, l = MWriter i ch o /\ forall k, nth_error (l_writers s) i = Some (VWait k) ->
      match ch with
      | ChTimer => False
      | ChDone => l_cancelled s = true
      | ChChan => exists j q closed, k = Some j /\ chan_at s j = Some (q, closed) /\ (closed = true \/ q <> [])
      end
  | Finalizing => l = MFinal
  end.
Definition l_at (c : nat) (fl : flavour) (sch : nat -> llabel) (n : nat) : lst * list lev := l_run c fl l_new (MStart :: first sch n).
(* Every goroutine goes on again and again, unless it is held up for ever (so the lock is fair),
   and a writer that comes to its select again and again after Stop notices the Stop. *)
Definition l_fair (c : nat) (fl : flavour) (taking : nat -> bool) (sch : nat -> llabel) : Prop :=
  (forall g, goes_on (fun m => l_held_up fl (taking m) (fst (l_at c fl sch m)) g = false) (fun m => l_step_of c (fst (l_at c fl sch m)) g (sch m))) /\
  (forall i, goes_on (fun m => l_cancelled (fst (l_at c fl sch m)) = true /\ exists k, nth_error (l_writers (fst (l_at c fl sch m))) i = Some (VWait k))
                     (fun m => exists o, sch m = MWriter i ChDone o)).
(* No goroutine moves while it is held up. *)
Definition l_possible (c : nat) (fl : flavour) (taking : nat -> bool) (sch : nat -> llabel) : Prop :=
  forall m g, label_of g (sch m) -> l_held_up fl (taking m) (fst (l_at c fl sch m)) g = false.
Definition l_called (t : nat) (tr : list lev) : nat := length (filter (fun e => match e with MBegin u _ _ => u =? t | _ => false end) tr).
Definition l_returned (t : nat) (tr : list lev) : nat :=
  length (filter (fun e => match e with MOk u _ _ | MErr u _ | MPanic u => u =? t | _ => false end) tr).

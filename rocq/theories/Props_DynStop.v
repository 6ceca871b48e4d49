(* C102: closing a connection that has a worker of its own beyond the pool. *)
From Coq Require Import List Bool Arith Lia Permutation.
From Verif Require Import DynStop Spec_DynStop DynStop_proofs.
Import ListNotations.

(* What a request is queued for: once it is in a queue, stopping its worker does
   not lose it.  After any execution in which the process lives, the workers alone
   can take every request that was ever queued, each as often as it was queued. *)
Theorem C102_drained cap ls : d_dead (fst (dyn_run cap dyn_init ls)) = false ->
  exists ls', Forall worker_only ls' /\ forall c,
    queued c (snd (dyn_run cap dyn_init (ls ++ ls'))) = queued c (snd (dyn_run cap dyn_init ls)) /\
    Permutation (handled c (snd (dyn_run cap dyn_init (ls ++ ls')))) (queued c (snd (dyn_run cap dyn_init ls))).
Proof. exact (drains cap ls). Qed.
Print Assumptions C102_drained.

(* Every request read is queued, in order, but for the last: the reader may still
   have it, or have lost it in a panic, after which it reads no more. *)
Theorem C102_accounted cap ls c : let tr := snd (dyn_run cap dyn_init ls) in
  exists rest, reads c tr = queued c tr ++ rest /\ length rest <= 1 /\ begins (lost c tr) rest.
Proof. exact (accounted cap ls c). Qed.
Print Assumptions C102_accounted.

(* In order, as long as no extra worker ID is handed out twice. *)
Theorem C102_order_partial cap ls c : let tr := snd (dyn_run cap dyn_init ls) in
  unshared tr -> begins (handled c tr) (queued c tr).
Proof. exact (order cap ls c). Qed.
Print Assumptions C102_order_partial.

(* A request is lost only after the worker of its connection, or of one that was
   given the same ID, was stopped. *)
Theorem C102_lost_why cap ls a c m b : snd (dyn_run cap dyn_init ls) = a ++ DeLost c m :: b ->
  exists d, In (DeFreed d) a /\ same_worker a c d.
Proof. exact (lost_why cap ls a c m b). Qed.
Print Assumptions C102_lost_why.
(* Stopping the worker panics only when another connection with the same ID did it before. *)
Theorem C102_twice_why cap ls a c b : snd (dyn_run cap dyn_init ls) = a ++ DeTwice c :: b ->
  exists d, d <> c /\ In (DeFreed d) a /\ same_worker a c d.
Proof. exact (twice_why cap ls a c b). Qed.
Print Assumptions C102_twice_why.
(* Only a websocket connection's panic ends the process: with TCP and KCP
   connections alone it lives on. *)
Theorem C102_dead_why cap ls : let tr := snd (dyn_run cap dyn_init ls) in
  d_dead (fst (dyn_run cap dyn_init ls)) = true ->
  exists c w, In (DeStart c LkWs w) tr /\ (lost c tr <> [] \/ In (DeTwice c) tr).
Proof. exact (dead_why cap ls). Qed.
Print Assumptions C102_dead_why.

(* Full statement: closing a connection loses no request it read and does not end
   the process.  Proved when no ID is handed out twice and the reader has queued
   all it read, and reads no more, when its worker is stopped. *)
Theorem C102_clean_partial cap ls : let tr := snd (dyn_run cap dyn_init ls) in
  unshared tr -> quiet_stops tr ->
  (forall c, lost c tr = [] /\ ~ In (DeTwice c) tr) /\ d_dead (fst (dyn_run cap dyn_init ls)) = false.
Proof. exact (clean cap ls). Qed.
Print Assumptions C102_clean_partial.

(* Two connections, one closed by its peer with two requests waiting, which are
   handled after its worker was told to stop. *)
Definition clean_case : list dlabel :=
  [DlStart LkWs 4; DlStart LkTcp 5; DlRead 0 10; DlReader 0; DlReader 0; DlRead 0 11; DlReader 0; DlReader 0; DlRead 1 20; DlReader 1; DlReader 1;
   DlEnd 0; DlMain 0; DlTake 0; DlDone 0; DlTake 0; DlDone 0; DlTake 0; DlTake 1].
Example C102_clean_case : let tr := snd (dyn_run 2 dyn_init clean_case) in
  unshared tr /\ quiet_stops tr /\ handled 0 tr = [10; 11] /\ handled 1 tr = [20] /\ In (DeFreed 0) tr.
Proof.
  cbv zeta. set (tr := snd _). vm_compute in tr. split; [|split; [|cbn; tauto]].
  - intros c d lk lk' w H1 H2. cbn in H1, H2. intuition congruence.
  - intros a b c E.
    do 20 (destruct a as [|? a]; [try discriminate E; injection E as <- <-; cbn; auto|cbn in E; try discriminate E; injection E as <- E]).
Qed.

(* Refuted: one websocket connection, with any queue length: its reader is about
   to queue a request when the connection is stopped and its worker with it.  The
   send panics, and in the reader of a websocket connection nothing recovers: the
   server process ends. *)
Theorem C102_survives_refuted cap : exists ls, let tr := snd (dyn_run cap dyn_init ls) in
  unshared tr /\ d_dead (fst (dyn_run cap dyn_init ls)) = true /\ tr = [DeStart 0 LkWs 0; DeRead 0 7; DeStop 0; DeFreed 0; DeLost 0 7].
Proof.
  exists [DlStart LkWs 0; DlRead 0 7; DlReader 0; DlStop 0; DlMain 0; DlReader 0]. cbn. split; [|auto].
  intros c d lk lk' w H1 H2. cbn in H1, H2. intuition congruence.
Qed.
Print Assumptions C102_survives_refuted.
(* The same with a reader that waits for room: the queue is full because a handler
   is slow.  On TCP the request is lost; the requests before it are handled. *)
Theorem C102_full_queue_refuted : exists ls, let tr := snd (dyn_run 1 dyn_init ls) in
  unshared tr /\ d_dead (fst (dyn_run 1 dyn_init ls)) = false /\
  reads 0 tr = [1; 2; 3] /\ queued 0 tr = [1; 2] /\ lost 0 tr = [3] /\ handled 0 tr = [1; 2].
Proof.
  exists [DlStart LkTcp 0; DlRead 0 1; DlReader 0; DlReader 0; DlTake 0; DlRead 0 2; DlReader 0; DlReader 0; DlRead 0 3; DlReader 0; DlReader 0; DlReader 0;
          DlStop 0; DlMain 0; DlReader 0; DlDone 0; DlTake 0]. cbn. split; [|auto 10].
  intros c d lk lk' w H1 H2. cbn in H1, H2. intuition congruence.
Qed.
Print Assumptions C102_full_queue_refuted.
(* Two websocket connections that were given the same ID: closing both ends the
   process, though no request is on the way. *)
Theorem C102_both_close_refuted cap : exists ls, let tr := snd (dyn_run cap dyn_init ls) in
  d_dead (fst (dyn_run cap dyn_init ls)) = true /\ reads 0 tr = [] /\ reads 1 tr = [] /\
  tr = [DeStart 0 LkWs 3; DeStart 1 LkWs 3; DeStop 0; DeFreed 0; DeStop 1; DeTwice 1].
Proof. exists [DlStart LkWs 3; DlStart LkWs 3; DlEnd 0; DlMain 0; DlEnd 1; DlMain 1]. cbn. auto. Qed.
Print Assumptions C102_both_close_refuted.
(* And with a shared ID a request read first can be handled last. *)
Theorem C102_order_refuted : exists ls, let tr := snd (dyn_run 1 dyn_init ls) in
  queued 0 tr = [1; 2] /\ handled 0 tr = [2; 1].
Proof.
  exists [DlStart LkTcp 3; DlRead 0 1; DlReader 0; DlReader 0; DlStart LkTcp 3; DlRead 0 2; DlReader 0; DlReader 0; DlTake 1; DlTake 0]. cbn. auto.
Qed.
Print Assumptions C102_order_refuted.

(* C34: order and integrity of sends.  C35: accepted messages are written.
   C36: senders around close. *)
From Coq Require Import List Bool Arith Lia.
From Verif Require Import Bytes SendQueue Spec_Send SendQueue_proofs SendQueue2_proofs SendQueue3_proofs SendQueue4_proofs Witness_Send
  SendLocked Spec_SendLocked SendLocked_proofs SendLocked2_proofs SendLocked3_proofs SendLocked4_proofs.
Import ListNotations.

(* ---- C34 ---- *)

(* C34, TCP.  Full statement: the wire carries whole messages, buffered ones of
   one goroutine in the order sent.  Proved for runs whose sends all go through
   the buffer, whatever the schedule, the network and Stop do: the bytes on the
   wire are a prefix of the concatenation, in the order the sends returned, of
   the messages whose send returned nil.  So only the last message can be cut
   (see C34_stop_cuts_refuted). *)
Theorem C34_tcp_buffered_partial c ls : buffered_only ls ->
  prefix (q_wire (fst (q_run c q_new ls))) (concat (map snd (oks (snd (q_run c q_new ls))))).
Proof. exact (tcp_prefix c ls). Qed.
Print Assumptions C34_tcp_buffered_partial.
(* Whenever the writer waits with an empty buffer the wire holds whole messages. *)
Theorem C34_tcp_whole_partial c ls : buffered_only ls ->
  let s := fst (q_run c q_new ls) in
  q_writer s = WSelect -> q_buf s = [] ->
  exists n, q_wire s = concat (firstn n (map snd (oks (snd (q_run c q_new ls))))).
Proof. exact (tcp_whole c ls). Qed.
Print Assumptions C34_tcp_whole_partial.
(* Runs whose sends are all direct (SendMsg): whole messages, and at the end
   possibly part of one whose sender got an error. *)
Theorem C34_tcp_direct_partial c ls : direct_only ls ->
  let s := fst (q_run c q_new ls) in let tr := snd (q_run c q_new ls) in
  exists t m k, q_wire s = concat (map snd (oks tr)) ++ firstn k m /\ (k <> 0 -> In (QErr t m) tr).
Proof. exact (tcp_direct c ls). Qed.
Print Assumptions C34_tcp_direct_partial.
(* Sends of one goroutine return in the order it made them, so the order of the
   two theorems above is, for each goroutine, the order sent. *)
Theorem C34_tcp_order c ls t : let tr := snd (q_run c q_new ls) in subseq (oks_of t tr) (asked t tr).
Proof. exact (tcp_order c ls t). Qed.
Print Assumptions C34_tcp_order.
Example C34_tcp_case : let c := Qcfg 4 3 in let m1 := [x01; x02] in let m2 := [x03; x04] in let m3 := [x05] in
  let ls := QStart :: first_send 0 m1 ++ next_send 1 m2 ++ next_send 0 m3 ++ [QWriter ChTimer NetOk] ++ to_buffer ++ to_buffer in
  buffered_only ls /\ q_wire (fst (q_run c q_new ls)) = [x01; x02; x03] /\
  oks_of 0 (snd (q_run c q_new ls)) = [m1; m3] /\
  q_wire (fst (q_run c q_new (ls ++ QWriter ChChan NetOk :: to_buffer ++ flush_now))) = m1 ++ m2 ++ m3.
Proof. cbv zeta. split; [intros t m H; cbn in H; intuition discriminate|]. repeat split; vm_compute; reflexivity. Qed.

(* Finding: a direct send between two flushes of a large buffered message lands
   in the middle of it: the wire is not any sequence of the three messages. *)
Theorem C34_tcp_mixed_refuted : exists ls,
  map snd (oks (snd (q_run real_cfg q_new ls))) = [small; large; other] /\
  forall l, (forall x, In x l -> In x [small; large; other]) -> concat l <> q_wire (fst (q_run real_cfg q_new ls)).
Proof.
  exists mixed_run. split; [|exact mixed_not_whole].
  exact (f_equal (map snd) mixed_oks).
Qed.
Print Assumptions C34_tcp_mixed_refuted.
(* Finding: Stop leaves a buffered message cut on the wire for ever, though its
   send returned nil and the network works. *)
Theorem C34_stop_cuts_refuted : exists ls, buffered_only ls /\ network_fine ls /\
  forall more, q_wire (fst (q_run real_cfg q_new (ls ++ QStop :: more))) = small ++ firstn (2 ^ 14 - 1) large.
Proof.
  exists cut_run. split; [exact cut_buffered|]. split; [exact cut_fine|].
  intros more. unfold large. rewrite firstn_large by (apply Nat.le_sub_l). exact (cut_by_stop more).
Qed.
Print Assumptions C34_stop_cuts_refuted.

(* C34, websocket: in every run after Start, with direct and buffered sends from
   any goroutines, Stops and network failures: the direct messages on the wire
   are exactly those whose send returned nil, in that order; the buffered ones
   are, in order, the first of those whose send returned nil; and those of one
   goroutine appear in the order it asked.  (Each WriteMessage is one message.) *)
Theorem C34_ws c ls t : let r := l_run c Ws l_new (MStart :: ls) in
  wired false (l_wire (fst r)) = nils false (snd r) /\
  prefix (wired true (l_wire (fst r))) (nils true (snd r)) /\
  subseq (of_goroutine t (wired true (l_wire (fst r)))) (asked_l t true (snd r)).
Proof. split; [apply ws_content|]. split; [apply ws_content|apply ws_order]. Qed.
Print Assumptions C34_ws.
Example C34_ws_case : let m1 := [x01] in let m2 := [x02] in let m3 := [x03] in
  let ls := [MCall 0 ASendToQueue m1; MCall 1 ASendMsg m2] ++ sending 0 7 ++ [MWriter 0 ChChan NetOk; MWriter 0 ChChan NetOk] ++
            sending 1 1 ++ [MWriter 0 ChChan NetOk] ++ sending 1 2 ++ repeat (MWriter 0 ChChan NetOk) 3 ++ [MCall 0 ASendBuffMsg m3] ++ sending 0 5 in
  let r := l_run 4 Ws l_new (MStart :: ls) in
  l_wire (fst r) = [(false, 1, m2); (true, 0, m1)] /\ nils true (snd r) = [(0, m1); (0, m3)].
Proof. vm_compute. split; reflexivity. Qed.

(* KCP: sends return in the order made ... *)
Theorem C34_kcp_return_order_partial c ls t b : let tr := snd (l_run c Kcp l_new ls) in
  subseq (of_goroutine t (nils b tr)) (asked_l t b tr).
Proof. exact (returned_order c Kcp ls t b). Qed.
Print Assumptions C34_kcp_return_order_partial.
(* ... but, finding: two goroutines under the shared read lock can each make the
   channel and a writer, and then two messages of one goroutine swap. *)
Theorem C34_kcp_refuted c m1 m2 (m3 : msg) : exists ls, let r := l_run (S (S c)) Kcp l_new ls in
  of_goroutine 0 (nils true (snd r)) = [m1; m2] /\ of_goroutine 0 (wired true (l_wire (fst r))) = [m2; m1].
Proof. exists (kcp_swap_run m1 m2 m3). exact (kcp_swap c m1 m2 m3). Qed.
Print Assumptions C34_kcp_refuted.

(* ---- C35 ---- *)

(* C35.  Full statement: a buffered send that returned nil is eventually written
   unless the peer or network fails.  Proved, for runs without Stop and (TCP)
   with buffered sends only: from every reachable state the goroutines already
   running can, with a working network, bring every accepted message onto the
   wire. *)
Theorem C35_tcp_partial c ls : buffered_only ls -> never_stopped ls -> network_fine ls ->
  exists more, (forall l, In l more -> goes_on l) /\
    q_wire (fst (q_run c q_new ((QStart :: ls) ++ more))) = concat (map snd (oks (snd (q_run c q_new (QStart :: ls))))).
Proof. exact (accepted_can_be_written c ls). Qed.
Print Assumptions C35_tcp_partial.
Example C35_tcp_case : let c := Qcfg 4 3 in let m1 := [x01; x02] in let m2 := [x03; x04] in
  let ls := first_send 0 m1 ++ next_send 1 m2 ++ [QWriter ChTimer NetOk] in
  buffered_only ls /\ never_stopped ls /\ network_fine ls /\
  oks (snd (q_run c q_new (QStart :: ls))) = [(0, m1); (1, m2)] /\ q_wire (fst (q_run c q_new (QStart :: ls))) = [].
Proof.
  cbv zeta. split; [intros t m H; cbn in H; intuition discriminate|]. split; [intros H; cbn in H; intuition discriminate|].
  split; [split; intros; cbn; intuition discriminate|]. split; vm_compute; reflexivity.
Qed.
Theorem C35_ws_partial c ls : never_stopped_l ls -> network_fine_l ls ->
  exists more, Forall goes_on_l more /\
    let r := l_run c Ws l_new ((MStart :: ls) ++ more) in wired true (l_wire (fst r)) = nils true (snd r).
Proof. exact (ws_accepted_can_be_written c ls). Qed.
Print Assumptions C35_ws_partial.
Example C35_ws_case : let ls := MCall 0 ASendToQueue [x01] :: sending 0 7 ++ [MCall 1 ASendBuffMsg [x02]] ++ sending 1 5 in
  never_stopped_l ls /\ network_fine_l ls /\
  nils true (snd (l_run 4 Ws l_new (MStart :: ls))) = [(0, [x01]); (1, [x02])] /\ l_wire (fst (l_run 4 Ws l_new (MStart :: ls))) = [].
Proof.
  cbv zeta. split; [intros H; cbn in H; intuition discriminate|].
  split; [split; intros; cbn; intuition discriminate|]. split; vm_compute; reflexivity.
Qed.

(* Finding: a local Stop drops what was accepted.  The send returned nil, the
   network works, and however execution goes on nothing is ever written. *)
Theorem C35_stop_refuted c m : exists ls, network_fine ls /\ snd (q_run c q_new ls) = [QBegin 0 m; QOk 0 m] /\
  forall more, q_wire (fst (q_run c q_new (ls ++ more))) = [].
Proof. exists (lost_run m). exact (lost_on_stop c m). Qed.
Print Assumptions C35_stop_refuted.
Theorem C35_ws_kcp_stop_refuted c fl m : exists ls, network_fine_l ls /\ snd (l_run c fl l_new ls) = [MBegin 0 true m; MOk 0 true m] /\
  forall more, l_wire (fst (l_run c fl l_new (ls ++ more))) = [].
Proof. exists (l_lost_run m). exact (l_lost_on_stop c fl m). Qed.
Print Assumptions C35_ws_kcp_stop_refuted.
(* Finding: on KCP an accepted message is lost without any Stop, when two
   goroutines make the channel: m1 stays in the one that was replaced. *)
Theorem C35_kcp_refuted c m1 m2 : exists ls, never_stopped_l ls /\ network_fine_l ls /\
  nils true (snd (l_run c Kcp l_new ls)) = [(0, m1); (1, m2)] /\
  forall more, Forall quiet more -> l_wire (fst (l_run c Kcp l_new (ls ++ more))) = [(true, 1, m2)].
Proof.
  exists (kcp_strand_run m1 m2). split; [intros H; cbn in H; intuition discriminate|].
  split; [split; intros; cbn; intuition discriminate|]. split; [apply kcp_strand_trace|]. intros more. apply kcp_stranded.
Qed.
Print Assumptions C35_kcp_refuted.

(* ---- C36 ---- *)

(* C36.  Full statement: concurrent buffered sends during shutdown never panic.
   TCP: proved when one goroutine makes the buffered sends. *)
Theorem C36_tcp_one_sender_partial c ls : one_buffered_sender ls -> no_panic (snd (q_run c q_new (QStart :: ls))).
Proof. exact (one_sender_safe c ls). Qed.
Print Assumptions C36_tcp_one_sender_partial.
Example C36_tcp_case : let ls := first_send 0 [x01] ++ [QCall 0 false [x02]; QSend 0 ChChan NetOk; QSend 0 ChChan NetOk; QStop; QSend 0 ChChan NetOk; QSend 0 ChDone NetOk] in
  one_buffered_sender ls /\ In (QErr 0 [x02]) (snd (q_run (Qcfg 4 3) q_new (QStart :: ls))).
Proof. cbv zeta. split; [exists 0; intros t m H; cbn in H; intuition (congruence || discriminate)|vm_compute; auto 10]. Qed.
(* Findings: with two buffered senders and a Stop: the channel is closed twice,
   sent on after close, or closed before it is made. *)
Theorem C36_tcp_refuted c m :
  In (QPanic 1) (snd (q_run c q_new (double_close_run m))) /\
  In (QPanic 1) (snd (q_run c q_new (closed_send_run m))) /\
  In (QPanic 1) (snd (q_run c q_new (nil_close_run m))).
Proof. split; [apply double_close|]. split; [apply closed_send|apply nil_close]. Qed.
Print Assumptions C36_tcp_refuted.

(* Websocket: no run after Start panics, with any senders and Stops. *)
Theorem C36_ws c ls : no_panic_l (snd (l_run c Ws l_new (MStart :: ls))).
Proof. exact (locked_run_safe c Ws ls (or_introl eq_refl)). Qed.
Print Assumptions C36_ws.
Example C36_ws_case : let ls := [MCall 0 ASendToQueue [x01]; MCall 1 ASendBuffMsg [x02]] ++ sending 0 6 ++ [MStop; MFinal; MFinal] ++ sending 0 1 ++
    [MFinal; MFinal; MFinal; MFinal] ++ sending 1 3 in
  snd (l_run 4 Ws l_new (MStart :: ls)) = [MBegin 0 true [x01]; MBegin 1 true [x02]; MOk 0 true [x01]; MErr 1 [x02]].
Proof. vm_compute. reflexivity. Qed.
(* KCP: the same without SendBuffMsg ... *)
Theorem C36_kcp_partial c ls : no_send_buff ls -> no_panic_l (snd (l_run c Kcp l_new (MStart :: ls))).
Proof. intros H. exact (locked_run_safe c Kcp ls (or_intror H)). Qed.
Print Assumptions C36_kcp_partial.
Example C36_kcp_case : let ls := [MCall 0 ASendToQueue [x01]; MCall 1 ASendToQueue [x02]] ++ sending 0 6 ++ [MStop; MFinal; MFinal; MFinal] ++ sending 0 1 ++
    [MFinal; MFinal; MFinal; MFinal] ++ sending 1 3 in
  no_send_buff ls /\ snd (l_run 4 Kcp l_new (MStart :: ls)) = [MBegin 0 true [x01]; MBegin 1 true [x02]; MOk 0 true [x01]; MErr 1 [x02]].
Proof. cbv zeta. split; [intros t m H; cbn in H; intuition discriminate|vm_compute; reflexivity]. Qed.
(* ... but, finding: SendBuffMsg does not take the lock, and one call around a
   Stop sends on the closed channel. *)
Theorem C36_kcp_refuted c (m : msg) : exists ls, In (MPanic 0) (snd (l_run c Kcp l_new ls)).
Proof. exists (kcp_panic_run m). exact (kcp_panic c m). Qed.
Print Assumptions C36_kcp_refuted.

(* Finding: a buffered send on a connection that was not started kills the
   process: the writer goroutine it starts uses the nil context. *)
Theorem C36_before_start_refuted c (m : msg) : exists ls, In QCrash (snd (q_run c q_new ls)).
Proof. exists (before_start_run m). exact (before_start c m). Qed.
Print Assumptions C36_before_start_refuted.
Theorem C36_ws_kcp_before_start_refuted c fl (m : msg) : exists ls, In MCrash (snd (l_run c fl l_new ls)).
Proof. exists (l_before_start_run m). exact (l_before_start c fl m). Qed.
Print Assumptions C36_ws_kcp_before_start_refuted.

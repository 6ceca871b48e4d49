(* C68: when sends return errors. *)
From Coq Require Import List Bool Arith Lia.
From Verif Require Import Bytes SendQueue Spec_Send SendQueue_proofs SendLocked Spec_SendLocked SendLocked_proofs SendErr_proofs SendErr2_proofs.
Import ListNotations.

(* C68, TCP: on a started connection that nobody stops, with a working network, whatever
   the goroutines send and however they are scheduled: an error is returned only by a
   buffered send whose timer fired.  In particular SendMsg never fails. *)
Theorem C68_tcp c ls t m : never_stopped ls -> network_fine ls ->
  In (QErr t m) (snd (q_run c q_new (QStart :: ls))) ->
  In (QCall t false m) ls /\ exists o, In (QSend t ChTimer o) ls.
Proof. intros S N. destruct (tcp_errors c ls (fine_split ls S N)) as (_ & _ & H). exact (H t m). Qed.
Print Assumptions C68_tcp.
(* The second of two buffered sends waits behind a full queue of one and times out; a
   direct send meanwhile succeeds. *)
Example C68_tcp_case : let ls := [QCall 0 false [x01]] ++ repeat (QSend 0 ChChan NetOk) 7 ++ [QCall 1 false [x02]; QCall 2 true [x03]] ++
    repeat (QSend 1 ChChan NetOk) 5 ++ [QSend 1 ChTimer NetOk; QSend 2 ChChan NetOk; QSend 2 ChChan NetOk] in
  never_stopped ls /\ network_fine ls /\
  snd (q_run (Qcfg 1 3) q_new (QStart :: ls)) = [QBegin 0 [x01]; QOk 0 [x01]; QBegin 1 [x02]; QBegin 2 [x03]; QErr 1 [x02]; QOk 2 [x03]].
Proof. cbv zeta. split; [intros H; cbn in H; intuition discriminate|]. split; [split; intros; cbn; intuition discriminate|]. vm_compute. reflexivity. Qed.

(* The same for websocket and KCP. *)
Theorem C68_ws_kcp c fl ls t m : never_stopped_l ls -> network_fine_l ls ->
  In (MErr t m) (snd (l_run c fl l_new (MStart :: ls))) ->
  (In (MCall t ASendToQueue m) ls \/ In (MCall t ASendBuffMsg m) ls) /\ exists o, In (MSend t ChTimer o) ls.
Proof. intros S N. destruct (locked_errors c fl ls (fine_split_l ls S N)) as (_ & _ & H). exact (H t m). Qed.
Print Assumptions C68_ws_kcp.
Example C68_ws_case : let ls := [MCall 0 ASendToQueue [x01]] ++ repeat (MSend 0 ChChan NetOk) 7 ++ [MCall 1 ASendBuffMsg [x02]; MCall 2 ASendMsg [x03]] ++
    repeat (MSend 1 ChChan NetOk) 5 ++ [MSend 1 ChTimer NetOk; MSend 2 ChChan NetOk; MSend 2 ChChan NetOk; MSend 2 ChChan NetOk] in
  never_stopped_l ls /\ network_fine_l ls /\
  snd (l_run 1 Ws l_new (MStart :: ls)) = [MBegin 0 true [x01]; MOk 0 true [x01]; MBegin 1 true [x02]; MBegin 2 false [x03]; MErr 1 [x02]; MOk 2 false [x03]].
Proof. cbv zeta. split; [intros H; cbn in H; intuition discriminate|]. split; [split; intros; cbn; intuition discriminate|]. vm_compute. reflexivity. Qed.

(* Full statement: ... and the timer fires only while the queue stays full.  False of TCP:
   a buffered send made while another goroutine is making the queue may look at the nil
   channel; it then waits for its timer, however empty the queue is and however long the
   others run. *)
Theorem C68_tcp_first_send_refuted c (m1 m2 : msg) : exists ls, never_stopped ls /\ network_fine ls /\
  forall more, (forall x, ~ In (QCall 1 false x) more) -> (forall x, ~ In (QCall 1 true x) more) ->
    ~ In (QOk 1 m2) (snd (q_run c q_new (ls ++ more))).
Proof.
  exists (nil_wait_run m1 m2). split; [intros H; cbn in H; intuition discriminate|]. split; [split; intros; cbn; intuition discriminate|].
  exact (nil_waits c m1 m2).
Qed.
Print Assumptions C68_tcp_first_send_refuted.
(* False of websocket: the sender holds the lock while it waits for room, and the writer,
   holding the message it took, waits for that lock: when the queue is full there is no
   room before the timer, whatever the others do. *)
Theorem C68_ws_full_refuted (m1 m2 m3 : msg) : exists ls, never_stopped_l ls /\ network_fine_l ls /\
  forall more, (forall o, ~ In (MSend 0 ChTimer o) more) ->
    ~ In (MOk 0 true m3) (skipn (length (snd (l_run 1 Ws l_new ls))) (snd (l_run 1 Ws l_new (ls ++ more)))) /\
    l_wire (fst (l_run 1 Ws l_new (ls ++ more))) = [].
Proof.
  exists (full_run m1 m2 m3). split; [intros H; cbn in H; intuition discriminate|]. split; [split; intros; cbn; intuition discriminate|].
  exact (full_waits m1 m2 m3).
Qed.
Print Assumptions C68_ws_full_refuted.

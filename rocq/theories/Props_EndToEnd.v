(* C73: from the sender's call to the receiver's handler, composing the models of sending
   (SendQueue.v), framing and reading (Pack.v, FrameDecoder.v, Reader.v) and the worker pool
   (Workers.v). *)
From Coq Require Import ZArith List Bool Lia Permutation.
From Verif Require Import Bytes Pack FrameDecoder Chain Decoders Spec_Codec Reader Request Router Dispatch Workers Spec_Workers SendQueue Spec_Send SendLocked Spec_SendLocked Spec_EndToEnd.
From Verif Require Import Props_Codec Props_Workers Props_Send SendQueue4_proofs Witness_Send EndToEnd_proofs EndToEnd2_proofs.
Import ListNotations.

(* C73, buffered sends.  One side sends with SendBuffMsg from any goroutines; msgs are the
   messages whose sends returned nil, in that order.  Whatever part of the bytes written so
   far has reached the other side, in whatever pieces, and however reader and workers are
   scheduled there: the handlers of the connection have begun on the first few of msgs, in
   order, unchanged, none twice, none left out. *)
Theorem C73_buffered_partial : forall f qc sends cf ls s tr c msgs chunks,
  let sender := q_run qc q_new sends in
  buffered_only sends -> Forall msg_ok msgs -> map snd (oks (snd sender)) = map (bytes_of (packer f)) msgs ->
  prefix (concat chunks) (q_wire (fst sender)) ->
  cf_mode cf <> ModeDynamicBind -> pool_size cf > 0 -> server_run cf ls = Some (s, tr) -> passed_on (reader_of f) chunks c tr ->
  prefix (begun c tr) (map Some msgs) /\ one_at_a_time (sent c tr) (activity c tr).
Proof.
  intros f qc sends cf ls s tr c msgs chunks sender B F E W M P R A. split; [|exact (C23_order_partial cf ls s tr M P R c)].
  assert (W' := C34_tcp_buffered_partial qc sends B). fold sender in W'. rewrite E in W'.
  destruct (handled_prefix f cf ls s tr c msgs chunks M P R F (prefix_trans _ _ _ W W') A) as (n & X).
  apply (prefix_trans _ _ _ X). apply prefix_map, prefix_firstn.
Qed.
Print Assumptions C73_buffered_partial.

(* C73, direct sends (SendMsg): the same, except that the handlers may also have begun on
   one message whose send returned an error, after all that returned nil. *)
Theorem C73_direct_partial : forall f qc sends cf ls s tr c msgs chunks,
  let sender := q_run qc q_new sends in
  direct_only sends -> Forall msg_ok msgs -> map snd (oks (snd sender)) = map (bytes_of (packer f)) msgs ->
  (forall t m, In (QErr t m) (snd sender) -> exists p, msg_ok p /\ m = bytes_of (packer f) p) ->
  prefix (concat chunks) (q_wire (fst sender)) ->
  cf_mode cf <> ModeDynamicBind -> pool_size cf > 0 -> server_run cf ls = Some (s, tr) -> passed_on (reader_of f) chunks c tr ->
  (prefix (begun c tr) (map Some msgs) \/ exists t p, begun c tr = map Some (msgs ++ [p]) /\ In (QErr t (bytes_of (packer f) p)) (snd sender)) /\
  one_at_a_time (sent c tr) (activity c tr).
Proof.
  intros f qc sends cf ls s tr c msgs chunks sender B F E Q W M P R A. split; [|exact (C23_order_partial cf ls s tr M P R c)].
  destruct (C34_tcp_direct_partial qc sends B) as (t & m & k & Ew & Ek). fold sender in Ew, Ek. rewrite E in Ew. rewrite Ew in W. destruct k as [|k].
  - cbn [firstn] in W. rewrite app_nil_r in W. left. destruct (handled_prefix f cf ls s tr c msgs chunks M P R F W A) as (n & X). apply (prefix_trans _ _ _ X). apply prefix_map, prefix_firstn.
  - assert (Ik : In (QErr t m) (snd sender)) by (apply Ek; discriminate). destruct (Q t m Ik) as (p & Fp & ->).
    assert (W' : prefix (concat chunks) (concat (map (bytes_of (packer f)) (msgs ++ [p])))).
    { apply (prefix_trans _ _ _ W). rewrite map_app, concat_app. cbn [map concat]. rewrite app_nil_r. exists (skipn (S k) (bytes_of (packer f) p)). rewrite <- app_assoc. now rewrite firstn_skipn. }
    assert (F' : Forall msg_ok (msgs ++ [p])) by (apply Forall_app; split; [exact F|now constructor]).
    destruct (handled_prefix f cf ls s tr c (msgs ++ [p]) chunks M P R F' W' A) as (n & (r & X)).
    destruct (Compare_dec.le_lt_dec n (length msgs)) as [Hn|Hn].
    + left. rewrite firstn_app in X. replace (n - length msgs)%nat with 0 in X by lia. cbn [firstn] in X. rewrite app_nil_r in X. apply (prefix_trans _ (map Some (firstn n msgs))); [now exists r|apply prefix_map, prefix_firstn].
    + rewrite firstn_all2 in X by (rewrite app_length; cbn; lia). rewrite map_app in X. cbn [map] in X. destruct r as [|y r] using rev_ind.
      * right. exists t, p. rewrite app_nil_r in X. rewrite map_app. split; [symmetry; exact X|exact Ik].
      * left. clear IHr. rewrite app_assoc in X. apply app_inj_tail in X. destruct X as (X & _). exists r. exact X.
Qed.
Print Assumptions C73_direct_partial.

(* C73, websocket (ws_connection.go 214-270 reads one message at a time into the same
   decoder): direct and buffered sends may be mixed.  The handlers have begun on the first
   few of the messages on the wire, which are all the direct messages whose sends returned
   nil and the first few of the buffered ones whose sends did. *)
Theorem C73_ws_partial : forall f q sends cf ls s tr c msgs k,
  let sender := l_run q Ws l_new (MStart :: sends) in let on_wire := map snd (l_wire (fst sender)) in
  Forall msg_ok msgs -> on_wire = map (bytes_of (packer f)) msgs ->
  cf_mode cf <> ModeDynamicBind -> pool_size cf > 0 -> server_run cf ls = Some (s, tr) -> passed_on (reader_of f) (firstn k on_wire) c tr ->
  prefix (begun c tr) (map Some msgs) /\ one_at_a_time (sent c tr) (activity c tr) /\
  wired false (l_wire (fst sender)) = nils false (snd sender) /\ prefix (wired true (l_wire (fst sender))) (nils true (snd sender)).
Proof.
  intros f q sends cf ls s tr c msgs k sender on_wire F E M P R A. split; [|split; [exact (C23_order_partial cf ls s tr M P R c)|destruct (C34_ws q sends 0) as (X & Y & _); split; [exact X|exact Y]]].
  assert (W : prefix (concat (firstn k on_wire)) (concat (map (bytes_of (packer f)) msgs))) by (rewrite <- E; exists (concat (skipn k on_wire)); rewrite <- concat_app; now rewrite firstn_skipn).
  destruct (handled_prefix f cf ls s tr c msgs _ M P R F W A) as (n & X). apply (prefix_trans _ _ _ X). apply prefix_map, prefix_firstn.
Qed.
Print Assumptions C73_ws_partial.

(* Two goroutines send three messages; all is written; the other side reads it in pieces of
   seven bytes and two workers handle it. *)
Definition three : list (Z * list byte) := [(1, [x01; x02; x03]); (2, []); (1, [x04])]%Z.
Definition bytes_three (n : nat) : list byte := bytes_of pack_tlv (nth n three (0%Z, [])).
Definition three_sends : list qlabel :=
  QStart :: first_send 0 (bytes_three 0) ++ next_send 1 (bytes_three 1) ++ [QWriter ChTimer NetOk] ++ to_buffer ++ to_buffer ++ flush_now ++ next_send 0 (bytes_three 2) ++ to_buffer ++ flush_now.
Fixpoint pieces (n : nat) (k : nat) (l : list byte) : list (list byte) :=
  match n with 0 => [l] | S n' => firstn k l :: pieces n' k (skipn k l) end.
Definition three_handled : list wlabel :=
  [LAccept; LAccept; LStart 0 0; LStart 1 0] ++ map (fun p => LSend 1 (JMsg (new_msg_package (fst p) (snd p)))) three ++ [LTake 0; LFinish 0 9; LTake 0; LFinish 0 9; LTake 0].
Example C73_case : exists s tr, let sender := q_run (Qcfg 4 100) q_new three_sends in let chunks := pieces 3 7 (q_wire (fst sender)) in
  buffered_only three_sends /\ Forall msg_ok three /\ map snd (oks (snd sender)) = map (bytes_of (packer Tlv)) three /\
  prefix (concat chunks) (q_wire (fst sender)) /\ cf_mode hash_cfg <> ModeDynamicBind /\ pool_size hash_cfg > 0 /\
  server_run hash_cfg three_handled = Some (s, tr) /\ passed_on (reader_of Tlv) chunks 1 tr /\
  begun 1 tr = map Some three.
Proof.
  eexists _, _. cbn zeta. split; [intros t m H; cbn in H; intuition discriminate|]. split; [repeat constructor; vm_compute; congruence|]. split; [vm_compute; reflexivity|]. split; [exists []; vm_compute; reflexivity|]. split; [discriminate|]. split; [vm_compute; apply le_n_S, Nat.le_0_l|].
  split; [vm_compute; reflexivity|]. split; [exists []; vm_compute; reflexivity|vm_compute; reflexivity].
Qed.

(* The same three over a websocket, the second sent directly. *)
Example C73_ws_case : exists s tr, let sends := MCall 0 ASendToQueue (bytes_three 0) :: repeat (MSend 0 ChChan NetOk) 8 ++ repeat (MWriter 0 ChChan NetOk) 5 ++
    MCall 1 ASendMsg (bytes_three 1) :: repeat (MSend 1 ChChan NetOk) 4 ++ MCall 0 ASendToQueue (bytes_three 2) :: repeat (MSend 0 ChChan NetOk) 8 ++ repeat (MWriter 0 ChChan NetOk) 8 in
  let on_wire := map snd (l_wire (fst (l_run 4 Ws l_new (MStart :: sends)))) in
  on_wire = map (bytes_of (packer Tlv)) three /\ server_run hash_cfg three_handled = Some (s, tr) /\ passed_on (reader_of Tlv) (firstn 3 on_wire) 1 tr /\ begun 1 tr = map Some three.
Proof. eexists _, _. cbn zeta. split; [vm_compute; reflexivity|]. split; [vm_compute; reflexivity|]. split; [exists []; vm_compute; reflexivity|vm_compute; reflexivity]. Qed.

(* C73, nothing is lost: with a working network and no Stop, the sending side can go on
   until exactly the messages whose sends returned nil are on the wire; and however the
   bytes are cut up on their way, once they are read the requests can be passed on and the
   workers go on until the handlers of the connection have begun on, and ended, exactly
   those messages, in order. *)
Theorem C73_arrives_partial : forall f qc sends cf ls s tr c k w msgs chunks,
  let sender := q_run qc q_new (QStart :: sends) in
  buffered_only sends -> never_stopped sends -> network_fine sends ->
  Forall msg_ok msgs -> map snd (oks (snd sender)) = map (bytes_of (packer f)) msgs -> prefix (concat chunks) (q_wire (fst sender)) ->
  cf_mode cf <> ModeDynamicBind -> pool_size cf > 0 -> server_run cf ls = Some (s, tr) -> nth_error (ws_conns s) c = Some k -> co_worker k = Some w ->
  passed_on (reader_of f) chunks c tr -> (forall j, returns (cf_routes cf) j) ->
  exists more_sends, Forall goes_on more_sends /\ let sent_all := q_wire (fst (q_run qc q_new ((QStart :: sends) ++ more_sends))) in
    sent_all = concat (map (bytes_of (packer f)) msgs) /\ prefix (concat chunks) sent_all /\
    forall rest, concat (chunks ++ rest) = sent_all ->
      exists more s' tr', Forall (workers_and c) more /\ server_run cf (ls ++ more) = Some (s', tr ++ tr') /\
        passed_on (reader_of f) (chunks ++ rest) c (tr ++ tr') /\ begun c (tr ++ tr') = map Some msgs /\ done c (tr ++ tr') = map Some msgs.
Proof.
  intros f qc sends cf ls s tr c k w msgs chunks sender B N W F E Pf M P R K Kw A Hret.
  destruct (C35_tcp_partial qc sends B N W) as (more & G & X). fold sender in X. rewrite E in X. exists more. split; [apply Forall_forall; exact G|]. cbn zeta. rewrite X. split; [reflexivity|]. split.
  - apply (prefix_trans _ _ _ Pf). rewrite <- E. unfold sender. apply C34_tcp_buffered_partial. intros t m [H|H]; [discriminate|exact (B t m H)].
  - intros rest Er. exact (arrives f cf ls s tr c k w msgs chunks rest M P R K Kw Hret F Er A).
Qed.
Print Assumptions C73_arrives_partial.
Lemma some_routes_return : forall j, returns some_routes j.
Proof.
  intros [m|n p]; [|exists 0; destruct p; discriminate]. exists 9. unfold handle, some_routes, do_msg_handler, do_msg_handler_slices. unfold find_router. cbn [ro_slices_mode ro_apis ro_slices find fst]. generalize (m_id m). intros z.
  repeat match goal with |- context [Z.eqb ?a ?b] => destruct (Z.eqb a b) end; vm_compute; discriminate.
Qed.
(* Half way: the first message has been read and passed on, the second is on its way, the
   third not even written. *)
Definition half_sends : list qlabel := first_send 0 (bytes_three 0) ++ next_send 1 (bytes_three 1) ++ [QWriter ChTimer NetOk] ++ to_buffer ++ to_buffer ++ flush_now ++ next_send 0 (bytes_three 2).
Example C73_arrives_case : exists s tr k, let sender := q_run (Qcfg 4 100) q_new (QStart :: half_sends) in let chunks := [firstn 14 (q_wire (fst sender))] in let ls := [LAccept; LAccept; LStart 0 0; LStart 1 0; LSend 1 (JMsg (new_msg_package 1 [x01; x02; x03]))] in
  buffered_only half_sends /\ never_stopped half_sends /\ network_fine half_sends /\ Forall msg_ok three /\ map snd (oks (snd sender)) = map (bytes_of (packer Tlv)) three /\ prefix (concat chunks) (q_wire (fst sender)) /\
  q_wire (fst sender) <> concat (map (bytes_of (packer Tlv)) three) /\ server_run hash_cfg ls = Some (s, tr) /\ nth_error (ws_conns s) 1 = Some k /\ co_worker k = Some 0 /\ passed_on (reader_of Tlv) chunks 1 tr /\ (forall j, returns (cf_routes hash_cfg) j) /\ begun 1 tr = [].
Proof.
  do 3 eexists. cbn zeta.
  assert (N : forallb (fun l => match l with QStop | QSend _ _ (NetFail _) | QWriter _ (NetFail _) | QCall _ true _ => false | _ => true end) half_sends = true) by (vm_compute; reflexivity). rewrite forallb_forall in N.
  split; [intros t m H; apply N in H; discriminate|]. split; [intros H; apply N in H; discriminate|]. split; [split; intros; intros H; apply N in H; discriminate|].
  split; [repeat constructor; vm_compute; congruence|]. split; [vm_compute; reflexivity|]. split; [eexists; vm_compute; reflexivity|]. split; [vm_compute; discriminate|]. split; [vm_compute; reflexivity|]. split; [vm_compute; reflexivity|]. split; [reflexivity|].
  split; [exists []; vm_compute; reflexivity|]. split; [exact some_routes_return|vm_compute; reflexivity].
Qed.

(* The same for a websocket with both kinds of send: the sending side can go on until every
   message whose send returned nil is on the wire, and these arrive. *)
Theorem C73_ws_arrives_partial : forall f q sends cf ls s tr c k w,
  never_stopped_l sends -> network_fine_l sends ->
  cf_mode cf <> ModeDynamicBind -> pool_size cf > 0 -> server_run cf ls = Some (s, tr) -> nth_error (ws_conns s) c = Some k -> co_worker k = Some w -> (forall j, returns (cf_routes cf) j) ->
  exists more_sends, Forall goes_on_l more_sends /\ let sender := l_run q Ws l_new ((MStart :: sends) ++ more_sends) in let on_wire := map snd (l_wire (fst sender)) in
    wired true (l_wire (fst sender)) = nils true (snd sender) /\ wired false (l_wire (fst sender)) = nils false (snd sender) /\
    forall msgs n, Forall msg_ok msgs -> on_wire = map (bytes_of (packer f)) msgs -> passed_on (reader_of f) (firstn n on_wire) c tr ->
      exists more s' tr', Forall (workers_and c) more /\ server_run cf (ls ++ more) = Some (s', tr ++ tr') /\
        passed_on (reader_of f) on_wire c (tr ++ tr') /\ begun c (tr ++ tr') = map Some msgs /\ done c (tr ++ tr') = map Some msgs.
Proof.
  intros f q sends cf ls s tr c k w N W M P R K Kw Hret. destruct (C35_ws_partial q sends N W) as (more & G & X). exists more. split; [exact G|]. cbn zeta in *. split; [exact X|].
  destruct (C34_ws q (sends ++ more) 0) as (Y & _). split; [exact Y|]. intros msgs n F E A. set (on_wire := map snd _) in *.
  destruct (arrives f cf ls s tr c k w msgs (firstn n on_wire) (skipn n on_wire) M P R K Kw Hret F) as (mr & s' & tr' & H); [rewrite firstn_skipn, E; reflexivity|exact A|]. rewrite firstn_skipn in H. exists mr, s', tr'. exact H.
Qed.
Print Assumptions C73_ws_arrives_partial.

(* C24: from any state, if no handler runs forever, the workers alone can finish everything
   the pool has received, each request once. *)
Theorem C24_completes : forall cf ls s tr, server_run cf ls = Some (s, tr) -> (forall j, returns (cf_routes cf) j) ->
  exists more s' tr', Forall workers_only more /\ server_run cf (ls ++ more) = Some (s', tr ++ tr') /\ Permutation (all_sent tr) (all_ended (tr ++ tr')).
Proof.
  intros cf ls s tr R Hret. destruct (drain cf Hret _ _ _ _ R (le_n _)) as (more & s' & tr' & F & R' & I0 & W0 & S0). exists more, s', tr'. split; [exact F|]. split; [exact R'|].
  destruct (C24_accounting _ _ _ _ R') as (A & _). rewrite I0, W0, !app_nil_r in A. unfold all_sent in A at 1. rewrite flat_map_app in A. unfold all_sent in S0. rewrite S0, app_nil_r in A. exact A.
Qed.
Print Assumptions C24_completes.
Example C24_completes_case : exists s tr, server_run hash_cfg some_schedule = Some (s, tr) /\ length (in_flight s ++ waiting s) = 2 /\ forall j, returns (cf_routes hash_cfg) j.
Proof. do 2 eexists. split; [vm_compute; reflexivity|]. split; [vm_compute; reflexivity|exact some_routes_return]. Qed.

(* C73 is false when SendMsg and SendBuffMsg are used on one connection, with a working
   network: a handler is given a message nobody sent. *)
Definition mixed_msgs : list (Z * list byte) := [(1, [x01]); (2, repeat x02 (2 ^ 14)); (3, [x03])]%Z.
Definition mixed_bytes (n : nat) : list byte := bytes_of pack_tlv (nth n mixed_msgs (0%Z, [])).
Definition mixed_sends : list qlabel :=
  QStart :: first_send 0 (mixed_bytes 0) ++ [QWriter ChTimer NetOk] ++ to_buffer ++ next_send 0 (mixed_bytes 1) ++ to_buffer ++ [QWriter ChTimer NetOk] ++
  [QCall 1 true (mixed_bytes 2); QSend 1 ChTimer NetOk; QSend 1 ChTimer NetOk] ++ flush_now.
Theorem C73_mixed_refuted : exists sends msgs, let sender := q_run real_cfg q_new sends in
  never_stopped sends /\ network_fine sends /\ Forall msg_ok msgs /\ map snd (oks (snd sender)) = map (bytes_of pack_tlv) msgs /\
  exists p, In (Some p) (map seen (fst (fst (run_reader tlv_reader [q_wire (fst sender)])))) /\ ~ In p msgs.
Proof.
  exists mixed_sends, mixed_msgs. cbn zeta.
  assert (N : forallb (fun l => match l with QStop | QSend _ _ (NetFail _) | QWriter _ (NetFail _) => false | _ => true end) mixed_sends = true) by (vm_compute; reflexivity). rewrite forallb_forall in N.
  split; [intros H; apply N in H; discriminate|]. split; [split; intros; intros H; apply N in H; discriminate|]. split; [repeat constructor; vm_compute; congruence|]. split; [vm_compute; reflexivity|].
  set (got := map seen (fst (fst (run_reader tlv_reader [q_wire (fst (q_run real_cfg q_new mixed_sends))])))).
  assert (K : match nth 1 got None with Some p => (fst p =? 2)%Z && Byte.eqb (nth (2 ^ 14 - 9) (snd p) x00) x03 | None => false end = true) by (vm_compute; reflexivity).
  clearbody got. destruct (nth_in_or_default 1 got None) as [I|D]; [|rewrite D in K; discriminate]. destruct (nth 1 got None) as [p|]; [|discriminate]. exists p. split; [exact I|].
  apply andb_true_iff in K. destruct K as (K1 & K2). apply Byte.byte_dec_bl in K2. revert K2. generalize (2 ^ 14 - 9). intros k K2. unfold mixed_msgs. generalize (2 ^ 14). intros n.
  intros [<-|[<-|[<-|[]]]]; [discriminate| |discriminate]. cbn [snd] in K2. destruct (nth_in_or_default k (repeat x02 n) x00) as [I2|D2]; [|congruence]. apply repeat_spec in I2. congruence.
Qed.
Print Assumptions C73_mixed_refuted.

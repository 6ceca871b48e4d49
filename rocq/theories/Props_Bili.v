(* C103.  The answers of the server of examples/zinx_decoder/bili.  Theorems about
   the model in Bili.v. *)
From Coq Require Import ZArith List Bool Lia.
From Coq Require Import ZifyBool ZifyNat ZifyN.
From Verif Require Import Bytes Pack FrameDecoder Chain Crc Decoders Reader
  Spec_Framing Spec_Codec Spec_Crc Spec_Htlv FrameDecoder_proofs Codec_proofs Crc_proofs Codec2_proofs
  Codec3_proofs Bili Spec_Bili Bili_proofs.
Import ListNotations.
Local Open Scope Z_scope.

Definition body14 : list byte := map z2b [1; 2; 3; 4; 5; 6; 7; 8; 9; 16; 17; 18; 19; 20].
Definition ask (code : Z) (body : list byte) : htlv := Htlv (z2b 162) (z2b code) body.
Lemma ask_ok : Forall askable [ask 16 body14; ask 19 body14; ask 20 []; ask 22 body14].
Proof. repeat constructor; cbv; try tauto; intros H; discriminate H. Qed.

(* Frames of the functions 10, 13, 14 and 16, in any number and cut up anyhow by
   the network, arriving at these routers behind the HTLV decoder: each is
   answered, in order, by one well-formed frame, and a device that reads the
   answers with the same decoder, again cut up anyhow, gets exactly them.
   Missing: function 15 and the server as main.go sets it up; see the refutations. *)
Theorem C103_conversation_partial : forall xs chunks,
  Forall askable xs -> concat chunks = htlv_wire xs ->
  exists qs r ys, run_reader htlv_reader chunks = (qs, Running, r) /\
    Forall2 answers xs ys /\ bili_output qs = htlv_wire ys /\
    forall chunks', concat chunks' = bili_output qs ->
      exists qs' r', run_reader htlv_reader chunks' = (qs', Running, r') /\
        map seen qs' = map (fun y => Some (b2z (hf_code y), htlv_frame y)) ys.
Proof.
  intros xs chunks Ha Hc. destruct (bare_conversation xs chunks Ha Hc) as (qs & r & ys & H1 & H2 & H3 & H4).
  exists qs, r, ys. repeat split; try assumption. intros chunks' Hc'. rewrite H2 in Hc'.
  destruct (htlv_stream_seen ys chunks' H4 Hc') as (qs' & r' & E1 & E2 & _). eauto.
Qed.
Print Assumptions C103_conversation_partial.
Example C103_conversation_case :
  Forall askable [ask 16 body14; ask 19 body14; ask 20 []; ask 22 body14] /\
  concat [htlv_wire [ask 16 body14; ask 19 body14]; htlv_wire [ask 20 []; ask 22 body14]]
  = htlv_wire [ask 16 body14; ask 19 body14; ask 20 []; ask 22 body14].
Proof. split; [exact ask_ok|reflexivity]. Qed.

(* The server as main.go sets it up keeps the TLV decoder in front of the HTLV
   one: it understands device frames that are the payload of a TLV message, with
   any message ID, and answers those as above, with bare HTLV frames. *)
Theorem C103_wrapped_partial : forall (ps : list (Z * htlv)) chunks,
  Forall (fun p => 0 <= fst p < 2^32) ps -> Forall (fun p => askable (snd p)) ps ->
  concat chunks = wire pack_tlv (map (fun p => (fst p, htlv_frame (snd p))) ps) ->
  exists qs r ys, run_reader bili_reader chunks = (qs, Running, r) /\
    Forall2 answers (map snd ps) ys /\ bili_output qs = htlv_wire ys.
Proof.
  intros ps chunks Hi Ha Hc. destruct (wrapped_conversation ps chunks Hi Ha Hc) as (qs & r & ys & H1 & H2 & H3 & _).
  eauto 10.
Qed.
Print Assumptions C103_wrapped_partial.
Example C103_wrapped_case :
  Forall (fun p => 0 <= fst p < 2^32) [(1, ask 16 body14); (7, ask 20 [])] /\
  Forall (fun p => askable (snd p)) [(1, ask 16 body14); (7, ask 20 [])].
Proof. split; repeat constructor; cbv; try tauto; intros H; discriminate H. Qed.

(* A bare device frame is not understood by that server: bytes 2 to 5 of its body
   are taken for a length, and until that many bytes have come nothing is
   dispatched and nothing answered, whatever is sent. *)
Theorem C103_bare_refuted : forall x s chunks,
  5 <= zlen (hf_body x) -> concat chunks = htlv_frame x ++ s ->
  zlen (htlv_frame x ++ s) < get_uint BigEndian (ztake 4 (zdrop 1 (hf_body x))) + 8 ->
  exists qs r, run_reader bili_reader chunks = (qs, Running, r) /\ qs = [] /\ bili_output qs = [].
Proof.
  intros x s chunks Hb Hc Hl.
  destruct (bare_waits chunks _ Hc) as [r Hr].
  - rewrite bare_announced by assumption. split; [|exact Hl].
    rewrite zlen_app, htlv_frame_len. pose proof (zlen_nonneg s). lia.
  - exists [], r. repeat split. exact Hr.
Qed.
Print Assumptions C103_bare_refuted.
(* The frame of the comments in the router files, sent a hundred times over. *)
Example C103_bare_case : let x := ask 16 body14 in let s := concat (repeat (htlv_frame x) 99) in
  askable x /\ 5 <= zlen (hf_body x) /\
  zlen (htlv_frame x ++ s) < get_uint BigEndian (ztake 4 (zdrop 1 (hf_body x))) + 8.
Proof.
  cbv zeta. split; [apply (proj1 (Forall_forall _ _) ask_ok); now left|].
  split; [vm_compute; discriminate|vm_compute; reflexivity].
Qed.

(* Function 15: the answer announces 38 body bytes and has 35.  It is no frame at
   all, and a device that receives it waits for three bytes more. *)
Theorem C103_report_refuted : forall x, b2z (hf_code x) = 21 -> 7 <= zlen (hf_body x) <= 254 ->
  exists q r out, run_reader htlv_reader [htlv_frame x] = ([q], Running, r) /\ bili_handle q = Sent out /\
    (forall y, zlen (hf_body y) < 256 -> out <> htlv_frame y) /\
    exists r', run_reader htlv_reader [out] = ([], Running, r').
Proof.
  intros x Hc Hb. destruct (one_frame x ltac:(lia)) as [r Hr].
  destruct (pack15_bytes x ltac:(lia)) as (rest & Hl & Hp).
  exists (htlv_req x), r, (z2b 161 :: hf_code x :: z2b 38 :: rest). split; [exact Hr|]. split.
  { unfold bili_handle, htlv_req. cbn [rq_msg rq_resp m_id]. rewrite Hc. cbn [Z.eqb Pos.eqb].
    rewrite Hp. reflexivity. }
  split.
  - intros y Hy E. pose proof (f_equal zlen E) as El. rewrite htlv_frame_len, !zlen_cons in El.
    unfold htlv_frame, htlv_covered in E. cbn [app] in E. injection E as _ _ E3 _.
    apply (f_equal b2z) in E3. rewrite !b2z_z2b in E3. pose proof (zlen_nonneg (hf_body y)).
    rewrite (Z.mod_small (zlen (hf_body y))) in E3 by lia. cbn in E3. lia.
  - apply htlv_waits; rewrite b2z_z2b; cbn; lia.
Qed.
Print Assumptions C103_report_refuted.
Example C103_report_case : b2z (hf_code (ask 21 body14)) = 21 /\ 7 <= zlen (hf_body (ask 21 body14)) <= 254.
Proof. vm_compute. repeat split; discriminate. Qed.

(* Functions 10 and 15 with a body of less than five bytes, and 13 with less than
   two: the handler panics and nothing is sent. *)
Theorem C103_short : forall x,
  ((b2z (hf_code x) = 16 \/ b2z (hf_code x) = 21) /\ zlen (hf_body x) < 5) \/
  (b2z (hf_code x) = 19 /\ zlen (hf_body x) < 2) ->
  exists q r, run_reader htlv_reader [htlv_frame x] = ([q], Running, r) /\
    bili_handle q = HandlerPanic /\ bili_output [q] = [].
Proof.
  intros x H. assert (L : zlen (hf_body x) <= 254) by lia.
  destruct (one_frame x L) as [r Hr]. exists (htlv_req x), r. split; [exact Hr|].
  assert (P : bili_handle (htlv_req x) = HandlerPanic).
  { unfold bili_handle, htlv_req. cbn [rq_msg rq_resp m_id].
    assert (Hc : zlen (crc16_bytes (htlv_covered x)) = 2) by reflexivity.
    destruct H as [[[H|H] Hb]|[H Hb]]; rewrite H; cbn [Z.eqb Pos.eqb];
      unfold pack10, pack13, pack15; rewrite body_prefix_short by lia; reflexivity. }
  split; [exact P|]. unfold bili_output. cbn [map concat]. rewrite P. reflexivity.
Qed.
Print Assumptions C103_short.
Example C103_short_case : b2z (hf_code (ask 16 [z2b 1; z2b 2])) = 16 /\ zlen (hf_body (ask 16 [z2b 1; z2b 2])) < 5.
Proof. vm_compute. split; reflexivity. Qed.

(* In between, with five or six body bytes (two or three for function 13), the
   answer is a frame whose device code ends in checksum bytes of the request. *)
Theorem C103_code_refuted : forall x, b2z (hf_code x) = 16 -> zlen (hf_body x) = 5 ->
  exists q r y, run_reader htlv_reader [htlv_frame x] = ([q], Running, r) /\
    bili_handle q = Sent (htlv_frame y) /\
    ztake 7 (hf_body y) = hf_body x ++ crc16_bytes (htlv_covered x).
Proof.
  intros x Hc Hb. destruct (one_frame x ltac:(lia)) as [r Hr].
  assert (Hz : zlen (crc16_bytes (htlv_covered x)) = 2) by reflexivity.
  eexists (htlv_req x), r, (Htlv (z2b 161) (hf_code x)
    ((hf_body x ++ crc16_bytes (htlv_covered x)) ++
     map z2b [10; 11; 12; 13; 14; 15; 16; 17; 18; 2; 20; 21; 22; 23; 24; 25; 26; 27; 1; 29; 30; 31; 32])).
  split; [exact Hr|]. split.
  - unfold bili_handle, htlv_req. cbn [rq_msg rq_resp m_id]. rewrite Hc. cbn [Z.eqb Pos.eqb].
    unfold pack10, body_prefix. rewrite <- (app_nil_r (hf_body x ++ _)).
    rewrite go_slice_app_l by (rewrite zlen_app; lia). cbn [answered]. f_equal. apply seal_frame.
    rewrite app_nil_r, (zlen_app (hf_body x ++ _)), (zlen_app (hf_body x)), Hb, Hz. reflexivity.
  - cbn [hf_body]. apply ztake_app. rewrite zlen_app. lia.
Qed.
Print Assumptions C103_code_refuted.
Example C103_code_case : b2z (hf_code (ask 16 (map z2b [1; 2; 3; 4; 5]))) = 16 /\
  zlen (hf_body (ask 16 (map z2b [1; 2; 3; 4; 5]))) = 5.
Proof. vm_compute. split; reflexivity. Qed.

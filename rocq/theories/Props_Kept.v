(* Property theorems C83: the bytes a connection keeps. *)
From Coq Require Import ZArith List Bool Lia.
From Verif Require Import Bytes Pack FrameDecoder Chain Decoders Reader Spec_Framing Spec_Codec Spec_Htlv Spec_Kept FrameDecoder_proofs Codec_proofs Codec2_proofs Codec3_proofs Witness_Codec Kept_proofs.
Import ListNotations.
Local Open Scope Z_scope.

(* C83, for configurations in which every length value announces an acceptable frame, and any
   bytes at all: as long as the reader runs, every byte read has either been handed on in a
   whole frame or is kept, and what is kept is the unfinished beginning of one frame. *)
Theorem C83_kept_partial : forall lf dec body chunks qs r,
  tame lf -> run_reader (server_reader lf dec body) chunks = (qs, Running, r) ->
  exists fs, concat chunks = concat fs ++ kept r /\ Forall (good_frame lf) fs /\ incomplete lf (kept r) /\ zlen (kept r) < lf_max lf.
Proof. exact kept_tame. Qed.
Print Assumptions C83_kept_partial.
Example C83_kept_case : let o := run_reader tlv_reader [be_bytes 4 7 ++ be_bytes 4 2 ++ [x01; x02; x00]; [x00; x00; x01; x00; x00; x01; x00; x05]] in
  tame tlv_length_field /\ o = (fst (fst o), Running, snd o) /\
  map seen (fst (fst o)) = [Some (7, [x01; x02])] /\ kept (snd o) = [x00; x00; x00; x01; x00; x00; x01; x00; x05].
Proof.
  cbv zeta. set (o := run_reader _ _). assert (R : snd (fst o) = Running) by (vm_compute; reflexivity).
  split; [apply tlv_tame|]. split; [rewrite <- R; now destruct o as [[? ?] ?]|]. split; vm_compute; reflexivity.
Qed.

(* C83 for every documented configuration, on streams of acceptable frames: exactly the
   unfinished last frame is kept. *)
Theorem C83_stream_partial : forall lf dec body chunks qs r fs t,
  supported lf -> Forall (good_frame lf) fs -> incomplete lf t -> concat chunks = concat fs ++ t ->
  run_reader (server_reader lf dec body) chunks = (qs, Running, r) -> kept r = t.
Proof. exact kept_stream. Qed.
Print Assumptions C83_stream_partial.
Example C83_stream_case : let o := run_reader htlv_reader [htlv_frame x1 ++ [x00]; [x01; x02]] in
  supported htlv_length_field /\ o = (fst (fst o), Running, snd o) /\ length (fst (fst o)) = 1%nat /\ kept (snd o) = [x00; x01; x02] /\
  Forall (good_frame htlv_length_field) [htlv_frame x1] /\ incomplete htlv_length_field [x00; x01; x02].
Proof.
  cbv zeta. assert (R : snd (fst (run_reader htlv_reader [htlv_frame x1 ++ [x00]; [x01; x02]])) = Running) by (vm_compute; reflexivity).
  split; [apply htlv_supported|]. split; [rewrite <- R; now destruct (run_reader _ _) as [[? ?] ?]|]. split; [vm_compute; reflexivity|]. split; [vm_compute; reflexivity|].
  split; [|right; vm_compute; intuition congruence]. constructor; [|constructor]. apply htlv_good. vm_compute. congruence.
Qed.

(* C83, refuted: the limit is not MaxPacketSize, which the receive path does not know (C09).
   Eight bytes that announce a long payload are enough to make the server keep whatever
   follows, up to four gigabytes. *)
Theorem C83_max_packet_size_refuted : forall id n body,
  0 <= id < 2^32 -> zlen body < n -> n < 2^32 ->
  exists r, run_reader tlv_reader [be_bytes 4 id ++ be_bytes 4 n; body] = ([], Running, r) /\ zlen (kept r) = 8 + zlen body.
Proof. exact kept_announced. Qed.
Print Assumptions C83_max_packet_size_refuted.
Example C83_max_packet_size_case : 0 <= 1 < 2^32 /\ zlen (repeat x00 5000) < 2^31 /\ 2^31 < 2^32.
Proof. split; [lia|]. split; [vm_compute; reflexivity|lia]. Qed.

(* C83, refuted: after one over-long frame nothing is handed on any more (C05) and everything
   read is kept, without end. *)
Theorem C83_overlong_refuted : forall lf dec body f chunks,
  supported lf -> overlong_frame lf f -> zlen (f ++ concat chunks) < 2^63 ->
  exists r, run_reader (server_reader lf dec body) (f :: chunks) = ([], Running, r) /\ kept r = f ++ concat chunks.
Proof. exact kept_overlong. Qed.
Print Assumptions C83_overlong_refuted.
(* The HTLV decoder takes an ordinary frame with a body of 255 bytes for over-long. *)
Theorem C83_htlv_refuted : forall x chunks,
  zlen (hf_body x) = 255 -> zlen (htlv_frame x ++ concat chunks) < 2^63 ->
  exists r, run_reader htlv_reader (htlv_frame x :: chunks) = ([], Running, r) /\ kept r = htlv_frame x ++ concat chunks.
Proof. exact (fun x chunks H L => kept_overlong htlv_length_field htlv_intercept [] _ chunks htlv_supported (htlv_overlong x H) L). Qed.
Print Assumptions C83_htlv_refuted.
Example C83_htlv_case : zlen (hf_body (Htlv x00 x01 (repeat x05 255))) = 255 /\
  zlen (htlv_frame (Htlv x00 x01 (repeat x05 255)) ++ concat (repeat (htlv_frame x1) 1000)) < 2^63.
Proof. vm_compute. split; reflexivity. Qed.

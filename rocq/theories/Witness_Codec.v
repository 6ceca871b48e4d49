(* Concrete runs used as counterexamples and as non-vacuity witnesses. *)
From Coq Require Import ZArith List Bool Lia.
From Verif Require Import Bytes Pack FrameDecoder Chain Decoders Reader Spec_Framing Spec_Codec Codec_proofs
  Spec_Crc Spec_Htlv Crc_proofs Codec2_proofs Codec3_proofs FrameDecoder_proofs.
Import ListNotations.
Local Open Scope Z_scope.

(* One length byte, total length = 1 + value, at most 4 bytes. *)
Definition lf_tiny : length_field :=
  {| lf_order := None; lf_max := 4; lf_off := 0; lf_len := 1; lf_adj := 0; lf_strip := 0 |}.
(* framedecoder.go documentation, "2 bytes length field, the length includes the
   header": adjustment -2. *)
Definition lf_whole : length_field :=
  {| lf_order := None; lf_max := 1024; lf_off := 0; lf_len := 2; lf_adj := -2; lf_strip := 0 |}.
(* A length that counts two more bytes than present in the header. *)
Definition lf_neg : length_field :=
  {| lf_order := None; lf_max := 1024; lf_off := 0; lf_len := 2; lf_adj := -4; lf_strip := 0 |}.

(* A frame of 6 bytes (over-long for lf_tiny) and one of 2 bytes. *)
Definition big : list byte := [x05; x01; x01; x01; x01; x01].
Definition small : list byte := [x01; xaa].

Lemma tiny_supported : supported lf_tiny.
Proof. vm_compute. intuition congruence. Qed.
Lemma big_overlong : overlong_frame lf_tiny big.
Proof. vm_compute. intuition congruence. Qed.
Lemma small_good : good_frame lf_tiny small.
Proof. vm_compute. intuition congruence. Qed.

(* The same bytes in two chunkings: everything lost, or pieces of the over-long
   frame handed out as frames. *)
Lemma overlong_wedged :
  frames_of (feed (new_frame_decoder lf_tiny) [big ++ small]) = Some [].
Proof. vm_compute. reflexivity. Qed.
Lemma overlong_split :
  frames_of (feed (new_frame_decoder lf_tiny) [[x05; x01; x01]; [x01; x01; x01] ++ small])
  = Some [[x01; x01]; [x01; x01]; [x01; x01]; small].
Proof. vm_compute. reflexivity. Qed.

(* Length 0 with the documented configuration: the Decode loop never ends. *)
Lemma whole_supported : supported lf_whole.
Proof. vm_compute. intuition congruence. Qed.
Lemma whole_diverges fuel : decode_fuel fuel (new_frame_decoder lf_whole) [x00; x00] = DecOutOfFuel.
Proof.
  unfold decode_fuel.
  change (set_in (new_frame_decoder lf_whole) (fd_in (new_frame_decoder lf_whole) ++ [x00; x00]))
    with (fresh_with lf_whole [x00; x00]).
  induction fuel as [|fuel IH]; [reflexivity|]. cbn [decode_loop].
  change (decode1 (fresh_with lf_whole [x00; x00]) (fd_in (fresh_with lf_whole [x00; x00])))
    with (D1Frame (fresh_with lf_whole [x00; x00]) []).
  change (dec_cons [] (decode_loop fuel (fresh_with lf_whole [x00; x00])) = DecOutOfFuel).
  now rewrite IH.
Qed.

Lemma neg_supported : supported lf_neg.
Proof. vm_compute. intuition congruence. Qed.
Lemma neg_panics : decode (new_frame_decoder lf_neg) [x00; x00] = DecPanic.
Proof. vm_compute. reflexivity. Qed.

(* HTLV examples. *)
Definition x1 : htlv := Htlv x7b x10 [x01; x02; x03].
Definition x1_bad : list byte := [x7b; x10; x03; x01; x02; x07] ++ crc16_bytes (htlv_covered x1).
Lemma x1_bad_burst : corrupted (htlv_frame x1) x1_bad (4 * 2^40).
Proof. vm_compute. split; reflexivity. Qed.
Lemma x1_bad_good : good_frame htlv_length_field x1_bad.
Proof. vm_compute. intuition congruence. Qed.
Lemma x1_bad_crc : crc16 x1_bad <> 0.
Proof. vm_compute. discriminate. Qed.

(* A message list with an empty payload, a maximal ID and a payload. *)
Definition some_msgs : list (Z * list byte) := [(1, [x61; x62]); (2^32 - 1, []); (7, [x00])].
Lemma some_msgs_ok : Forall msg_ok some_msgs.
Proof. repeat constructor; cbn; unfold zlen; cbn; lia. Qed.

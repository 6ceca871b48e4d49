(* Property theorems C01-C15 (framing, codecs, checksum, chain). *)
From Coq Require Import ZArith List Bool Lia.
From Verif Require Import Bytes Pack FrameDecoder Chain Crc Decoders Reader
  Spec_Framing Spec_Codec Spec_Crc Spec_Htlv Spec_Chain
  FrameDecoder_proofs Codec_proofs Codec2_proofs CodecAny_proofs Codec3_proofs Crc_proofs Chain_proofs Witness_Codec.
Import ListNotations.
Local Open Scope Z_scope.

(* C01.  Whatever way the stream is cut into reads, the handlers get exactly the
   messages sent: same IDs, payloads and order.  [msg_ok]: 0 <= ID < 2^32, payload
   shorter than 2^32-8 bytes. *)
Theorem C01_tlv_stream_roundtrip : forall msgs chunks,
  Forall msg_ok msgs -> concat chunks = wire pack_tlv msgs ->
  exists qs r, run_reader tlv_reader chunks = (qs, Running, r) /\ map seen qs = map Some msgs /\
    map seen_len qs = map (fun p => Some (zlen (snd p))) msgs /\
    map rq_resp qs = map (fun p => Some (DecodedTLV (fst p) (zlen (snd p)) (snd p))) msgs.
Proof. exact tlv_roundtrip. Qed.
Print Assumptions C01_tlv_stream_roundtrip.
Example C01_nonvacuous :
  Forall msg_ok some_msgs /\
  concat [ztake 5 (wire pack_tlv some_msgs); []; zdrop 5 (wire pack_tlv some_msgs)] = wire pack_tlv some_msgs.
Proof. split; [apply some_msgs_ok|reflexivity]. Qed.

(* C02. *)
Theorem C02_ltv_stream_roundtrip : forall msgs chunks,
  Forall msg_ok msgs -> concat chunks = wire pack_ltv msgs ->
  exists qs r, run_reader ltv_reader chunks = (qs, Running, r) /\ map seen qs = map Some msgs /\
    map seen_len qs = map (fun p => Some (zlen (snd p))) msgs /\
    map rq_resp qs = map (fun p => Some (DecodedLTV (zlen (snd p)) (fst p) (snd p))) msgs.
Proof. exact ltv_roundtrip. Qed.
Print Assumptions C02_ltv_stream_roundtrip.
Example C02_nonvacuous :
  Forall msg_ok some_msgs /\
  concat [ztake 3 (wire pack_ltv some_msgs); zdrop 3 (wire pack_ltv some_msgs)] = wire pack_ltv some_msgs.
Proof. split; [apply some_msgs_ok|reflexivity]. Qed.

(* C03.  For every documented configuration and every stream of acceptable frames
   (followed by the beginning of one more), each frame comes out once, in order,
   stripped as configured, for every chunking. *)
Theorem C03_chunking_independence : forall lf chunks fs t,
  supported lf -> Forall (good_frame lf) fs -> incomplete lf t ->
  concat chunks = concat fs ++ t ->
  frames_of (feed (new_frame_decoder lf) chunks) = Some (map (stripped lf) fs).
Proof. exact feed_new_frames. Qed.
Print Assumptions C03_chunking_independence.
Example C03_nonvacuous :
  supported lf_tiny /\ Forall (good_frame lf_tiny) [small; [x00]; small] /\ incomplete lf_tiny [x02; x00] /\
  concat [[x01]; [xaa; x00; x01]; [xaa; x02; x00]] = concat [small; [x00]; small] ++ [x02; x00].
Proof.
  split; [apply tiny_supported|]. split; [repeat constructor; vm_compute; intuition congruence|].
  split; [right; vm_compute; intuition congruence|reflexivity].
Qed.

(* C04.  After any prefix of the stream, exactly the messages that are completely
   inside the prefix have been delivered. *)
Theorem C04_prompt_delivery_tlv : forall msgs chunks rest,
  Forall msg_ok msgs -> concat chunks ++ rest = wire pack_tlv msgs ->
  exists qs r, run_reader tlv_reader chunks = (qs, Running, r) /\
    map seen qs = map Some (firstn (length qs) msgs) /\
    zlen (wire pack_tlv (firstn (length qs) msgs)) <= zlen (concat chunks) /\
    ((length qs < length msgs)%nat ->
      zlen (concat chunks) < zlen (wire pack_tlv (firstn (S (length qs)) msgs))).
Proof. exact tlv_prompt. Qed.
Print Assumptions C04_prompt_delivery_tlv.
Theorem C04_prompt_delivery_ltv : forall msgs chunks rest,
  Forall msg_ok msgs -> concat chunks ++ rest = wire pack_ltv msgs ->
  exists qs r, run_reader ltv_reader chunks = (qs, Running, r) /\
    map seen qs = map Some (firstn (length qs) msgs) /\
    zlen (wire pack_ltv (firstn (length qs) msgs)) <= zlen (concat chunks) /\
    ((length qs < length msgs)%nat ->
      zlen (concat chunks) < zlen (wire pack_ltv (firstn (S (length qs)) msgs))).
Proof. exact ltv_prompt. Qed.
Print Assumptions C04_prompt_delivery_ltv.
Example C04_nonvacuous :
  Forall msg_ok some_msgs /\
  concat [ztake 5 (wire pack_tlv some_msgs); ztake 8 (zdrop 5 (wire pack_tlv some_msgs))]
    ++ zdrop 13 (wire pack_tlv some_msgs) = wire pack_tlv some_msgs /\
  concat [ztake 13 (wire pack_ltv some_msgs)] ++ zdrop 13 (wire pack_ltv some_msgs) = wire pack_ltv some_msgs.
Proof. split; [apply some_msgs_ok|split; reflexivity]. Qed.

(* C05, refuted.  For every documented configuration: an over-long frame that
   arrives whole is never skipped, and nothing is ever decoded again. *)
Theorem C05_overlong_frame_wedges_refuted : forall lf f chunks,
  supported lf -> overlong_frame lf f -> zlen (f ++ concat chunks) < 2^63 ->
  frames_of (feed (new_frame_decoder lf) (f :: chunks)) = Some [].
Proof. exact feed_new_overlong_frames. Qed.
Print Assumptions C05_overlong_frame_wedges_refuted.
(* C05, refuted: an over-long frame followed by a good one.  In one chunking
   nothing is delivered, in another three pieces of the rejected frame are. *)
Theorem C05_overlong_frame_refuted : exists lf f g c1 c2,
  supported lf /\ overlong_frame lf f /\ good_frame lf g /\
  concat c1 = f ++ g /\ concat c2 = f ++ g /\
  frames_of (feed (new_frame_decoder lf) c1) = Some [] /\
  frames_of (feed (new_frame_decoder lf) c2) = Some [[x01; x01]; [x01; x01]; [x01; x01]; g].
Proof.
  exact (ex_intro _ lf_tiny (ex_intro _ big (ex_intro _ small
    (ex_intro _ [big ++ small] (ex_intro _ [[x05; x01; x01]; [x01; x01; x01] ++ small]
    (conj tiny_supported (conj big_overlong (conj small_good
    (conj eq_refl (conj eq_refl (conj overlong_wedged overlong_split))))))))))).
Qed.
Print Assumptions C05_overlong_frame_refuted.
Example C05_nonvacuous : supported lf_tiny /\ overlong_frame lf_tiny big.
Proof. split; [apply tiny_supported|apply big_overlong]. Qed.

(* C06.  Whenever every value of the length field announces an acceptable frame
   (true of the TLV and LTV configurations), the decoder returns normally on
   every byte stream and chunking, and its output is the unique parse. *)
Theorem C06_arbitrary_bytes : forall lf chunks,
  tame lf ->
  exists fs t, concat chunks = concat fs ++ t /\ Forall (good_frame lf) fs /\ incomplete lf t /\
    frames_of (feed (new_frame_decoder lf) chunks) = Some (map (stripped lf) fs).
Proof. exact tame_feed_frames. Qed.
Print Assumptions C06_arbitrary_bytes.
Theorem C06_default_configurations : tame tlv_length_field /\ tame ltv_length_field.
Proof. exact (conj tlv_tame ltv_tame). Qed.
Print Assumptions C06_default_configurations.
(* The whole receive path on arbitrary bytes, of any number: in whatever pieces they are
   read, what is delivered is exactly what the bytes encode, never with a hang, and the
   reader goes on unless the bytes hold a whole message of 2^32-8 bytes or more (see C15). *)
Theorem C06_tlv_receive_path : forall bytes, exists msgs t st,
  Forall msg_ok msgs /\ bytes = wire pack_tlv msgs ++ t /\
  (incomplete tlv_length_field t /\ st = Running \/
   (exists id data more, 2^32 - 8 <= zlen data < 2^32 /\ t = pack_tlv (new_msg_package id data) ++ more) /\ st = StoppedByPanic) /\
  forall chunks, concat chunks = bytes -> exists qs r, run_reader tlv_reader chunks = (qs, st, r) /\ map seen qs = map Some msgs.
Proof. exact tlv_any. Qed.
Print Assumptions C06_tlv_receive_path.
Theorem C06_ltv_receive_path : forall bytes, exists msgs t st,
  Forall msg_ok msgs /\ bytes = wire pack_ltv msgs ++ t /\
  (incomplete ltv_length_field t /\ st = Running \/
   (exists id data more, 2^32 - 8 <= zlen data < 2^32 /\ t = pack_ltv (new_msg_package id data) ++ more) /\ st = StoppedByPanic) /\
  forall chunks, concat chunks = bytes -> exists qs r, run_reader ltv_reader chunks = (qs, st, r) /\ map seen qs = map Some msgs.
Proof. exact ltv_any. Qed.
Print Assumptions C06_ltv_receive_path.
(* C06 for all configurations, refuted: a documented configuration on which two
   zero bytes make Decode loop forever (no amount of fuel suffices), and one on
   which they make it panic. *)
Theorem C06_loop_forever_refuted : exists lf bytes,
  supported lf /\ forall fuel, decode_fuel fuel (new_frame_decoder lf) bytes = DecOutOfFuel.
Proof. exact (ex_intro _ lf_whole (ex_intro _ [x00; x00] (conj whole_supported whole_diverges))). Qed.
Print Assumptions C06_loop_forever_refuted.
Theorem C06_panic_refuted : exists lf bytes,
  supported lf /\ decode (new_frame_decoder lf) bytes = DecPanic.
Proof. exact (ex_intro _ lf_neg (ex_intro _ [x00; x00] (conj neg_supported neg_panics))). Qed.
Print Assumptions C06_panic_refuted.
(* The fuel inside [decode] is not a restriction: with a non-empty header, running
   out of it means that the loop never ends, and any run that ends is the one
   [decode] computes. *)
Theorem C06_fuel_exact : forall d buff fuel,
  0 < fd_endoff d ->
  (decode d buff = DecOutOfFuel -> decode_fuel fuel d buff = DecOutOfFuel) /\
  (decode_fuel fuel d buff <> DecOutOfFuel -> decode d buff = decode_fuel fuel d buff).
Proof. exact (fun d buff fuel He => conj (decode_fuel_enough d buff fuel He) (decode_complete d buff fuel He)). Qed.
Print Assumptions C06_fuel_exact.
Example C06_nonvacuous : let chunks := [[x00; x00; x00; x05; x00]; [x00; x00; x01; xaa; xff; xff; xff; xff]; [xff; xff; xff; xff; x00]] in
  concat chunks = wire pack_tlv [(5, [xaa])] ++ [xff; xff; xff; xff; xff; xff; xff; xff; x00] /\
  map seen (fst (fst (run_reader tlv_reader chunks))) = [Some (5, [xaa])] /\ snd (fst (run_reader tlv_reader chunks)) = Running.
Proof. vm_compute. auto. Qed.

(* C07.  Pack then Unpack, and the exact failure conditions of Unpack. *)
Theorem C07_unpack_pack_tlv : forall max id data,
  0 <= id < 2^32 -> zlen data < 2^32 ->
  unpack_tlv max (pack_tlv (new_msg_package id data))
  = if (0 <? max) && (max <? zlen data) then UnpackTooLarge
    else UnpackOk {| m_id := id; m_len := zlen data; m_data := []; m_raw := [] |}.
Proof. exact unpack_pack_tlv. Qed.
Print Assumptions C07_unpack_pack_tlv.
Theorem C07_unpack_pack_ltv : forall max id data,
  0 <= id < 2^32 -> zlen data < 2^32 ->
  unpack_ltv max (pack_ltv (new_msg_package id data))
  = if (0 <? max) && (max <? zlen data) then UnpackTooLarge
    else UnpackOk {| m_id := id; m_len := zlen data; m_data := []; m_raw := [] |}.
Proof. exact unpack_pack_ltv. Qed.
Print Assumptions C07_unpack_pack_ltv.
Theorem C07_unpack_tlv_outcomes : forall max l,
  unpack_tlv max l =
  if zlen l <? 8 then UnpackShort
  else let n := get_uint BigEndian (ztake 4 (zdrop 4 l)) in
       if (0 <? max) && (max <? n) then UnpackTooLarge
       else UnpackOk {| m_id := get_uint BigEndian (ztake 4 l); m_len := n; m_data := []; m_raw := [] |}.
Proof. exact unpack_tlv_cases. Qed.
Print Assumptions C07_unpack_tlv_outcomes.
Theorem C07_unpack_ltv_outcomes : forall max l,
  unpack_ltv max l =
  if zlen l <? 8 then UnpackShort
  else let n := get_uint LittleEndian (ztake 4 l) in
       if (0 <? max) && (max <? n) then UnpackTooLarge
       else UnpackOk {| m_id := get_uint LittleEndian (ztake 4 (zdrop 4 l)); m_len := n; m_data := []; m_raw := [] |}.
Proof. exact unpack_ltv_cases. Qed.
Print Assumptions C07_unpack_ltv_outcomes.
Example C07_nonvacuous : 0 <= 7 < 2^32 /\ zlen [x01; x02] < 2^32.
Proof. vm_compute. intuition congruence. Qed.

(* C08. *)
Theorem C08_tlv_unique_decodability : forall ms ms',
  Forall msg_ok ms -> Forall msg_ok ms' -> wire pack_tlv ms = wire pack_tlv ms' -> ms = ms'.
Proof. exact tlv_unique. Qed.
Print Assumptions C08_tlv_unique_decodability.
Theorem C08_ltv_unique_decodability : forall ms ms',
  Forall msg_ok ms -> Forall msg_ok ms' -> wire pack_ltv ms = wire pack_ltv ms' -> ms = ms'.
Proof. exact ltv_unique. Qed.
Print Assumptions C08_ltv_unique_decodability.
Example C08_nonvacuous : Forall msg_ok some_msgs.
Proof. apply some_msgs_ok. Qed.

(* C09, refuted: whatever the limit, a longer message (one that Unpack rejects)
   goes through the receive path to the handlers. *)
Theorem C09_max_packet_size_refuted : forall max,
  0 < max < 2^32 - 9 ->
  exists data qs r,
    max < zlen data /\
    unpack_tlv max (pack_tlv (new_msg_package 1 data)) = UnpackTooLarge /\
    run_reader tlv_reader [pack_tlv (new_msg_package 1 data)] = (qs, Running, r) /\
    map seen qs = [Some (1, data)].
Proof. exact big_message_delivered. Qed.
Print Assumptions C09_max_packet_size_refuted.
Example C09_nonvacuous : 0 < 4096 < 2^32 - 9.
Proof. lia. Qed.

(* C10, for bodies of at most 254 bytes.  Missing: 255-byte bodies, see the
   refutation. *)
Theorem C10_htlv_delivery_partial : forall xs chunks,
  Forall (fun x => zlen (hf_body x) <= 254) xs ->
  concat chunks = htlv_wire xs ->
  exists qs r, run_reader htlv_reader chunks = (qs, Running, r) /\
    map seen qs = map (fun x => Some (b2z (hf_code x), htlv_frame x)) xs /\
    map rq_resp qs = map (fun x => Some (DecodedHTLV (hf_head x) (hf_code x) (z2b (zlen (hf_body x)))
                          (hf_body x) (crc16_bytes (htlv_covered x)) (htlv_frame x))) xs.
Proof. exact htlv_stream_seen. Qed.
Print Assumptions C10_htlv_delivery_partial.
Example C10_nonvacuous :
  Forall (fun x => zlen (hf_body x) <= 254) [x1; Htlv x00 x01 []; x1] /\
  concat [ztake 7 (htlv_wire [x1; Htlv x00 x01 []; x1]); zdrop 7 (htlv_wire [x1; Htlv x00 x01 []; x1])]
  = htlv_wire [x1; Htlv x00 x01 []; x1].
Proof. split; [repeat constructor; vm_compute; discriminate|reflexivity]. Qed.
(* C10, refuted for 255-byte bodies: such a frame is never delivered, and neither
   is anything after it. *)
Theorem C10_body_255_refuted : forall x chunks,
  zlen (hf_body x) = 255 -> zlen (htlv_frame x ++ concat chunks) < 2^63 ->
  exists r, run_reader htlv_reader (htlv_frame x :: chunks) = ([], Running, r).
Proof.
  exact (fun x chunks H Hl => run_reader_wedged htlv_length_field htlv_intercept [] (htlv_frame x) chunks
    htlv_supported (htlv_overlong x H) Hl).
Qed.
Print Assumptions C10_body_255_refuted.
Example C10_255_nonvacuous :
  zlen (hf_body (Htlv x00 x01 (repeat x05 255))) = 255 /\
  zlen (htlv_frame (Htlv x00 x01 (repeat x05 255)) ++ concat [htlv_frame x1]) < 2^63.
Proof. vm_compute. split; reflexivity. Qed.

(* C11. *)
Theorem C11_crc_table : forall l, get_crc l = crc16_bytes l.
Proof. exact get_crc_spec. Qed.
Print Assumptions C11_crc_table.
Theorem C11_check_crc : forall l c, check_crc l c = true <-> c = crc16_bytes l.
Proof. exact check_crc_iff. Qed.
Print Assumptions C11_check_crc.
Example C11_value : get_crc [x31; x32; x33; x34; x35; x36; x37; x38; x39] = [x37; x4b]. (* 0x4B37 *)
Proof. vm_compute. reflexivity. Qed.

(* C12.  A frame hit by an error burst of at most 16 bits is never delivered; nor
   with two or any odd number of wrong bits.  [body]: any extra interceptors. *)
Theorem C12_burst_detected : forall x f' e body fs,
  corrupted (htlv_frame x) f' e -> burst16 e ->
  dispatch_frames (rd_chain (server_reader htlv_length_field htlv_intercept body)) (f' :: fs) = ([], StoppedByPanic).
Proof. exact burst_not_delivered. Qed.
Print Assumptions C12_burst_detected.
Theorem C12_two_bits_detected : forall x f' e body fs,
  zlen (hf_body x) <= 255 ->
  corrupted (htlv_frame x) f' e -> two_bits (8 * zlen (htlv_frame x)) e ->
  dispatch_frames (rd_chain (server_reader htlv_length_field htlv_intercept body)) (f' :: fs) = ([], StoppedByPanic).
Proof. exact two_bits_not_delivered. Qed.
Print Assumptions C12_two_bits_detected.
Theorem C12_odd_detected : forall x f' e body fs,
  corrupted (htlv_frame x) f' e -> odd_flips (8 * zlen (htlv_frame x)) e ->
  dispatch_frames (rd_chain (server_reader htlv_length_field htlv_intercept body)) (f' :: fs) = ([], StoppedByPanic).
Proof. exact odd_flips_not_delivered. Qed.
Print Assumptions C12_odd_detected.
Example C12_nonvacuous : corrupted (htlv_frame x1) x1_bad (4 * 2^40) /\ burst16 (4 * 2^40).
Proof. split; [apply x1_bad_burst|exists 4, 40; lia]. Qed.
Example C12_nonvacuous_odd : odd_flips (8 * zlen (htlv_frame x1)) (4 * 2^40).
Proof.
  exists [42]. split; [exists 0%nat; reflexivity|].
  split; [constructor; [vm_compute; split; congruence|constructor]|reflexivity].
Qed.
Example C12_nonvacuous_two :
  corrupted (htlv_frame x1) ([x7a; x12; x03; x01; x02; x03] ++ crc16_bytes (htlv_covered x1)) (2^0 + 2^9)
  /\ two_bits (8 * zlen (htlv_frame x1)) (2^0 + 2^9).
Proof.
  split; [vm_compute; split; reflexivity|]. exists 0, 9.
  change (8 * zlen (htlv_frame x1)) with 64. lia.
Qed.

(* C13, refuted: a frame with a bad checksum stops the reader; every frame after
   it in the read is lost and the connection ends. *)
Theorem C13_bad_frame_ends_connection_refuted : forall xs f' ys,
  Forall (fun x => zlen (hf_body x) <= 254) xs ->
  Forall (fun x => zlen (hf_body x) <= 254) ys ->
  good_frame htlv_length_field f' -> crc16 f' <> 0 ->
  exists qs r, run_reader htlv_reader [htlv_wire xs ++ f' ++ htlv_wire ys] = (qs, StoppedByPanic, r) /\
    map seen qs = map (fun x => Some (b2z (hf_code x), htlv_frame x)) xs.
Proof. exact bad_frame_stops_seen. Qed.
Print Assumptions C13_bad_frame_ends_connection_refuted.
Example C13_nonvacuous :
  good_frame htlv_length_field x1_bad /\ crc16 x1_bad <> 0 /\
  Forall (fun x => zlen (hf_body x) <= 254) [x1].
Proof. split; [apply x1_bad_good|split; [apply x1_bad_crc|repeat constructor; vm_compute; discriminate]]. Qed.

(* C14.  For interceptors of any behaviour, one starts only after its predecessor
   did; an interceptor that does not call Proceed prevents all later ones; and
   the list is head, added ones in order, tail. *)
Theorem C14_predecessor_first : forall ics r es1 j q es2,
  fst (proceed ics 0 r) = es1 ++ Enter (S j) q :: es2 -> In j (started es1).
Proof. exact chain_order. Qed.
Print Assumptions C14_predecessor_first.
Theorem C14_stop : forall l1 ic l2, (forall r, no_proceed (ic r)) ->
  forall pos r, Forall (fun j => (j <= pos + length l1)%nat) (started (fst (proceed (l1 ++ ic :: l2) pos r))).
Proof. exact chain_stop. Qed.
Print Assumptions C14_stop.
Theorem C14_builder_order : forall gs,
  interceptors_of (fold_left register gs new_builder) = requested_order gs.
Proof. exact builder_order. Qed.
Print Assumptions C14_builder_order.
(* Complete trace for interceptors that proceed once or not at all: each runs
   once, in order, on the request its predecessor passed on. *)
Theorem C14_linear_chain : forall bs pos r,
  exists es, proceed (map interceptor_of bs) pos r = (es, Returned (response bs r)) /\
  es = map (fun p => Enter (fst p) (snd p))
         (combine (seq pos (length (requests_seen bs r))) (requests_seen bs r)).
Proof. exact chain_linear. Qed.
Print Assumptions C14_linear_chain.
Example C14_nonvacuous :
  let ics := map interceptor_of [Pass (fun _ => IcOther 1) (fun v => v); Halt (IcOther 5); Halt IcNil] in
  fst (proceed ics 0 IcNil) = [Enter 0 IcNil; Enter 1 (IcOther 1)] /\
  (forall r, no_proceed (interceptor_of (Halt (IcOther 5)) r)).
Proof. split; [reflexivity|intros; constructor]. Qed.

(* C15.  Frames cut by the decoder's own frame decoder (below 2^32 bytes) decode
   to the fields of the frame; short messages pass through unchanged. *)
Theorem C15_tlv_decode_frame_partial : forall f,
  good_frame tlv_length_field f -> zlen f < 2^32 ->
  tlv_decode f = Some (get_uint BigEndian (ztake 4 f), zlen f - 8, zdrop 8 f).
Proof. exact tlv_decode_good. Qed.
Print Assumptions C15_tlv_decode_frame_partial.
Theorem C15_ltv_decode_frame_partial : forall f,
  good_frame ltv_length_field f -> zlen f < 2^32 ->
  ltv_decode f = Some (zlen f - 8, get_uint LittleEndian (ztake 4 (zdrop 4 f)), zdrop 8 f).
Proof. exact ltv_decode_good. Qed.
Print Assumptions C15_ltv_decode_frame_partial.
Theorem C15_short_passes_through : forall q m rest pos,
  rq_msg q = Some m ->
  (zlen (m_data m) < 8 -> proceed (tlv_intercept :: rest) pos (IcRequest q)
     = (Enter pos (IcRequest q) :: fst (proceed rest (S pos) (IcRequest q)), snd (proceed rest (S pos) (IcRequest q)))
   /\ proceed (ltv_intercept :: rest) pos (IcRequest q)
     = (Enter pos (IcRequest q) :: fst (proceed rest (S pos) (IcRequest q)), snd (proceed rest (S pos) (IcRequest q)))) /\
  (zlen (m_data m) < 5 -> proceed (htlv_intercept :: rest) pos (IcRequest q)
     = (Enter pos (IcRequest q) :: fst (proceed rest (S pos) (IcRequest q)), snd (proceed rest (S pos) (IcRequest q)))).
Proof. exact short_passes. Qed.
Print Assumptions C15_short_passes_through.
(* C15, refuted for frames announcing 2^32-8 bytes or more: the 32-bit sum
   8+Length wraps and slicing panics, which ends the connection. *)
Theorem C15_length_wrap_refuted : forall id data,
  2^32 - 8 <= zlen data < 2^32 ->
  forall chunks, exists r,
  run_reader tlv_reader (pack_tlv (new_msg_package id data) :: chunks) = ([], StoppedByPanic, r).
Proof. exact tlv_overflow_stops. Qed.
Print Assumptions C15_length_wrap_refuted.
Example C15_nonvacuous :
  good_frame tlv_length_field (pack_tlv (new_msg_package 5 [x01])) /\
  good_frame ltv_length_field (pack_ltv (new_msg_package 5 [x01])) /\
  zlen (pack_tlv (new_msg_package 5 [x01])) < 2^32.
Proof. vm_compute. intuition congruence. Qed.
Example C15_wrap_nonvacuous : 2^32 - 8 <= zlen (repeat x00 (Z.to_nat (2^32 - 8))) < 2^32.
Proof. unfold zlen. rewrite repeat_length, Z2Nat.id; lia. Qed.

(* C108: choosing a packet format. *)
From Coq Require Import ZArith List Bool Lia.
From Verif Require Import Bytes Pack FrameDecoder Chain Decoders Reader Endpoint Spec_Endpoint Spec_Codec Spec_Framing Codec_proofs Codec2_proofs Codec3_proofs CodecAny_proofs FrameDecoder_proofs Endpoint_proofs Props_Endpoint Format Spec_Format.
Import ListNotations.
Local Open Scope Z_scope.

Lemma made_gen op os : forall s, fold_left (format_op op) os s = Fmt (fold_left (fun p o => match o with FPacket q => q | _ => p end) os (fm_pack s)) (fold_left op (end_ops os) (fm_end s)).
Proof.
  induction os as [|o os IH]; intros s; [destruct s; reflexivity|]. cbn [fold_left]. rewrite IH. unfold end_ops. cbn [flat_map]. rewrite fold_left_app. destruct o; reflexivity.
Qed.
(* The last packer given, as an option or with SetPacket, packs what is sent ... *)
Theorem C108_sends : forall opts ops msgs,
  sends (server_made opts ops) msgs = wire (asked_packer (opts ++ ops)) msgs /\ sends (client_made opts ops) msgs = wire (asked_packer (opts ++ ops)) msgs.
Proof. intros. unfold sends, server_made, client_made. rewrite !made_gen. split; reflexivity. Qed.
Print Assumptions C108_sends.
(* ... so two sides understand each other when the receiver's decoder fits the sender's packer:
   a client or server sends, a server receives, in any pieces. *)
Theorem C108_understood_partial : forall opts ops opts' ops' msgs chunks, Forall msg_ok msgs ->
  let asks := end_ops (opts' ++ ops') in set_first asks -> added asks = [] ->
  same_format (asked_packer (opts ++ ops)) (asked asks) ->
  concat chunks = sends (client_made opts ops) msgs \/ concat chunks = sends (server_made opts ops) msgs ->
  exists qs r, run_reader (reads_with (server_made opts' ops')) chunks = (qs, Running, r) /\ map seen qs = map Some msgs.
Proof.
  intros opts ops opts' ops' msgs chunks M asks F A Same W. assert (W' : concat chunks = wire (asked_packer (opts ++ ops)) msgs) by (destruct (C108_sends opts ops msgs) as (E1 & E2); destruct W; congruence). clear W.
  unfold reads_with, server_made. rewrite made_gen. cbn [fm_end new_format]. fold (server_ops asks). destruct (C88_server_roundtrip asks msgs chunks F A M) as (T & L).
  remember (asked asks) as d eqn:Ed. inversion Same as [E1 E2|E1 E2]; rewrite <- E1 in W'; subst d; [apply T|apply L]; auto.
Qed.
Print Assumptions C108_understood_partial.
Example C108_understood_used : let asks := [FPacket pack_ltv] ++ [FEnd (ESetDecoder (Some ltv_decoder)); FEnd EStart; FOther] in
  set_first (end_ops asks) /\ added (end_ops asks) = [] /\ same_format (asked_packer ([FPacket pack_tlv; FPacket pack_ltv] ++ [FEnd EStart])) (asked (end_ops asks)).
Proof. cbn zeta. split; [|split; [reflexivity|apply SameLtv]]. exists [ESetDecoder (Some ltv_decoder)], []. split; [reflexivity|]. split; repeat constructor. Qed.

(* The packer has no say in how messages are read: whatever is given with WithPacket and SetPacket, a server or
   client reads as if it had not been given. *)
Theorem C108_ignored_refuted : forall opts ops, let without := filter (fun o => match o with FPacket _ => false | _ => true end) in
  reads_with (server_made opts ops) = reads_with (server_made (without opts) (without ops)) /\
  reads_with (client_made opts ops) = reads_with (client_made (without opts) (without ops)).
Proof.
  intros opts ops without. unfold reads_with, server_made, client_made. rewrite !made_gen. cbn [fm_end].
  assert (E : end_ops (without opts ++ without ops) = end_ops (opts ++ ops)).
  { unfold without. rewrite <- filter_app. generalize (opts ++ ops). intros os. unfold end_ops. induction os as [|o os IH]; [reflexivity|]. destruct o; cbn; rewrite IH; reflexivity. }
  rewrite E. split; reflexivity.
Qed.
Print Assumptions C108_ignored_refuted.

Lemma swapped id : 1 <= id < 65536 -> 65536 <= be_val (le_bytes 4 id) < 2^32.
Proof.
  intros R. unfold be_val. cbn [le_bytes rev app le_val]. rewrite !b2z_z2b. rewrite (Z.div_small (id / 256 / 256) 256), (Z.mod_small (id / 256 / 256)), (Z.mod_small 0) by lia.
  replace (id / 256 / 256) with 0 by lia. pose proof (Z.mod_pos_bound id 256). pose proof (Z.mod_pos_bound (id / 256) 256). lia.
Qed.
(* Both sides created WithPacket(LTV) and nothing else: however many messages with IDs from 1 to 65535 are
   sent, in whatever pieces, none is handled before 65536 bytes have come in. *)
Theorem C108_both_refuted : forall id body rest chunks, 1 <= id < 65536 -> Forall msg_ok ((id, body) :: rest) ->
  concat chunks = sends (client_made [FPacket pack_ltv] [FEnd EStart]) ((id, body) :: rest) -> zlen (concat chunks) < 65536 ->
  exists r, run_reader (reads_with (server_made [FPacket pack_ltv] [FEnd EStart])) chunks = ([], Running, r).
Proof.
  intros id body rest chunks R M W L. rewrite (proj2 (C108_sends [FPacket pack_ltv] [FEnd EStart] _)) in W. cbn [app asked_packer fold_left] in W. unfold wire in W. cbn [map concat fst snd] in W.
  set (bd := ep_chain (server_ops [EStart])).
  assert (I : incomplete tlv_length_field (concat chunks)).
  { assert (H8 : exists t, concat chunks = (le_bytes 4 (zlen body)) ++ le_bytes 4 id ++ t).
    { rewrite W. unfold pack_ltv, new_msg_package. cbn [m_id m_len m_data put_uint]. inversion M as [|? ? (_ & Mb) _]; subst. cbn [snd] in Mb. rewrite ?u32_small by (pose proof (zlen_nonneg body); lia). rewrite <- !app_assoc. eexists. reflexivity. }
    destruct H8 as (t & Ec). right. change (header_end tlv_length_field) with 8. assert (Fv : field_value tlv_length_field (concat chunks) = be_val (le_bytes 4 id)).
    { unfold field_value. change (order_of tlv_length_field) with BigEndian. change (lf_len tlv_length_field) with 4. change (lf_off tlv_length_field) with 4. rewrite Ec. rewrite zdrop_app by (unfold zlen; now rewrite le_bytes_length). rewrite ztake_app by (unfold zlen; now rewrite le_bytes_length). reflexivity. }
    unfold announced. rewrite Fv. change (header_end tlv_length_field) with 8. change (lf_adj tlv_length_field) with 0. change (lf_max tlv_length_field) with (4294967295 + 4 + 4). pose proof (swapped id R) as S. assert (8 <= zlen (concat chunks)). { rewrite Ec, !zlen_app. assert (forall n, zlen (le_bytes 4 n) = 4) by (intros n; unfold zlen; now rewrite le_bytes_length). rewrite !H. pose proof (zlen_nonneg t). lia. }
    lia. }
  eexists. change (reads_with (server_made [FPacket pack_ltv] [FEnd EStart])) with {| rd_fd := Some (fresh_with tlv_length_field []); rd_chain := bd |}.
  rewrite (run_reader_stream tlv_length_field bd chunks [] [] (concat chunks) []); [reflexivity|apply tlv_supported|constructor|constructor|exact I|apply incomplete_nil, tlv_supported|reflexivity].
Qed.
Print Assumptions C108_both_refuted.
Example C108_both_case : Forall msg_ok [(1, [x07]); (2, []); (300, [x01; x02])] /\ zlen (sends (client_made [FPacket pack_ltv] [FEnd EStart]) [(1, [x07]); (2, []); (300, [x01; x02])]) = 27.
Proof. split; [repeat constructor; cbn; lia|reflexivity]. Qed.

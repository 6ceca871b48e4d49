(* Arbitrary input, over-long frames, HTLV, Pack/Unpack. *)
From Coq Require Import ZArith List Bool Lia.
From Coq Require Import ZifyBool ZifyNat ZifyN.
From Verif Require Import Bytes Pack FrameDecoder Chain Crc Decoders Reader
  Spec_Framing Spec_Codec Spec_Crc Spec_Htlv FrameDecoder_proofs Codec_proofs Crc_proofs.
Import ListNotations.
Local Open Scope Z_scope.
Ltac Zify.zify_post_hook ::= Z.div_mod_to_equations.

(* ------------------------------------------------------------------ *)
(* Arbitrary bytes *)

Lemma field_value_range lf s :
  supported lf -> header_end lf <= zlen s -> 0 <= field_value lf s < 256 ^ lf_len lf.
Proof.
  intros (H1 & H2 & H3 & _) Hl. unfold header_end in *.
  assert (Hp : 0 < lf_len lf) by (cbn [In] in H3; lia).
  unfold field_value.
  pose proof (get_uint_range (order_of lf) (ztake (lf_len lf) (zdrop (lf_off lf) s))) as H.
  rewrite zlen_ztake in H; [exact H|]. rewrite zlen_zdrop; lia.
Qed.

Lemma tame_width lf : tame lf -> 256 ^ lf_len lf <= 2^32.
Proof.
  intros ((_ & _ & H3 & _) & H8 & _). cbn [In] in H3.
  destruct H3 as [E|[E|[E|[E|[E|[]]]]]]; try (rewrite <- E; vm_compute; discriminate). congruence.
Qed.

Lemma tame_parse lf : tame lf -> forall n s, (length s <= n)%nat ->
  exists fs t, s = concat fs ++ t /\ Forall (good_frame lf) fs /\ incomplete lf t.
Proof.
  intros Ht. pose proof (tame_width lf Ht) as Hw.
  pose proof Ht as (Hs & H8 & Ha & Hst & Hm & H63).
  pose proof (supported_header_pos lf Hs) as Hhp.
  induction n as [|n IH]; intros s Hn.
  - exists [], s. cbn. repeat split; auto. destruct s; [|cbn in Hn; lia]. now apply incomplete_nil.
  - destruct (Z_lt_le_dec (zlen s) (header_end lf)) as [Hlt|Hle].
    { exists [], s. cbn. repeat split; auto. now left. }
    pose proof (field_value_range lf s Hs Hle) as Hv.
    assert (Han : announced lf s = header_end lf + field_value lf s + lf_adj lf) by reflexivity.
    destruct (Z_lt_le_dec (zlen s) (announced lf s)) as [Hlt|Hge].
    { exists [], s. cbn. repeat split; auto. right. repeat split; lia. }
    set (f := ztake (announced lf s) s). set (r := zdrop (announced lf s) s).
    assert (Hsp : s = f ++ r) by (symmetry; apply ztake_zdrop).
    assert (Hlf : zlen f = announced lf s) by (apply zlen_ztake; lia).
    clearbody f r.
    destruct (IH r) as (fs & t & Hr & Hf & Hi).
    { apply (f_equal (@length byte)) in Hsp. rewrite app_length in Hsp.
      unfold zlen in Hlf. lia. }
    assert (Hfa : announced lf f = announced lf s)
      by (rewrite <- (announced_app lf f r) by (assumption || lia); now rewrite <- Hsp).
    assert (Hff : field_value lf f = field_value lf s)
      by (rewrite <- (field_value_app lf f r) by (assumption || lia); now rewrite <- Hsp).
    exists (f :: fs), t. cbn [concat]. rewrite <- app_assoc, <- Hr.
    repeat split; auto. constructor; [|assumption].
    unfold good_frame. rewrite Hfa, Hff, Hlf. repeat split; lia.
Qed.

Lemma tame_feed lf chunks :
  tame lf ->
  exists fs t, concat chunks = concat fs ++ t /\ Forall (good_frame lf) fs /\ incomplete lf t /\
    feed (new_frame_decoder lf) chunks = DecOk (map (stripped lf) fs) (fresh_with lf t).
Proof.
  intros Ht. destruct (tame_parse lf Ht _ (concat chunks) (le_n _)) as (fs & t & He & Hf & Hi).
  exists fs, t. repeat split; auto. apply feed_new_stream; auto. apply Ht.
Qed.

Lemma tlv_tame : tame tlv_length_field.
Proof. unfold tame. split; [apply tlv_supported|]. vm_compute. intuition congruence. Qed.
Lemma ltv_tame : tame ltv_length_field.
Proof. unfold tame. split; [apply ltv_supported|]. vm_compute. intuition congruence. Qed.

Lemma split4 (l : list byte) : 4 <= zlen l -> exists a r, l = a ++ r /\ length a = 4%nat.
Proof.
  intros H. exists (ztake 4 l), (zdrop 4 l). split; [symmetry; apply ztake_zdrop|].
  pose proof (zlen_ztake 4 l ltac:(lia)) as E. unfold zlen in E. lia.
Qed.

Lemma get_uint_4 o (a : list byte) : length a = 4%nat -> 0 <= get_uint o a < 2^32.
Proof.
  intros H. pose proof (get_uint_range o a) as R. unfold zlen in R. rewrite H in R.
  exact R.
Qed.

(* Every acceptable TLV frame is the packing of some message. *)
Lemma tlv_good_is_pack f :
  good_frame tlv_length_field f ->
  exists id data, 0 <= id < 2^32 /\ zlen data < 2^32 /\ f = pack_tlv (new_msg_package id data).
Proof.
  intros (Hh & Hv & Hl & _). unfold announced, header_end in *.
  cbn [lf_off lf_len lf_adj tlv_length_field] in *.
  destruct (split4 f ltac:(lia)) as (a & f1 & -> & Ha).
  rewrite zlen_app in *. assert (zlen a = 4) by (unfold zlen; lia).
  destruct (split4 f1 ltac:(lia)) as (b & data & -> & Hb).
  rewrite zlen_app in *. assert (zlen b = 4) by (unfold zlen; lia).
  assert (Hf : field_value tlv_length_field (a ++ b ++ data) = get_uint BigEndian b).
  { unfold field_value. cbn [lf_off lf_len tlv_length_field order_of lf_order].
    rewrite zdrop_app by lia. rewrite ztake_app by lia. reflexivity. }
  rewrite Hf in *.
  pose proof (get_uint_4 BigEndian b Hb). pose proof (zlen_nonneg data).
  exists (get_uint BigEndian a), data. split; [now apply get_uint_4|]. split; [lia|].
  unfold pack_tlv. cbn [m_id m_len m_data new_msg_package].
  rewrite u32_small by lia. replace (zlen data) with (get_uint BigEndian b) by lia.
  pose proof (put_get_uint BigEndian a) as E1. rewrite Ha in E1. rewrite E1.
  pose proof (put_get_uint BigEndian b) as E2. rewrite Hb in E2. rewrite E2. reflexivity.
Qed.

Lemma ltv_good_is_pack f :
  good_frame ltv_length_field f ->
  exists id data, 0 <= id < 2^32 /\ zlen data < 2^32 /\ f = pack_ltv (new_msg_package id data).
Proof.
  intros (Hh & Hv & Hl & _). pose proof (field_value_nonneg ltv_length_field f) as Hnn.
  unfold announced, header_end in *.
  cbn [lf_off lf_len lf_adj ltv_length_field] in *.
  destruct (split4 f ltac:(lia)) as (a & f1 & -> & Ha).
  rewrite zlen_app in *. assert (zlen a = 4) by (unfold zlen; lia).
  destruct (split4 f1 ltac:(lia)) as (b & data & -> & Hb).
  rewrite zlen_app in *. assert (zlen b = 4) by (unfold zlen; lia).
  assert (Hf : field_value ltv_length_field (a ++ b ++ data) = get_uint LittleEndian a).
  { unfold field_value. cbn [lf_off lf_len ltv_length_field order_of lf_order].
    rewrite zdrop_0. rewrite ztake_app by lia. reflexivity. }
  rewrite Hf in *.
  pose proof (get_uint_4 LittleEndian a Ha). pose proof (zlen_nonneg data).
  exists (get_uint LittleEndian b), data. split; [now apply get_uint_4|]. split; [lia|].
  unfold pack_ltv. cbn [m_id m_len m_data new_msg_package].
  rewrite u32_small by lia. replace (zlen data) with (get_uint LittleEndian a) by lia.
  pose proof (put_get_uint LittleEndian a) as E1. rewrite Ha in E1. rewrite E1.
  pose proof (put_get_uint LittleEndian b) as E2. rewrite Hb in E2. rewrite E2. reflexivity.
Qed.

Lemma frames_are_packed pack lf fs n :
  (forall f, good_frame lf f ->
     exists id data, 0 <= id < 2^32 /\ zlen data < 2^32 /\ f = pack (new_msg_package id data)) ->
  (forall id data, zlen (pack (new_msg_package id data)) = 8 + zlen data) ->
  Forall (good_frame lf) fs -> zlen (concat fs) <= n -> n < 2^32 ->
  exists msgs, Forall msg_ok msgs /\
    fs = map (fun p => pack (new_msg_package (fst p) (snd p))) msgs.
Proof.
  intros Hp Hl Hf Hn1 Hn2. induction Hf as [|f fs Hgf _ IH]; [exists []; split; [constructor|reflexivity]|].
  cbn [concat] in Hn1. rewrite zlen_app in Hn1.
  destruct (Hp f Hgf) as (id & data & Hid & Hd & ->). rewrite Hl in Hn1.
  pose proof (zlen_nonneg (concat fs)). pose proof (zlen_nonneg data).
  destruct IH as (msgs & Hm & ->); [lia|].
  exists ((id, data) :: msgs). split; [|reflexivity].
  constructor; [|assumption]. unfold msg_ok; cbn [fst snd]. lia.
Qed.

(* What the server does with arbitrary bytes, as long as fewer than 2^32 arrived. *)
Lemma tlv_any_bytes chunks :
  zlen (concat chunks) < 2^32 ->
  exists msgs t,
    Forall msg_ok msgs /\ concat chunks = wire pack_tlv msgs ++ t /\
    incomplete tlv_length_field t /\
    run_reader tlv_reader chunks
    = (map tlv_req msgs, Running,
       {| rd_fd := Some (fresh_with tlv_length_field t); rd_chain := rd_chain tlv_reader |}).
Proof.
  intros Hlen.
  destruct (tame_parse _ tlv_tame _ (concat chunks) (le_n _)) as (fs & t & He & Hf & Hi).
  destruct (frames_are_packed pack_tlv tlv_length_field fs (zlen (concat chunks))
              tlv_good_is_pack pack_tlv_len Hf) as (msgs & Hm & ->).
  { rewrite He, zlen_app. pose proof (zlen_nonneg t). lia. }
  { assumption. }
  exists msgs, t. repeat split; auto.
  unfold tlv_reader. erewrite run_server_reader with (fs := tlv_frames msgs) (t := t)
    (qss := map (fun p => [tlv_req p]) msgs).
  - rewrite concat_singletons. reflexivity.
  - apply tlv_supported.
  - now apply tlv_frames_good.
  - rewrite map_stripped_0 by reflexivity. now apply tlv_frames_deliver.
  - assumption.
  - assumption.
Qed.

Lemma ltv_any_bytes chunks :
  zlen (concat chunks) < 2^32 ->
  exists msgs t,
    Forall msg_ok msgs /\ concat chunks = wire pack_ltv msgs ++ t /\
    incomplete ltv_length_field t /\
    run_reader ltv_reader chunks
    = (map ltv_req msgs, Running,
       {| rd_fd := Some (fresh_with ltv_length_field t); rd_chain := rd_chain ltv_reader |}).
Proof.
  intros Hlen.
  destruct (tame_parse _ ltv_tame _ (concat chunks) (le_n _)) as (fs & t & He & Hf & Hi).
  destruct (frames_are_packed pack_ltv ltv_length_field fs (zlen (concat chunks))
              ltv_good_is_pack pack_ltv_len Hf) as (msgs & Hm & ->).
  { rewrite He, zlen_app. pose proof (zlen_nonneg t). lia. }
  { assumption. }
  exists msgs, t. repeat split; auto.
  unfold ltv_reader. erewrite run_server_reader with (fs := ltv_frames msgs) (t := t)
    (qss := map (fun p => [ltv_req p]) msgs).
  - rewrite concat_singletons. reflexivity.
  - apply ltv_supported.
  - now apply ltv_frames_good.
  - rewrite map_stripped_0 by reflexivity. now apply ltv_frames_deliver.
  - assumption.
  - assumption.
Qed.

(* ------------------------------------------------------------------ *)
(* Over-long frames wedge the decoder *)

Lemma decode1_overlong lf f rest :
  supported lf -> overlong_frame lf f -> zlen (f ++ rest) < 2^63 ->
  decode1 (fresh_with lf (f ++ rest)) (f ++ rest) = D1None (fresh_with lf (f ++ rest)).
Proof.
  intros Hs (Hh & Hv & Hl & Hm & H63) Htot.
  pose proof (supported_endoff lf Hs) as He.
  unfold decode1, fresh_with, set_in, new_frame_decoder. cbn [fd_discarding fd_endoff fd_off fd_flen fd_order fd_adj fd_max fd_strip].
  rewrite He.
  change (match lf_order lf with Some o => o | None => BigEndian end) with (order_of lf).
  rewrite zlen_app in *. pose proof (zlen_nonneg rest) as Hr. pose proof (zlen_nonneg f) as Hfn.
  replace (zlen f + zlen rest <? header_end lf) with false by lia.
  rewrite raw_length_ok; [|assumption|rewrite zlen_app; lia|rewrite field_value_app by assumption; lia].
  rewrite field_value_app by assumption.
  pose proof (field_value_nonneg lf f) as Hn.
  replace (field_value lf f <? 0) with false by lia.
  rewrite frame_len_ok by (assumption || lia). rewrite <- Hl.
  rewrite u64_small by lia.
  replace (lf_max lf <? zlen f) with true by lia.
  unfold exceeded_frame_length. rewrite zlen_app.
  rewrite s64_small by lia.
  destruct (zlen f - (zlen f + zlen rest) <? 0) eqn:E.
  - unfold buf_next. replace (zlen f <? 0) with false by lia. reflexivity.
  - replace (zlen f - (zlen f + zlen rest)) with 0 by lia. reflexivity.
Qed.

Lemma feed_overlong lf f : supported lf -> overlong_frame lf f ->
  forall chunks b, zlen (f ++ b ++ concat chunks) < 2^63 ->
  feed (fresh_with lf (f ++ b)) chunks = DecOk [] (fresh_with lf (f ++ b ++ concat chunks)).
Proof.
  intros Hs Ho. induction chunks as [|c cs IH]; intros b Hl.
  - cbn [feed concat]. now rewrite app_nil_r.
  - cbn [feed concat] in *. unfold decode, decode_fuel.
    change (fd_in (fresh_with lf (f ++ b))) with (f ++ b).
    change (set_in (fresh_with lf (f ++ b)) ((f ++ b) ++ c)) with (fresh_with lf ((f ++ b) ++ c)).
    rewrite <- app_assoc. cbn [decode_loop].
    change (fd_in (fresh_with lf (f ++ b ++ c))) with (f ++ b ++ c).
    rewrite decode1_overlong; [|assumption|assumption|].
    + rewrite IH.
      * rewrite <- app_assoc. reflexivity.
      * rewrite <- app_assoc. exact Hl.
    + rewrite ?zlen_app in *. pose proof (zlen_nonneg (concat cs)). lia.
Qed.

Lemma feed_new_overlong lf f chunks :
  supported lf -> overlong_frame lf f -> zlen (f ++ concat chunks) < 2^63 ->
  feed (new_frame_decoder lf) (f :: chunks) = DecOk [] (fresh_with lf (f ++ concat chunks)).
Proof.
  intros Hs Ho Hl. cbn [feed]. unfold decode, decode_fuel.
  change (fd_in (new_frame_decoder lf) ++ f) with f.
  change (set_in (new_frame_decoder lf) f) with (fresh_with lf f).
  cbn [decode_loop]. change (fd_in (fresh_with lf f)) with f.
  pose proof (decode1_overlong lf f [] Hs Ho) as H. rewrite app_nil_r in H.
  rewrite H.
  - pose proof (feed_overlong lf f Hs Ho chunks []) as H2. cbn [app] in H2.
    rewrite app_nil_r in H2. now rewrite H2.
  - rewrite zlen_app in Hl. pose proof (zlen_nonneg (concat chunks)). lia.
Qed.

(* ------------------------------------------------------------------ *)
(* Frames whose length field is near the top of the range panic the decoder *)

Lemma tlv_decode_overflow id data :
  2^32 - 8 <= zlen data < 2^32 ->
  tlv_decode (pack_tlv (new_msg_package id data)) = None.
Proof.
  intros Hl. unfold tlv_decode, pack_tlv. cbn [m_id m_len m_data new_msg_package].
  rewrite (u32_small (zlen data)) by lia.
  rewrite go_slice_app_l by apply zlen_put_uint.
  rewrite (go_slice_mid _ 4 8 (put_uint BigEndian 4 id) (put_uint BigEndian 4 (zlen data)) data)
    by (reflexivity || rewrite zlen_put_uint; reflexivity).
  rewrite (get_put_uint BigEndian 4 (zlen data)) by (change (256 ^ Z.of_nat 4) with (2^32); lia).
  unfold go_slice.
  assert (Hu : u32 (8 + zlen data) < 8) by (unfold u32; lia).
  replace ((8 <? 0) || (u32 (8 + zlen data) <? 8)) with true by lia.
  reflexivity.
Qed.

Lemma ltv_decode_overflow id data :
  2^32 - 8 <= zlen data < 2^32 ->
  ltv_decode (pack_ltv (new_msg_package id data)) = None.
Proof.
  intros Hl. unfold ltv_decode, pack_ltv. cbn [m_id m_len m_data new_msg_package].
  rewrite (u32_small (zlen data)) by lia.
  rewrite go_slice_app_l by apply zlen_put_uint.
  rewrite (go_slice_mid _ 4 8 (put_uint LittleEndian 4 (zlen data)) (put_uint LittleEndian 4 id) data)
    by (reflexivity || rewrite zlen_put_uint; reflexivity).
  rewrite (get_put_uint LittleEndian 4 (zlen data)) by (change (256 ^ Z.of_nat 4) with (2^32); lia).
  unfold go_slice.
  assert (Hu : u32 (8 + zlen data) < 8) by (unfold u32; lia).
  replace ((8 <? 0) || (u32 (8 + zlen data) <? 8)) with true by lia.
  reflexivity.
Qed.

(* A frame on which the decoder interceptor panics ends the connection. *)
Lemma head_panics dec body f :
  (forall q, dec q = PanicAct) \/
  dec (IcRequest {| rq_msg := Some (new_message (u32 (zlen f)) f); rq_resp := None |}) = PanicAct ->
  forall fs, dispatch_frames
    {| bd_head := Some dec; bd_body := body; bd_tail := Some msg_handle_intercept |} (f :: fs)
  = ([], StoppedByPanic).
Proof.
  intros H fs. cbn [dispatch_frames]. unfold execute, interceptors_of.
  cbn [bd_head opt_list app]. cbn [proceed].
  assert (E : dec (IcRequest {| rq_msg := Some (new_message (u32 (zlen f)) f); rq_resp := None |}) = PanicAct)
    by (destruct H as [H|H]; [apply H|exact H]).
  rewrite E. reflexivity.
Qed.

Lemma tlv_overflow_stops id data :
  2^32 - 8 <= zlen data < 2^32 ->
  forall chunks, exists r,
  run_reader tlv_reader (pack_tlv (new_msg_package id data) :: chunks) = ([], StoppedByPanic, r).
Proof.
  intros Hl chunks. cbn [run_reader]. unfold read_chunk. cbn [rd_fd tlv_reader server_reader].
  change (new_frame_decoder tlv_length_field) with (fresh_with tlv_length_field []).
  rewrite (decode_good tlv_length_field [] _ [pack_tlv (new_msg_package id data)] []);
    [|apply tlv_supported| constructor; [apply tlv_good; lia|constructor]
     |apply incomplete_nil, tlv_supported|cbn [concat app]; now rewrite !app_nil_r].
  rewrite map_stripped_0 by reflexivity.
  unfold tlv_reader, server_reader. cbn [rd_chain].
  rewrite head_panics.
  - eexists. reflexivity.
  - right. unfold tlv_intercept. cbn [get_imessage rq_msg m_data new_message].
    rewrite pack_tlv_len. replace (8 + zlen data <? 8) with false by lia.
    now rewrite tlv_decode_overflow.
Qed.

(* Decoders on frames cut by their own frame decoder. *)
Lemma tlv_decode_good f :
  good_frame tlv_length_field f -> zlen f < 2^32 -> 
  tlv_decode f = Some (get_uint BigEndian (ztake 4 f), zlen f - 8, zdrop 8 f).
Proof.
  intros Hg Hlt. destruct (tlv_good_is_pack f Hg) as (id & data & Hid & Hd & ->).
  rewrite pack_tlv_len in *.
  rewrite tlv_decode_pack by (unfold msg_ok; cbn [fst snd]; lia).
  unfold pack_tlv. cbn [m_id m_len m_data new_msg_package].
  rewrite ztake_app by now rewrite zlen_put_uint.
  rewrite app_assoc, zdrop_app by now rewrite zlen_app, !zlen_put_uint.
  rewrite get_put_uint by (change (256 ^ Z.of_nat 4) with (2^32); lia).
  repeat f_equal. lia.
Qed.

Lemma ltv_decode_good f :
  good_frame ltv_length_field f -> zlen f < 2^32 -> 
  ltv_decode f = Some (zlen f - 8, get_uint LittleEndian (ztake 4 (zdrop 4 f)), zdrop 8 f).
Proof.
  intros Hg Hlt. destruct (ltv_good_is_pack f Hg) as (id & data & Hid & Hd & ->).
  rewrite pack_ltv_len in *.
  rewrite ltv_decode_pack by (unfold msg_ok; cbn [fst snd]; lia).
  unfold pack_ltv. cbn [m_id m_len m_data new_msg_package].
  rewrite (zdrop_app 4) by now rewrite zlen_put_uint.
  rewrite (ztake_app 4) by now rewrite zlen_put_uint.
  rewrite app_assoc, zdrop_app by now rewrite zlen_app, !zlen_put_uint.
  rewrite get_put_uint by (change (256 ^ Z.of_nat 4) with (2^32); lia).
  repeat f_equal. lia.
Qed.

(* ------------------------------------------------------------------ *)
(* HTLV *)

Lemma htlv_supported : supported htlv_length_field.
Proof. unfold supported, header_end; cbn. lia. Qed.

Lemma htlv_frame_len x : zlen (htlv_frame x) = zlen (hf_body x) + 5.
Proof.
  unfold htlv_frame, htlv_covered. rewrite zlen_app, !zlen_cons.
  change (zlen (crc16_bytes _)) with 2. lia.
Qed.

Lemma htlv_field x : zlen (hf_body x) < 256 ->
  field_value htlv_length_field (htlv_frame x) = zlen (hf_body x).
Proof.
  intros H. pose proof (zlen_nonneg (hf_body x)).
  unfold field_value, htlv_frame, htlv_covered. cbn [lf_len lf_off htlv_length_field order_of lf_order app].
  change (zdrop 2 (?a :: ?b :: ?l)) with l.
  change (ztake 1 (?a :: ?l)) with [a].
  unfold get_uint, be_val. cbn [rev app le_val]. rewrite b2z_z2b. lia.
Qed.

Lemma htlv_good x : zlen (hf_body x) <= 254 -> good_frame htlv_length_field (htlv_frame x).
Proof.
  intros H. unfold good_frame, announced, header_end. rewrite htlv_field by lia.
  rewrite htlv_frame_len. pose proof (zlen_nonneg (hf_body x)).
  cbn [lf_off lf_len lf_adj lf_max lf_strip htlv_length_field]. lia.
Qed.

Lemma htlv_overlong x : zlen (hf_body x) = 255 -> overlong_frame htlv_length_field (htlv_frame x).
Proof.
  intros H. unfold overlong_frame, announced, header_end. rewrite htlv_field by lia.
  rewrite htlv_frame_len, H.
  cbn [lf_off lf_len lf_adj lf_max htlv_length_field]. lia.
Qed.

(* The decoder on covered ++ check, whatever the check bytes are. *)
Lemma htlv_decode_app h f l body c :
  length c = 2%nat ->
  htlv_decode ((h :: f :: l :: body) ++ c)
  = if check_crc (h :: f :: l :: body) c then HtlvOk h f l body c else HtlvNil.
Proof.
  intros Hc. unfold htlv_decode. cbn [app].
  change (h :: f :: l :: body ++ c) with ((h :: f :: l :: body) ++ c).
  assert (Hzc : zlen c = 2) by (unfold zlen; lia).
  assert (Hz : zlen ((h :: f :: l :: body) ++ c) - 2 = zlen (h :: f :: l :: body))
    by (rewrite zlen_app; lia).
  rewrite Hz.
  rewrite (go_slice_mid _ 3 (zlen (h :: f :: l :: body)) [h; f; l] body c)
    by (reflexivity || (rewrite !zlen_cons; lia)).
  rewrite (go_slice_app_r (zlen (h :: f :: l :: body)))
    by (reflexivity || apply zlen_nonneg || rewrite zlen_app; lia).
  rewrite go_slice_app_l by reflexivity.
  reflexivity.
Qed.

Lemma htlv_decode_frame x :
  htlv_decode (htlv_frame x)
  = HtlvOk (hf_head x) (hf_code x) (z2b (zlen (hf_body x))) (hf_body x) (crc16_bytes (htlv_covered x)).
Proof.
  unfold htlv_frame, htlv_covered at 1. rewrite htlv_decode_app by reflexivity.
  replace (check_crc _ _) with true; [reflexivity|].
  symmetry. apply check_crc_iff. reflexivity.
Qed.

Definition htlv_req (x : htlv) : req :=
  {| rq_msg := Some {| m_id := b2z (hf_code x); m_len := zlen (htlv_frame x);
                       m_data := htlv_frame x; m_raw := htlv_frame x |};
     rq_resp := Some (DecodedHTLV (hf_head x) (hf_code x) (z2b (zlen (hf_body x))) (hf_body x)
                        (crc16_bytes (htlv_covered x)) (htlv_frame x)) |}.

Lemma htlv_delivers x :
  zlen (hf_body x) <= 254 ->
  delivers (rd_chain htlv_reader) (htlv_frame x) [htlv_req x].
Proof.
  intros Hl. unfold delivers, exec_frame, execute.
  change (interceptors_of (rd_chain htlv_reader)) with [htlv_intercept; msg_handle_intercept].
  cbn [proceed]. unfold htlv_intercept at 1. cbn [get_imessage rq_msg m_data new_message].
  rewrite htlv_decode_frame. 
  pose proof (htlv_frame_len x) as Hz. pose proof (zlen_nonneg (hf_body x)) as Hn.
  replace (zlen (htlv_frame x) <? 5) with false by lia.
  rewrite (u32_small (zlen (htlv_frame x))) by lia.
  cbn. eexists _, _. split; reflexivity.
Qed.

Lemma htlv_stream xs chunks :
  Forall (fun x => zlen (hf_body x) <= 254) xs ->
  concat chunks = htlv_wire xs ->
  exists r, run_reader htlv_reader chunks = (map htlv_req xs, Running, r).
Proof.
  intros Hx Heq. eexists. unfold htlv_reader.
  erewrite run_server_reader with (fs := map htlv_frame xs) (t := [])
    (qss := map (fun p => [htlv_req p]) xs).
  - rewrite concat_singletons. reflexivity.
  - apply htlv_supported.
  - apply Forall_map. eapply Forall_impl; [|exact Hx]. intros; now apply htlv_good.
  - rewrite map_stripped_0 by reflexivity. clear Heq.
    induction Hx as [|x xs Hx0 _ IH]; cbn [map]; constructor; [now apply htlv_delivers|exact IH].
  - apply incomplete_nil, htlv_supported.
  - rewrite app_nil_r. exact Heq.
Qed.

(* A good TLV/LTV/HTLV decoder state that is wedged delivers nothing. *)
Lemma run_reader_wedged lf dec body f chunks :
  supported lf -> overlong_frame lf f -> zlen (f ++ concat chunks) < 2^63 ->
  exists r, run_reader (server_reader lf dec body) (f :: chunks) = ([], Running, r).
Proof.
  intros Hs Ho Hl.
  assert (Hgen : forall chunks b, zlen (f ++ b ++ concat chunks) < 2^63 ->
    run_reader {| rd_fd := Some (fresh_with lf (f ++ b));
                  rd_chain := rd_chain (server_reader lf dec body) |} chunks
    = ([], Running, {| rd_fd := Some (fresh_with lf (f ++ b ++ concat chunks));
                  rd_chain := rd_chain (server_reader lf dec body) |})).
  { clear chunks Hl. induction chunks as [|c cs IH]; intros b Hl.
    - cbn [run_reader concat]. now rewrite app_nil_r.
    - cbn [concat] in *. cbn [run_reader]. unfold read_chunk at 1. cbn [rd_fd].
      assert (Hd : decode (fresh_with lf (f ++ b)) c = DecOk [] (fresh_with lf (f ++ b ++ c))).
      { pose proof (feed_overlong lf f Hs Ho [c] b) as H. cbn [feed concat] in H.
        rewrite !app_nil_r in H.
        destruct (decode (fresh_with lf (f ++ b)) c) as [fs d| |];
          [|specialize (H ltac:(rewrite ?zlen_app in *; pose proof (zlen_nonneg (concat cs)); lia)); discriminate H ..].
        specialize (H ltac:(rewrite ?zlen_app in *; pose proof (zlen_nonneg (concat cs)); lia)).
        rewrite app_nil_r in H. exact H. }
      rewrite Hd. cbn [dispatch_frames rd_chain].
      specialize (IH (b ++ c)). rewrite <- app_assoc in IH. rewrite IH by exact Hl. reflexivity. }
  specialize (Hgen chunks []). cbn [app] in Hgen. rewrite app_nil_r in Hgen.
  cbn [run_reader]. unfold read_chunk at 1. cbn [rd_fd server_reader].
  assert (Hd : decode (new_frame_decoder lf) f = DecOk [] (fresh_with lf f)).
  { pose proof (feed_new_overlong lf f [] Hs Ho) as H. cbn [feed concat] in H.
    rewrite app_nil_r in H.
    rewrite zlen_app in Hl. pose proof (zlen_nonneg (concat chunks)).
    destruct (decode (new_frame_decoder lf) f) as [fs d| |];
      [|specialize (H ltac:(lia)); discriminate H ..].
    specialize (H ltac:(lia)). rewrite app_nil_r in H. exact H. }
  rewrite Hd. cbn [dispatch_frames rd_chain].
  eexists. erewrite (Hgen Hl). reflexivity.
Qed.

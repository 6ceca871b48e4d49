(* C04, C07, C08, C09, C12, C13. *)
From Coq Require Import ZArith List Bool Lia.
From Coq Require Import ZifyBool ZifyNat ZifyN.
From Verif Require Import Bytes Pack FrameDecoder Chain Crc Decoders Reader
  Spec_Framing Spec_Codec Spec_Crc Spec_Htlv FrameDecoder_proofs Codec_proofs Crc_proofs Codec2_proofs.
Import ListNotations.
Local Open Scope Z_scope.
Ltac Zify.zify_post_hook ::= Z.div_mod_to_equations.

Lemma map_seen_tlv ms : map seen (map tlv_req ms) = map Some ms.
Proof. rewrite map_map. apply map_ext. intros [id d]. reflexivity. Qed.
Lemma map_seen_ltv ms : map seen (map ltv_req ms) = map Some ms.
Proof. rewrite map_map. apply map_ext. intros [id d]. reflexivity. Qed.

Lemma wire_app pack a b : wire pack (a ++ b) = wire pack a ++ wire pack b.
Proof. unfold wire. rewrite map_app, concat_app. reflexivity. Qed.

Lemma incomplete_no_frame lf f r t :
  supported lf -> good_frame lf f -> t = f ++ r -> ~ incomplete lf t.
Proof.
  intros Hs (Hh & Hv & Hl & Hp & Hm & H63 & Hst) -> Hi.
  pose proof (zlen_nonneg r).
  destruct Hi as [Hi | (Hh' & Hv' & Hl' & _)]; rewrite ?zlen_app in *; [lia|].
  rewrite announced_app in Hl' by assumption. lia.
Qed.

Lemma incomplete_short lf f t r r' :
  supported lf -> good_frame lf f -> incomplete lf t -> t ++ r = f ++ r' -> zlen t < zlen f.
Proof.
  intros Hs Hg Hi Heq. destruct (Z_lt_le_dec (zlen t) (zlen f)) as [H|H]; [exact H|exfalso].
  destruct (app_eq_app _ _ _ _ Heq) as [q [[-> _]|[-> _]]].
  - exact (incomplete_no_frame lf f q _ Hs Hg eq_refl Hi).
  - rewrite zlen_app in H. destruct q as [|x q].
    + rewrite app_nil_r in Hg. apply (incomplete_no_frame lf t [] t); auto. now rewrite app_nil_r.
    + rewrite zlen_cons in H. pose proof (zlen_nonneg q). lia.
Qed.

Section Prompt.
  Variable pack : message -> list byte.
  Variable lf : length_field.
  Variable rd : reader.
  Variable rq : Z * list byte -> req.
  Hypothesis Hsup : supported lf.
  Hypothesis Hgood : forall p, msg_ok p -> good_frame lf (pack (new_msg_package (fst p) (snd p))).
  Hypothesis Hseen : forall ms, map seen (map rq ms) = map Some ms.
  Hypothesis Hprefix : forall msgs chunks rest,
    Forall msg_ok msgs ->
    concat chunks ++ rest = wire pack msgs ->
    exists ms1 ms2 t r,
      msgs = ms1 ++ ms2 /\ concat chunks = wire pack ms1 ++ t /\
      incomplete lf t /\ t ++ rest = wire pack ms2 /\
      run_reader rd chunks = (map rq ms1, Running, r).

  Lemma prompt msgs chunks rest :
    Forall msg_ok msgs -> concat chunks ++ rest = wire pack msgs ->
    exists qs r, run_reader rd chunks = (qs, Running, r) /\
      map seen qs = map Some (firstn (length qs) msgs) /\
      zlen (wire pack (firstn (length qs) msgs)) <= zlen (concat chunks) /\
      ((length qs < length msgs)%nat ->
        zlen (concat chunks) < zlen (wire pack (firstn (S (length qs)) msgs))).
  Proof.
    intros Hm Heq. destruct (Hprefix _ _ _ Hm Heq) as (ms1 & ms2 & t & r & -> & Hc & Hi & Ht & Hr).
    exists (map rq ms1), r. split; [exact Hr|]. rewrite map_length.
    rewrite firstn_app, firstn_all, Nat.sub_diag, firstn_O, app_nil_r.
    split; [apply Hseen|]. rewrite Hc, zlen_app. pose proof (zlen_nonneg t).
    split; [lia|]. intros Hlt. rewrite app_length in Hlt.
    destruct ms2 as [|p ms2]; [cbn in Hlt; lia|].
    replace (firstn (S (length ms1)) (ms1 ++ p :: ms2)) with (ms1 ++ [p]).
    2:{ rewrite firstn_app. rewrite firstn_all2 by lia.
        replace (S (length ms1) - length ms1)%nat with 1%nat by lia. reflexivity. }
    rewrite wire_app, zlen_app.
    apply Forall_app in Hm as [_ Hm2]. inversion Hm2 as [|? ? Hp _]; subst.
    pose proof (incomplete_short lf (pack (new_msg_package (fst p) (snd p))) t rest (wire pack ms2) Hsup (Hgood p Hp) Hi Ht) as Hs.
    change (wire pack [p]) with (pack (new_msg_package (fst p) (snd p)) ++ []).
    rewrite app_nil_r. lia.
  Qed.

  Lemma roundtrip msgs chunks :
    Forall msg_ok msgs -> concat chunks = wire pack msgs ->
    exists r, run_reader rd chunks = (map rq msgs, Running, r).
  Proof.
    intros Hm Heq.
    assert (Heq' : concat chunks ++ [] = wire pack msgs) by now rewrite app_nil_r.
    destruct (Hprefix _ _ _ Hm Heq') as (ms1 & ms2 & t & r & -> & Hc & Hi & Ht & Hr).
    destruct ms2 as [|p ms2].
    - exists r. rewrite app_nil_r. exact Hr.
    - exfalso. apply Forall_app in Hm as [_ Hm2]. inversion Hm2 as [|? ? Hp _]; subst.
      rewrite app_nil_r in Ht.
      apply (incomplete_no_frame lf _ (wire pack ms2) t Hsup (Hgood p Hp) Ht Hi).
  Qed.

  Hypothesis Hinj : forall a b, rq a = rq b -> a = b.
  Lemma unique ms ms' :
    Forall msg_ok ms -> Forall msg_ok ms' -> wire pack ms = wire pack ms' -> ms = ms'.
  Proof.
    intros H1 H2 Heq.
    destruct (roundtrip ms [wire pack ms] H1) as [r Hr]; [cbn; now rewrite app_nil_r|].
    destruct (roundtrip ms' [wire pack ms] H2) as [r' Hr']; [cbn; now rewrite app_nil_r|].
    rewrite Hr in Hr'. injection Hr' as E _.
    clear -E Hinj. revert ms' E. induction ms as [|a ms IH]; intros [|b ms'] E; try discriminate; [reflexivity|].
    cbn in E. injection E as E1 E2. rewrite (Hinj _ _ E1), (IH _ E2). reflexivity.
  Qed.
End Prompt.

Lemma tlv_good' p : msg_ok p -> good_frame tlv_length_field (pack_tlv (new_msg_package (fst p) (snd p))).
Proof. intros [_ H]. apply tlv_good. lia. Qed.
Lemma ltv_good' p : msg_ok p -> good_frame ltv_length_field (pack_ltv (new_msg_package (fst p) (snd p))).
Proof. intros [_ H]. apply ltv_good. lia. Qed.

Lemma tlv_prefix' msgs chunks rest :
  Forall msg_ok msgs -> concat chunks ++ rest = wire pack_tlv msgs ->
  exists ms1 ms2 t r,
    msgs = ms1 ++ ms2 /\ concat chunks = wire pack_tlv ms1 ++ t /\
    incomplete tlv_length_field t /\ t ++ rest = wire pack_tlv ms2 /\
    run_reader tlv_reader chunks = (map tlv_req ms1, Running, r).
Proof.
  intros Hm Heq. destruct (tlv_prefix _ _ _ Hm Heq) as (a & b & t & H1 & H2 & H3 & H4 & H5).
  exists a, b, t. eexists. repeat split; eauto.
Qed.
Lemma ltv_prefix' msgs chunks rest :
  Forall msg_ok msgs -> concat chunks ++ rest = wire pack_ltv msgs ->
  exists ms1 ms2 t r,
    msgs = ms1 ++ ms2 /\ concat chunks = wire pack_ltv ms1 ++ t /\
    incomplete ltv_length_field t /\ t ++ rest = wire pack_ltv ms2 /\
    run_reader ltv_reader chunks = (map ltv_req ms1, Running, r).
Proof.
  intros Hm Heq. destruct (ltv_prefix _ _ _ Hm Heq) as (a & b & t & H1 & H2 & H3 & H4 & H5).
  exists a, b, t. eexists. repeat split; eauto.
Qed.

Lemma tlv_roundtrip msgs chunks :
  Forall msg_ok msgs -> concat chunks = wire pack_tlv msgs ->
  exists qs r, run_reader tlv_reader chunks = (qs, Running, r) /\ map seen qs = map Some msgs /\
    map seen_len qs = map (fun p => Some (zlen (snd p))) msgs /\
    map rq_resp qs = map (fun p => Some (DecodedTLV (fst p) (zlen (snd p)) (snd p))) msgs.
Proof.
  intros H1 H2. destruct (roundtrip pack_tlv tlv_length_field tlv_reader tlv_req tlv_supported tlv_good' tlv_prefix' _ _ H1 H2) as [r Hr].
  exists (map tlv_req msgs), r. split; [exact Hr|]. split; [apply map_seen_tlv|]. rewrite !map_map. split; reflexivity.
Qed.
Lemma ltv_roundtrip msgs chunks :
  Forall msg_ok msgs -> concat chunks = wire pack_ltv msgs ->
  exists qs r, run_reader ltv_reader chunks = (qs, Running, r) /\ map seen qs = map Some msgs /\
    map seen_len qs = map (fun p => Some (zlen (snd p))) msgs /\
    map rq_resp qs = map (fun p => Some (DecodedLTV (zlen (snd p)) (fst p) (snd p))) msgs.
Proof.
  intros H1 H2. destruct (roundtrip pack_ltv ltv_length_field ltv_reader ltv_req ltv_supported ltv_good' ltv_prefix' _ _ H1 H2) as [r Hr].
  exists (map ltv_req msgs), r. split; [exact Hr|]. split; [apply map_seen_ltv|]. rewrite !map_map. split; reflexivity.
Qed.

Definition tlv_prompt := prompt pack_tlv tlv_length_field tlv_reader tlv_req tlv_supported tlv_good' map_seen_tlv tlv_prefix'.
Definition ltv_prompt := prompt pack_ltv ltv_length_field ltv_reader ltv_req ltv_supported ltv_good' map_seen_ltv ltv_prefix'.

Lemma tlv_req_inj a b : tlv_req a = tlv_req b -> a = b.
Proof. destruct a, b. intros H. injection H. intros. subst. reflexivity. Qed.
Lemma ltv_req_inj a b : ltv_req a = ltv_req b -> a = b.
Proof. destruct a, b. intros H. injection H. intros. subst. reflexivity. Qed.
Definition tlv_unique := unique pack_tlv tlv_length_field tlv_reader tlv_req tlv_supported tlv_good' tlv_prefix' tlv_req_inj.
Definition ltv_unique := unique pack_ltv ltv_length_field ltv_reader ltv_req ltv_supported ltv_good' ltv_prefix' ltv_req_inj.

(* ------------------------------------------------------------------ *)
(* Pack / Unpack *)

Lemma read_u32_put o n l : 0 <= n < 2^32 -> read_u32 o (put_uint o 4 n ++ l) = Some (n, l).
Proof.
  intros Hn. unfold read_u32. rewrite zlen_app, zlen_put_uint. pose proof (zlen_nonneg l).
  replace (Z.of_nat 4 + zlen l <? 4) with false by lia.
  rewrite ztake_app, zdrop_app by now rewrite zlen_put_uint.
  rewrite get_put_uint by exact Hn. reflexivity.
Qed.

Lemma unpack_pack_tlv max id data :
  0 <= id < 2^32 -> zlen data < 2^32 ->
  unpack_tlv max (pack_tlv (new_msg_package id data))
  = if (0 <? max) && (max <? zlen data) then UnpackTooLarge
    else UnpackOk {| m_id := id; m_len := zlen data; m_data := []; m_raw := [] |}.
Proof.
  intros Hid Hl. pose proof (zlen_nonneg data).
  unfold unpack_tlv, pack_tlv. cbn [m_id m_len m_data new_msg_package].
  rewrite u32_small by lia. rewrite !read_u32_put by lia. reflexivity.
Qed.
Lemma unpack_pack_ltv max id data :
  0 <= id < 2^32 -> zlen data < 2^32 ->
  unpack_ltv max (pack_ltv (new_msg_package id data))
  = if (0 <? max) && (max <? zlen data) then UnpackTooLarge
    else UnpackOk {| m_id := id; m_len := zlen data; m_data := []; m_raw := [] |}.
Proof.
  intros Hid Hl. pose proof (zlen_nonneg data).
  unfold unpack_ltv, pack_ltv. cbn [m_id m_len m_data new_msg_package].
  rewrite u32_small by lia. rewrite !read_u32_put by lia. reflexivity.
Qed.

Lemma unpack_tlv_cases max l :
  unpack_tlv max l =
  if zlen l <? 8 then UnpackShort
  else let n := get_uint BigEndian (ztake 4 (zdrop 4 l)) in
       if (0 <? max) && (max <? n) then UnpackTooLarge
       else UnpackOk {| m_id := get_uint BigEndian (ztake 4 l); m_len := n; m_data := []; m_raw := [] |}.
Proof.
  unfold unpack_tlv, read_u32.
  destruct (zlen l <? 4) eqn:E1. { replace (zlen l <? 8) with true by lia. reflexivity. }
  rewrite zlen_zdrop by lia.
  destruct (zlen l - 4 <? 4) eqn:E2.
  - replace (zlen l <? 8) with true by lia. reflexivity.
  - replace (zlen l <? 8) with false by lia. reflexivity.
Qed.
Lemma unpack_ltv_cases max l :
  unpack_ltv max l =
  if zlen l <? 8 then UnpackShort
  else let n := get_uint LittleEndian (ztake 4 l) in
       if (0 <? max) && (max <? n) then UnpackTooLarge
       else UnpackOk {| m_id := get_uint LittleEndian (ztake 4 (zdrop 4 l)); m_len := n; m_data := []; m_raw := [] |}.
Proof.
  unfold unpack_ltv, read_u32.
  destruct (zlen l <? 4) eqn:E1. { replace (zlen l <? 8) with true by lia. reflexivity. }
  rewrite zlen_zdrop by lia.
  destruct (zlen l - 4 <? 4) eqn:E2.
  - replace (zlen l <? 8) with true by lia. reflexivity.
  - replace (zlen l <? 8) with false by lia. reflexivity.
Qed.

(* ------------------------------------------------------------------ *)
(* MaxPacketSize *)

Lemma big_message_delivered max :
  0 < max < 2^32 - 9 ->
  exists data qs r,
    max < zlen data /\
    unpack_tlv max (pack_tlv (new_msg_package 1 data)) = UnpackTooLarge /\
    run_reader tlv_reader [pack_tlv (new_msg_package 1 data)] = (qs, Running, r) /\
    map seen qs = [Some (1, data)].
Proof.
  intros Hm. set (data := repeat x00 (Z.to_nat (max + 1))).
  assert (Hl : zlen data = max + 1) by (unfold data, zlen; rewrite repeat_length; lia).
  destruct (tlv_roundtrip [(1, data)] [pack_tlv (new_msg_package 1 data)]) as (qs & r & Hr & Hq & _).
  - constructor; [|constructor]. unfold msg_ok; cbn [fst snd]. lia.
  - reflexivity.
  - exists data, qs, r. repeat split; auto; [lia|].
    rewrite unpack_pack_tlv by lia.
    replace ((0 <? max) && (max <? zlen data)) with true by lia. reflexivity.
Qed.

(* ------------------------------------------------------------------ *)
(* Bad checksums *)

Definition htlv_chain (body : list interceptor) : builder :=
  {| bd_head := Some htlv_intercept; bd_body := body; bd_tail := Some msg_handle_intercept |}.

Lemma bad_crc_panics body h f l b c fs :
  length c = 2%nat -> check_crc (h :: f :: l :: b) c = false ->
  dispatch_frames (htlv_chain body) (((h :: f :: l :: b) ++ c) :: fs) = ([], StoppedByPanic).
Proof.
  intros Hc Hbad. apply head_panics. right.
  unfold htlv_intercept. cbn [get_imessage rq_msg m_data new_message].
  rewrite htlv_decode_app by exact Hc. rewrite Hbad.
  rewrite zlen_app, !zlen_cons. assert (zlen c = 2) by (unfold zlen; lia).
  pose proof (zlen_nonneg b).
  replace (1 + (1 + (1 + zlen b)) + zlen c <? 5) with false by lia. reflexivity.
Qed.

Lemma split_frame (f' : list byte) :
  5 <= zlen f' -> exists h f l b c, f' = (h :: f :: l :: b) ++ c /\ length c = 2%nat.
Proof.
  intros H.
  assert (Hf : f' = ztake (zlen f' - 2) f' ++ zdrop (zlen f' - 2) f') by (symmetry; apply ztake_zdrop).
  pose proof (zlen_ztake (zlen f' - 2) f' ltac:(lia)) as H1.
  pose proof (zlen_zdrop (zlen f' - 2) f' ltac:(lia)) as H2.
  remember (ztake (zlen f' - 2) f') as a. remember (zdrop (zlen f' - 2) f') as c.
  destruct a as [|h [|f [|l b]]]; rewrite ?zlen_cons, ?zlen_nil in H1;
    try (change (zlen (@nil byte)) with 0 in H1; lia).
  exists h, f, l, b, c. split; [exact Hf|]. unfold zlen in H2. lia.
Qed.

Lemma residue_frame x : crc16 (htlv_frame x) = 0.
Proof. unfold htlv_frame. now apply crc_residue. Qed.

Lemma corrupted_not_delivered x f' body fs :
  length f' = length (htlv_frame x) -> crc16 f' <> 0 ->
  dispatch_frames (htlv_chain body) (f' :: fs) = ([], StoppedByPanic).
Proof.
  intros Hlen Hne.
  assert (Hz : zlen f' = zlen (htlv_frame x)) by (unfold zlen; now rewrite Hlen).
  rewrite htlv_frame_len in Hz. pose proof (zlen_nonneg (hf_body x)).
  destruct (split_frame f') as (h & f & l & b & c & -> & Hc); [lia|].
  apply bad_crc_panics; [exact Hc|].
  destruct (check_crc (h :: f :: l :: b) c) eqn:E; [|reflexivity].
  apply check_residue in E; [contradiction|exact Hc].
Qed.

Lemma zlen_bits_lt (l : list byte) : 0 <= bits l < 2 ^ (8 * zlen l).
Proof.
  pose proof (le_val_range l) as H. unfold bits.
  replace (2 ^ (8 * zlen l)) with (256 ^ zlen l); [exact H|].
  rewrite Z.pow_mul_r by (pose proof (zlen_nonneg l); lia). reflexivity.
Qed.

(* The pattern that turns one string into another of the same length fits. *)
Lemma corrupted_bound l l' e : corrupted l l' e -> 0 <= e < 2 ^ (8 * zlen l).
Proof.
  intros [Hl Hb].
  assert (He : e = Z.lxor (bits l) (bits l'))
    by (rewrite Hb, <- Z.lxor_assoc, Z.lxor_nilpotent, Z.lxor_0_l; reflexivity).
  pose proof (zlen_bits_lt l) as H1. pose proof (zlen_bits_lt l') as H2.
  replace (zlen l') with (zlen l) in H2 by (unfold zlen; now rewrite Hl).
  assert (Hn : 0 <= e) by (rewrite He; apply Z.lxor_nonneg; lia).
  split; [exact Hn|]. 
  destruct (Z.eq_dec e 0) as [->|Hne]; [apply Z.pow_pos_nonneg; pose proof (zlen_nonneg l); lia|].
  apply Z.log2_lt_pow2; [lia|]. rewrite He.
  eapply Z.le_lt_trans; [apply Z.log2_lxor; lia|].
  assert (Hk : 0 < 8 * zlen l).
  { destruct (Z_lt_le_dec 0 (zlen l)); [lia|]. exfalso.
    assert (Hzl : zlen l = 0) by (pose proof (zlen_nonneg l); lia).
    rewrite Hzl in *. change (2 ^ (8 * 0)) with 1 in *.
    assert (bits l = 0) by lia. assert (bits l' = 0) by lia.
    apply Hne. rewrite He, H, H0. reflexivity. }
  apply Z.max_lub_lt.
  - destruct (Z.eq_dec (bits l) 0) as [->|]; [change (Z.log2 0) with 0; lia|apply Z.log2_lt_pow2; lia].
  - destruct (Z.eq_dec (bits l') 0) as [->|]; [change (Z.log2 0) with 0; lia|apply Z.log2_lt_pow2; lia].
Qed.

Lemma burst_not_delivered x f' e body fs :
  corrupted (htlv_frame x) f' e -> burst16 e ->
  dispatch_frames (htlv_chain body) (f' :: fs) = ([], StoppedByPanic).
Proof.
  intros Hc Hb. eapply corrupted_not_delivered; [apply Hc|].
  eapply burst_detected; eauto using residue_frame. apply corrupted_bound in Hc. lia.
Qed.

Lemma two_bits_not_delivered x f' e body fs :
  zlen (hf_body x) <= 255 ->
  corrupted (htlv_frame x) f' e -> two_bits (8 * zlen (htlv_frame x)) e ->
  dispatch_frames (htlv_chain body) (f' :: fs) = ([], StoppedByPanic).
Proof.
  intros Hl Hc Hb. eapply corrupted_not_delivered; [apply Hc|].
  eapply two_bits_detected; eauto using residue_frame. rewrite htlv_frame_len. lia.
Qed.

Lemma odd_flips_not_delivered x f' e body fs :
  corrupted (htlv_frame x) f' e -> odd_flips (8 * zlen (htlv_frame x)) e ->
  dispatch_frames (htlv_chain body) (f' :: fs) = ([], StoppedByPanic).
Proof.
  intros Hc Hb. eapply corrupted_not_delivered; [apply Hc|].
  eapply odd_flips_detected; eauto using residue_frame.
Qed.

(* One bad frame ends everything after it in the same stream. *)
Lemma dispatch_app b fs qss fs2 :
  Forall2 (delivers b) fs qss ->
  dispatch_frames b (fs ++ fs2)
  = (concat qss ++ fst (dispatch_frames b fs2), snd (dispatch_frames b fs2)).
Proof.
  induction 1 as [|f qs fs qss (v & es & He & Hd) _ IH]; cbn [dispatch_frames concat app].
  - now destruct (dispatch_frames b fs2).
  - unfold exec_frame in He. rewrite He, IH. now rewrite Hd, app_assoc.
Qed.

Lemma bad_frame_stops xs f' ys :
  Forall (fun x => zlen (hf_body x) <= 254) xs ->
  Forall (fun x => zlen (hf_body x) <= 254) ys ->
  good_frame htlv_length_field f' -> crc16 f' <> 0 ->
  exists r, run_reader htlv_reader [htlv_wire xs ++ f' ++ htlv_wire ys]
    = (map htlv_req xs, StoppedByPanic, r).
Proof.
  intros Hx Hy Hg Hbad. cbn [run_reader]. unfold read_chunk at 1.
  cbn [rd_fd htlv_reader server_reader].
  change (new_frame_decoder htlv_length_field) with (fresh_with htlv_length_field []).
  rewrite (decode_good htlv_length_field [] _ (map htlv_frame xs ++ f' :: map htlv_frame ys) []).
  2: apply htlv_supported.
  2:{ apply Forall_app. split; [|constructor; [exact Hg|]];
      apply Forall_map; eapply Forall_impl; try eassumption; intros; now apply htlv_good. }
  2: apply incomplete_nil, htlv_supported.
  2:{ cbn [app]. rewrite app_nil_r, concat_app. reflexivity. }
  rewrite map_stripped_0 by reflexivity.
  change (rd_chain htlv_reader) with (htlv_chain []).
  rewrite (dispatch_app _ _ (map (fun p => [htlv_req p]) xs)).
  2:{ clear Hbad. induction Hx as [|x xs Hx0 _ IH]; cbn [map]; constructor; [now apply htlv_delivers|exact IH]. }
  rewrite concat_singletons.
  destruct Hg as (Hh & Hv & Hl & _).
  assert (Hz5 : 5 <= zlen f').
  { pose proof (field_value_nonneg htlv_length_field f').
    unfold announced, header_end in *. cbn [lf_off lf_len lf_adj htlv_length_field] in *. lia. }
  destruct (split_frame f' Hz5) as (h & f & l & b & c & -> & Hc).
  rewrite bad_crc_panics.
  - cbn [fst snd]. rewrite app_nil_r. eexists. reflexivity.
  - exact Hc.
  - destruct (check_crc (h :: f :: l :: b) c) eqn:E; [|reflexivity].
    apply check_residue in E; [contradiction|exact Hc].
Qed.

(* Short messages. *)
Lemma pass_through (ic : interceptor) rest pos r :
  ic r = Proceed r pass ->
  proceed (ic :: rest) pos r
  = (Enter pos r :: fst (proceed rest (S pos) r), snd (proceed rest (S pos) r)).
Proof.
  intros H. cbn [proceed]. rewrite H. cbn [run_act pass].
  destruct (proceed rest (S pos) r) as [es [v|]]; cbn [fst snd]; [now rewrite app_nil_r|reflexivity].
Qed.

Lemma short_passes q m rest pos :
  rq_msg q = Some m ->
  (zlen (m_data m) < 8 -> proceed (tlv_intercept :: rest) pos (IcRequest q)
     = (Enter pos (IcRequest q) :: fst (proceed rest (S pos) (IcRequest q)), snd (proceed rest (S pos) (IcRequest q)))
   /\ proceed (ltv_intercept :: rest) pos (IcRequest q)
     = (Enter pos (IcRequest q) :: fst (proceed rest (S pos) (IcRequest q)), snd (proceed rest (S pos) (IcRequest q)))) /\
  (zlen (m_data m) < 5 -> proceed (htlv_intercept :: rest) pos (IcRequest q)
     = (Enter pos (IcRequest q) :: fst (proceed rest (S pos) (IcRequest q)), snd (proceed rest (S pos) (IcRequest q)))).
Proof.
  intros Hm. split; [intros Hl; split|intros Hl]; apply pass_through.
  - unfold tlv_intercept. cbn [get_imessage]. rewrite Hm.
    replace (zlen (m_data m) <? 8) with true by lia. reflexivity.
  - unfold ltv_intercept. cbn [get_imessage]. rewrite Hm.
    replace (zlen (m_data m) <? 8) with true by lia. reflexivity.
  - unfold htlv_intercept. cbn [get_imessage]. rewrite Hm.
    replace (zlen (m_data m) <? 5) with true by lia. reflexivity.
Qed.

(* Restatements used by the property file. *)
Lemma feed_new_frames lf chunks fs t :
  supported lf -> Forall (good_frame lf) fs -> incomplete lf t ->
  concat chunks = concat fs ++ t ->
  frames_of (feed (new_frame_decoder lf) chunks) = Some (map (stripped lf) fs).
Proof. intros. erewrite feed_new_stream by eassumption. reflexivity. Qed.

Lemma feed_new_overlong_frames lf f chunks :
  supported lf -> overlong_frame lf f -> zlen (f ++ concat chunks) < 2^63 ->
  frames_of (feed (new_frame_decoder lf) (f :: chunks)) = Some [].
Proof. intros. rewrite feed_new_overlong by assumption. reflexivity. Qed.

Lemma tame_feed_frames lf chunks :
  tame lf ->
  exists fs t, concat chunks = concat fs ++ t /\ Forall (good_frame lf) fs /\ incomplete lf t /\
    frames_of (feed (new_frame_decoder lf) chunks) = Some (map (stripped lf) fs).
Proof.
  intros H. destruct (tame_feed lf chunks H) as (fs & t & H1 & H2 & H3 & H4).
  exists fs, t. rewrite H4. auto.
Qed.

Lemma tlv_any_bytes_seen chunks :
  zlen (concat chunks) < 2^32 ->
  exists msgs t qs r,
    Forall msg_ok msgs /\ concat chunks = wire pack_tlv msgs ++ t /\
    incomplete tlv_length_field t /\
    run_reader tlv_reader chunks = (qs, Running, r) /\ map seen qs = map Some msgs.
Proof.
  intros H. destruct (tlv_any_bytes chunks H) as (msgs & t & H1 & H2 & H3 & H4).
  exists msgs, t. eexists _, _. repeat split; eauto. apply map_seen_tlv.
Qed.
Lemma ltv_any_bytes_seen chunks :
  zlen (concat chunks) < 2^32 ->
  exists msgs t qs r,
    Forall msg_ok msgs /\ concat chunks = wire pack_ltv msgs ++ t /\
    incomplete ltv_length_field t /\
    run_reader ltv_reader chunks = (qs, Running, r) /\ map seen qs = map Some msgs.
Proof.
  intros H. destruct (ltv_any_bytes chunks H) as (msgs & t & H1 & H2 & H3 & H4).
  exists msgs, t. eexists _, _. repeat split; eauto. apply map_seen_ltv.
Qed.

Lemma htlv_stream_seen xs chunks :
  Forall (fun x => zlen (hf_body x) <= 254) xs ->
  concat chunks = htlv_wire xs ->
  exists qs r, run_reader htlv_reader chunks = (qs, Running, r) /\
    map seen qs = map (fun x => Some (b2z (hf_code x), htlv_frame x)) xs /\
    map rq_resp qs = map (fun x => Some (DecodedHTLV (hf_head x) (hf_code x) (z2b (zlen (hf_body x)))
                          (hf_body x) (crc16_bytes (htlv_covered x)) (htlv_frame x))) xs.
Proof.
  intros H1 H2. destruct (htlv_stream xs chunks H1 H2) as [r Hr].
  exists (map htlv_req xs), r. split; [exact Hr|]. rewrite !map_map. split; reflexivity.
Qed.

Lemma bad_frame_stops_seen xs f' ys :
  Forall (fun x => zlen (hf_body x) <= 254) xs ->
  Forall (fun x => zlen (hf_body x) <= 254) ys ->
  good_frame htlv_length_field f' -> crc16 f' <> 0 ->
  exists qs r, run_reader htlv_reader [htlv_wire xs ++ f' ++ htlv_wire ys] = (qs, StoppedByPanic, r) /\
    map seen qs = map (fun x => Some (b2z (hf_code x), htlv_frame x)) xs.
Proof.
  intros H1 H2 H3 H4. destruct (bad_frame_stops xs f' ys H1 H2 H3 H4) as [r Hr].
  exists (map htlv_req xs), r. split; [exact Hr|]. rewrite !map_map. reflexivity.
Qed.

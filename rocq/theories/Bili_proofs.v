(* C103. *)
From Coq Require Import ZArith List Bool Lia.
From Coq Require Import ZifyBool ZifyNat ZifyN.
From Verif Require Import Bytes Pack FrameDecoder Chain Crc Decoders Reader
  Spec_Framing Spec_Codec Spec_Crc Spec_Htlv FrameDecoder_proofs Codec_proofs Crc_proofs Codec2_proofs
  Codec3_proofs Bili Spec_Bili.
Import ListNotations.
Local Open Scope Z_scope.

(* The request the router of x gets. *)
Definition sees (x : htlv) (q : req) : Prop :=
  (exists m, rq_msg q = Some m /\ m_id m = b2z (hf_code x)) /\
  rq_resp q = Some (DecodedHTLV (hf_head x) (hf_code x) (z2b (zlen (hf_body x))) (hf_body x)
                      (crc16_bytes (htlv_covered x)) (htlv_frame x)).

Lemma body_prefix_ok n body crc : 0 <= n <= zlen body -> body_prefix n body crc = Some (ztake n body).
Proof.
  intros H. unfold body_prefix.
  rewrite <- (ztake_zdrop n body) at 1. rewrite <- app_assoc.
  apply go_slice_app_l. rewrite zlen_ztake; lia.
Qed.

Lemma seal_frame h c body l : l = [h; c; z2b (zlen body)] ++ body -> seal l = htlv_frame (Htlv h c body).
Proof. intros ->. unfold seal. rewrite get_crc_spec. reflexivity. Qed.

Definition reply (x : htlv) : htlv :=
  let c := b2z (hf_code x) in
  Htlv (z2b 161) (hf_code x)
    (if c =? 16 then ztake 7 (hf_body x) ++ map z2b [10; 11; 12; 13; 14; 15; 16; 17; 18; 2; 20; 21; 22; 23; 24; 25; 26; 27; 1; 29; 30; 31; 32]
     else if c =? 19 then ztake 4 (hf_body x) ++ map z2b [1; 8; 9; 10; 11; 12; 13; 14; 15; 16]
     else hf_body x).

Lemma reply_answers x : askable x -> answers x (reply x).
Proof.
  intros (Hc & Hl & Hr). unfold answers, reply, repeated in *. cbn [hf_head hf_code hf_body].
  split; [reflexivity|]. split; [reflexivity|].
  destruct (b2z (hf_code x) =? 16) eqn:E1; [|destruct (b2z (hf_code x) =? 19) eqn:E2]; [| |reflexivity];
    (split; [rewrite ztake_app by (rewrite zlen_ztake; lia); reflexivity
            |rewrite zlen_app, zlen_ztake by lia; reflexivity]).
Qed.

Lemma reply_len x : askable x -> zlen (hf_body (reply x)) <= 254.
Proof.
  intros H. pose proof (reply_answers x H) as (_ & _ & Hb). destruct H as (_ & Hl & _).
  unfold repeated in Hb. destruct (b2z (hf_code x) =? 16); [lia|].
  destruct (b2z (hf_code x) =? 19); [lia|]. rewrite Hb. exact Hl.
Qed.

Lemma handle_reply x q : askable x -> sees x q -> bili_handle q = Sent (htlv_frame (reply x)).
Proof.
  intros (Hc & Hl & Hr) ((m & Hm & Hid) & Hq). unfold bili_handle. rewrite Hm, Hq, Hid.
  unfold repeated in Hr. unfold reply. cbv zeta in *.
  destruct (b2z (hf_code x) =? 16) eqn:E1.
  { unfold pack10. rewrite body_prefix_ok by lia. cbn [answered]. f_equal. apply seal_frame.
    rewrite zlen_app, zlen_ztake by lia. reflexivity. }
  destruct (b2z (hf_code x) =? 19) eqn:E2.
  { unfold pack13. rewrite body_prefix_ok by lia. cbn [answered]. f_equal. apply seal_frame.
    rewrite zlen_app, zlen_ztake by lia. reflexivity. }
  assert (P : pack14 (htlv_frame x) = Some (htlv_frame (Htlv (z2b 161) (hf_code x) (hf_body x)))).
  { unfold pack14. rewrite htlv_frame_len. unfold htlv_frame at 1, htlv_covered at 1. cbn [app].
    change (z2b 161 :: hf_code x :: z2b (zlen (hf_body x)) :: hf_body x ++ crc16_bytes (htlv_covered x))
      with ((z2b 161 :: hf_code x :: z2b (zlen (hf_body x)) :: hf_body x) ++ crc16_bytes (htlv_covered x)).
    rewrite go_slice_app_l by (rewrite !zlen_cons; lia).
    f_equal. apply seal_frame. reflexivity. }
  rewrite P. destruct (b2z (hf_code x) =? 20) eqn:E3; [reflexivity|].
  destruct (b2z (hf_code x) =? 21) eqn:E4; [lia|].
  destruct (b2z (hf_code x) =? 22) eqn:E5; [reflexivity|lia].
Qed.

Lemma output_reply xs qs : Forall askable xs -> Forall2 sees xs qs ->
  bili_output qs = htlv_wire (map reply xs).
Proof.
  intros Ha H. unfold bili_output, htlv_wire. induction H as [|x q xs qs Hx H IH]; [reflexivity|].
  inversion_clear Ha. cbn [map concat]. rewrite IH by assumption. rewrite (handle_reply x q) by assumption.
  reflexivity.
Qed.

Lemma replies_answer xs : Forall askable xs -> Forall2 answers xs (map reply xs).
Proof. induction 1; cbn [map]; constructor; auto using reply_answers. Qed.
Lemma replies_len xs : Forall askable xs -> Forall (fun y => zlen (hf_body y) <= 254) (map reply xs).
Proof. induction 1; cbn [map]; constructor; auto using reply_len. Qed.

Lemma askable_len xs : Forall askable xs -> Forall (fun x => zlen (hf_body x) <= 254) xs.
Proof. apply Forall_impl. intros x H. apply H. Qed.

Lemma sees_htlv x : sees x (htlv_req x).
Proof. split; [eexists; split; reflexivity|reflexivity]. Qed.

(* --- bare frames, with the HTLV decoder of the server --- *)
Lemma bare_conversation xs chunks : Forall askable xs -> concat chunks = htlv_wire xs ->
  exists qs r ys, run_reader htlv_reader chunks = (qs, Running, r) /\
    bili_output qs = htlv_wire ys /\ Forall2 answers xs ys /\ Forall (fun y => zlen (hf_body y) <= 254) ys.
Proof.
  intros Ha Hc. destruct (htlv_stream xs chunks (askable_len xs Ha) Hc) as [r Hr].
  exists (map htlv_req xs), r, (map reply xs). repeat split; auto using replies_answer, replies_len.
  apply output_reply; [assumption|]. clear. induction xs; cbn [map]; constructor; auto using sees_htlv.
Qed.

(* --- wrapped frames, with the server as it is written --- *)
Definition wrap (p : Z * htlv) : Z * list byte := (fst p, htlv_frame (snd p)).
Definition wrapped_req (p : Z * htlv) : req :=
  {| rq_msg := Some {| m_id := b2z (hf_code (snd p)); m_len := zlen (htlv_frame (snd p));
                       m_data := htlv_frame (snd p); m_raw := pack_tlv (new_msg_package (fst p) (htlv_frame (snd p))) |};
     rq_resp := Some (DecodedHTLV (hf_head (snd p)) (hf_code (snd p)) (z2b (zlen (hf_body (snd p)))) (hf_body (snd p))
                        (crc16_bytes (htlv_covered (snd p))) (htlv_frame (snd p))) |}.

Lemma tlv_decode_wrapped id data : 0 <= id < 2^32 -> zlen data < 2^32 - 8 ->
  tlv_decode (pack_tlv (new_msg_package id data)) = Some (id, zlen data, data).
Proof.
  intros Hi Hd. pose proof (zlen_nonneg data). unfold tlv_decode, pack_tlv.
  cbn [m_id m_len m_data new_msg_package].
  rewrite !(u32_small (zlen data)) by lia.
  rewrite go_slice_app_l by now rewrite zlen_put_uint.
  rewrite (go_slice_mid _ 4 8 (put_uint BigEndian 4 id) (put_uint BigEndian 4 (zlen data)) data)
    by (rewrite ?zlen_put_uint; reflexivity || lia).
  rewrite !get_put_uint by (change (256 ^ Z.of_nat 4) with (2^32); lia).
  rewrite u32_small by lia.
  rewrite app_assoc, (go_slice_app_r 8) by (rewrite ?zlen_app, ?zlen_put_uint; lia).
  reflexivity.
Qed.

Lemma wrapped_delivers p : 0 <= fst p < 2^32 -> zlen (hf_body (snd p)) <= 254 ->
  delivers (rd_chain bili_reader) (pack_tlv (new_msg_package (fst p) (htlv_frame (snd p)))) [wrapped_req p].
Proof.
  intros Hi Hl. destruct p as [id x]. cbn [fst snd] in *. unfold delivers, exec_frame, execute.
  change (interceptors_of (rd_chain bili_reader)) with [tlv_intercept; htlv_intercept; msg_handle_intercept].
  pose proof (htlv_frame_len x) as Hz. pose proof (zlen_nonneg (hf_body x)) as Hn.
  pose proof (tlv_decode_wrapped id (htlv_frame x) Hi ltac:(lia)) as Hd.
  pose proof (pack_tlv_len id (htlv_frame x)) as Hp.
  unfold wrapped_req. cbn [fst snd].
  remember (pack_tlv (new_msg_package id (htlv_frame x))) as w eqn:Ew. clear Ew.
  cbn [proceed]. unfold tlv_intercept at 1. cbn [get_imessage rq_msg m_data new_message].
  replace (zlen w <? 8) with false by lia.
  rewrite Hd. clear Hd.
  cbn [proceed_with_imessage set_data_len set_data set_msg_id run_act proceed pass].
  unfold htlv_intercept at 1. cbn [get_imessage rq_msg].
  change (m_data (set_data_len (set_data (set_msg_id (new_message (u32 (zlen w)) w) id) (htlv_frame x))
    (zlen (htlv_frame x)))) with (htlv_frame x).
  replace (zlen (htlv_frame x) <? 5) with false by lia.
  rewrite htlv_decode_frame.
  cbn. eexists _, _. split; reflexivity.
Qed.

Lemma wrapped_conversation ps chunks : Forall (fun p => 0 <= fst p < 2^32) ps -> Forall (fun p => askable (snd p)) ps ->
  concat chunks = wire pack_tlv (map wrap ps) ->
  exists qs r ys, run_reader bili_reader chunks = (qs, Running, r) /\
    bili_output qs = htlv_wire ys /\ Forall2 answers (map snd ps) ys /\ Forall (fun y => zlen (hf_body y) <= 254) ys.
Proof.
  intros Hi Ha Hc.
  assert (Ha' : Forall askable (map snd ps)) by now apply Forall_map.
  eexists _, _, (map reply (map snd ps)). split; [|split; [|split]].
  - unfold bili_reader. eapply run_server_reader with (t := [])
      (fs := map (fun p => pack_tlv (new_msg_package (fst p) (htlv_frame (snd p)))) ps)
      (qss := map (fun p => [wrapped_req p]) ps).
    + apply tlv_supported.
    + apply Forall_map. eapply Forall_impl; [|exact Ha]. intros p (_ & Hl & _). apply tlv_good.
      rewrite htlv_frame_len. lia.
    + rewrite map_stripped_0 by reflexivity. clear Hc Ha'.
      induction ps as [|p ps IH]; cbn [map]; constructor.
      * inversion_clear Hi; inversion_clear Ha. apply wrapped_delivers; [assumption|apply H1].
      * inversion_clear Hi; inversion_clear Ha. now apply IH.
    + apply incomplete_nil, tlv_supported.
    + rewrite app_nil_r, Hc. unfold wire. rewrite map_map. reflexivity.
  - rewrite concat_singletons. apply output_reply; [assumption|].
    clear. induction ps as [|p ps IH]; cbn [map]; constructor; [|exact IH].
    split; [eexists; split; reflexivity|reflexivity].
  - now apply replies_answer.
  - now apply replies_len.
Qed.

(* --- what a reader with the HTLV decoder makes of bytes that are less than a frame --- *)
Lemma htlv_waits h c l rest : zlen rest < b2z l + 2 -> b2z l <= 254 -> exists r,
  run_reader htlv_reader [h :: c :: l :: rest] = ([], Running, r).
Proof.
  intros H Hl. eexists. unfold htlv_reader.
  apply (run_server_reader _ _ _ _ [] [] (h :: c :: l :: rest)).
  - apply htlv_supported.
  - constructor.
  - constructor.
  - right. pose proof (b2z_range l). pose proof (zlen_nonneg rest).
    assert (Hf : field_value htlv_length_field (h :: c :: l :: rest) = b2z l).
    { unfold field_value. cbn [lf_len lf_off htlv_length_field order_of lf_order].
      change (zdrop 2 (?a :: ?b :: ?l)) with l. change (ztake 1 (?a :: ?l)) with [a].
      unfold get_uint, be_val. cbn [rev app le_val]. lia. }
    unfold announced, header_end. rewrite Hf. rewrite !zlen_cons.
    cbn [lf_off lf_len lf_adj lf_max htlv_length_field]. lia.
  - cbn [concat app]. now rewrite app_nil_r.
Qed.

Lemma pack15_bytes x : 7 <= zlen (hf_body x) ->
  exists rest, zlen rest = 37 /\
    pack15 (hf_code x) (hf_body x) (crc16_bytes (htlv_covered x)) = Some (z2b 161 :: hf_code x :: z2b 38 :: rest).
Proof.
  intros H. unfold pack15. rewrite body_prefix_ok by lia. unfold seal. rewrite get_crc_spec.
  remember (crc16_bytes (_ ++ _)) as c eqn:Ec. assert (Hc : zlen c = 2) by (subst c; reflexivity). clear Ec.
  eexists. split; [|rewrite <- app_assoc; reflexivity].
  cbn [app]. rewrite !zlen_app, zlen_ztake by lia. rewrite Hc. reflexivity.
Qed.

Lemma bare_waits chunks : forall s, concat chunks = s ->
  8 <= zlen s < announced tlv_length_field s -> exists r, run_reader bili_reader chunks = ([], Running, r).
Proof.
  intros s Hs H. eexists. unfold bili_reader.
  apply (run_server_reader _ _ _ _ [] [] s).
  - apply tlv_supported.
  - constructor.
  - constructor.
  - right. unfold announced, header_end in *. cbn [lf_off lf_len lf_adj lf_max tlv_length_field] in *.
    assert (R : 0 <= field_value tlv_length_field s < 2^32).
    { unfold field_value. cbn [lf_off lf_len tlv_length_field order_of lf_order].
      apply get_uint_4. destruct (split4 s ltac:(lia)) as (a & f1 & E1 & Ha).
      assert (zlen a = 4) by (unfold zlen; lia).
      assert (4 <= zlen f1) by (rewrite E1, zlen_app in H; lia).
      destruct (split4 f1 ltac:(lia)) as (b & f2 & E2 & Hb).
      assert (zlen b = 4) by (unfold zlen; lia).
      rewrite E1, zdrop_app, E2, ztake_app by lia. exact Hb. }
    lia.
  - cbn [concat app]. exact Hs.
Qed.

Lemma bare_announced x s : 5 <= zlen (hf_body x) ->
  announced tlv_length_field (htlv_frame x ++ s) = get_uint BigEndian (ztake 4 (zdrop 1 (hf_body x))) + 8.
Proof.
  intros H. unfold announced, header_end, field_value.
  cbn [lf_off lf_len lf_adj tlv_length_field order_of lf_order].
  destruct x as [h c [|b body]]; [cbn in H; lia|]. cbn [hf_body] in *. rewrite zlen_cons in H.
  destruct (split4 body ltac:(lia)) as (k & body' & -> & Hk).
  unfold htlv_frame, htlv_covered. cbn [hf_head hf_code hf_body app].
  change (zdrop 4 (?a :: ?b :: ?c :: ?d :: ?l)) with l. change (zdrop 1 (?a :: ?l)) with l.
  rewrite <- !app_assoc. rewrite !ztake_app by (unfold zlen; lia). lia.
Qed.

Lemma body_prefix_short n body crc : zlen body + zlen crc < n -> body_prefix n body crc = None.
Proof.
  intros H. unfold body_prefix, go_slice. rewrite zlen_app.
  replace ((0 <? 0) || (n <? 0) || (zlen body + zlen crc <? n)) with true by lia. reflexivity.
Qed.

(* What a single device frame does. *)
Lemma one_frame x : zlen (hf_body x) <= 254 ->
  exists r, run_reader htlv_reader [htlv_frame x] = ([htlv_req x], Running, r).
Proof.
  intros H. apply (htlv_stream [x]); [auto|]. unfold htlv_wire. cbn [map concat]. reflexivity.
Qed.

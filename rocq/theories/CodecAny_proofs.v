(* The receive path on arbitrary bytes of any number. *)
From Coq Require Import ZArith List Bool Lia ZifyBool.
From Verif Require Import Bytes Pack FrameDecoder Chain Decoders Spec_Framing Spec_Codec Reader FrameDecoder_proofs Codec_proofs Codec2_proofs Codec3_proofs.
Import ListNotations.
Local Open Scope Z_scope.

Lemma dispatch_frames_app b fs1 qss fs2 : Forall2 (delivers b) fs1 qss ->
  dispatch_frames b (fs1 ++ fs2) = let '(ds, s) := dispatch_frames b fs2 in (concat qss ++ ds, s).
Proof.
  induction 1 as [|f qs fs qss (v & es & He & Hd) _ IH]; cbn [app concat]; [now destruct (dispatch_frames b fs2)|].
  cbn [dispatch_frames]. unfold exec_frame in He. rewrite He, IH. destruct (dispatch_frames b fs2) as [ds s]. rewrite Hd. now rewrite app_assoc.
Qed.

Lemma run_reader_dies lf bd chunks : forall fs qss big more t b,
  supported lf -> Forall (good_frame lf) (fs ++ big :: more) -> Forall2 (delivers bd) (map (stripped lf) fs) qss ->
  (forall rest, dispatch_frames bd (stripped lf big :: rest) = ([], StoppedByPanic)) ->
  incomplete lf t -> incomplete lf b -> b ++ concat chunks = concat (fs ++ big :: more) ++ t ->
  exists r, run_reader {| rd_fd := Some (fresh_with lf b); rd_chain := bd |} chunks = (concat qss, StoppedByPanic, r).
Proof.
  induction chunks as [|c cs IH]; intros fs qss big more t b Hs Hf Hq Hp Ht Hb Heq.
  - pose proof (feed_stream lf [] (fs ++ big :: more) t b Hs Hf Ht Hb Heq) as H. cbn [feed] in H. injection H as H _. rewrite map_app in H. destruct (map (stripped lf) fs); discriminate.
  - cbn [concat] in Heq. rewrite app_assoc in Heq. symmetry in Heq.
    destruct (stream_prefix lf _ t (b ++ c) (concat cs) Hs Hf Ht Heq) as (fs1 & fs2 & t1 & E & Ec & Hi1 & Ht1).
    assert (Hf' := Hf). rewrite E in Hf'. apply Forall_app in Hf' as [Hf1 Hf2].
    cbn [run_reader]. unfold read_chunk at 1. cbn [rd_fd rd_chain]. rewrite (decode_good lf b c fs1 t1) by assumption.
    assert (D : (exists l, fs = fs1 ++ l /\ fs2 = l ++ big :: more) \/ exists l, fs1 = fs ++ big :: l).
    { clear - E. revert fs1 E. induction fs as [|f fs IHf]; intros [|g fs1] E; cbn [app] in *.
      - left. now exists [].
      - right. injection E as -> E. now exists fs1.
      - left. exists (f :: fs). now split.
      - injection E as -> E. destruct (IHf _ E) as [(l & -> & ->)|(l & ->)]; [left; now exists l|right; now exists l]. }
    destruct D as [(l & -> & ->)|(l & ->)].
    + rewrite map_app in Hq. apply Forall2_app_inv_l in Hq as (q1 & q2 & Hq1 & Hq2 & ->).
      rewrite (dispatch_frames_ok _ _ _ Hq1). destruct (IH l q2 big more t t1 Hs Hf2 Hq2 Hp Ht Hi1 Ht1) as (r & ->). exists r. now rewrite concat_app.
    + rewrite map_app. cbn [map]. rewrite (dispatch_frames_app _ _ _ _ Hq), Hp. eexists. now rewrite app_nil_r.
Qed.

(* The first frame, if any, that is too long for the decoder. *)
Lemma split_big (pack : message -> list byte) lf fs :
  (forall f, good_frame lf f -> exists id data, 0 <= id < 2^32 /\ zlen data < 2^32 /\ f = pack (new_msg_package id data)) ->
  Forall (good_frame lf) fs ->
  exists msgs, Forall msg_ok msgs /\ (fs = map (fun p => pack (new_msg_package (fst p) (snd p))) msgs \/
    exists id data more, 2^32 - 8 <= zlen data < 2^32 /\ fs = map (fun p => pack (new_msg_package (fst p) (snd p))) msgs ++ pack (new_msg_package id data) :: more).
Proof.
  intros Hp. induction 1 as [|f fs Hg _ (msgs & Hm & IH)]; [exists []; split; [constructor|now left]|].
  destruct (Hp f Hg) as (id & data & Hid & Hd & ->). destruct (Z.lt_ge_cases (zlen data) (2^32 - 8)) as [L|L].
  - exists ((id, data) :: msgs). split; [constructor; [unfold msg_ok; cbn; lia|exact Hm]|]. destruct IH as [->|(i & x & more & Hx & ->)]; [now left|right]. now exists i, x, more.
  - exists []. split; [constructor|]. right. exists id, data, fs. split; [lia|reflexivity].
Qed.

Lemma tlv_big_panics id data : 2^32 - 8 <= zlen data < 2^32 -> forall rest,
  dispatch_frames (rd_chain tlv_reader) (pack_tlv (new_msg_package id data) :: rest) = ([], StoppedByPanic).
Proof.
  intros Hl rest. unfold tlv_reader, server_reader. cbn [rd_chain]. rewrite head_panics; [reflexivity|].
  right. unfold tlv_intercept. cbn [get_imessage rq_msg m_data new_message]. rewrite pack_tlv_len. replace (8 + zlen data <? 8) with false by lia. now rewrite tlv_decode_overflow.
Qed.
Lemma ltv_big_panics id data : 2^32 - 8 <= zlen data < 2^32 -> forall rest,
  dispatch_frames (rd_chain ltv_reader) (pack_ltv (new_msg_package id data) :: rest) = ([], StoppedByPanic).
Proof.
  intros Hl rest. unfold ltv_reader, server_reader. cbn [rd_chain]. rewrite head_panics; [reflexivity|].
  right. unfold ltv_intercept. cbn [get_imessage rq_msg m_data new_message]. rewrite pack_ltv_len. replace (8 + zlen data <? 8) with false by lia. now rewrite ltv_decode_overflow.
Qed.

Lemma any_bytes pack lf dec reqof bytes :
  let rd := server_reader lf dec [] in
  tame lf -> lf_strip lf = 0 -> (forall f, good_frame lf f -> exists id data, 0 <= id < 2^32 /\ zlen data < 2^32 /\ f = pack (new_msg_package id data)) ->
  (forall p, msg_ok p -> delivers (rd_chain rd) (pack (new_msg_package (fst p) (snd p))) [reqof p]) ->
  (forall id data, 2^32 - 8 <= zlen data < 2^32 -> forall rest, dispatch_frames (rd_chain rd) (pack (new_msg_package id data) :: rest) = ([], StoppedByPanic)) ->
  (forall msgs, map seen (map reqof msgs) = map Some msgs) ->
  exists msgs t st, Forall msg_ok msgs /\ bytes = wire pack msgs ++ t /\
    (incomplete lf t /\ st = Running \/ (exists id data more, 2^32 - 8 <= zlen data < 2^32 /\ t = pack (new_msg_package id data) ++ more) /\ st = StoppedByPanic) /\
    forall chunks, concat chunks = bytes -> exists qs r, run_reader rd chunks = (qs, st, r) /\ map seen qs = map Some msgs.
Proof.
  intros rd T Z0 Hp Hd Hb Hs. assert (S := proj1 T).
  destruct (tame_parse _ T _ bytes (le_n _)) as (fs & t & He & Hf & Hi).
  destruct (split_big pack lf fs Hp Hf) as (msgs & Hm & C).
  assert (Q : Forall2 (delivers (rd_chain rd)) (map (fun p => pack (new_msg_package (fst p) (snd p))) msgs) (map (fun p => [reqof p]) msgs)).
  { clear - Hm Hd. induction Hm; cbn [map]; constructor; auto. }
  destruct C as [->|(id & data & more & Hl & ->)].
  - exists msgs, t, Running. split; [exact Hm|]. split; [exact He|]. split; [left; now split|]. intros chunks Ec. eexists _, _. split.
    { unfold rd. eapply run_server_reader; eauto; [rewrite map_stripped_0 by exact Z0; exact Q|now rewrite Ec]. }
    rewrite concat_singletons. apply Hs.
  - exists msgs, (pack (new_msg_package id data) ++ concat more ++ t), StoppedByPanic. split; [exact Hm|]. split.
    { rewrite He, concat_app. cbn [concat]. unfold wire. now rewrite <- !app_assoc. }
    split; [right; split; [now exists id, data, (concat more ++ t)|reflexivity]|]. intros chunks Ec.
    destruct (run_reader_dies lf (rd_chain rd) chunks _ (map (fun p => [reqof p]) msgs) (pack (new_msg_package id data)) more t [] S Hf) as (r & R); auto.
    + now rewrite map_stripped_0 by exact Z0.
    + intros rest. assert (X := map_stripped_0 lf [pack (new_msg_package id data)] Z0). cbn [map] in X. injection X as ->. now apply Hb.
    + now apply incomplete_nil.
    + cbn [app]. now rewrite Ec.
    + eexists _, r. split; [exact R|]. rewrite concat_singletons. apply Hs.
Qed.

Lemma tlv_any bytes : exists msgs t st, Forall msg_ok msgs /\ bytes = wire pack_tlv msgs ++ t /\
  (incomplete tlv_length_field t /\ st = Running \/ (exists id data more, 2^32 - 8 <= zlen data < 2^32 /\ t = pack_tlv (new_msg_package id data) ++ more) /\ st = StoppedByPanic) /\
  forall chunks, concat chunks = bytes -> exists qs r, run_reader tlv_reader chunks = (qs, st, r) /\ map seen qs = map Some msgs.
Proof. apply (any_bytes pack_tlv tlv_length_field tlv_intercept tlv_req bytes tlv_tame eq_refl tlv_good_is_pack tlv_delivers tlv_big_panics map_seen_tlv). Qed.
Lemma ltv_any bytes : exists msgs t st, Forall msg_ok msgs /\ bytes = wire pack_ltv msgs ++ t /\
  (incomplete ltv_length_field t /\ st = Running \/ (exists id data more, 2^32 - 8 <= zlen data < 2^32 /\ t = pack_ltv (new_msg_package id data) ++ more) /\ st = StoppedByPanic) /\
  forall chunks, concat chunks = bytes -> exists qs r, run_reader ltv_reader chunks = (qs, st, r) /\ map seen qs = map Some msgs.
Proof. apply (any_bytes pack_ltv ltv_length_field ltv_intercept ltv_req bytes ltv_tame eq_refl ltv_good_is_pack ltv_delivers ltv_big_panics map_seen_ltv). Qed.

(* Proofs for C83: the bytes a connection keeps. *)
From Coq Require Import ZArith List Bool Lia.
From Verif Require Import Bytes Pack FrameDecoder Chain Decoders Reader Spec_Framing Spec_Codec Spec_Htlv Spec_Kept FrameDecoder_proofs Codec_proofs Codec2_proofs.
Import ListNotations.
Local Open Scope Z_scope.

(* While the reader runs, its decoder is in the state that feeding the chunks gives. *)
Lemma reader_feed : forall chunks r d qs r', rd_fd r = Some d -> run_reader r chunks = (qs, Running, r') ->
  exists fs d', feed d chunks = DecOk fs d' /\ rd_fd r' = Some d'.
Proof.
  induction chunks as [|c cs IH]; intros r d qs r' Hd H; cbn [run_reader feed] in *.
  - injection H as _ <-. eauto.
  - unfold read_chunk in H. rewrite Hd in H. destruct (decode d c) as [fs d1| |]; try discriminate.
    destruct (dispatch_frames (rd_chain r) fs) as [ds s]. destruct s; try discriminate.
    match type of H with context [run_reader ?r1 cs] => destruct (run_reader r1 cs) as [[ds' s'] r''] eqn:E; set (r1' := r1) in E end.
    injection H as _ -> ->. destruct (IH r1' d1 ds' r' eq_refl E) as (fs' & d' & F & G). rewrite F. eauto.
Qed.
Lemma kept_feed lf dec body chunks qs r fs d : run_reader (server_reader lf dec body) chunks = (qs, Running, r) ->
  feed (new_frame_decoder lf) chunks = DecOk fs d -> kept r = fd_in d.
Proof. intros H F. destruct (reader_feed chunks (server_reader lf dec body) (new_frame_decoder lf) _ _ eq_refl H) as (fs' & d' & F' & G). unfold kept. rewrite G. congruence. Qed.

Lemma incomplete_bound lf t : incomplete lf t -> zlen t < Z.max (header_end lf) (lf_max lf).
Proof. intros [H|(_ & _ & H & H' & _)]; lia. Qed.

Lemma kept_tame lf dec body chunks qs r : tame lf -> run_reader (server_reader lf dec body) chunks = (qs, Running, r) ->
  exists fs, concat chunks = concat fs ++ kept r /\ Forall (good_frame lf) fs /\ incomplete lf (kept r) /\ zlen (kept r) < lf_max lf.
Proof.
  intros T H. destruct (tame_feed lf chunks T) as (fs & t & E & G & I & F). rewrite (kept_feed _ _ _ _ _ _ _ _ H F). exists fs. cbn [fresh_with fd_in set_in].
  split; [exact E|]. split; [exact G|]. split; [exact I|]. apply incomplete_bound in I. destruct T as (S & _ & A & _ & M & _).
  assert (0 <= 256 ^ lf_len lf - 1). { destruct S as (_ & _ & W & _). cbn [In] in W. destruct W as [<-|[<-|[<-|[<-|[<-|[]]]]]]; vm_compute; discriminate. } cbn. lia.
Qed.
Lemma kept_stream lf dec body chunks qs r fs t : supported lf -> Forall (good_frame lf) fs -> incomplete lf t -> concat chunks = concat fs ++ t ->
  run_reader (server_reader lf dec body) chunks = (qs, Running, r) -> kept r = t.
Proof. intros S F I E H. now rewrite (kept_feed _ _ _ _ _ _ _ _ H (feed_new_stream lf chunks fs t S F I E)). Qed.
Lemma kept_overlong lf dec body f chunks : supported lf -> overlong_frame lf f -> zlen (f ++ concat chunks) < 2^63 ->
  exists r, run_reader (server_reader lf dec body) (f :: chunks) = ([], Running, r) /\ kept r = f ++ concat chunks.
Proof.
  intros S O L. destruct (run_reader_wedged lf dec body f chunks S O L) as (r & H). exists r. split; [exact H|].
  now rewrite (kept_feed _ _ _ _ _ _ _ _ H (feed_new_overlong lf f chunks S O L)).
Qed.

Lemma feed_nothing : forall chunks r d d', rd_fd r = Some d -> feed d chunks = DecOk [] d' ->
  run_reader r chunks = ([], Running, {| rd_fd := Some d'; rd_chain := rd_chain r |}).
Proof.
  induction chunks as [|c cs IH]; intros r d d' Hd H; cbn [run_reader feed] in *.
  - injection H as <-. rewrite <- Hd. now destruct r.
  - unfold read_chunk. rewrite Hd. destruct (decode d c) as [fs d1| |]; try discriminate.
    destruct (feed d1 cs) as [fs' d2| |] eqn:E; try discriminate. injection H as H ->. apply app_eq_nil in H as (-> & ->). cbn [dispatch_frames].
    rewrite (IH {| rd_fd := Some d1; rd_chain := rd_chain r |} d1 d' eq_refl E). reflexivity.
Qed.
Lemma kept_announced id n body : 0 <= id < 2^32 -> zlen body < n -> n < 2^32 ->
  exists r, run_reader tlv_reader [be_bytes 4 id ++ be_bytes 4 n; body] = ([], Running, r) /\ zlen (kept r) = 8 + zlen body.
Proof.
  intros Hi Hb Hn. set (t := be_bytes 4 id ++ be_bytes 4 n ++ body). pose proof (zlen_nonneg body) as Hz.
  assert (L : zlen t = 8 + zlen body). { unfold t. change (be_bytes 4) with (put_uint BigEndian 4). rewrite !zlen_app, !zlen_put_uint. lia. }
  assert (V : field_value tlv_length_field t = n).
  { unfold field_value, t. cbn [lf_len lf_off tlv_length_field order_of lf_order]. change (be_bytes 4) with (put_uint BigEndian 4).
    change 4 with (Z.of_nat 4) at 1 2. rewrite zdrop_put, ztake_put. apply get_put_uint. cbn. lia. }
  assert (I : incomplete tlv_length_field t).
  { right. unfold announced, header_end. rewrite V, L. cbn [lf_len lf_off lf_adj lf_max tlv_length_field]. lia. }
  assert (F : feed (new_frame_decoder tlv_length_field) [be_bytes 4 id ++ be_bytes 4 n; body] = DecOk [] (fresh_with tlv_length_field t)).
  { apply (feed_new_stream tlv_length_field _ [] t tlv_supported); [constructor|exact I|]. cbn [concat app]. unfold t. now rewrite app_nil_r, <- app_assoc. }
  eexists. split; [exact (feed_nothing _ tlv_reader _ _ eq_refl F)|exact L].
Qed.

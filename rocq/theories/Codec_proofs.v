From Coq Require Import ZArith List Bool Lia.
From Coq Require Import ZifyBool ZifyNat ZifyN.
From Verif Require Import Bytes Pack FrameDecoder Chain Decoders Reader Spec_Framing Spec_Codec FrameDecoder_proofs.
Import ListNotations.
Local Open Scope Z_scope.
Ltac Zify.zify_post_hook ::= Z.div_mod_to_equations.

(* What one frame does to the chain. *)
Definition exec_frame (b : builder) (f : list byte) : list event * outcome :=
  execute b (IcRequest {| rq_msg := Some (new_message (u32 (zlen f)) f); rq_resp := None |}).

(* Frame f makes chain b deliver exactly the requests qs and return normally. *)
Definition delivers (b : builder) (f : list byte) (qs : list req) : Prop :=
  exists v es, exec_frame b f = (es, Returned v) /\ delivered_of es = qs.

Lemma dispatch_frames_ok b fs qss :
  Forall2 (delivers b) fs qss ->
  dispatch_frames b fs = (concat qss, Running).
Proof.
  induction 1 as [|f qs fs qss (v & es & He & Hd) _ IH]; cbn [dispatch_frames concat]; [reflexivity|].
  unfold exec_frame in He. rewrite He. rewrite IH. now rewrite Hd.
Qed.

(* Reading a well-formed stream in any chunking, for any chain. *)
Lemma run_reader_stream lf bd chunks : forall fs qss t b,
  supported lf -> Forall (good_frame lf) fs ->
  Forall2 (delivers bd) (map (stripped lf) fs) qss ->
  incomplete lf t -> incomplete lf b ->
  b ++ concat chunks = concat fs ++ t ->
  run_reader {| rd_fd := Some (fresh_with lf b); rd_chain := bd |} chunks
  = (concat qss, Running, {| rd_fd := Some (fresh_with lf t); rd_chain := bd |}).
Proof.
  induction chunks as [|c cs IH]; intros fs qss t b Hs Hf Hq Ht Hb Heq.
  - pose proof (feed_stream lf [] fs t b Hs Hf Ht Hb Heq) as H.
    cbn [feed] in H. injection H as Hm Hb'. destruct fs; [|discriminate].
    inversion Hq; subst. cbn [run_reader concat].
    cbn in Heq. rewrite app_nil_r in Heq. now subst.
  - cbn [concat] in Heq. rewrite app_assoc in Heq. symmetry in Heq.
    destruct (stream_prefix lf fs t (b ++ c) (concat cs) Hs Hf Ht Heq)
      as (fs1 & fs2 & t1 & -> & Hp & Hi1 & Ht1).
    apply Forall_app in Hf as [Hf1 Hf2].
    rewrite map_app in Hq. apply Forall2_app_inv_l in Hq as (q1 & q2 & Hq1 & Hq2 & ->).
    cbn [run_reader]. unfold read_chunk at 1. cbn [rd_fd rd_chain].
    rewrite (decode_good lf b c fs1 t1) by assumption.
    rewrite (dispatch_frames_ok _ _ _ Hq1).
    rewrite (IH fs2 q2 t t1) by assumption.
    now rewrite concat_app.
Qed.

Lemma run_server_reader lf dec body chunks fs qss t :
  supported lf -> Forall (good_frame lf) fs ->
  Forall2 (delivers (rd_chain (server_reader lf dec body))) (map (stripped lf) fs) qss ->
  incomplete lf t ->
  concat chunks = concat fs ++ t ->
  run_reader (server_reader lf dec body) chunks
  = (concat qss, Running,
     {| rd_fd := Some (fresh_with lf t); rd_chain := rd_chain (server_reader lf dec body) |}).
Proof.
  intros Hs Hf Hq Ht Heq.
  change (server_reader lf dec body) with
    {| rd_fd := Some (fresh_with lf []); rd_chain := rd_chain (server_reader lf dec body) |} at 1.
  eapply run_reader_stream; eauto using incomplete_nil.
Qed.

(* ------------------------------------------------------------------ *)
(* TLV *)

Lemma tlv_supported : supported tlv_length_field.
Proof. unfold supported, header_end; cbn. lia. Qed.
Lemma ltv_supported : supported ltv_length_field.
Proof. unfold supported, header_end; cbn. lia. Qed.

Lemma ztake_put o w n l : ztake (Z.of_nat w) (put_uint o w n ++ l) = put_uint o w n.
Proof. apply ztake_app. now rewrite zlen_put_uint. Qed.
Lemma zdrop_put o w n l : zdrop (Z.of_nat w) (put_uint o w n ++ l) = l.
Proof. apply zdrop_app. now rewrite zlen_put_uint. Qed.

Lemma pack_tlv_len id data : zlen (pack_tlv (new_msg_package id data)) = 8 + zlen data.
Proof. unfold pack_tlv. rewrite !zlen_app, !zlen_put_uint. cbn [m_data new_msg_package]. lia. Qed.
Lemma pack_ltv_len id data : zlen (pack_ltv (new_msg_package id data)) = 8 + zlen data.
Proof. unfold pack_ltv. rewrite !zlen_app, !zlen_put_uint. cbn [m_data new_msg_package]. lia. Qed.

Lemma tlv_field id data :
  zlen data < 2^32 ->
  field_value tlv_length_field (pack_tlv (new_msg_package id data)) = zlen data.
Proof.
  intros H. unfold field_value, pack_tlv. cbn [lf_len lf_off tlv_length_field order_of lf_order m_id m_len m_data new_msg_package].
  change 4 with (Z.of_nat 4). rewrite zdrop_put, ztake_put.
  pose proof (zlen_nonneg data). rewrite u32_small by lia.
  apply get_put_uint. change (256 ^ Z.of_nat 4) with (2^32). lia.
Qed.

Lemma ltv_field id data :
  zlen data < 2^32 ->
  field_value ltv_length_field (pack_ltv (new_msg_package id data)) = zlen data.
Proof.
  intros H. unfold field_value, pack_ltv. cbn [lf_len lf_off ltv_length_field order_of lf_order m_id m_len m_data new_msg_package].
  rewrite zdrop_0.
  change 4 with (Z.of_nat 4). rewrite ztake_put.
  pose proof (zlen_nonneg data). rewrite u32_small by lia.
  apply get_put_uint. change (256 ^ Z.of_nat 4) with (2^32). lia.
Qed.

Lemma tlv_good id data : zlen data < 2^32 -> good_frame tlv_length_field (pack_tlv (new_msg_package id data)).
Proof.
  intros H. unfold good_frame, announced, header_end. rewrite tlv_field by assumption.
  rewrite pack_tlv_len. pose proof (zlen_nonneg data).
  cbn [lf_off lf_len lf_adj lf_max lf_strip tlv_length_field]. lia.
Qed.
Lemma ltv_good id data : zlen data < 2^32 -> good_frame ltv_length_field (pack_ltv (new_msg_package id data)).
Proof.
  intros H. unfold good_frame, announced, header_end. rewrite ltv_field by assumption.
  rewrite pack_ltv_len. pose proof (zlen_nonneg data).
  cbn [lf_off lf_len lf_adj lf_max lf_strip ltv_length_field]. lia.
Qed.

Lemma go_slice_app_l n (a b : list byte) : zlen a = n -> go_slice 0 n (a ++ b) = Some a.
Proof.
  intros H. unfold go_slice. rewrite zlen_app. pose proof (zlen_nonneg a). pose proof (zlen_nonneg b).
  replace ((0 <? 0) || (n <? 0) || (zlen a + zlen b <? n)) with false by lia.
  rewrite zdrop_0, Z.sub_0_r. now rewrite ztake_app.
Qed.

Lemma go_slice_app_r n k (a b : list byte) :
  zlen a = n -> 0 <= n -> k = n + zlen b -> go_slice n k (a ++ b) = Some b.
Proof.
  intros H Hn ->. unfold go_slice. rewrite zlen_app. pose proof (zlen_nonneg b).
  replace ((n <? 0) || (n + zlen b <? n) || (zlen a + zlen b <? n + zlen b)) with false by lia.
  rewrite zdrop_app by auto. replace (n + zlen b - n) with (zlen b) by lia.
  now rewrite ztake_all.
Qed.

Lemma go_slice_mid a n k (l m r : list byte) :
  zlen l = n -> zlen m = k - n -> a = l ++ m ++ r -> go_slice n k a = Some m.
Proof.
  intros Hl Hm ->. pose proof (zlen_nonneg l). pose proof (zlen_nonneg m). pose proof (zlen_nonneg r).
  unfold go_slice. rewrite !zlen_app.
  replace ((n <? 0) || (k <? n) || (zlen l + (zlen m + zlen r) <? k)) with false by lia.
  rewrite zdrop_app by auto. now rewrite ztake_app.
Qed.

Lemma tlv_decode_pack id data :
  msg_ok (id, data) ->
  tlv_decode (pack_tlv (new_msg_package id data)) = Some (id, zlen data, data).
Proof.
  intros [Hid Hl]. cbn [fst snd] in *. pose proof (zlen_nonneg data) as Hn.
  unfold tlv_decode, pack_tlv. cbn [m_id m_len m_data new_msg_package].
  rewrite u32_small by lia.
  rewrite go_slice_app_l by apply zlen_put_uint.
  rewrite (go_slice_mid _ 4 8 (put_uint BigEndian 4 id) (put_uint BigEndian 4 (zlen data)) data)
    by (reflexivity || rewrite zlen_put_uint; reflexivity).
  rewrite !get_put_uint by (change (256 ^ Z.of_nat 4) with (2^32); lia).
  rewrite u32_small by lia.
  rewrite (go_slice_mid _ 8 (8 + zlen data)
            (put_uint BigEndian 4 id ++ put_uint BigEndian 4 (zlen data)) data []).
  - reflexivity.
  - rewrite zlen_app, !zlen_put_uint. reflexivity.
  - lia.
  - now rewrite app_nil_r, <- app_assoc.
Qed.

Lemma ltv_decode_pack id data :
  msg_ok (id, data) ->
  ltv_decode (pack_ltv (new_msg_package id data)) = Some (zlen data, id, data).
Proof.
  intros [Hid Hl]. cbn [fst snd] in *. pose proof (zlen_nonneg data) as Hn.
  unfold ltv_decode, pack_ltv. cbn [m_id m_len m_data new_msg_package].
  rewrite u32_small by lia.
  rewrite go_slice_app_l by apply zlen_put_uint.
  rewrite (go_slice_mid _ 4 8 (put_uint LittleEndian 4 (zlen data)) (put_uint LittleEndian 4 id) data)
    by (reflexivity || rewrite zlen_put_uint; reflexivity).
  rewrite !get_put_uint by (change (256 ^ Z.of_nat 4) with (2^32); lia).
  rewrite u32_small by lia.
  rewrite (go_slice_mid _ 8 (8 + zlen data)
            (put_uint LittleEndian 4 (zlen data) ++ put_uint LittleEndian 4 id) data []).
  - reflexivity.
  - rewrite zlen_app, !zlen_put_uint. reflexivity.
  - lia.
  - now rewrite app_nil_r, <- app_assoc.
Qed.

(* The request a handler gets for one packed message. *)
Definition tlv_req (p : Z * list byte) : req :=
  {| rq_msg := Some {| m_id := fst p; m_len := zlen (snd p); m_data := snd p;
                       m_raw := pack_tlv (new_msg_package (fst p) (snd p)) |};
     rq_resp := Some (DecodedTLV (fst p) (zlen (snd p)) (snd p)) |}.
Definition ltv_req (p : Z * list byte) : req :=
  {| rq_msg := Some {| m_id := fst p; m_len := zlen (snd p); m_data := snd p;
                       m_raw := pack_ltv (new_msg_package (fst p) (snd p)) |};
     rq_resp := Some (DecodedLTV (zlen (snd p)) (fst p) (snd p)) |}.

Lemma tlv_delivers p :
  msg_ok p ->
  delivers (rd_chain tlv_reader) (pack_tlv (new_msg_package (fst p) (snd p))) [tlv_req p].
Proof.
  intros Hp. destruct p as [id data]. cbn [fst snd].
  unfold delivers, exec_frame, execute.
  change (interceptors_of (rd_chain tlv_reader)) with [tlv_intercept; msg_handle_intercept].
  cbn [proceed]. unfold tlv_intercept at 1. cbn [get_imessage rq_msg m_data new_message].
  rewrite pack_tlv_len. pose proof (zlen_nonneg data) as Hn.
  replace (8 + zlen data <? 8) with false by lia.
  rewrite tlv_decode_pack by assumption.
  cbn. eexists _, _. split; reflexivity.
Qed.

Lemma ltv_delivers p :
  msg_ok p ->
  delivers (rd_chain ltv_reader) (pack_ltv (new_msg_package (fst p) (snd p))) [ltv_req p].
Proof.
  intros Hp. destruct p as [id data]. cbn [fst snd].
  unfold delivers, exec_frame, execute.
  change (interceptors_of (rd_chain ltv_reader)) with [ltv_intercept; msg_handle_intercept].
  cbn [proceed]. unfold ltv_intercept at 1. cbn [get_imessage rq_msg m_data new_message].
  rewrite pack_ltv_len. pose proof (zlen_nonneg data) as Hn.
  replace (8 + zlen data <? 8) with false by lia.
  rewrite ltv_decode_pack by assumption.
  cbn. eexists _, _. split; reflexivity.
Qed.

Lemma stripped_0 lf f : lf_strip lf = 0 -> stripped lf f = f.
Proof. unfold stripped. intros ->. apply zdrop_0. Qed.

Lemma map_stripped_0 lf fs : lf_strip lf = 0 -> map (stripped lf) fs = fs.
Proof.
  intros H. rewrite <- (map_id fs) at 2. apply map_ext. intros; now apply stripped_0.
Qed.

Definition tlv_frames (msgs : list (Z * list byte)) : list (list byte) :=
  map (fun p => pack_tlv (new_msg_package (fst p) (snd p))) msgs.
Definition ltv_frames (msgs : list (Z * list byte)) : list (list byte) :=
  map (fun p => pack_ltv (new_msg_package (fst p) (snd p))) msgs.

Lemma tlv_frames_good msgs : Forall msg_ok msgs -> Forall (good_frame tlv_length_field) (tlv_frames msgs).
Proof.
  intros H. apply Forall_map. eapply Forall_impl; [|exact H].
  intros p [_ Hp]. apply tlv_good. lia.
Qed.
Lemma ltv_frames_good msgs : Forall msg_ok msgs -> Forall (good_frame ltv_length_field) (ltv_frames msgs).
Proof.
  intros H. apply Forall_map. eapply Forall_impl; [|exact H].
  intros p [_ Hp]. apply ltv_good. lia.
Qed.

Lemma tlv_frames_deliver msgs :
  Forall msg_ok msgs ->
  Forall2 (delivers (rd_chain tlv_reader)) (tlv_frames msgs) (map (fun p => [tlv_req p]) msgs).
Proof.
  induction 1 as [|p msgs Hp _ IH]; cbn [tlv_frames map]; constructor; [now apply tlv_delivers|exact IH].
Qed.
Lemma ltv_frames_deliver msgs :
  Forall msg_ok msgs ->
  Forall2 (delivers (rd_chain ltv_reader)) (ltv_frames msgs) (map (fun p => [ltv_req p]) msgs).
Proof.
  induction 1 as [|p msgs Hp _ IH]; cbn [ltv_frames map]; constructor; [now apply ltv_delivers|exact IH].
Qed.

Lemma concat_singletons {A B} (f : A -> B) l : concat (map (fun x => [f x]) l) = map f l.
Proof. induction l as [|x l IH]; cbn; [reflexivity|now rewrite IH]. Qed.

(* Full description of the receiver after any prefix of the sent stream. *)
Lemma tlv_prefix msgs chunks rest :
  Forall msg_ok msgs ->
  concat chunks ++ rest = wire pack_tlv msgs ->
  exists ms1 ms2 t,
    msgs = ms1 ++ ms2 /\ concat chunks = wire pack_tlv ms1 ++ t /\
    incomplete tlv_length_field t /\ t ++ rest = wire pack_tlv ms2 /\
    run_reader tlv_reader chunks
    = (map tlv_req ms1, Running,
       {| rd_fd := Some (fresh_with tlv_length_field t); rd_chain := rd_chain tlv_reader |}).
Proof.
  intros Hm Heq.
  assert (Heq' : concat (tlv_frames msgs) ++ [] = concat chunks ++ rest)
    by (rewrite app_nil_r; symmetry; exact Heq).
  destruct (stream_prefix tlv_length_field (tlv_frames msgs) [] (concat chunks) rest
              tlv_supported (tlv_frames_good _ Hm) (incomplete_nil _ tlv_supported) Heq')
    as (fs1 & fs2 & t & Hfs & Hc & Hi & Ht).
  unfold tlv_frames in Hfs. apply map_eq_app in Hfs as (ms1 & ms2 & -> & <- & <-).
  apply Forall_app in Hm as [Hm1 Hm2]. rewrite app_nil_r in Ht.
  exists ms1, ms2, t. repeat split; auto.
  unfold tlv_reader. erewrite run_server_reader with (fs := tlv_frames ms1) (t := t)
    (qss := map (fun p => [tlv_req p]) ms1).
  - rewrite concat_singletons. reflexivity.
  - apply tlv_supported.
  - now apply tlv_frames_good.
  - rewrite map_stripped_0 by reflexivity. now apply tlv_frames_deliver.
  - assumption.
  - assumption.
Qed.

Lemma ltv_prefix msgs chunks rest :
  Forall msg_ok msgs ->
  concat chunks ++ rest = wire pack_ltv msgs ->
  exists ms1 ms2 t,
    msgs = ms1 ++ ms2 /\ concat chunks = wire pack_ltv ms1 ++ t /\
    incomplete ltv_length_field t /\ t ++ rest = wire pack_ltv ms2 /\
    run_reader ltv_reader chunks
    = (map ltv_req ms1, Running,
       {| rd_fd := Some (fresh_with ltv_length_field t); rd_chain := rd_chain ltv_reader |}).
Proof.
  intros Hm Heq.
  assert (Heq' : concat (ltv_frames msgs) ++ [] = concat chunks ++ rest)
    by (rewrite app_nil_r; symmetry; exact Heq).
  destruct (stream_prefix ltv_length_field (ltv_frames msgs) [] (concat chunks) rest
              ltv_supported (ltv_frames_good _ Hm) (incomplete_nil _ ltv_supported) Heq')
    as (fs1 & fs2 & t & Hfs & Hc & Hi & Ht).
  unfold ltv_frames in Hfs. apply map_eq_app in Hfs as (ms1 & ms2 & -> & <- & <-).
  apply Forall_app in Hm as [Hm1 Hm2]. rewrite app_nil_r in Ht.
  exists ms1, ms2, t. repeat split; auto.
  unfold ltv_reader. erewrite run_server_reader with (fs := ltv_frames ms1) (t := t)
    (qss := map (fun p => [ltv_req p]) ms1).
  - rewrite concat_singletons. reflexivity.
  - apply ltv_supported.
  - now apply ltv_frames_good.
  - rewrite map_stripped_0 by reflexivity. now apply ltv_frames_deliver.
  - assumption.
  - assumption.
Qed.

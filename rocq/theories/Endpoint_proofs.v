From Coq Require Import ZArith List Bool Lia.
From Verif Require Import Bytes Pack FrameDecoder Chain Decoders Reader Endpoint Spec_Endpoint Spec_Codec Codec_proofs Codec2_proofs CodecAny_proofs Spec_Framing FrameDecoder_proofs.
Import ListNotations.

Lemma chain_same gb b t : interceptors_of (Builder gb b t) = opt_list gb ++ b ++ opt_list t.
Proof. reflexivity. Qed.
(* Body and tail of a server. *)
Lemma server_body os : forall s, bd_body (ep_chain (fold_left server_op os s)) = bd_body (ep_chain s) ++ added os /\
  bd_tail (ep_chain (fold_left server_op os s)) = bd_tail (ep_chain s).
Proof.
  induction os as [|o os IH]; intros s; cbn [fold_left]; [now rewrite app_nil_r|]. destruct (IH (server_op s o)) as [-> ->].
  destruct o; cbn; rewrite ?app_nil_r; auto.
  - now rewrite <- app_assoc.
  - now destruct (ep_dec s).
Qed.
Lemma server_dec os : forall s, ep_dec (fold_left server_op os s) = fold_left (fun d o => match o with ESetDecoder d' => d' | _ => d end) os (ep_dec s).
Proof. induction os as [|o os IH]; intros s; cbn [fold_left]; [reflexivity|]. rewrite IH. destruct o; try reflexivity. cbn. destruct (ep_dec s) eqn:E; cbn; rewrite ?E; reflexivity. Qed.
Lemma client_dec os : forall s, ep_dec (fold_left client_op os s) = fold_left (fun d o => match o with ESetDecoder d' => d' | _ => d end) os (ep_dec s).
Proof. induction os as [|o os IH]; intros s; cbn [fold_left]; [reflexivity|]. rewrite IH. destruct o; try reflexivity. cbn. destruct (ep_dec s) eqn:E; cbn; rewrite ?E; reflexivity. Qed.
Lemma server_head_quiet os : forall s, Forall (fun o => is_start_op o = false) os -> bd_head (ep_chain (fold_left server_op os s)) = bd_head (ep_chain s).
Proof.
  induction os as [|o os IH]; intros s F; [reflexivity|]. inversion F as [|? ? F1 F2]; subst. cbn [fold_left]. rewrite IH by exact F2.
  destruct o; try reflexivity. discriminate.
Qed.
Lemma server_head_after os : forall s, Forall no_set os -> bd_head (ep_chain s) = option_map dc_icpt (ep_dec s) ->
  bd_head (ep_chain (fold_left server_op os s)) = option_map dc_icpt (ep_dec s) /\ ep_dec (fold_left server_op os s) = ep_dec s.
Proof.
  induction os as [|o os IH]; intros s F H; [auto|]. inversion F as [|? ? F1 F2]; subst. cbn [fold_left].
  assert (E : ep_dec (server_op s o) = ep_dec s) by (destruct o; try reflexivity; [destruct F1|cbn; destruct (ep_dec s) eqn:E; cbn; rewrite ?E; reflexivity]).
  destruct (IH (server_op s o) F2) as [-> ->]; [|rewrite E; auto]. rewrite E. destruct o; try exact H. cbn. now destruct (ep_dec s).
Qed.
Lemma server_chain os : set_first os ->
  reader_of (server_ops os) = Reader (option_map (fun d => new_frame_decoder (dc_field d)) (asked os))
    (Builder (option_map dc_icpt (asked os)) (added os) (Some msg_handle_intercept)).
Proof.
  intros (before & after & -> & F1 & F2). unfold reader_of, server_ops. rewrite fold_left_app. cbn [fold_left].
  set (s0 := fold_left server_op before new_endpoint). set (s1 := server_op s0 EStart).
  assert (H0 : bd_head (ep_chain s0) = None) by (subst s0; now rewrite server_head_quiet).
  assert (D1 : ep_dec s1 = ep_dec s0) by (subst s1; cbn; destruct (ep_dec s0) eqn:E; cbn; rewrite ?E; reflexivity).
  assert (H1 : bd_head (ep_chain s1) = option_map dc_icpt (ep_dec s1)).
  { rewrite D1. subst s1. cbn. destruct (ep_dec s0); [reflexivity|exact H0]. }
  destruct (server_head_after after s1 F2 H1) as [Hh Hd].
  assert (A : asked (before ++ EStart :: after) = ep_dec s1).
  { rewrite D1. unfold asked. rewrite fold_left_app. cbn [fold_left]. subst s0. rewrite server_dec. cbn [new_endpoint ep_dec].
    generalize (fold_left (fun d o => match o with ESetDecoder d' => d' | _ => d end) before (Some tlv_decoder)) as d0. clear - F2.
    induction after as [|o os IH]; intros d0; [reflexivity|]. inversion F2 as [|? ? G1 G2]; subst. cbn [fold_left]. rewrite IH by exact G2. destruct o; try reflexivity. destruct G1. }
  rewrite A, Hd. f_equal. destruct (server_body after s1) as [B1 B2]. destruct (server_body (before ++ [EStart]) new_endpoint) as [C1 C2].
  rewrite fold_left_app in C1, C2. cbn [fold_left] in C1, C2. fold s0 in C1, C2. fold s1 in C1, C2. clear H0 D1 H1 A. clearbody s1. clear s0.
  destruct (ep_chain (fold_left server_op after s1)) as [h b t]. cbn [bd_head bd_body bd_tail] in Hh, B1, B2. subst h b t. rewrite C1, C2. cbn [new_endpoint ep_chain set_tail new_builder bd_body bd_tail app]. unfold added. rewrite !flat_map_app. cbn. now rewrite app_nil_r.
Qed.
Lemma client_quiet os : forall s, Forall no_set os -> Forall (fun o => is_start_op o = false) os ->
  fold_left client_op os s = Endpoint (ep_dec s) (Builder (bd_head (ep_chain s)) (bd_body (ep_chain s) ++ added os) (bd_tail (ep_chain s))).
Proof.
  induction os as [|o os IH]; intros s F G; cbn [fold_left].
  - destruct s as [d [h b t]]. cbn. now rewrite app_nil_r.
  - inversion F as [|? ? F1 F2]; inversion G as [|? ? G1 G2]; subst. rewrite IH by assumption. destruct o; cbn in *; try discriminate; try contradiction; try reflexivity.
    now rewrite <- app_assoc.
Qed.
Lemma client_before os : forall s, Forall (fun o => match o with EAdd _ | EStart => False | _ => True end) os ->
  ep_chain (fold_left client_op os s) = ep_chain s.
Proof.
  induction os as [|o os IH]; intros s F; [reflexivity|]. inversion F as [|? ? F1 F2]; subst. cbn [fold_left]. rewrite IH by exact F2.
  destruct o; try reflexivity; contradiction.
Qed.

(* A reader depends on the list of interceptors only. *)
Lemma dispatch_same b b' fs : interceptors_of b = interceptors_of b' -> dispatch_frames b fs = dispatch_frames b' fs.
Proof.
  intros E. induction fs as [|f fs IH]; [reflexivity|]. cbn [dispatch_frames]. unfold execute. rewrite E. destruct (proceed _ _ _) as [es [v|]]; [|reflexivity]. now rewrite IH.
Qed.
Lemma run_same b b' : interceptors_of b = interceptors_of b' -> forall chunks fd,
  run_reader (Reader fd b) chunks = let '(qs, st, r) := run_reader (Reader fd b') chunks in (qs, st, Reader (rd_fd r) b).
Proof.
  intros E. induction chunks as [|c cs IH]; intros fd; [reflexivity|]. cbn [run_reader]. unfold read_chunk. cbn [rd_fd rd_chain]. destruct fd as [d|].
  - destruct (decode d c) as [fs d'| |]; [|reflexivity|reflexivity]. rewrite (dispatch_same b b' fs E). destruct (dispatch_frames b' fs) as [ds [| |]]; try reflexivity.
    rewrite IH. now destruct (run_reader _ cs) as [[ds' s'] r'].
  - rewrite (dispatch_same b b' [c] E). destruct (dispatch_frames b' [c]) as [ds [| |]]; try reflexivity. rewrite IH. now destruct (run_reader _ cs) as [[ds' s'] r'].
Qed.

(* Two TLV decoders in a row. *)
Local Open Scope Z_scope.
Definition twice : builder := rd_chain (server_reader tlv_length_field tlv_intercept [tlv_intercept]).
Lemma tlv_step id data q m rest pos : rq_msg q = Some m -> m_data m = pack_tlv (new_msg_package id data) -> msg_ok (id, data) ->
  proceed (tlv_intercept :: rest) pos (IcRequest q) =
  let q' := {| rq_msg := Some (set_data_len (set_data (set_msg_id m id) data) (zlen data)); rq_resp := Some (DecodedTLV id (zlen data) data) |} in
  let '(es, o) := proceed rest (S pos) (IcRequest q') in (Enter pos (IcRequest q) :: es, o).
Proof.
  intros Em Ed M. cbn [proceed]. unfold tlv_intercept. cbn [get_imessage]. rewrite Em, Ed.
  assert (L : zlen (pack_tlv (new_msg_package id data)) <? 8 = false) by (rewrite pack_tlv_len; apply Z.ltb_ge; pose proof (zlen_nonneg data); lia).
  rewrite L, (tlv_decode_pack id data M). cbn [proceed_with_imessage run_act pass].
  destruct (proceed rest (S pos) _) as [es [v|]]; [|reflexivity]. now rewrite app_nil_r.
Qed.
Lemma twice_delivers id tag value : msg_ok (tag, value) -> msg_ok (id, pack_tlv (new_msg_package tag value)) ->
  exists q, seen q = Some (tag, value) /\ delivers twice (pack_tlv (new_msg_package id (pack_tlv (new_msg_package tag value)))) [q].
Proof.
  intros M1 M2. eexists. split; [|]. 2:{ unfold delivers, exec_frame, execute, twice. change (interceptors_of _) with [tlv_intercept; tlv_intercept; msg_handle_intercept].
    erewrite (tlv_step id); [|reflexivity|reflexivity|exact M2]. cbv zeta. erewrite (tlv_step tag); [|reflexivity|reflexivity|exact M1]. cbv zeta.
    cbn [proceed msg_handle_intercept run_act]. eexists _, _. split; [reflexivity|]. reflexivity. }
  reflexivity.
Qed.
Lemma twice_dies id body rest : msg_ok (id, body) -> 8 <= zlen body -> tlv_decode body = None ->
  dispatch_frames twice (pack_tlv (new_msg_package id body) :: rest) = ([], StoppedByPanic).
Proof.
  intros M L D. cbn [dispatch_frames]. unfold execute, twice. change (interceptors_of _) with [tlv_intercept; tlv_intercept; msg_handle_intercept].
  erewrite (tlv_step id); [|reflexivity|reflexivity|exact M]. cbv zeta. cbn [proceed]. unfold tlv_intercept. cbn [get_imessage rq_msg m_data set_data set_data_len set_msg_id].
  assert (Q : zlen body <? 8 = false) by (apply Z.ltb_ge; lia). rewrite Q, D. reflexivity.
Qed.
Lemma twice_runs id tag value chunks : msg_ok (tag, value) -> msg_ok (id, pack_tlv (new_msg_package tag value)) ->
  concat chunks = wire pack_tlv [(id, pack_tlv (new_msg_package tag value))] ->
  exists qs r, run_reader (Reader (Some (new_frame_decoder tlv_length_field)) twice) chunks = (qs, Running, r) /\ map seen qs = [Some (tag, value)].
Proof.
  intros M1 M2 W. destruct (twice_delivers id tag value M1 M2) as (q & Sq & Dq). exists [q].
  eexists. split; [|cbn; now rewrite Sq]. change (Reader (Some (new_frame_decoder tlv_length_field)) twice) with (server_reader tlv_length_field tlv_intercept [tlv_intercept]).
  erewrite (run_server_reader _ _ _ _ [pack_tlv (new_msg_package id (pack_tlv (new_msg_package tag value)))] [[q]] []); [reflexivity| | | | |].
  - apply tlv_supported.
  - constructor; [|constructor]. apply tlv_good. destruct M2. cbn in *. lia.
  - rewrite map_stripped_0 by reflexivity. constructor; [exact Dq|constructor].
  - apply incomplete_nil, tlv_supported.
  - rewrite W. unfold wire. cbn. now rewrite !app_nil_r.
Qed.
Lemma twice_ends id body chunks : msg_ok (id, body) -> 8 <= zlen body -> tlv_decode body = None ->
  concat chunks = wire pack_tlv [(id, body)] ->
  exists r, run_reader (Reader (Some (new_frame_decoder tlv_length_field)) twice) chunks = ([], StoppedByPanic, r).
Proof.
  intros M L D W. apply (run_reader_dies tlv_length_field twice chunks [] [] (pack_tlv (new_msg_package id body)) [] [] []).
  - apply tlv_supported.
  - constructor; [|constructor]. apply tlv_good. destruct M. cbn in *. lia.
  - constructor.
  - intros rest. change (stripped tlv_length_field (pack_tlv (new_msg_package id body))) with (pack_tlv (new_msg_package id body)). now apply twice_dies.
  - apply incomplete_nil, tlv_supported.
  - apply incomplete_nil, tlv_supported.
  - rewrite W. unfold wire. cbn. now rewrite !app_nil_r.
Qed.

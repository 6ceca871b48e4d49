(* C88: the decoder of a server or client. *)
From Coq Require Import ZArith List Bool Lia.
From Verif Require Import Bytes Pack FrameDecoder Chain Decoders Reader Endpoint Spec_Endpoint Spec_Codec Spec_Framing Codec_proofs Codec2_proofs Codec3_proofs CodecAny_proofs FrameDecoder_proofs Endpoint_proofs.
Import ListNotations.
Local Open Scope Z_scope.

(* C88, server.  Whatever interceptors are added, before or after Start, and however often it
   is started: frames are cut as the decoder asked for says, and every frame goes once to that
   decoder, then to the interceptors in the order in which they were added, then to dispatch. *)
Theorem C88_server_partial os : set_first os ->
  let r := reader_of (server_ops os) in
  rd_fd r = option_map (fun d => new_frame_decoder (dc_field d)) (asked os) /\
  interceptors_of (rd_chain r) = opt_list (option_map dc_icpt (asked os)) ++ added os ++ [msg_handle_intercept].
Proof. intros F r. subst r. rewrite (server_chain os F). split; reflexivity. Qed.
Print Assumptions C88_server_partial.
(* So an interceptor added to a TLV server starts on the message, not on the frame. *)
Theorem C88_server_decoded os id body : set_first os -> asked os = Some tlv_decoder -> msg_ok (id, body) ->
  let f := pack_tlv (new_msg_package id body) in
  exists q, seen q = Some (id, body) /\ rq_resp q = Some (DecodedTLV id (zlen body) body) /\
  execute (rd_chain (reader_of (server_ops os))) (raw f) =
    let '(es, o) := proceed (added os ++ [msg_handle_intercept]) 1 (IcRequest q) in (Enter 0 (raw f) :: es, o).
Proof.
  intros F A M f. rewrite (server_chain os F), A. unfold execute. cbn [rd_chain]. rewrite chain_same. cbn [option_map opt_list app dc_icpt tlv_decoder].
  eexists. split; [|split]; [| |unfold raw; erewrite (tlv_step id body); [reflexivity|reflexivity|reflexivity|exact M]]; reflexivity.
Qed.
Print Assumptions C88_server_decoded.
(* ... and a TLV or LTV server whose interceptors were all set up so handles what is sent: C01, C02. *)
Theorem C88_server_roundtrip os msgs chunks : set_first os -> added os = [] -> Forall msg_ok msgs ->
  (asked os = Some tlv_decoder -> concat chunks = wire pack_tlv msgs ->
   exists qs r, run_reader (reader_of (server_ops os)) chunks = (qs, Running, r) /\ map seen qs = map Some msgs) /\
  (asked os = Some ltv_decoder -> concat chunks = wire pack_ltv msgs ->
   exists qs r, run_reader (reader_of (server_ops os)) chunks = (qs, Running, r) /\ map seen qs = map Some msgs).
Proof.
  intros F A M. rewrite (server_chain os F), A. split; intros -> W; cbn [option_map].
  - destruct (tlv_roundtrip msgs chunks M W) as (qs & r & H & S & _). exists qs, r. auto.
  - destruct (ltv_roundtrip msgs chunks M W) as (qs & r & H & S & _). exists qs, r. auto.
Qed.
Print Assumptions C88_server_roundtrip.
Example C88_server_case : let os := [EAdd msg_handle_intercept; ESetDecoder (Some ltv_decoder); EStart; EAdd ltv_intercept; EStart] in
  set_first os /\ asked os = Some ltv_decoder /\ length (added os) = 2%nat.
Proof.
  split; [|split; reflexivity]. exists [EAdd msg_handle_intercept; ESetDecoder (Some ltv_decoder)], [EAdd ltv_intercept; EStart].
  split; [reflexivity|]. split; repeat constructor.
Qed.
(* Refuted (F87) when the decoder is set after Start: new connections cut frames as the new decoder
   says, and the old one decodes them.  An LTV message with ID 1 and one byte ends the connection. *)
Theorem C88_server_late_refuted :
  let os := [EStart; ESetDecoder (Some ltv_decoder)] in let m := (1, [x07]) in
  msg_ok m /\ asked os = Some ltv_decoder /\
  exists r, run_reader (reader_of (server_ops os)) [wire pack_ltv [m]] = ([], StoppedByPanic, r).
Proof.
  cbv zeta. split; [split; cbn; lia|]. split; [reflexivity|].
  apply (run_reader_dies ltv_length_field (ep_chain (server_ops [EStart; ESetDecoder (Some ltv_decoder)])) _ [] [] (pack_ltv (new_msg_package 1 [x07])) [] [] []).
  - apply ltv_supported.
  - constructor; [|constructor]. apply ltv_good. cbn. lia.
  - constructor.
  - intros rest. change (stripped ltv_length_field (pack_ltv (new_msg_package 1 [x07]))) with (pack_ltv (new_msg_package 1 [x07])). reflexivity.
  - apply incomplete_nil, ltv_supported.
  - apply incomplete_nil, ltv_supported.
  - reflexivity.
Qed.
Print Assumptions C88_server_late_refuted.

(* C88, client: the same for a client that is started once, and may be restarted, and whose
   interceptors are added after Start. *)
Theorem C88_client_partial before after :
  Forall (fun o => match o with EAdd _ | EStart => False | _ => True end) before ->
  Forall no_set after -> Forall (fun o => is_start_op o = false) after ->
  let os := before ++ EStart :: after in let r := reader_of (client_ops os) in
  rd_fd r = option_map (fun d => new_frame_decoder (dc_field d)) (asked os) /\
  interceptors_of (rd_chain r) = opt_list (option_map dc_icpt (asked os)) ++ added os ++ [msg_handle_intercept].
Proof.
  intros F1 F2 F3 os r. subst os r. unfold reader_of, client_ops. rewrite fold_left_app. cbn [fold_left].
  set (s0 := fold_left client_op before new_endpoint). assert (H0 : ep_chain s0 = ep_chain new_endpoint) by (subst s0; now rewrite client_before).
  rewrite client_quiet by assumption. cbn [rd_fd rd_chain ep_dec ep_chain].
  assert (A : asked (before ++ EStart :: after) = ep_dec s0).
  { unfold asked. rewrite fold_left_app. cbn [fold_left]. subst s0. rewrite client_dec. cbn [new_endpoint ep_dec].
    generalize (fold_left (fun d o => match o with ESetDecoder d' => d' | _ => d end) before (Some tlv_decoder)) as d0. clear - F2.
    induction after as [|o os IH]; intros d0; [reflexivity|]. inversion F2 as [|? ? G1 G2]; subst. cbn [fold_left]. rewrite IH by exact G2. destruct o; try reflexivity. destruct G1. }
  assert (B : added before = []).
  { clear - F1. induction before as [|o os IH]; [reflexivity|]. inversion F1 as [|? ? G1 G2]; subst. unfold added in *. cbn [flat_map]. rewrite (IH G2). destruct o; try reflexivity. destruct G1. }
  assert (C : added (before ++ EStart :: after) = added after) by (unfold added in *; rewrite flat_map_app, B; reflexivity).
  rewrite A, C. rewrite chain_same. cbn [client_op]. destruct (ep_dec s0) as [d|] eqn:Ed; cbn; rewrite ?Ed, H0; split; reflexivity.
Qed.
Print Assumptions C88_client_partial.
Example C88_client_case : let os := [ESetDecoder (Some htlv_decoder); EStart; EAdd htlv_intercept; ERestart] in
  asked os = Some htlv_decoder /\ length (interceptors_of (rd_chain (reader_of (client_ops os)))) = 3%nat.
Proof. split; reflexivity. Qed.
(* Refuted (F88): an interceptor added before Start starts on the undecoded frame, message ID 0. *)
Theorem C88_client_early_refuted i f :
  exists es, fst (execute (rd_chain (reader_of (client_ops [EAdd i; EStart]))) (raw f)) = Enter 0 (raw f) :: es /\
  interceptors_of (rd_chain (reader_of (client_ops [EAdd i; EStart]))) = [i; tlv_intercept; msg_handle_intercept].
Proof.
  unfold execute. assert (E : interceptors_of (rd_chain (reader_of (client_ops [EAdd i; EStart]))) = [i; tlv_intercept; msg_handle_intercept]) by reflexivity.
  rewrite E. cbn [proceed]. destruct (run_act _ (i (raw f))) as [es o]. exists es. split; reflexivity.
Qed.
Print Assumptions C88_client_early_refuted.
(* Refuted (F88): a client that is started again, say to reconnect, decodes twice.  The body of a
   message that looks like a message is handled as that one, under its ID; a body of 8 bytes or
   more that does not ends the connection. *)
Theorem C88_client_twice_refuted id tag value chunks :
  msg_ok (tag, value) -> msg_ok (id, pack_tlv (new_msg_package tag value)) ->
  concat chunks = wire pack_tlv [(id, pack_tlv (new_msg_package tag value))] ->
  exists qs r, run_reader (reader_of (client_ops [EStart; EStart])) chunks = (qs, Running, r) /\ map seen qs = [Some (tag, value)].
Proof.
  intros M1 M2 W. destruct (twice_runs id tag value chunks M1 M2 W) as (qs & r & H & Sq). exists qs. eexists. split; [|exact Sq].
  change (reader_of (client_ops [EStart; EStart])) with (Reader (Some (new_frame_decoder tlv_length_field)) (ep_chain (client_ops [EStart; EStart]))).
  rewrite (run_same (ep_chain (client_ops [EStart; EStart])) twice eq_refl), H. reflexivity.
Qed.
Print Assumptions C88_client_twice_refuted.
Theorem C88_client_twice_ends_refuted id body chunks :
  msg_ok (id, body) -> 8 <= zlen body -> tlv_decode body = None -> concat chunks = wire pack_tlv [(id, body)] ->
  exists r, run_reader (reader_of (client_ops [EStart; EStart])) chunks = ([], StoppedByPanic, r).
Proof.
  intros M L D W. destruct (twice_ends id body chunks M L D W) as (r & H). eexists.
  change (reader_of (client_ops [EStart; EStart])) with (Reader (Some (new_frame_decoder tlv_length_field)) (ep_chain (client_ops [EStart; EStart]))).
  rewrite (run_same (ep_chain (client_ops [EStart; EStart])) twice eq_refl), H. reflexivity.
Qed.
Print Assumptions C88_client_twice_ends_refuted.
Example C88_client_twice_case :
  msg_ok (2, [x41]) /\ msg_ok (1, pack_tlv (new_msg_package 2 [x41])) /\
  let text := [x48; x65; x6c; x6c; x6f; x20; x79; x6f; x75] in msg_ok (1, text) /\ 8 <= zlen text /\ tlv_decode text = None.
Proof. split; [split; vm_compute; intuition congruence|]. split; [split; vm_compute; intuition congruence|]. cbv zeta. split; [split; vm_compute; intuition congruence|]. split; [vm_compute; discriminate|vm_compute; reflexivity]. Qed.

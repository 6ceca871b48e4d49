(* C85: one peer cannot disturb the others. *)
From Coq Require Import ZArith List Bool Arith Lia.
From Verif Require Import Bytes Pack FrameDecoder Chain Decoders Crc Reader GoSlice Request Router Dispatch Workers Spec_Framing Spec_Codec Spec_Crc Spec_Htlv Spec_Workers Payload Hub Spec_Hub Spec_Send.
From Verif Require Import Codec_proofs CodecAny_proofs Witness_Codec Props_Codec Hub_proofs Hub2_proofs.
Import ListNotations.
Local Open Scope nat_scope.

(* Whatever the other connections do, the requests handled for connection c are, in order
   and one at a time, the first of those made of what its own reads returned. *)
Theorem C85_own_data : forall cf d ls s tr c, cf_mode cf <> ModeDynamicBind -> pool_size cf > 0 -> hub_run cf d ls = Some (s, tr) ->
  prefix (begun c tr) (made d (reads c tr)) /\ one_at_a_time (sent c (pool_events tr)) (activity c (pool_events tr)).
Proof. exact own_data. Qed.
Print Assumptions C85_own_data.

(* With the packet formats: they are the first of the messages in its own bytes. *)
Theorem C85_own_bytes_tlv : forall cf ls s tr c, cf_mode cf <> ModeDynamicBind -> pool_size cf > 0 -> hub_run cf DTlv ls = Some (s, tr) ->
  exists msgs t, Forall msg_ok msgs /\ concat (reads c tr) = wire pack_tlv msgs ++ t /\
    (incomplete tlv_length_field t \/ exists id data more, (2^32 - 8 <= zlen data)%Z /\ t = pack_tlv (new_msg_package id data) ++ more) /\
    prefix (begun c tr) (map Some msgs).
Proof.
  intros cf ls s tr c M P R. destruct (tlv_any (concat (reads c tr))) as (msgs & t & st & F & E & Q & An). exists msgs, t. split; [exact F|]. split; [exact E|]. split.
  - destruct Q as [(Q & _)|((i & dt & mo & (Q & _) & ->) & _)]; eauto 7.
  - destruct (own_data cf DTlv ls s tr c M P R) as (B & _). destruct (An _ eq_refl) as (qs & r & Rn & Sn). unfold made in B. change (new_reader DTlv) with tlv_reader in B. rewrite Rn in B. cbn [fst] in B. now rewrite Sn in B.
Qed.
Print Assumptions C85_own_bytes_tlv.
Theorem C85_own_bytes_ltv : forall cf ls s tr c, cf_mode cf <> ModeDynamicBind -> pool_size cf > 0 -> hub_run cf DLtv ls = Some (s, tr) ->
  exists msgs t, Forall msg_ok msgs /\ concat (reads c tr) = wire pack_ltv msgs ++ t /\
    (incomplete ltv_length_field t \/ exists id data more, (2^32 - 8 <= zlen data)%Z /\ t = pack_ltv (new_msg_package id data) ++ more) /\
    prefix (begun c tr) (map Some msgs).
Proof.
  intros cf ls s tr c M P R. destruct (ltv_any (concat (reads c tr))) as (msgs & t & st & F & E & Q & An). exists msgs, t. split; [exact F|]. split; [exact E|]. split.
  - destruct Q as [(Q & _)|((i & dt & mo & (Q & _) & ->) & _)]; eauto 7.
  - destruct (own_data cf DLtv ls s tr c M P R) as (B & _). destruct (An _ eq_refl) as (qs & r & Rn & Sn). unfold made in B. change (new_reader DLtv) with ltv_reader in B. rewrite Rn in B. cbn [fst] in B. now rewrite Sn in B.
Qed.
Print Assumptions C85_own_bytes_ltv.

(* Two servers, other company, the same bytes (in any pieces, with the packet formats; the
   same reads with any decoder): of one connection no more has been done, nothing else. *)
Theorem C85_same_bytes : forall d cf cf' ls ls' s s' tr tr' c c',
  cf_mode cf <> ModeDynamicBind -> pool_size cf > 0 -> cf_mode cf' <> ModeDynamicBind -> pool_size cf' > 0 ->
  hub_run cf d ls = Some (s, tr) -> hub_run cf' d ls' = Some (s', tr') ->
  (reads c tr = reads c' tr' \/ (d = DTlv \/ d = DLtv) /\ concat (reads c tr) = concat (reads c' tr')) ->
  prefix (begun c tr) (begun c' tr') \/ prefix (begun c' tr') (begun c tr).
Proof.
  intros d cf cf' ls ls' s s' tr tr' c c' M P M' P' R R' E. destruct (own_data cf d ls s tr c M P R) as (B & _). destruct (own_data cf' d ls' s' tr' c' M' P' R') as (B' & _).
  apply (prefixes _ _ (made d (reads c tr)) B). replace (made d (reads c tr)) with (made d (reads c' tr')); [exact B'|]. destruct E as [->|([-> | ->] & E)]; [reflexivity|..]; unfold made.
  - destruct (tlv_any (concat (reads c tr))) as (msgs & t & st & _ & _ & _ & An). destruct (An _ eq_refl) as (qs & r & Rn & Sn). destruct (An _ (eq_sym E)) as (qs' & r' & Rn' & Sn'). change (new_reader DTlv) with tlv_reader. rewrite Rn, Rn'. cbn [fst]. now rewrite Sn, Sn'.
  - destruct (ltv_any (concat (reads c tr))) as (msgs & t & st & _ & _ & _ & An). destruct (An _ eq_refl) as (qs & r & Rn & Sn). destruct (An _ (eq_sym E)) as (qs' & r' & Rn' & Sn'). change (new_reader DLtv) with ltv_reader. rewrite Rn, Rn'. cbn [fst]. now rewrite Sn, Sn'.
Qed.
Print Assumptions C85_same_bytes.

(* A connection is ended by the decoder only for its own bytes; the process goes down only
   with a websocket connection that is. *)
Theorem C85_ends_by_itself : forall cf d ls s tr, cf_mode cf <> ModeDynamicBind -> hub_run cf d ls = Some (s, tr) ->
  (forall c, In (BDown c) tr \/ In (BCrash c) tr -> ends_up d (reads c tr) = StoppedByPanic) /\
  (hb_dead s = true <-> exists c, In (BCrash c) tr) /\
  (forall c, In (BCrash c) tr -> is_link s c Ws).
Proof.
  intros cf d ls s tr M R. destruct (hub_inv cf d M ls s tr R) as [_ _ C _]. destruct (hub_sinv cf d ls s tr R) as [_ D Cr De]. split; [|split; [exact De|intros c H; destruct (Cr c H) as (x & X & _ & L); now exists x]].
  intros c H. assert (X : exists x, nth_error (hb_conns s) c = Some x /\ hc_then x = StoppedByPanic) by (destruct H as [H|H]; [destruct (D c H) as (x & ? & ? & _)|destruct (Cr c H) as (x & ? & ? & _)]; eauto).
  destruct X as (x & X & T). destruct (C c x X) as [(qs & r & Rn & _) _ _]. unfold ends_up. now rewrite Rn.
Qed.
Print Assumptions C85_ends_by_itself.

(* So with the packet formats no peer that has sent less than 2^32 bytes brings anything down,
   and with any decoder none without websocket.  What is missing for the full statement is
   false: C85_crash_refuted. *)
Lemma tlv_panic chunks : ends_up DTlv chunks = StoppedByPanic -> (2^32 <= zlen (concat chunks))%Z.
Proof.
  intros E. destruct (tlv_any (concat chunks)) as (msgs & t & st & _ & B & Q & An). destruct (An _ eq_refl) as (qs & r & Rn & _). unfold ends_up in E. change (new_reader DTlv) with tlv_reader in E. rewrite Rn in E. cbn in E. subst st.
  destruct Q as [(_ & Q)|((i & dt & mo & (Q & _) & ->) & _)]; [discriminate|]. rewrite B, !zlen_app. rewrite pack_tlv_len. pose proof (zlen_nonneg (wire pack_tlv msgs)). pose proof (zlen_nonneg mo). lia.
Qed.
Lemma ltv_panic chunks : ends_up DLtv chunks = StoppedByPanic -> (2^32 <= zlen (concat chunks))%Z.
Proof.
  intros E. destruct (ltv_any (concat chunks)) as (msgs & t & st & _ & B & Q & An). destruct (An _ eq_refl) as (qs & r & Rn & _). unfold ends_up in E. change (new_reader DLtv) with ltv_reader in E. rewrite Rn in E. cbn in E. subst st.
  destruct Q as [(_ & Q)|((i & dt & mo & (Q & _) & ->) & _)]; [discriminate|]. rewrite B, !zlen_app. rewrite pack_ltv_len. pose proof (zlen_nonneg (wire pack_ltv msgs)). pose proof (zlen_nonneg mo). lia.
Qed.
Theorem C85_survives_partial : forall cf d ls s tr, cf_mode cf <> ModeDynamicBind -> hub_run cf d ls = Some (s, tr) ->
  ((d = DTlv \/ d = DLtv) -> (forall c, (zlen (concat (reads c tr)) < 2^32)%Z) -> hb_dead s = false /\ forall c, ~ In (BDown c) tr) /\
  ((forall c, ~ is_link s c Ws) -> hb_dead s = false).
Proof.
  intros cf d ls s tr M R. destruct (C85_ends_by_itself cf d ls s tr M R) as (E & D & W). split.
  - intros Hd L. assert (N : forall c, ends_up d (reads c tr) <> StoppedByPanic). { intros c H. specialize (L c). destruct Hd as [-> | ->]; [apply tlv_panic in H|apply ltv_panic in H]; lia. }
    split; [|intros c H; exact (N c (E c (or_introl H)))]. destruct (hb_dead s); [|reflexivity]. destruct (proj1 D eq_refl) as (c & H). elim (N c (E c (or_intror H))).
  - intros N. destruct (hb_dead s); [|reflexivity]. destruct (proj1 D eq_refl) as (c & H). elim (N c (W c H)).
Qed.
Print Assumptions C85_survives_partial.

(* C85, refuted: with websocket and the HTLV+CRC decoder, one frame with a wrong checksum, sent
   by any peer as its first, ends the server process. *)
Theorem C85_crash_refuted : forall cf ls s tr c w f, cf_mode cf <> ModeDynamicBind -> hub_run cf DHtlv ls = Some (s, tr) ->
  hb_dead s = false -> uses s c w -> is_link s c Ws -> reads c tr = [] ->
  good_frame htlv_length_field f -> crc16 f <> 0%Z ->
  exists s', h_run cf DHtlv s [HRead c f; HEnd c] = (s', [BRead c f; BCrash c]) /\ hb_dead s' = true /\
    forall more, h_run cf DHtlv s' more = (s', []).
Proof.
  intros cf ls s tr c w f M R A (y & Y & Wy) ([lk r nx st gn] & X & L) Rd G Bad. cbn in L. subst lk. destruct (hub_inv cf DHtlv M ls s tr R) as [_ _ C _]. destruct (C c _ X) as [(qs & r0 & Rn & Sn & Rr) _ _]. rewrite Rd in Rn. cbn in Rn. injection Rn as <- <- <-. cbn [hc_next hc_reader hc_then map] in *. specialize (Rr eq_refl). subst r.
  assert (nx = []) by (destruct nx; [reflexivity|destruct (map content (sent c (pool_events tr))); discriminate]). subst nx.
  assert (gn = false). { destruct gn; [|reflexivity]. destruct (si_gone _ _ (hub_sinv cf DHtlv ls s tr R) c _ X eq_refl). discriminate. } subst gn.
  destruct (C13_bad_frame_ends_connection_refuted [] f [] (Forall_nil _) (Forall_nil _) G Bad) as (q & r' & Q & Sq). cbn [htlv_wire map concat app] in Q, Sq. rewrite app_nil_r in Q. destruct q; [|discriminate]. change htlv_reader with (new_reader DHtlv) in Q.
  assert (Rc : exists r2, read_chunk (new_reader DHtlv) f = ([], StoppedByPanic, r2)). { cbn [run_reader] in Q. destruct (read_chunk (new_reader DHtlv) f) as [[ds st] r2]. destruct st; [rewrite app_nil_r in Q; discriminate| |discriminate]. injection Q as -> _. eauto. }
  destruct Rc as (r2 & Rc). cbn [h_run]. unfold h_step at 1. rewrite A, X, Y, Wy, Rc. cbn [jobs_of flat_map]. unfold h_step. cbn [hb_dead hb_conns]. rewrite Router_proofs.nth_error_set_nth_same by (eapply Workers_proofs.nth_error_lt; eauto). eexists. split; [reflexivity|]. split; [reflexivity|]. intros more. now apply dead_stays.
Qed.
Print Assumptions C85_crash_refuted.

(* What connection c has read gets handled by its own reader and its own worker alone, if the
   handlers return for the requests those two have: nobody else has to do anything.  Missing
   for the full statement: other connections' requests may be among them. *)
Theorem C85_goes_on_partial : forall cf d ls s tr c w, cf_mode cf <> ModeDynamicBind -> pool_size cf > 0 -> hub_run cf d ls = Some (s, tr) ->
  hb_dead s = false -> uses s c w -> Forall (returns (cf_routes cf)) (at_worker s w ++ to_queue s c) ->
  exists more s' e, Forall (of_conn_and_worker c w) more /\ hub_run cf d (ls ++ more) = Some (s', tr ++ e) /\ reads c e = [] /\
    begun c (tr ++ e) = made d (reads c tr) /\ done c (tr ++ e) = made d (reads c tr).
Proof.
  intros cf d ls s tr c w M P R A U F. destruct (goes_on cf d M P _ s tr c w (hub_inv cf d M ls s tr R) (hub_sinv cf d ls s tr R) A U F (le_n _)) as (more & s' & e & Fm & Rm & Rd & B & D).
  exists more, s', e. split; [exact Fm|]. split; [|auto]. revert R. unfold hub_run. destruct (start_pool cf) as [p|]; [|discriminate]. cbn. intros [= R]. now rewrite h_run_app, R, Rm.
Qed.
Print Assumptions C85_goes_on_partial.

(* C85, refuted: a handler that does not return for one connection's request keeps every
   connection with the same worker waiting for ever. *)
Theorem C85_waits : forall cf d ls s tr w c1 j1, cf_mode cf <> ModeDynamicBind -> pool_size cf > 0 -> hub_run cf d ls = Some (s, tr) ->
  (exists k, nth_error (ws_workers (hb_pool s)) w = Some k /\ wk_cur k = Some (c1, j1)) -> ~ returns (cf_routes cf) j1 ->
  forall c more s' e, uses s c w -> h_run cf d s more = (s', e) -> begun c e = [].
Proof. intros cf d ls s tr w c1 j1 M P R I Nr c more s' e U Rm. exact (stuck cf d M P w (c1, j1) more s tr s' e (hub_inv cf d M ls s tr R) I Nr Rm c U). Qed.
Print Assumptions C85_waits.

(* Router 1 goes back to its own first phase for ever; router 2 does nothing. *)
Definition loop_routes := Routes false [(1%Z, Router (HGoto 0 HRet) HRet HRet); (2%Z, Router HRet HRet HRet)] [].
Definition one_worker := Wcfg ModeHash 1 10 loop_routes.
Lemma loops : forall fuel s, rs_steps s = 0%Z -> snd (call_loop fuel (Router (HGoto 0 HRet) HRet HRet) s) = HFuel.
Proof.
  induction fuel as [|fuel IH]; intros s E; [reflexivity|]. cbn [call_loop]. rewrite E. cbn -[call_loop].
  match goal with |- context [call_loop fuel ?r ?s'] => assert (Q := IH s' eq_refl); destruct (call_loop fuel r s') as [es o] end. cbn in *. now subst o.
Qed.
Lemma never_back m : m_id m = 1%Z -> ~ returns loop_routes (JMsg m).
Proof. intros Hm (fuel & H). apply H. cbn -[call_loop]. unfold do_msg_handler. rewrite Hm. cbn -[call_loop]. assert (Q := loops fuel (fresh_request m) eq_refl). destruct (call_loop fuel _ _) as [es o]. cbn in Q. now subst o. Qed.

(* Two connections of a server with one worker; the first sends message 1, the second message 2. *)
Definition two_peers : list hlabel :=
  [HAccept Tcp; HAccept Tcp; HPool (LStart 0 0); HPool (LStart 1 0);
   HRead 0 (pack_tlv (new_msg_package 1 [])); HPass 0; HPool (LTake 0); HRead 1 (pack_tlv (new_msg_package 2 [])); HPass 1].
Definition view (cf : wcfg) (d : dec) (ls : list hlabel) :=
  option_map (fun x => (hb_dead (fst x), ws_workers (hb_pool (fst x)), ws_chans (hb_pool (fst x)), ws_conns (hb_pool (fst x)), map (fun h => (hc_link h, hc_next h)) (hb_conns (fst x)), snd x)) (hub_run cf d ls).
Lemma viewed cf d ls a k ch cs lk tr : view cf d ls = Some (a, k, ch, cs, lk, tr) ->
  exists s, hub_run cf d ls = Some (s, tr) /\ hb_dead s = a /\ ws_workers (hb_pool s) = k /\ ws_chans (hb_pool s) = ch /\ ws_conns (hb_pool s) = cs /\ map (fun h => (hc_link h, hc_next h)) (hb_conns s) = lk.
Proof. unfold view. destruct (hub_run cf d ls) as [[s tr']|]; [|discriminate]. cbn. intros [= <- <- <- <- <- <-]. eauto 8. Qed.
Lemma view_nth (l : list hconn) lk c k js : map (fun h => (hc_link h, hc_next h)) l = lk -> nth_error lk c = Some (k, js) -> exists x, nth_error l c = Some x /\ hc_link x = k /\ hc_next x = js.
Proof. intros <- H. rewrite nth_error_map in H. destruct (nth_error l c) as [x|]; [|discriminate]. injection H as <- <-. eauto. Qed.
Theorem C85_head_of_line_refuted : exists s tr, hub_run one_worker DTlv two_peers = Some (s, tr) /\
  hb_dead s = false /\ made DTlv (reads 1 tr) = [Some (2%Z, [])] /\
  (forall more s' e, h_run one_worker DTlv s more = (s', e) -> begun 1 (tr ++ e) = []).
Proof.
  destruct (viewed one_worker DTlv two_peers _ _ _ _ _ _ ltac:(vm_compute; reflexivity)) as (s & R & A & K & _ & C & _). exists s. eexists. split; [exact R|]. split; [exact A|]. split; [vm_compute; reflexivity|].
  intros more s' e Rm. rewrite begun_app. assert (Q := C85_waits one_worker DTlv two_peers s _ 0 0 _ ltac:(discriminate) ltac:(cbn; lia) R ltac:(rewrite K; eexists; split; reflexivity) ltac:(apply never_back; reflexivity) 1 more s' e). rewrite Q; [reflexivity| |exact Rm].
  exists (Wconn 2 (Some 0) true false). rewrite C. split; reflexivity.
Qed.
Print Assumptions C85_head_of_line_refuted.

(* With two workers the second connection goes on: the hypotheses above are met, with the
   first connection's handler stuck, one request of the second queued and one to queue. *)
Definition two_workers := Wcfg ModeHash 2 10 loop_routes.
Definition two_peers' : list hlabel :=
  [HAccept Ws; HAccept Tcp; HPool (LStart 0 0); HPool (LStart 1 0);
   HRead 0 (pack_tlv (new_msg_package 1 [])); HPass 0; HPool (LTake 1);
   HRead 1 (pack_tlv (new_msg_package 2 []) ++ pack_tlv (new_msg_package 2 [x07])); HPass 1].
Example C85_case : exists s tr, hub_run two_workers DTlv two_peers' = Some (s, tr) /\ cf_mode two_workers <> ModeDynamicBind /\ pool_size two_workers > 0 /\
  hb_dead s = false /\ uses s 1 0 /\ Forall (returns (cf_routes two_workers)) (at_worker s 0 ++ to_queue s 1) /\
  begun 0 tr = [Some (1%Z, [])] /\ begun 1 tr = [] /\ made DTlv (reads 1 tr) = [Some (2%Z, []); Some (2%Z, [x07])] /\
  (forall c, (zlen (concat (reads c tr)) < 2^32)%Z).
Proof.
  destruct (viewed two_workers DTlv two_peers' _ _ _ _ _ _ ltac:(vm_compute; reflexivity)) as (s & R & A & K & Ch & C & L). destruct (view_nth _ _ 1 _ _ L eq_refl) as (x & X & _ & Nx).
  exists s. eexists. split; [exact R|]. split; [discriminate|]. split; [cbn; lia|]. split; [exact A|]. split; [eexists; rewrite C; split; reflexivity|]. split.
  - unfold at_worker, to_queue. rewrite K, Ch, X, Nx. cbn [nth_error wk_cur ch_buf map app snd]. repeat constructor; exists 4; discriminate.
  - split; [reflexivity|]. split; [reflexivity|]. split; [vm_compute; reflexivity|]. intros [|[|c]]; vm_compute; reflexivity.
Qed.
Example C85_crash_case : exists s tr, hub_run two_workers DHtlv [HAccept Ws; HAccept Tcp; HPool (LStart 0 0); HPool (LStart 1 0)] = Some (s, tr) /\
  hb_dead s = false /\ uses s 0 1 /\ is_link s 0 Ws /\ reads 0 tr = [] /\ good_frame htlv_length_field x1_bad /\ crc16 x1_bad <> 0%Z.
Proof.
  destruct (viewed two_workers DHtlv [HAccept Ws; HAccept Tcp; HPool (LStart 0 0); HPool (LStart 1 0)] _ _ _ _ _ _ ltac:(vm_compute; reflexivity)) as (s & R & A & _ & _ & C & L). destruct (view_nth _ _ 0 _ _ L eq_refl) as (x & X & Lx & _).
  exists s. eexists. split; [exact R|]. split; [exact A|]. split; [eexists; rewrite C; split; reflexivity|]. split; [now exists x|]. split; [reflexivity|]. split; [apply x1_bad_good|apply x1_bad_crc].
Qed.

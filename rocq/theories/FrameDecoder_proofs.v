From Coq Require Import ZArith List Bool Lia.
From Coq Require Import ZifyBool ZifyNat ZifyN.
From Verif Require Import Bytes FrameDecoder Spec_Framing.
Import ListNotations.
Local Open Scope Z_scope.
Ltac Zify.zify_post_hook ::= Z.div_mod_to_equations.

(* A decoder for configuration lf in normal mode with pending bytes b. *)
Definition fresh_with (lf : length_field) (b : list byte) : fdec :=
  set_in (new_frame_decoder lf) b.

Lemma supported_endoff lf : supported lf -> s64 (lf_off lf + lf_len lf) = header_end lf.
Proof.
  unfold supported, header_end. intros (H1 & H2 & H3 & _).
  apply s64_small. cbn [In] in H3. lia.
Qed.

Lemma supported_header_pos lf : supported lf -> 0 < header_end lf.
Proof.
  unfold supported, header_end. intros (H1 & H2 & H3 & _). cbn [In] in H3. lia.
Qed.

Lemma field_value_app lf s t :
  supported lf -> header_end lf <= zlen s -> field_value lf (s ++ t) = field_value lf s.
Proof.
  intros Hs Hl. unfold field_value. f_equal.
  destruct Hs as (H1 & _ & H3 & _). unfold header_end in Hl.
  assert (0 < lf_len lf) by (cbn [In] in H3; lia).
  rewrite zdrop_app_le by lia.
  rewrite ztake_app_le; [reflexivity|]. rewrite zlen_zdrop; lia.
Qed.

Lemma field_value_nonneg lf s : 0 <= field_value lf s.
Proof. unfold field_value. pose proof (get_uint_range (order_of lf) (ztake (lf_len lf) (zdrop (lf_off lf) s))). lia. Qed.

Lemma announced_app lf s t :
  supported lf -> header_end lf <= zlen s -> announced lf (s ++ t) = announced lf s.
Proof. intros. unfold announced. now rewrite field_value_app. Qed.

Lemma raw_length_ok lf s :
  supported lf -> header_end lf <= zlen s -> field_value lf s < 2^63 ->
  unadjusted_frame_length s (lf_off lf) (lf_len lf) (order_of lf) = Some (field_value lf s).
Proof.
  intros Hs Hl Hv. pose proof (field_value_nonneg lf s) as Hn.
  destruct Hs as (H1 & H2 & H3 & _). unfold header_end in *. cbn [In] in H3.
  unfold unadjusted_frame_length.
  replace ((lf_off lf <? 0) || (lf_len lf <? 0) || (zlen s <? lf_off lf + lf_len lf)) with false by lia.
  change (get_uint (order_of lf) (ztake (lf_len lf) (zdrop (lf_off lf) s))) with (field_value lf s).
  destruct (lf_len lf =? 1) eqn:E1; [reflexivity|].
  destruct (lf_len lf =? 2) eqn:E2; [reflexivity|].
  destruct (lf_len lf =? 3) eqn:E3; [reflexivity|].
  destruct (lf_len lf =? 4) eqn:E4; [reflexivity|].
  destruct (lf_len lf =? 8) eqn:E5; [|lia].
  rewrite s64_small by lia. reflexivity.
Qed.

Lemma s64_add_s64 a b : s64 (a + s64 b) = s64 (a + b).
Proof.
  unfold s64. f_equal.
  replace (a + ((b + 2 ^ 63) mod 2 ^ 64 - 2 ^ 63) + 2 ^ 63)
    with (a + (b + 2^63) mod 2^64) by lia.
  rewrite Zplus_mod_idemp_r. f_equal. lia.
Qed.

Lemma frame_len_ok lf s :
  supported lf -> -2^63 <= announced lf s < 2^63 ->
  s64 (field_value lf s + s64 (lf_adj lf + header_end lf)) = announced lf s.
Proof.
  intros Hs Ha. rewrite s64_add_s64. rewrite s64_small; unfold announced in *; lia.
Qed.

(* One call of decode on a buffer that starts with a whole frame. *)
Lemma decode1_good lf f rest :
  supported lf -> good_frame lf f ->
  decode1 (fresh_with lf (f ++ rest)) (f ++ rest)
  = D1Frame (fresh_with lf (f ++ rest)) (stripped lf f).
Proof.
  intros Hs (Hh & Hv & Hl & Hp & Hm & H63 & Hst).
  pose proof (supported_endoff lf Hs) as He.
  unfold decode1, fresh_with, set_in, new_frame_decoder. cbn [fd_discarding fd_endoff fd_off fd_flen fd_order fd_adj fd_max fd_strip].
  rewrite He.
  change (match lf_order lf with Some o => o | None => BigEndian end) with (order_of lf).
  rewrite zlen_app. pose proof (zlen_nonneg rest) as Hr.
  replace (zlen f + zlen rest <? header_end lf) with false by lia.
  rewrite raw_length_ok; [|assumption|rewrite zlen_app; lia|rewrite field_value_app by assumption; lia].
  rewrite field_value_app by assumption.
  pose proof (field_value_nonneg lf f) as Hn.
  replace (field_value lf f <? 0) with false by lia.
  rewrite frame_len_ok by (assumption || lia). rewrite <- Hl.
  rewrite u64_small by lia.
  replace (lf_max lf <? zlen f) with false by lia.
  replace (zlen f + zlen rest <? zlen f) with false by lia.
  replace (zlen f <? lf_strip lf) with false by lia.
  assert (0 <= lf_strip lf) by (destruct Hs as (_&_&_&_&?&_); assumption).
  unfold buf_next. replace (lf_strip lf <? 0) with false by lia.
  f_equal. rewrite zlen_app, Z.min_l by lia.
  rewrite zdrop_app_le by lia. unfold stripped.
  apply ztake_app. rewrite zlen_zdrop; lia.
Qed.

Lemma decode1_incomplete lf t :
  supported lf -> incomplete lf t ->
  decode1 (fresh_with lf t) t = D1None (fresh_with lf t).
Proof.
  intros Hs Hi.
  pose proof (supported_endoff lf Hs) as He.
  unfold decode1, fresh_with, set_in, new_frame_decoder. cbn [fd_discarding fd_endoff fd_off fd_flen fd_order fd_adj fd_max fd_strip].
  rewrite He.
  change (match lf_order lf with Some o => o | None => BigEndian end) with (order_of lf).
  destruct (zlen t <? header_end lf) eqn:E; [reflexivity|].
  destruct Hi as [Hi | (Hh & Hv & Hl & Hm & H63)]; [lia|].
  rewrite raw_length_ok by assumption.
  pose proof (field_value_nonneg lf t) as Hn. pose proof (zlen_nonneg t) as Ht.
  replace (field_value lf t <? 0) with false by lia.
  rewrite frame_len_ok by (assumption || lia).
  rewrite u64_small by lia.
  replace (lf_max lf <? announced lf t) with false by lia.
  replace (zlen t <? announced lf t) with true by lia.
  reflexivity.
Qed.

Lemma decode_loop_good lf fs t fuel :
  supported lf -> Forall (good_frame lf) fs -> incomplete lf t ->
  (length fs < fuel)%nat ->
  decode_loop fuel (fresh_with lf (concat fs ++ t))
  = DecOk (map (stripped lf) fs) (fresh_with lf t).
Proof.
  intros Hs. revert fuel.
  induction fs as [|f fs IH]; intros fuel Hf Ht Hfuel; (destruct fuel as [|fuel]; [lia|]).
  - cbn [concat app map decode_loop]. 
    change (fd_in (fresh_with lf t)) with t.
    rewrite decode1_incomplete by assumption. reflexivity.
  - cbn [concat map decode_loop].
    rewrite <- app_assoc.
    change (fd_in (fresh_with lf (f ++ concat fs ++ t))) with (f ++ concat fs ++ t).
    inversion Hf as [|? ? Hgf Hf']; subst.
    rewrite decode1_good by assumption.
    change (fd_strip (fresh_with lf (f ++ concat fs ++ t))) with (lf_strip lf).
    pose proof Hgf as (Hh & Hv & Hl & Hp & Hm & H63 & Hst).
    assert (0 <= lf_strip lf) by (destruct Hs as (_&_&_&_&?&_); assumption).
    assert (Hz : zlen (stripped lf f) + lf_strip lf = zlen f)
      by (unfold stripped; rewrite zlen_zdrop by lia; lia).
    cbv zeta. rewrite Hz.
    replace (0 <? zlen f) with true by lia.
    change (fd_in (fresh_with lf (f ++ concat fs ++ t))) with (f ++ concat fs ++ t).
    rewrite zdrop_app by reflexivity.
    change (set_in (fresh_with lf (f ++ concat fs ++ t)) (concat fs ++ t))
      with (fresh_with lf (concat fs ++ t)).
    cbn [length] in Hfuel.
    rewrite IH by (assumption || lia). reflexivity.
Qed.

Lemma good_frames_length lf fs :
  Forall (good_frame lf) fs -> (length fs <= length (concat fs))%nat.
Proof.
  induction 1 as [|f fs Hf _ IH]; cbn [concat length]; [lia|].
  rewrite app_length. destruct Hf as (_ & _ & _ & Hp & _). unfold zlen in Hp. lia.
Qed.

Lemma decode_good lf b c fs t :
  supported lf -> Forall (good_frame lf) fs -> incomplete lf t ->
  b ++ c = concat fs ++ t ->
  decode (fresh_with lf b) c = DecOk (map (stripped lf) fs) (fresh_with lf t).
Proof.
  intros Hs Hf Ht Heq. unfold decode, decode_fuel.
  change (fd_in (fresh_with lf b)) with b.
  change (set_in (fresh_with lf b) (b ++ c)) with (fresh_with lf (b ++ c)).
  rewrite Heq. apply decode_loop_good; try assumption.
  rewrite app_length. pose proof (good_frames_length lf fs Hf). lia.
Qed.

(* Prefixes of frame streams. *)
Definition prefix {A} (p l : list A) : Prop := exists r, l = p ++ r.

Lemma incomplete_nil lf : supported lf -> incomplete lf [].
Proof. intros H. left. pose proof (supported_header_pos lf H). rewrite zlen_nil. lia. Qed.

Lemma incomplete_prefix lf p r :
  supported lf -> incomplete lf (p ++ r) -> incomplete lf p.
Proof.
  intros Hs Hi. destruct (Z_lt_le_dec (zlen p) (header_end lf)) as [Hlt|Hle]; [left; assumption|].
  right. pose proof (zlen_nonneg r) as Hr.
  destruct Hi as [Hi | (Hh & Hv & Hl & Hm & H63)]; rewrite zlen_app in *; [lia|].
  rewrite announced_app in * by assumption. rewrite field_value_app in * by assumption.
  repeat split; lia.
Qed.

Lemma good_strict_prefix_incomplete lf p r :
  supported lf -> good_frame lf (p ++ r) -> r <> [] -> incomplete lf p.
Proof.
  intros Hs (Hh & Hv & Hl & Hp & Hm & H63 & Hst) Hr.
  assert (0 < zlen r) by (destruct r; [congruence| rewrite zlen_cons; pose proof (zlen_nonneg r); lia]).
  destruct (Z_lt_le_dec (zlen p) (header_end lf)) as [Hlt|Hle]; [left; assumption|].
  right. rewrite announced_app in * by assumption. rewrite field_value_app in * by assumption.
  rewrite zlen_app in *. repeat split; lia.
Qed.

(* Any prefix of a stream of frames is again a stream of frames, the first ones,
   followed by an incomplete one. *)
Lemma stream_prefix lf fs t p r :
  supported lf -> Forall (good_frame lf) fs -> incomplete lf t ->
  concat fs ++ t = p ++ r ->
  exists fs1 fs2 t1, fs = fs1 ++ fs2 /\ p = concat fs1 ++ t1 /\ incomplete lf t1
                     /\ t1 ++ r = concat fs2 ++ t.
Proof.
  intros Hs. revert p.
  induction fs as [|f fs IH]; intros p Hf Ht Heq.
  - cbn in Heq. exists [], [], p. repeat split; cbn; auto.
    subst t. eapply incomplete_prefix; eassumption.
  - inversion Hf as [|? ? Hgf Hf']; subst.
    cbn [concat] in Heq. rewrite <- app_assoc in Heq.
    destruct (app_eq_app _ _ _ _ Heq) as [q [[-> Hr] | [-> Hq]]].
    + (* p ends inside f, or exactly at its end *)
      destruct q as [|x q].
      * rewrite app_nil_r in *. cbn in Hr. subst r.
        exists [p], fs, []. cbn. rewrite !app_nil_r.
        repeat split; auto using incomplete_nil.
      * exists [], ((p ++ x :: q) :: fs), p. repeat split; cbn [concat app]; auto.
        -- eapply good_strict_prefix_incomplete; [assumption|eassumption|discriminate].
        -- rewrite Hr, <- !app_assoc. reflexivity.
    + (* f is entirely inside p *)
      destruct (IH q Hf' Ht Hq) as (fs1 & fs2 & t1 & -> & -> & Hi & Ht1).
      exists (f :: fs1), fs2, t1. cbn [concat app]. rewrite <- app_assoc. auto.
Qed.

(* The decoder is insensitive to the chunking of a well-formed stream. *)
Lemma feed_stream lf chunks : forall fs t b,
  supported lf -> Forall (good_frame lf) fs -> incomplete lf t -> incomplete lf b ->
  b ++ concat chunks = concat fs ++ t ->
  feed (fresh_with lf b) chunks = DecOk (map (stripped lf) fs) (fresh_with lf t).
Proof.
  induction chunks as [|c cs IH]; intros fs t b Hs Hf Ht Hb Heq.
  - cbn [concat feed] in *. rewrite app_nil_r in Heq. subst b.
    (* b incomplete forces fs = [] *)
    destruct fs as [|f fs]; [reflexivity|exfalso].
    inversion Hf as [|? ? Hgf Hf']; subst.
    destruct Hgf as (Hh & Hv & Hl & Hp & Hm & H63 & Hst).
    cbn [concat] in Hb. rewrite <- app_assoc in Hb.
    pose proof (zlen_nonneg (concat fs ++ t)) as Hn.
    destruct Hb as [Hb | (Hh' & Hv' & Hl' & Hm' & H63')]; rewrite ?zlen_app in *; [lia|].
    rewrite announced_app in Hl' by assumption. lia.
  - cbn [concat feed] in *.
    rewrite app_assoc in Heq. symmetry in Heq.
    destruct (stream_prefix lf fs t (b ++ c) (concat cs) Hs Hf Ht Heq)
      as (fs1 & fs2 & t1 & -> & Hp & Hi1 & Ht1).
    apply Forall_app in Hf as [Hf1 Hf2].
    rewrite (decode_good lf b c fs1 t1) by assumption.
    rewrite (IH fs2 t t1) by assumption.
    now rewrite map_app.
Qed.

Lemma feed_new_stream lf chunks fs t :
  supported lf -> Forall (good_frame lf) fs -> incomplete lf t ->
  concat chunks = concat fs ++ t ->
  feed (new_frame_decoder lf) chunks = DecOk (map (stripped lf) fs) (fresh_with lf t).
Proof.
  intros Hs Hf Ht Heq.
  change (new_frame_decoder lf) with (fresh_with lf []).
  apply feed_stream; auto using incomplete_nil.
Qed.

(* ------------------------------------------------------------------ *)
(* The fuel of [decode] is enough: OutOfFuel is divergence. *)

Lemma discarding_inv d buf d' rest :
  discarding_too_long d buf = Some (d', rest) ->
  fd_in d' = fd_in d /\ fd_endoff d' = fd_endoff d /\ fd_strip d' = fd_strip d /\
  zlen rest <= zlen buf /\ (0 < zlen rest -> fd_discarding d' = false).
Proof.
  unfold discarding_too_long, buf_next.
  destruct (Z.min (fd_todiscard d) (zlen buf) <? 0) eqn:E; [discriminate|].
  intros H; injection H as <- <-.
  pose proof (zlen_nonneg buf) as Hn.
  rewrite zlen_zdrop by lia.
  unfold fail_if_necessary. cbn [fd_todiscard set_discard].
  destruct (fd_todiscard d - Z.min (fd_todiscard d) (zlen buf) =? 0) eqn:E2;
    cbn [fd_in fd_endoff fd_strip fd_discarding set_discard]; repeat split; try lia.
Qed.

Lemma decode1_frame_inv d d' f :
  0 < fd_endoff d -> decode1 d (fd_in d) = D1Frame d' f ->
  fd_in d' = fd_in d /\ fd_endoff d' = fd_endoff d /\ fd_discarding d' = false /\
  (fd_discarding d = false -> d' = d) /\
  0 <= zlen f + fd_strip d' <= zlen (fd_in d).
Proof.
  intros He. unfold decode1.
  destruct (if fd_discarding d then discarding_too_long d (fd_in d) else Some (d, fd_in d))
    as [[d1 buf]|] eqn:E0; [|discriminate].
  assert (H0 : fd_in d1 = fd_in d /\ fd_endoff d1 = fd_endoff d /\ fd_strip d1 = fd_strip d /\
               zlen buf <= zlen (fd_in d) /\
               (0 < zlen buf -> fd_discarding d1 = false) /\ (fd_discarding d = false -> d1 = d)).
  { destruct (fd_discarding d) eqn:Ed.
    - destruct (discarding_inv _ _ _ _ E0) as (H1 & H2 & H3 & H4 & H5).
      repeat split; auto. discriminate.
    - injection E0 as <- <-. repeat split; auto; lia. }
  destruct H0 as (H1 & H2 & H3 & H4 & H5 & H6).
  destruct (zlen buf <? fd_endoff d1) eqn:E1; [discriminate|].
  destruct (unadjusted_frame_length _ _ _ _) as [raw|]; [|discriminate].
  destruct (raw <? 0); [discriminate|].
  destruct (fd_max d1 <? u64 (s64 (raw + s64 (fd_adj d1 + fd_endoff d1)))).
  { destruct (exceeded_frame_length _ _ _); discriminate. }
  set (n := s64 (raw + s64 (fd_adj d1 + fd_endoff d1))) in *.
  destruct (zlen buf <? n) eqn:E2; [discriminate|].
  destruct (n <? fd_strip d1) eqn:E3; [discriminate|].
  unfold buf_next. destruct (fd_strip d1 <? 0) eqn:E4; [discriminate|].
  intros H; injection H as <- <-.
  rewrite Z.min_l by lia. rewrite zlen_ztake by (rewrite zlen_zdrop; lia).
  repeat split; auto; try lia. apply H5. lia.
Qed.

Lemma decode_loop_S n d :
  decode_loop (S n) d =
  match decode1 d (fd_in d) with
  | D1Panic => DecPanic
  | D1None d' => DecOk [] d'
  | D1Frame d' f =>
    dec_cons f (decode_loop n
      (if 0 <? zlen f + fd_strip d' then set_in d' (zdrop (zlen f + fd_strip d') (fd_in d')) else d'))
  end.
Proof. reflexivity. Qed.

Lemma dec_cons_oof f r : dec_cons f r = DecOutOfFuel <-> r = DecOutOfFuel.
Proof. destruct r; cbn; split; congruence. Qed.

Lemma length_zdrop {A} k (l : list A) :
  0 <= k <= zlen l -> (length (zdrop k l) = length l - Z.to_nat k)%nat.
Proof. intros H. unfold zdrop. now rewrite skipn_length. Qed.

Lemma loop_enough_normal n : forall d fuel,
  fd_discarding d = false -> 0 < fd_endoff d -> (length (fd_in d) <= n)%nat ->
  decode_loop (S n) d = DecOutOfFuel -> decode_loop fuel d = DecOutOfFuel.
Proof.
  induction n as [|n IH]; intros d fuel Hd He Hl H;
    (induction fuel as [|fuel IHf]; [reflexivity|]).
  - cbn [decode_loop] in *.
    destruct (decode1 d (fd_in d)) as [|d'|d' f] eqn:E; try discriminate.
    destruct (decode1_frame_inv d d' f He E) as (H1 & H2 & H3 & H4 & H5).
    assert (Hz0 : zlen (fd_in d) = 0) by (unfold zlen; lia).
    specialize (H4 Hd). subst d'.
    cbv zeta. destruct (0 <? zlen f + fd_strip d) eqn:E1; [lia|].
    rewrite IHf. reflexivity.
  - rewrite decode_loop_S in *.
    destruct (decode1 d (fd_in d)) as [|d'|d' f] eqn:E; try discriminate.
    destruct (decode1_frame_inv d d' f He E) as (H1 & H2 & H3 & H4 & H5).
    specialize (H4 Hd). subst d'. apply dec_cons_oof in H. apply dec_cons_oof.
    destruct (0 <? zlen f + fd_strip d) eqn:E1; [|exact IHf].
    apply IH; [exact Hd|exact He| |exact H].
    cbn [fd_in set_in]. rewrite length_zdrop by lia. lia.
Qed.

Lemma decode_loop_mono n : forall m d, (n <= m)%nat ->
  decode_loop n d <> DecOutOfFuel -> decode_loop m d = decode_loop n d.
Proof.
  induction n as [|n IH]; intros m d Hm Hne; [now contradiction Hne|].
  destruct m as [|m]; [lia|]. cbn [decode_loop] in *.
  destruct (decode1 d (fd_in d)) as [|d'|d' f]; try reflexivity.
  cbv zeta in *.
  rewrite (IH m); [reflexivity|lia|].
  intros E. rewrite E in Hne. now apply Hne.
Qed.

Lemma decode_fuel_enough d buff fuel :
  0 < fd_endoff d ->
  decode d buff = DecOutOfFuel -> decode_fuel fuel d buff = DecOutOfFuel.
Proof.
  unfold decode, decode_fuel. intros He H.
  set (d0 := set_in d (fd_in d ++ buff)) in *.
  assert (He0 : 0 < fd_endoff d0) by exact He.
  change (length (fd_in d ++ buff)) with (length (fd_in d0)) in H. clearbody d0.
  destruct (fd_discarding d0) eqn:Ed.
  - destruct fuel as [|fuel]; [reflexivity|].
    rewrite decode_loop_S in *.
    destruct (decode1 d0 (fd_in d0)) as [|d'|d' f] eqn:E; try discriminate.
    destruct (decode1_frame_inv d0 d' f He0 E) as (H1 & H2 & H3 & H4 & H5).
    apply dec_cons_oof in H. apply dec_cons_oof.
    set (d'' := if 0 <? zlen f + fd_strip d' then set_in d' (zdrop (zlen f + fd_strip d') (fd_in d')) else d') in *.
    assert (Hd'' : fd_discarding d'' = false /\ 0 < fd_endoff d'' /\ (length (fd_in d'') <= length (fd_in d0))%nat).
    { subst d''. destruct (0 <? zlen f + fd_strip d'); cbn [fd_discarding fd_endoff fd_in set_in].
      - rewrite H1 in *. repeat split; auto; [lia|].
        rewrite length_zdrop by lia. lia.
      - rewrite H1. repeat split; auto; lia. }
    destruct Hd'' as (Ha & Hb & Hc).
    apply (loop_enough_normal (length (fd_in d0)) d'' fuel); auto.
  - apply (loop_enough_normal (S (length (fd_in d0)))); auto.
Qed.

(* Any run that ends with some fuel ends the same way in [decode]. *)
Lemma decode_complete d buff fuel :
  0 < fd_endoff d ->
  decode_fuel fuel d buff <> DecOutOfFuel -> decode d buff = decode_fuel fuel d buff.
Proof.
  intros He Hne.
  assert (Hd : decode d buff <> DecOutOfFuel)
    by (intros E; apply Hne; now apply decode_fuel_enough).
  unfold decode, decode_fuel in *.
  destruct (Nat.le_ge_cases fuel (S (S (length (fd_in d ++ buff))))) as [H|H].
  - now apply decode_loop_mono.
  - symmetry. now apply decode_loop_mono.
Qed.

From Coq Require Import ZArith List Bool Lia.
From Verif Require Import Bytes Pack FrameDecoder Chain Decoders Reader GoSlice Router_proofs Payload Spec_Payload.
Import ListNotations.
Local Open Scope nat_scope.

Section Fop.
  Context {A : Type}.
  Variable R : A -> A -> Prop.
  Lemma fop_app l1 : forall l2, ForallOrdPairs R (l1 ++ l2) <-> ForallOrdPairs R l1 /\ ForallOrdPairs R l2 /\ forall x y, In x l1 -> In y l2 -> R x y.
  Proof.
    induction l1 as [|x l1 IH]; intros l2; cbn [app].
    - split; [intros H; split; [constructor|split; [exact H|intros ? ? []]]|tauto].
    - split.
      + intros H. inversion H as [|? ? H1 H2]; subst. rewrite Forall_app in H1. destruct H1 as (H1 & H3). apply IH in H2 as (H4 & H5 & H6). split; [now constructor|]. split; [exact H5|]. intros y z [<-|I1] I2; [rewrite Forall_forall in H3; auto|auto].
      + intros (H1 & H2 & H3). inversion H1 as [|? ? H4 H5]; subst. constructor; [rewrite Forall_app; split; [exact H4|apply Forall_forall; intros y I; apply H3; [now left|exact I]]|]. apply IH. split; [exact H5|]. split; [exact H2|]. intros y z I1 I2. apply H3; [now right|exact I2].
  Qed.
End Fop.

Lemma write_at_mid {A} (x y : list A) c b : write_at (x ++ c :: y) (length x) [b] = x ++ b :: y.
Proof.
  unfold write_at. rewrite firstn_app, Nat.sub_diag, firstn_all. cbn [firstn]. rewrite app_nil_r. cbn [length app]. f_equal. f_equal.
  rewrite skipn_app. rewrite skipn_all2 by lia. replace (length x + 1 - length x) with 1 by lia. reflexivity.
Qed.
Lemma split_at {A} (l : list A) n : n < length l -> exists x c y, l = x ++ c :: y /\ length x = n.
Proof.
  intros H. pose proof (firstn_skipn n l) as E. destruct (skipn n l) as [|c y] eqn:Q; [apply (f_equal (@length A)) in Q; rewrite skipn_length in Q; cbn in Q; lia|]. exists (firstn n l), c, y. split; [now rewrite E|apply firstn_length_le; lia].
Qed.
Lemma set_nth_mid {A} (x y : list A) c b : set_nth (length x) b (x ++ c :: y) = x ++ b :: y.
Proof. induction x as [|z x IH]; [reflexivity|]. cbn. now rewrite IH. Qed.
Lemma read_write (h : list (list byte)) s o b : swf h s -> o < sl_len s -> swf (sl_write h s o [b]) s /\ sl_read (sl_write h s o [b]) s = set_nth o b (sl_read h s).
Proof.
  intros (W1 & W2) H. split.
  { split; [exact W1|]. rewrite write_len; [exact W2|cbn [length]; lia]. }
  assert (HA : sl_arr s < length h) by (apply (swf_arr h s); [split; assumption|lia]).
  unfold sl_read, sl_write. rewrite nth_set_nth_same by exact HA. set (l := nth (sl_arr s) h []) in *.
  destruct (split_at (skipn (sl_off s) l) o) as (x & c & y & E & L); [rewrite skipn_length; lia|].
  assert (El : l = (firstn (sl_off s) l ++ x) ++ c :: y) by (rewrite <- app_assoc, <- E; symmetry; apply firstn_skipn).
  assert (Lf : length (firstn (sl_off s) l) = sl_off s) by (apply firstn_length_le; lia).
  assert (Ew : write_at l (sl_off s + o) [b] = (firstn (sl_off s) l ++ x) ++ b :: y).
  { rewrite El at 1. replace (sl_off s + o) with (length (firstn (sl_off s) l ++ x)) by (rewrite app_length; lia). apply write_at_mid. }
  rewrite Ew, E, <- app_assoc, skipn_app, Lf, Nat.sub_diag, (skipn_all2 (firstn (sl_off s) l)) by lia. cbn [app skipn].
  rewrite !firstn_app. replace (sl_len s - length x) with (S (sl_len s - S o)) by lia. rewrite (firstn_all2 x) by lia. cbn [firstn]. subst o. symmetry. apply set_nth_mid.
Qed.

Lemma copy_make h n bs h' s : length bs <= n -> sl_make x00 h n 0 = (h', s) ->
  swf (sl_copy h' s bs) s /\ sl_read (sl_copy h' s bs) (sl_upto s (length bs)) = bs /\ (forall t, swf h t -> swf (sl_copy h' s bs) t /\ sl_read (sl_copy h' s bs) t = sl_read h t /\ sep s t).
Proof.
  intros L E. destruct (make_spec x00 _ _ _ _ _ E) as (W & _ & _ & Ln & Cp & _ & Fr). rewrite Nat.add_0_r in Cp. unfold sl_copy. rewrite (firstn_all2 bs) by lia. split; [|split].
  - destruct W as (W1 & W2). split; [exact W1|]. rewrite write_len by lia. exact W2.
  - apply (write_read_prefix h' s 0 bs W); lia.
  - intros t Wt. destruct (Fr t Wt) as (Wt' & Rt & St). destruct (write_frame h' s 0 bs t W ltac:(lia) Wt' St) as (A & B). rewrite B, Rt. auto.
Qed.
Lemma dup_spec h bs h' s : sl_dup h bs = (h', s) -> swf h' s /\ sl_read h' s = bs /\ (forall t, swf h t -> swf h' t /\ sl_read h' t = sl_read h t /\ sep s t).
Proof.
  unfold sl_dup. destruct (sl_make x00 h (length bs) 0) as [h1 s1] eqn:E. intros [= <- <-]. destruct (copy_make h _ bs h1 s1 (le_n _) E) as (A & B & C). split; [exact A|]. split; [|exact C].
  destruct (make_spec x00 _ _ _ _ _ E) as (_ & _ & _ & Ln & _). replace s1 with (sl_upto s1 (length bs)) at 2; [exact B|]. unfold sl_upto. rewrite <- Ln. now destruct s1.
Qed.

(* ---- the decoder ---- *)
Lemma set_in_in f : set_in f (fd_in f) = f.
Proof. now destruct f. Qed.
Lemma set_set f a b : set_in (set_in f a) b = set_in f b.
Proof. reflexivity. Qed.
Lemma discarding_in d b d' r : discarding_too_long d b = Some (d', r) -> fd_in d' = fd_in d /\ (zlen r <= zlen b)%Z /\ fd_strip d' = fd_strip d.
Proof.
  unfold discarding_too_long, buf_next. destruct (Z.min (fd_todiscard d) (zlen b) <? 0)%Z eqn:N; [discriminate|]. apply Z.ltb_ge in N. intros [= <- <-]. split; [|split].
  - unfold fail_if_necessary. destruct (_ =? 0)%Z; reflexivity.
  - rewrite zlen_zdrop by (unfold zlen in *; lia). lia.
  - unfold fail_if_necessary. destruct (_ =? 0)%Z; reflexivity.
Qed.
Lemma exceeded_in d b n d' : exceeded_frame_length d b n = Some d' -> fd_in d' = fd_in d.
Proof. unfold exceeded_frame_length, fail_if_necessary. destruct (s64 (n - zlen b) <? 0)%Z; [destruct (buf_next n b); [|discriminate]|]; intros [= <-]; match goal with |- context [(?x =? 0)%Z] => destruct (x =? 0)%Z end; reflexivity. Qed.
Lemma decode1_in d b : match decode1 d b with D1Panic => True | D1None d' => fd_in d' = fd_in d | D1Frame d' f => fd_in d' = fd_in d /\ (0 <= zlen f + fd_strip d' <= zlen b)%Z end.
Proof.
  unfold decode1. destruct (if fd_discarding d then discarding_too_long d b else Some (d, b)) as [[d1 b1]|] eqn:E; [|exact Logic.I].
  assert (H : fd_in d1 = fd_in d /\ (zlen b1 <= zlen b)%Z).
  { destruct (fd_discarding d); [apply discarding_in in E; tauto|injection E as <- <-; split; [reflexivity|lia]]. }
  destruct H as (H1 & H2). destruct (zlen b1 <? fd_endoff d1)%Z; [exact H1|]. destruct (unadjusted_frame_length _ _ _ _) as [raw|]; [|exact Logic.I]. destruct (raw <? 0)%Z; [exact Logic.I|]. cbn zeta. set (n := s64 _). destruct (fd_max d1 <? u64 n)%Z.
  - destruct (exceeded_frame_length d1 b1 n) as [d2|] eqn:X; [apply exceeded_in in X; congruence|exact Logic.I].
  - destruct (zlen b1 <? n)%Z eqn:L1; [exact H1|]. apply Z.ltb_ge in L1. destruct (n <? fd_strip d1)%Z eqn:L2; [exact Logic.I|]. apply Z.ltb_ge in L2. unfold buf_next. destruct (fd_strip d1 <? 0)%Z eqn:L3; [exact Logic.I|]. apply Z.ltb_ge in L3. split; [exact H1|].
    rewrite zlen_ztake; [lia|]. rewrite zlen_zdrop by lia. lia.
Qed.
Lemma from_spec (h : list (list byte)) s n : swf h s -> n <= sl_len s -> swf h (sl_from s n) /\ sl_read h (sl_from s n) = skipn n (sl_read h s).
Proof.
  intros (W1 & W2) H. split; [split; cbn [sl_len sl_cap sl_off sl_arr sl_from]; lia|]. unfold sl_read, sl_from. cbn [sl_len sl_cap sl_off sl_arr]. set (l := nth (sl_arr s) h []) in *.
  rewrite skipn_firstn_comm. f_equal. rewrite (Nat.add_comm (sl_off s) n). clearbody l. clear. revert l. generalize (sl_off s). intros o0. induction o0 as [|o IH]; intros l; [now rewrite Nat.add_0_r|]. rewrite Nat.add_succ_r. destruct l; [now rewrite !skipn_nil|]. cbn [skipn]. apply IH.
Qed.
Lemma sep_from s n t : sep s t -> sep (sl_from s n) t.
Proof. unfold sep, sl_from. cbn [sl_cap sl_arr]. intuition lia. Qed.

Lemma loop_spec : forall fuel h i fd h' i' fd' r, swf h i -> m_loop fuel h i fd = (h', i', fd', r) ->
  swf h' i' /\ (forall t, sep i t -> sep i' t) /\
  (forall t, swf h t -> swf h' t /\ sl_read h' t = sl_read h t /\ forall fs, r = Some fs -> forall s, In s fs -> sep s t) /\
  match r with
  | None => match decode_loop fuel (set_in fd (sl_read h i)) with DecOk _ _ => False | _ => True end
  | Some fs => Forall (swf h') fs /\ ForallOrdPairs sep fs /\ decode_loop fuel (set_in fd (sl_read h i)) = DecOk (map (sl_read h') fs) (set_in fd' (sl_read h' i'))
  end.
Proof.
  induction fuel as [|fuel IH]; intros h i fd h' i' fd' r W; cbn [m_loop decode_loop].
  - intros [= <- <- <- <-]. split; [exact W|]. split; [auto|]. split; [intros t H; split; [exact H|]; split; [reflexivity|discriminate]|exact Logic.I].
  - change (fd_in (set_in fd (sl_read h i))) with (sl_read h i). pose proof (decode1_in (set_in fd (sl_read h i)) (sl_read h i)) as D. destruct (decode1 (set_in fd (sl_read h i)) (sl_read h i)) as [|d1|d1 f].
    + intros [= <- <- <- <-]. split; [exact W|]. split; [auto|]. split; [intros t H; split; [exact H|]; split; [reflexivity|discriminate]|exact Logic.I].
    + intros [= <- <- <- <-]. split; [exact W|]. split; [auto|]. split; [intros t H; split; [exact H|]; split; [reflexivity|intros fs [= <-] s []]|]. split; [constructor|]. split; [constructor|]. cbn [map]. f_equal. change (sl_read h i) with (fd_in (set_in fd (sl_read h i))). rewrite <- D. symmetry. apply set_in_in.
    + destruct D as (D1 & D2). change (fd_in (set_in fd (sl_read h i))) with (sl_read h i) in D1. destruct (sl_dup h f) as [h1 s] eqn:Ed. destruct (dup_spec h f h1 s Ed) as (Ws & Rs & Fs). destruct (Fs i W) as (Wi & Ri & Si).
      assert (Ln : length (sl_read h i) = sl_len i) by (apply sl_read_length; exact W).
      set (i1 := if (0 <? zlen f + fd_strip d1)%Z then sl_from i (Z.to_nat (zlen f + fd_strip d1)) else i).
      assert (I1 : swf h1 i1 /\ (forall t, sep i t -> sep i1 t) /\ set_in d1 (sl_read h1 i1) = (if (0 <? zlen f + fd_strip d1)%Z then set_in d1 (zdrop (zlen f + fd_strip d1) (fd_in d1)) else d1)).
      { unfold i1. destruct (0 <? zlen f + fd_strip d1)%Z eqn:Q.
        - apply Z.ltb_lt in Q. destruct (from_spec h1 i (Z.to_nat (zlen f + fd_strip d1)) Wi) as (A & B); [assert (Zl : zlen (sl_read h i) = Z.of_nat (sl_len i)) by (unfold zlen; now rewrite Ln); lia|]. split; [exact A|]. split; [intros t; apply sep_from|]. rewrite B, Ri, D1. reflexivity.
        - split; [exact Wi|]. split; [auto|]. rewrite Ri, <- D1. apply set_in_in. }
      destruct I1 as (W1 & S1 & E1). rewrite <- E1. destruct (m_loop fuel h1 i1 d1) as [[[h2 i2] d2] r2] eqn:Em. destruct (IH _ _ _ _ _ _ _ W1 Em) as (A & B & C & D). intros X.
      assert (h' = h2 /\ i' = i2 /\ fd' = d2 /\ r = match r2 with Some fs => Some (s :: fs) | None => None end) as (-> & -> & -> & ->) by (destruct r2; injection X as <- <- <- <-; auto).
      split; [exact A|]. split; [auto|]. split.
      * intros t Wt. destruct (Fs t Wt) as (Wt1 & Rt1 & St1). destruct (C t Wt1) as (Wt2 & Rt2 & St2). split; [exact Wt2|]. split; [congruence|]. intros fs Efs s0 I0. destruct r2 as [fs2|]; [|discriminate]. injection Efs as <-. destruct I0 as [<-|I0]; [exact St1|]. exact (St2 fs2 eq_refl s0 I0).
      * destruct r2 as [fs2|].
        -- destruct D as (D3 & D4 & D5). rewrite D5. cbn [dec_cons]. destruct (C s Ws) as (Ws2 & Rs2 & Ss2). split; [now constructor|]. split.
           ++ constructor; [apply Forall_forall; intros y I0; apply sep_sym, (Ss2 fs2 eq_refl y I0)|exact D4].
           ++ cbn [map]. now rewrite Rs2, Rs.
        -- destruct (decode_loop fuel (set_in d1 (sl_read h1 i1))); [contradiction|exact Logic.I|exact Logic.I].
Qed.

(* ---- the decoders ---- *)
Definition chain_of (d : dec) : builder := rd_chain (reader_with d).
Definition vals (h : list (list byte)) (ms : list (Z * slice)) : list (Z * list byte) := map (fun m => (fst m, sl_read h (snd m))) ms.
Definition one (d : dec) (bs : list byte) : option (Z * list byte) :=
  match d with
  | DNone => Some (0%Z, bs)
  | DTlv => if (zlen bs <? 8)%Z then Some (0%Z, bs) else match tlv_decode bs with Some (tag, _, v) => Some (tag, v) | None => None end
  | DLtv => if (zlen bs <? 8)%Z then Some (0%Z, bs) else match ltv_decode bs with Some (_, tag, v) => Some (tag, v) | None => None end
  | DHtlv => if (zlen bs <? 5)%Z then Some (0%Z, bs) else match htlv_decode bs with HtlvOk _ f _ _ _ => Some (b2z f, bs) | _ => None end
  end.
Lemma dispatch_one d f fs : dispatch_frames (chain_of d) (f :: fs) =
  match one d f with
  | Some p => let '(ds, s) := dispatch_frames (chain_of d) fs in (match execute (chain_of d) (IcRequest {| rq_msg := Some (new_message (u32 (zlen f)) f); rq_resp := None |}) with (es, _) => delivered_of es end ++ ds, s)
  | None => (match execute (chain_of d) (IcRequest {| rq_msg := Some (new_message (u32 (zlen f)) f); rq_resp := None |}) with (es, _) => delivered_of es end, StoppedByPanic)
  end /\ of_requests (match execute (chain_of d) (IcRequest {| rq_msg := Some (new_message (u32 (zlen f)) f); rq_resp := None |}) with (es, _) => delivered_of es end) = match one d f with Some p => [p] | None => [] end.
Proof.
  cbn [dispatch_frames]. unfold execute, interceptors_of. destruct d; cbn [chain_of reader_with rd_chain bd_head bd_body bd_tail opt_list app proceed one].
  - cbn. split; [reflexivity|]. reflexivity.
  - unfold tlv_intercept. cbn [get_imessage rq_msg new_message m_data]. destruct (zlen f <? 8)%Z; [cbn; split; reflexivity|]. destruct (tlv_decode f) as [[[tag len] v]|]; cbn; split; reflexivity.
  - unfold ltv_intercept. cbn [get_imessage rq_msg new_message m_data]. destruct (zlen f <? 8)%Z; [cbn; split; reflexivity|]. destruct (ltv_decode f) as [[[len tag] v]|]; cbn; split; reflexivity.
  - unfold htlv_intercept. cbn [get_imessage rq_msg new_message m_data]. destruct (zlen f <? 5)%Z; [cbn; split; reflexivity|]. destruct (htlv_decode f); cbn; split; reflexivity.
Qed.
Lemma m_decode_spec d h s : swf h s ->
  match m_decode d h s with
  | None => one d (sl_read h s) = None
  | Some (h', id, s') => one d (sl_read h s) = Some (id, sl_read h' s') /\ swf h' s' /\ (s' = s \/ forall t, swf h t -> sep s' t) /\ (forall t, swf h t -> swf h' t /\ sl_read h' t = sl_read h t)
  end.
Proof.
  intros W. unfold m_decode, one. destruct d.
  - split; [reflexivity|]. split; [exact W|]. split; [now left|auto].
  - destruct (zlen (sl_read h s) <? 8)%Z; [split; [reflexivity|]; split; [exact W|]; split; [now left|auto]|]. destruct (tlv_decode (sl_read h s)) as [[[tag len] v]|]; [|reflexivity]. destruct (sl_dup h v) as [h' s'] eqn:E. destruct (dup_spec _ _ _ _ E) as (A & B & C). split; [now rewrite B|]. split; [exact A|]. split; [right; intros t Wt; apply C, Wt|]. intros t Wt. destruct (C t Wt) as (X & Y & _). auto.
  - destruct (zlen (sl_read h s) <? 8)%Z; [split; [reflexivity|]; split; [exact W|]; split; [now left|auto]|]. destruct (ltv_decode (sl_read h s)) as [[[len tag] v]|]; [|reflexivity]. destruct (sl_dup h v) as [h' s'] eqn:E. destruct (dup_spec _ _ _ _ E) as (A & B & C). split; [now rewrite B|]. split; [exact A|]. split; [right; intros t Wt; apply C, Wt|]. intros t Wt. destruct (C t Wt) as (X & Y & _). auto.
  - destruct (zlen (sl_read h s) <? 5)%Z; [split; [reflexivity|]; split; [exact W|]; split; [now left|auto]|]. destruct (htlv_decode (sl_read h s)); try reflexivity. split; [reflexivity|]. split; [exact W|]. split; [now left|auto].
Qed.
Lemma of_requests_app a b : of_requests (a ++ b) = of_requests a ++ of_requests b.
Proof. apply flat_map_app. Qed.
Lemma dispatch_spec d : forall fs h h' ms ok, Forall (swf h) fs -> ForallOrdPairs sep fs -> m_dispatch d h fs = (h', ms, ok) ->
  Forall (swf h') (map snd ms) /\ ForallOrdPairs sep (map snd ms) /\
  (forall t, swf h t -> swf h' t /\ sl_read h' t = sl_read h t /\ ((forall s, In s fs -> sep s t) -> forall s, In s (map snd ms) -> sep s t)) /\
  let (qs, st) := dispatch_frames (chain_of d) (map (sl_read h) fs) in of_requests qs = vals h' ms /\ ok = match st with Running => true | _ => false end.
Proof.
  induction fs as [|s fs IH]; intros h h' ms ok F P; cbn [m_dispatch].
  - intros [= <- <- <-]. cbn. split; [constructor|]. split; [constructor|]. split; [intros t H; split; [exact H|]; split; [reflexivity|intros _ s []]|auto].
  - inversion F as [|? ? Fs Ff]; subst. inversion P as [|? ? Ps Pf]; subst. pose proof (m_decode_spec d h s Fs) as M. cbn [map]. destruct (dispatch_one d (sl_read h s) (map (sl_read h) fs)) as (D1 & D2). rewrite D1. destruct (m_decode d h s) as [[[h1 id] s1]|].
    + destruct M as (M1 & M2 & M3 & M4). rewrite M1 in D2 |- *. destruct (m_dispatch d h1 fs) as [[h2 ms2] ok2] eqn:E.
      assert (F1 : Forall (swf h1) fs) by (eapply Forall_impl; [|exact Ff]; intros t Wt; apply M4, Wt).
      destruct (IH _ _ _ _ F1 Pf E) as (A & B & C & D). intros [= <- <- <-]. cbn [map snd].
      assert (Sep1 : forall t, In t fs -> sep t s1).
      { intros t It. rewrite Forall_forall in Ps, Ff. apply sep_sym. destruct M3 as [->|M3]; [apply Ps, It|apply M3, Ff, It]. }
      destruct (C s1 M2) as (C1 & C2 & C3). split; [now constructor|]. split; [constructor; [apply Forall_forall; intros y Iy; apply sep_sym, (C3 Sep1 y Iy)|exact B]|]. split.
      * intros t Wt. destruct (M4 t Wt) as (Wt1 & Rt1). destruct (C t Wt1) as (Wt2 & Rt2 & St2). split; [exact Wt2|]. split; [congruence|]. intros St s0 [<-|I0]; [destruct M3 as [->|M3]; [apply St; now left|apply M3, Wt]|]. apply St2; [intros u Iu; apply St; now right|exact I0].
      * assert (Em : map (sl_read h) fs = map (sl_read h1) fs). { apply map_ext_in. intros t It. rewrite Forall_forall in Ff. symmetry. apply M4, Ff, It. } rewrite Em. destruct (dispatch_frames (chain_of d) (map (sl_read h1) fs)) as [qs st]. destruct D as (Da & Db). rewrite of_requests_app, D2, Da. split; [|exact Db]. cbn [vals map fst snd app]. now rewrite C2.
    + rewrite M in D2 |- *. intros [= <- <- <-]. cbn [map]. split; [constructor|]. split; [constructor|]. split; [intros t H; split; [exact H|]; split; [reflexivity|intros _ s0 []]|]. split; [exact D2|reflexivity].
Qed.

(* ---- one step ---- *)
Section Run.
  Variable k : link.
  Variable size : nat.

  Lemma receive_spec h buf chunk h1 b : fits k size chunk = true -> swf h buf -> (k = Tcp -> sl_len buf = size) -> receive k size h buf chunk = (h1, b) ->
    swf h1 b /\ sl_read h1 b = chunk /\ swf h1 buf /\ (forall t, swf h t -> sep buf t -> swf h1 t /\ sl_read h1 t = sl_read h t /\ (k <> Tcp -> sep b t)) /\ (k <> Tcp -> sep b buf).
  Proof.
    intros Ft W L. unfold receive. unfold fits in Ft. destruct k.
    - apply Nat.leb_le in Ft. specialize (L eq_refl). destruct W as (W1 & W2). unfold sl_copy. rewrite (firstn_all2 chunk) by lia. intros [= <- <-].
      assert (Wb : swf (sl_write h buf 0 chunk) buf) by (split; [exact W1|rewrite write_len by lia; exact W2]).
      split; [destruct Wb as (Wb1 & Wb2); split; cbn [sl_upto sl_len sl_cap sl_off sl_arr]; [lia|exact Wb2]|]. split; [apply (write_read_prefix h buf 0 chunk (conj W1 W2)); lia|]. split; [exact Wb|]. split; [|congruence].
      intros t Wt St. destruct (write_frame h buf 0 chunk t (conj W1 W2) ltac:(lia) Wt St) as (A & B). split; [exact A|]. split; [exact B|congruence].
    - apply Nat.leb_le in Ft. destruct (sl_make x00 h size 0) as [h' b'] eqn:E. destruct (copy_make h size chunk h' b' Ft E) as (A & B & C). destruct (make_spec x00 _ _ _ _ _ E) as (_ & _ & _ & Ln & Cp & _). intros [= <- <-].
      split; [destruct A as (A1 & A2); split; cbn [sl_upto sl_len sl_cap sl_off sl_arr]; [lia|exact A2]|]. split; [exact B|]. split; [apply C, W|]. split; [intros t Wt _; destruct (C t Wt) as (X & Y & Z); split; [exact X|]; split; [exact Y|intros _; exact Z]|intros _; exact (proj2 (proj2 (C buf W)))].
    - destruct (sl_make x00 h (length chunk) 0) as [h' b'] eqn:E. destruct (copy_make h _ chunk h' b' (le_n _) E) as (A & B & C). destruct (make_spec x00 _ _ _ _ _ E) as (_ & _ & _ & Ln & Cp & _). intros [= <- <-].
      split; [exact A|]. split; [rewrite <- B at 2; unfold sl_upto; rewrite <- Ln; now destruct b'|]. split; [apply C, W|]. split; [intros t Wt _; destruct (C t Wt) as (X & Y & Z); split; [exact X|]; split; [exact Y|intros _; exact Z]|intros _; exact (proj2 (proj2 (C buf W)))].
  Qed.

  Variable d : dec.
  Record inv (s : pst) (v : vst) : Prop := {
    i_wf : Forall (swf (p_heap s)) (p_buf s :: p_in s :: map snd (p_msgs s));
    i_sep : ForallOrdPairs sep (p_buf s :: p_in s :: map snd (p_msgs s));
    i_buf : k = Tcp -> sl_len (p_buf s) = size;
    i_msgs : v_msgs v = vals (p_heap s) (p_msgs s);
    i_up : v_up v = p_up s;
    i_fd : p_fd s = None <-> d = DNone;
    i_reader : p_up s = true -> v_reader v = {| rd_fd := option_map (fun f => set_in f (sl_read (p_heap s) (p_in s))) (p_fd s); rd_chain := chain_of d |}
  }.
  Lemma inv_new : inv (p_new k d size) (v_new d).
  Proof.
    unfold p_new. destruct (match k with Tcp => sl_make x00 [] size 0 | _ => ([], nil_slice) end) as [h b] eqn:E1.
    assert (B : swf h b /\ (k = Tcp -> sl_len b = size)).
    { destruct k; [destruct (make_spec x00 _ _ _ _ _ E1) as (A & _ & _ & L & _); auto|injection E1 as <- <-; split; [apply swf_nil|discriminate]|injection E1 as <- <-; split; [apply swf_nil|discriminate]]. } destruct B as (B1 & B2).
    destruct (match d with DNone => (h, nil_slice) | _ => sl_make x00 h 0 0 end) as [h' i] eqn:E2.
    assert (X : swf h' b /\ swf h' i /\ sep b i /\ sl_read h' i = []).
    { assert (M : sl_make x00 h 0 0 = (h', i) -> swf h' b /\ swf h' i /\ sep b i /\ sl_read h' i = []) by (intros M; destruct (make_spec x00 _ _ _ _ _ M) as (A & R & _ & _ & _ & _ & Fr); destruct (Fr b B1) as (U & _ & V); split; [exact U|]; split; [exact A|]; split; [apply sep_sym, V|exact R]).
      destruct d; [injection E2 as <- <-; split; [exact B1|]; split; [apply swf_nil|]; split; [apply sep_sym, sep_nil|apply read_nil]|apply M, E2|apply M, E2|apply M, E2]. }
    destruct X as (X1 & X2 & X3 & X4). constructor; cbn [p_heap p_buf p_in p_msgs p_fd p_up v_new v_msgs v_up v_reader map].
    - apply Forall_cons; [exact X1|]. apply Forall_cons; [exact X2|]. apply Forall_nil.
    - constructor; [constructor; [exact X3|constructor]|constructor; constructor].
    - exact B2.
    - reflexivity.
    - reflexivity.
    - destruct d; cbn; split; congruence.
    - intros _. rewrite X4. unfold reader_with, chain_of. destruct d; reflexivity.
  Qed.

  Variable grow : nat -> nat -> nat.
  Hypothesis Hk : k <> Tcp \/ d <> DNone.
  Lemma vals_app h a b : vals h (a ++ b) = vals h a ++ vals h b.
  Proof. apply map_app. Qed.
  Lemma vals_keep h h' ms : (forall t, In t (map snd ms) -> sl_read h' t = sl_read h t) -> vals h' ms = vals h ms.
  Proof. intros H. apply map_ext_in. intros m I0. f_equal. apply H, in_map, I0. Qed.

  Lemma step_sim s v l s' e : inv s v -> p_step grow k d size s l = (s', e) -> exists v', v_step k size v l = (v', e) /\ inv s' v'.
  Proof.
    intros V. destruct (V) as [Wf Sp Bf Ms Up Fd Rd]. inversion Wf as [|? ? Wb Wf1]; subst. inversion Wf1 as [|? ? Wi Wm]; subst. inversion Sp as [|? ? Sb Sp1]; subst. inversion Sp1 as [|? ? Si Sm]; subst. inversion Sb as [|? ? Sbi Sbm]; subst.
    rewrite Forall_forall in Wm, Sbm, Si. destruct l as [chunk|i|i o b]; cbn [p_step v_step].
    - rewrite Up. destruct (p_up s && fits k size chunk) eqn:G; [|intros [= <- <-]; exists v; auto]. apply andb_true_iff in G as (G1 & G2). specialize (Rd G1). rewrite Rd.
      destruct (receive k size (p_heap s) (p_buf s) chunk) as [h1 b] eqn:E1. destruct (receive_spec _ _ _ _ _ G2 Wb Bf E1) as (Rb & Rc & Rbuf & Rt & Rbb). destruct (p_fd s) as [fd|] eqn:Ef; cbn [option_map].
      + destruct (Rt _ Wi Sbi) as (Wi1 & Ri1 & _).
        destruct (sl_append x00 grow h1 (p_in s) (sl_read h1 b)) as [h2 i] eqn:E2. destruct (append_spec x00 grow _ _ _ _ _ Wi1 E2) as (A1 & A2 & A3). rewrite Rc in A2.
        destruct (m_loop (S (S (length (sl_read h2 i)))) h2 i fd) as [[[h3 i'] fd'] r] eqn:E3. destruct (loop_spec _ _ _ _ _ _ _ _ A1 E3) as (B1 & B2 & B3 & B4).
        assert (Kept : forall t, swf (p_heap s) t -> sep (p_buf s) t -> sep (p_in s) t -> swf h3 t /\ sl_read h3 t = sl_read (p_heap s) t /\ sep i' t /\ forall fs, r = Some fs -> forall x, In x fs -> sep x t).
        { intros t Wt S1 S2. destruct (Rt t Wt S1) as (U1 & U2 & _). destruct (A3 t U1 S2) as (U3 & U4 & U5). destruct (B3 t U3) as (U6 & U7 & U8). split; [exact U6|]. split; [congruence|]. split; [apply B2, U5|exact U8]. }
        assert (KeptB : swf h3 (p_buf s) /\ sep i' (p_buf s) /\ forall fs, r = Some fs -> forall x, In x fs -> sep x (p_buf s)).
        { destruct (A3 _ Rbuf (sep_sym _ _ Sbi)) as (U3 & _ & U5). destruct (B3 _ U3) as (U6 & _ & U8). split; [exact U6|]. split; [apply B2, U5|exact U8]. }
        destruct KeptB as (KB1 & KB2 & KB3).
        assert (Ev : decode {| fd_order := fd_order fd; fd_max := fd_max fd; fd_off := fd_off fd; fd_flen := fd_flen fd; fd_adj := fd_adj fd; fd_strip := fd_strip fd; fd_endoff := fd_endoff fd; fd_discarding := fd_discarding fd; fd_toolong := fd_toolong fd; fd_todiscard := fd_todiscard fd; fd_in := sl_read (p_heap s) (p_in s) |} chunk
          = decode_loop (S (S (length (sl_read h2 i)))) (set_in fd (sl_read h2 i))).
        { unfold decode, decode_fuel. cbn [fd_in]. rewrite A2, <- Ri1. reflexivity. }
        unfold read_chunk. cbn [rd_fd rd_chain]. unfold set_in at 1. rewrite Ev. destruct r as [fs|].
        * destruct B4 as (B5 & B6 & B7). rewrite B7. destruct (m_dispatch d h3 fs) as [[h4 ms] ok] eqn:E4. destruct (dispatch_spec d fs h3 h4 ms ok B5 B6 E4) as (C1 & C2 & C3 & C4). destruct (dispatch_frames (chain_of d) (map (sl_read h3) fs)) as [qs st]. destruct C4 as (C5 & C6). intros [= <- <-]. eexists. split; [reflexivity|].
          destruct (C3 _ B1) as (D1 & D2 & D3). destruct (C3 _ KB1) as (D4 & D5 & D6).
          assert (Old : forall t, In t (map snd (p_msgs s)) -> swf h4 t /\ sl_read h4 t = sl_read (p_heap s) t /\ sep i' t /\ forall x, In x (map snd ms) -> sep x t).
          { intros t It. destruct (Kept t (Wm t It) (Sbm t It) (Si t It)) as (U1 & U2 & U3 & U4). destruct (C3 t U1) as (U5 & U6 & U7). split; [exact U5|]. split; [congruence|]. split; [exact U3|]. apply U7. exact (U4 fs eq_refl). }
          assert (FrI : forall x, In x fs -> sep x i').
          { intros x Ix. assert (Q : swf h2 i) by exact A1. destruct (B3 i Q) as (_ & _ & U). apply sep_sym, B2, sep_sym, (U fs eq_refl x Ix). }
          constructor; cbn [p_heap p_buf p_in p_msgs p_fd p_up v_msgs v_up v_reader].
          -- rewrite map_app. constructor; [exact D4|]. constructor; [exact D1|]. apply Forall_app. split; [apply Forall_forall; intros t It; apply Old, It|exact C1].
          -- rewrite map_app. constructor; [constructor; [apply sep_sym, KB2|]; apply Forall_app; split; apply Forall_forall; intros t It; [apply Sbm, It|apply sep_sym, D6; [exact (KB3 fs eq_refl)|exact It]]|].
             constructor; [apply Forall_app; split; apply Forall_forall; intros t It; [exact (proj1 (proj2 (proj2 (Old t It))))|apply sep_sym, D3; [exact FrI|exact It]]|]. apply fop_app. split; [exact Sm|]. split; [exact C2|]. intros x y Ix Iy. apply sep_sym, (Old x Ix), Iy.
          -- exact Bf.
          -- rewrite vals_app, C5, Ms. f_equal. symmetry. apply vals_keep. intros t It. apply Old, It.
          -- symmetry. exact C6.
          -- split; [discriminate|]. intros Q. apply Fd in Q. discriminate.
          -- intros _. cbn [option_map]. now rewrite D2.
        * intros [= <- <-]. exists {| v_reader := v_reader v; v_msgs := v_msgs v ++ []; v_up := false |}. split.
          { destruct (decode_loop _ _); [contradiction| |]; cbn [of_requests flat_map]; rewrite Rd; cbn [option_map]; reflexivity. }
          assert (Old : forall t, In t (map snd (p_msgs s)) -> swf h3 t /\ sl_read h3 t = sl_read (p_heap s) t /\ sep i' t).
          { intros t It. destruct (Kept t (Wm t It) (Sbm t It) (Si t It)) as (U1 & U2 & U3 & _). auto. }
          constructor; cbn [p_heap p_buf p_in p_msgs p_fd p_up v_msgs v_up v_reader].
          -- constructor; [exact KB1|]. constructor; [exact B1|]. apply Forall_forall. intros t It. apply Old, It.
          -- constructor; [constructor; [apply sep_sym, KB2|apply Forall_forall; exact Sbm]|]. constructor; [apply Forall_forall; intros t It; exact (proj2 (proj2 (Old t It)))|exact Sm].
          -- exact Bf.
          -- rewrite app_nil_r, Ms. symmetry. apply vals_keep. intros t It. apply Old, It.
          -- reflexivity.
          -- split; [discriminate|]. intros Q. apply Fd in Q. discriminate.
          -- discriminate.
      + assert (Ed : d = DNone) by (apply Fd; reflexivity). assert (Nk : k <> Tcp) by (destruct Hk as [H|H]; [exact H|contradiction]).
        destruct (m_dispatch d h1 [b]) as [[h2 ms] ok] eqn:E2. assert (Fb : Forall (swf h1) [b]) by (constructor; [exact Rb|constructor]). destruct (dispatch_spec d [b] h1 h2 ms ok Fb ltac:(constructor; constructor) E2) as (C1 & C2 & C3 & C4).
        cbn [map] in C4. rewrite Rc in C4. unfold read_chunk. cbn [rd_fd rd_chain]. destruct (dispatch_frames (chain_of d) [chunk]) as [qs st]. destruct C4 as (C5 & C6). intros [= <- <-]. eexists. split; [reflexivity|].
        assert (Wi1 : swf h1 (p_in s) /\ sl_read h1 (p_in s) = sl_read (p_heap s) (p_in s) /\ sep b (p_in s)) by (destruct (Rt _ Wi Sbi) as (X & Y & Z); auto). destruct Wi1 as (Wi1 & Ri1 & Zi).
        destruct (C3 _ Wi1) as (D1 & D2 & D3). destruct (C3 _ Rbuf) as (D4 & D5 & D6).
        assert (Old : forall t, In t (map snd (p_msgs s)) -> swf h2 t /\ sl_read h2 t = sl_read (p_heap s) t /\ forall x, In x (map snd ms) -> sep x t).
        { intros t It. destruct (Rt t (Wm t It) (Sbm t It)) as (U1 & U2 & U3). destruct (C3 t U1) as (U5 & U6 & U7). split; [exact U5|]. split; [congruence|]. apply U7. intros x [<-|[]]. exact (U3 Nk). }
        constructor; cbn [p_heap p_buf p_in p_msgs p_fd p_up v_msgs v_up v_reader].
        * rewrite map_app. constructor; [exact D4|]. constructor; [exact D1|]. apply Forall_app. split; [apply Forall_forall; intros t It; apply Old, It|exact C1].
        * rewrite map_app. constructor; [constructor; [exact Sbi|]; apply Forall_app; split; apply Forall_forall; intros t It; [apply Sbm, It|apply sep_sym, D6; [intros x [<-|[]]; exact (Rbb Nk)|exact It]]|].
          constructor; [apply Forall_app; split; apply Forall_forall; intros t It; [apply Si, It|apply sep_sym, D3; [intros x [<-|[]]; exact Zi|exact It]]|]. apply fop_app. split; [exact Sm|]. split; [exact C2|]. intros x y Ix Iy. apply sep_sym, (Old x Ix), Iy.
        * exact Bf.
        * rewrite vals_app, C5, Ms. f_equal. symmetry. apply vals_keep. intros t It. apply Old, It.
        * symmetry. exact C6.
        * split; [auto|reflexivity].
        * intros _. reflexivity.
    - rewrite Ms. unfold vals. rewrite nth_error_map. destruct (nth_error (p_msgs s) i) as [[id x]|]; cbn [option_map fst snd]; intros [= <- <-]; exists v; auto.
    - rewrite Ms. unfold vals. rewrite nth_error_map. destruct (nth_error (p_msgs s) i) as [[id x]|] eqn:N; cbn [option_map fst snd]; [|intros [= <- <-]; exists v; auto].
      assert (Ix : In x (map snd (p_msgs s))) by (apply nth_error_In in N; change x with (snd (id, x)); now apply in_map). rewrite (sl_read_length _ _ (Wm x Ix)). destruct (o <? sl_len x) eqn:Q; [|intros [= <- <-]; exists v; auto]. apply Nat.ltb_lt in Q. intros [= <- <-]. eexists. split; [reflexivity|].
      destruct (read_write (p_heap s) x o b (Wm x Ix) Q) as (R1 & R2). set (h' := sl_write (p_heap s) x o [b]) in *.
      assert (Oth : forall t, swf (p_heap s) t -> sep x t -> swf h' t /\ sl_read h' t = sl_read (p_heap s) t) by (intros t Wt St; apply write_frame; [apply Wm, Ix|cbn [length]; destruct (Wm x Ix); lia|exact Wt|exact St]).
      destruct (nth_error_split _ _ N) as (l1 & l2 & El & Li). rewrite El, map_app in Sm, Si, Sbm, Wm. cbn [map snd] in Sm, Si, Sbm, Wm. apply fop_app in Sm as (Sm1 & Sm2 & Sm3). inversion Sm2 as [|? ? Sm4 Sm5]; subst. rewrite Forall_forall in Sm4.
      assert (O1 : forall t, In t (map snd l1) -> swf h' t /\ sl_read h' t = sl_read (p_heap s) t) by (intros t It; apply Oth; [apply Wm, in_or_app; now left|apply sep_sym, Sm3; [exact It|now left]]).
      assert (O2 : forall t, In t (map snd l2) -> swf h' t /\ sl_read h' t = sl_read (p_heap s) t) by (intros t It; apply Oth; [apply Wm, in_or_app; right; now right|apply Sm4, It]).
      destruct (Oth _ Wb (sep_sym _ _ (Sbm x ltac:(apply in_or_app; right; now left)))) as (X1 & X2). destruct (Oth _ Wi (sep_sym _ _ (Si x ltac:(apply in_or_app; right; now left)))) as (X3 & X4).
      constructor; cbn [p_heap p_buf p_in p_msgs p_fd p_up v_msgs v_up v_reader].
      + constructor; [exact X1|]. constructor; [exact X3|]. rewrite El, map_app. cbn [map snd]. apply Forall_app. split; [apply Forall_forall; intros t It; apply O1, It|]. constructor; [exact R1|]. apply Forall_forall. intros t It. apply O2, It.
      + rewrite El. rewrite map_app. cbn [map snd]. rewrite El, map_app in Sp. exact Sp.
      + exact Bf.
      + rewrite El, !map_app. cbn [map fst snd]. replace (length l1) with (length (map (fun m : Z * slice => (fst m, sl_read (p_heap s) (snd m))) l1)) by apply map_length. rewrite set_nth_mid. unfold vals. rewrite map_app. cbn [map fst snd]. rewrite R2. f_equal; [|f_equal]; apply map_ext_in; intros m Im; (rewrite (proj2 (O1 (snd m) (in_map snd _ _ Im))) || rewrite (proj2 (O2 (snd m) (in_map snd _ _ Im)))); reflexivity.
      + exact Up.
      + exact Fd.
      + intros U. rewrite X4. apply Rd, U.
  Qed.
  Lemma run_sim : forall ls s v, inv s v -> snd (p_run grow k d size s ls) = snd (v_run k size v ls).
  Proof.
    induction ls as [|l ls IH]; intros s v V; cbn [p_run v_run]; [reflexivity|]. destruct (p_step grow k d size s l) as [s1 e1] eqn:E. destruct (step_sim s v l s1 e1 V E) as (v1 & E1 & V1). rewrite E1. specialize (IH s1 v1 V1). destruct (p_run grow k d size s1 ls), (v_run k size v1 ls). cbn [snd] in *. now rewrite IH.
  Qed.
End Run.

(* ---- values and the reader ---- *)
Lemma v_run_dead k size : forall ls r ms, nobody_writes ls -> forall i id bs, In (Saw i id bs) (snd (v_run k size (Vst r ms false) ls)) -> nth_error ms i = Some (id, bs).
Proof.
  induction ls as [|l ls IH]; intros r ms N i id bs; cbn [v_run]; [intros []|]. assert (N' : nobody_writes ls) by (intros a b c I0; apply (N a b c); now right). specialize (IH r ms N' i id bs).
  destruct l as [chunk|j|j o b]; cbn [v_step v_up v_msgs v_reader andb].
  - destruct (v_run k size (Vst r ms false) ls). cbn [snd app] in *. exact IH.
  - destruct (nth_error ms j) as [[jd jb]|] eqn:E; destruct (v_run k size (Vst r ms false) ls); cbn [snd app] in *; [|exact IH]. intros [[= <- <- <-]|H]; [exact E|exact (IH H)].
  - exfalso. apply (N j o b). now left.
Qed.
Lemma v_run_reader k size : forall ls r ms, nobody_writes ls -> Forall (fun c => fits k size c = true) (reads ls) ->
  forall i id bs, In (Saw i id bs) (snd (v_run k size (Vst r ms true) ls)) -> nth_error (ms ++ of_requests (fst (fst (run_reader r (reads ls))))) i = Some (id, bs).
Proof.
  induction ls as [|l ls IH]; intros r ms N F i id bs; cbn [v_run]; [intros []|]. assert (N' : nobody_writes ls) by (intros a b c I0; apply (N a b c); now right).
  destruct l as [chunk|j|j o b]; cbn [v_step v_up v_msgs v_reader andb reads flat_map app run_reader].
  - cbn [reads flat_map app] in F. inversion F as [|? ? F1 F2]; subst. rewrite F1. destruct (read_chunk r chunk) as [[qs st] r'] eqn:E. change (flat_map _ ls) with (reads ls) in *.
    destruct st.
    + intros H. assert (H' : In (Saw i id bs) (snd (v_run k size (Vst r' (ms ++ of_requests qs) true) ls))) by (destruct (v_run k size (Vst r' (ms ++ of_requests qs) true) ls); exact H). apply IH in H'; [|exact N'|exact F2]. destruct (run_reader r' (reads ls)) as [[qs2 st2] r2]. cbn [fst] in *. now rewrite of_requests_app, app_assoc.
    + intros H. apply (v_run_dead k size ls r'); [exact N'|]. cbn [fst]. destruct (v_run k size (Vst r' (ms ++ of_requests qs) false) ls). exact H.
    + intros H. apply (v_run_dead k size ls r'); [exact N'|]. cbn [fst]. destruct (v_run k size (Vst r' (ms ++ of_requests qs) false) ls). exact H.
  - change (flat_map _ ls) with (reads ls) in *. cbn [reads flat_map app] in F. specialize (IH r ms N' F i id bs). destruct (nth_error ms j) as [[jd jb]|] eqn:E; destruct (v_run k size (Vst r ms true) ls); cbn [snd app] in *; [|exact IH]. intros [[= <- <- <-]|H]; [|exact (IH H)]. rewrite nth_error_app1; [exact E|]. apply nth_error_Some. congruence.
  - exfalso. apply (N j o b). now left.
Qed.

(* ---- TCP without a decoder ---- *)
Section Raw.
  Variable grow : nat -> nat -> nat.
  Variable size : nat.
  Record rinv (s : pst) (n : nat) : Prop := {
    r_wf : swf (p_heap s) (p_buf s);
    r_len : sl_len (p_buf s) = size;
    r_fd : p_fd s = None;
    r_up : p_up s = true;
    r_msgs : length (p_msgs s) = n;
    r_arr : Forall (fun m => fst m = 0%Z /\ exists c, snd m = sl_upto (p_buf s) c /\ c <= size) (p_msgs s)
  }.
  Lemma rinv_new : rinv (p_new Tcp DNone size) 0.
  Proof.
    unfold p_new. destruct (sl_make x00 [] size 0) as [h b] eqn:E. destruct (make_spec x00 _ _ _ _ _ E) as (A & _ & _ & L & _). constructor; cbn; auto.
  Qed.
  Lemma rinv_read s n c : rinv s n -> length c <= size -> exists s', p_step grow Tcp DNone size s (PRead c) = (s', []) /\ rinv s' (S n) /\ p_msgs s' = p_msgs s ++ [(0%Z, sl_upto (p_buf s') (length c))] /\ sl_read (p_heap s') (sl_upto (p_buf s') (length c)) = c.
  Proof.
    intros [W L F U M A] H. cbn [p_step]. rewrite U, F. cbn [andb fits]. apply Nat.leb_le in H as H'. rewrite H'. destruct (receive Tcp size (p_heap s) (p_buf s) c) as [h1 b] eqn:E.
    destruct (receive_spec Tcp size _ _ _ _ _ H' W (fun _ => L) E) as (Wb & Rc & Wbuf & _). cbn [receive] in E. injection E as E1 E2. subst b. cbn [m_dispatch m_decode]. eexists. split; [reflexivity|]. cbn [p_msgs p_buf p_heap]. split; [|split; [reflexivity|exact Rc]].
    constructor; cbn [p_heap p_buf p_fd p_up p_msgs]; try assumption; try reflexivity; [rewrite app_length; cbn; lia|]. apply Forall_app. split; [exact A|]. constructor; [|constructor]. split; [reflexivity|]. exists (length c). auto.
  Qed.
  Lemma rinv_run : forall ls s n, rinv s n -> Forall (fun c => fits Tcp size c = true) (reads ls) -> rinv (fst (p_run grow Tcp DNone size s ls)) (n + length (reads ls)).
  Proof.
    induction ls as [|l ls IH]; intros s n R F; cbn [p_run reads flat_map]; [now rewrite Nat.add_0_r|]. destruct l as [c|i|i o b].
    - cbn [reads flat_map app] in F. change (flat_map _ ls) with (reads ls) in *. inversion F as [|? ? F1 F2]; subst. cbn [fits] in F1. apply Nat.leb_le in F1. destruct (rinv_read s n c R F1) as (s' & E & R' & _). rewrite E. specialize (IH s' (S n) R' F2). destruct (p_run grow Tcp DNone size s' ls). cbn [fst app length] in *. now rewrite Nat.add_succ_r.
    - change (flat_map _ ls) with (reads ls). cbn [p_step]. specialize (IH s n R F). destruct (nth_error (p_msgs s) i) as [[id x]|]; destruct (p_run grow Tcp DNone size s ls); exact IH.
    - change (flat_map _ ls) with (reads ls). cbn [p_step]. destruct (nth_error (p_msgs s) i) as [[id x]|] eqn:E; [|specialize (IH s n R F); destruct (p_run grow Tcp DNone size s ls); exact IH]. destruct (o <? sl_len x) eqn:Q; [|specialize (IH s n R F); destruct (p_run grow Tcp DNone size s ls); exact IH]. apply Nat.ltb_lt in Q.
      destruct R as [W L Fd U M A]. assert (X : exists c, x = sl_upto (p_buf s) c /\ c <= size) by (rewrite Forall_forall in A; apply nth_error_In in E; destruct (A _ E) as (_ & X); exact X). destruct X as (c & -> & Hc). cbn [sl_upto sl_len] in Q.
      match goal with |- context [p_run grow Tcp DNone size ?z ls] => set (s1 := z); assert (R1 : rinv s1 n) end.
      { constructor; cbn [s1 p_heap p_buf p_fd p_up p_msgs]; try assumption. destruct W as (W1 & W2). split; [exact W1|]. unfold sl_write. cbn [sl_upto sl_arr sl_off]. change (set_nth (sl_arr (p_buf s)) (write_at (nth (sl_arr (p_buf s)) (p_heap s) []) (sl_off (p_buf s) + o) [b]) (p_heap s)) with (sl_write (p_heap s) (p_buf s) o [b]). rewrite write_len; [exact W2|cbn [length]; lia]. }
      specialize (IH s1 n R1 F). destruct (p_run grow Tcp DNone size s1 ls). exact IH.
  Qed.
  Lemma p_run_app : forall l1 s l2, p_run grow Tcp DNone size s (l1 ++ l2) = let (s1, e1) := p_run grow Tcp DNone size s l1 in let (s2, e2) := p_run grow Tcp DNone size s1 l2 in (s2, e1 ++ e2).
  Proof.
    induction l1 as [|l l1 IH]; intros s l2; cbn [p_run app]; [now destruct (p_run _ _ _ _ s l2)|]. destruct (p_step grow Tcp DNone size s l) as [s1 e1]. rewrite IH. destruct (p_run grow Tcp DNone size s1 l1) as [s2 e2]. destruct (p_run grow Tcp DNone size s2 l2). now rewrite app_assoc.
  Qed.
  Lemma raw_last ls c : Forall (fun c => fits Tcp size c = true) (reads ls) -> length c <= size ->
    snd (p_run grow Tcp DNone size (p_new Tcp DNone size) (ls ++ [PRead c; PLook (length (reads ls))])) = snd (p_run grow Tcp DNone size (p_new Tcp DNone size) ls) ++ [Saw (length (reads ls)) 0 c].
  Proof.
    intros F H. rewrite p_run_app. pose proof (rinv_run ls _ 0 rinv_new F) as R. destruct (p_run grow Tcp DNone size (p_new Tcp DNone size) ls) as [s e]. cbn [fst snd Nat.add] in *. cbn [p_run]. destruct (rinv_read s _ c R H) as (s' & E & R' & M & Rd). rewrite E. cbn [p_step]. rewrite M, nth_error_app2, (r_msgs _ _ R), Nat.sub_diag by (rewrite (r_msgs _ _ R); lia). cbn [nth_error app snd]. now rewrite Rd.
  Qed.
  Lemma raw_overwritten c1 c2 : length c1 = length c2 -> length c1 <= size -> snd (p_run grow Tcp DNone size (p_new Tcp DNone size) [PRead c1; PLook 0; PRead c2; PLook 0]) = [Saw 0 0 c1; Saw 0 0 c2].
  Proof.
    intros E H. cbn [p_run]. destruct (rinv_read _ 0 c1 rinv_new H) as (s1 & E1 & R1 & M1 & Rd1). rewrite E1. pose proof (r_msgs _ _ rinv_new) as L0. destruct (p_msgs (p_new Tcp DNone size)) as [|]; [|discriminate]. cbn [app] in M1.
    assert (P1 : p_step grow Tcp DNone size s1 (PLook 0) = (s1, [Saw 0 0 c1])) by (cbn [p_step]; rewrite M1; cbn [nth_error]; now rewrite Rd1). rewrite P1. rewrite E in H.
    destruct (rinv_read s1 1 c2 R1 H) as (s2 & E2 & R2 & M2 & Rd2). rewrite E2. cbn [p_step]. rewrite M2, M1. cbn [nth_error app snd]. pose proof (rinv_read s1 1 c2 R1 H) as (s3 & E3 & _). rewrite E2 in E3. 
    assert (B : p_buf s2 = p_buf s1). { pose proof (r_fd _ _ R1) as F1. pose proof (r_up _ _ R1) as U1. cbn [p_step] in E2. rewrite F1, U1 in E2. cbn [andb fits] in E2. apply Nat.leb_le in H. rewrite H in E2. cbn [receive m_dispatch m_decode] in E2. injection E2 as <-. reflexivity. }
    rewrite <- B, E, Rd2. reflexivity.
  Qed.
End Raw.

(* C35 on infinite executions: the writer comes back to its select, takes every message and flushes. *)
From Coq Require Import List Bool Arith Lia ZifyBool ZifyNat.
From Verif Require Import Bytes SendQueue Spec_Send SendQueue_proofs SendQueue2_proofs SendQueue3_proofs Spec_Fair.
Import ListNotations.
Local Arguments Nat.ltb : simpl never.
Local Arguments Nat.max : simpl never.
Local Arguments Nat.leb : simpl never.

Lemma firstS {L} (sch : nat -> L) n : first sch (S n) = first sch n ++ [sch n].
Proof. unfold first. rewrite seq_S, map_app. reflexivity. Qed.

(* how many accepted messages the writer has taken, how many bytes it has passed to the buffer *)
Definition tk (s : qst) (tr : list qev) : nat := length (oks tr) - length (queue s).
Definition put (s : qst) : nat := length (q_wire s) + length (q_buf s).
Definition rank (c : qcfg) (s : qst) : nat :=
  match q_writer s with
  | WBegin => 1
  | WHave _ => 4
  | WPut p => if length p <=? qc_buf c - length (q_buf s) then 1 else match q_buf s with [] => 2 | _ => 3 end
  | WTick => 2
  | WFlush => 1
  | _ => 0
  end.

Lemma app_len {A} (a b c d : list A) : a ++ b = c ++ d -> length a + length b = length c + length d.
Proof. intros H. apply (f_equal (@length A)) in H. now rewrite !app_length in H. Qed.

(* Labels of the senders leave the writer and the bytes alone. *)
Lemma other_step c s tr l : good s tr -> fine_label l -> (forall ch o, l <> QWriter ch o) -> q_writer s <> WNone ->
  let s' := fst (q_step c s l) in q_writer s' = q_writer s /\ q_buf s' = q_buf s /\ q_wire s' = q_wire s.
Proof.
  intros (S & C & K & E) F NW W. unfold q_step. pose proof K as (K1 & K2 & K3 & K4 & K5 & K6). rewrite K3.
  destruct l as [ | | |t d m|t ch o|ch o]; cbn in F; try contradiction; cbn zeta.
  - cbn. auto.
  - rewrite K2. auto.
  - destruct (q_send s t); try (cbn; auto; fail). destruct d; [contradiction|]. cbn. auto.
  - unfold send_step. pose proof (ct_dir _ _ C t) as D. destruct (q_send s t) eqn:Es; cbn in D; try discriminate.
    + auto.
    + destruct (q_chan s); cbn; auto.
    + destruct (q_flag s); cbn; auto.
    + cbn. auto.
    + exfalso. destruct (st_go _ S _ _ Es) as (_ & X & _). auto.
    + destruct (q_is_closed s); cbn; auto.
    + cbn. auto.
    + rewrite K2. destruct ch; cbn; auto. destruct nonnil; cbn; auto. destruct (q_chan s) as [[l [|]]|]; cbn; auto.
      destruct (length l <? max 1 (qc_cap c)); cbn; auto.
  - exfalso. eapply NW. reflexivity.
Qed.

Lemma queue_step c s tr l : good s tr -> fine_label l ->
  let s' := fst (q_step c s l) in
  (queue s' = queue s /\ oks (snd (q_step c s l)) = []) \/
  (exists t m, queue s' = queue s ++ [m] /\ oks (snd (q_step c s l)) = [(t, m)]) \/
  (exists m, queue s = m :: queue s' /\ oks (snd (q_step c s l)) = []).
Proof.
  intros (S & C & K & E) F. unfold q_step. pose proof K as (K1 & K2 & K3 & K4 & K5 & K6). rewrite K3. unfold queue.
  destruct l as [ | | |t d m|t ch o|ch o]; cbn in F; try contradiction; cbn zeta.
  - cbn. auto.
  - rewrite K2. auto.
  - destruct (q_send s t); try (cbn; auto; fail). destruct d; [contradiction|]. cbn. auto.
  - unfold send_step. pose proof (ct_dir _ _ C t) as D. destruct (q_send s t) eqn:Es; cbn in D; try discriminate.
    + auto.
    + destruct (q_chan s) eqn:Ec; cbn; rewrite Ec; auto.
    + destruct (q_flag s); cbn; auto.
    + left. cbn. destruct (st_make _ S _ _ Es) as (X & _). rewrite X. auto.
    + cbn. auto.
    + destruct (q_is_closed s); cbn; auto.
    + cbn. auto.
    + rewrite K2. destruct ch; cbn; auto. destruct nonnil; cbn; auto. destruct (q_chan s) as [[l [|]]|] eqn:Ec; cbn; rewrite ?Ec; auto.
      destruct (length l <? max 1 (qc_cap c)); cbn; rewrite ?Ec; auto. right. left. exists t, m. now rewrite map_app.
  - destruct o; [|contradiction]. assert (O : oks (snd (writer_step c s ch NetOk)) = []) by (pose proof (writer_silent c s ch NetOk) as X; unfold q_step in X; now rewrite K3 in X).
    rewrite O. unfold writer_step. destruct (q_writer s) eqn:Ew; try (cbn; auto; fail).
    + destruct (q_ctx s); cbn; auto.
    + destruct ch; cbn; auto; [rewrite K2; auto|]. destruct (q_chan s) as [[[|[t m] l] [|]]|] eqn:Ec; cbn; rewrite ?Ec; auto; right; right; exists m; auto.
    + destruct (q_is_closed s); cbn; auto.
    + destruct (buf_write_eq c s rest NetOk) as (b & er & wi & br & Q). destruct (buf_write c s rest NetOk). cbn in Q. subst q. cbn. auto.
    + destruct (q_is_closed s); cbn; auto.
    + destruct (buf_flush_eq s NetOk) as (b & er & wi & br & Q). destruct (buf_flush s NetOk). cbn in Q. subst q. cbn. auto.
    + destruct (q_is_closed s); cbn; auto.
    + destruct (buf_flush_eq s NetOk) as (b & er & wi & br & Q). destruct (buf_flush s NetOk). cbn in Q. cbn. subst q. cbn. auto.
Qed.

Lemma flush_wire s : q_err s = false -> q_broken s = false -> q_wire (fst (buf_flush s NetOk)) = q_wire s ++ q_buf s.
Proof.
  intros E B. pose proof (flush_conserve s NetOk) as X. destruct (flush_fine s E B) as (_ & Y & _). rewrite Y, app_nil_r in X. exact X.
Qed.

Lemma bytes_step c s tr l : good s tr -> fine_label l ->
  let s' := fst (q_step c s l) in prefix (q_wire s) (q_wire s') /\ put s <= put s'.
Proof.
  intros G F. pose proof G as (S & C & K & E). 
  destruct (match l with QWriter _ _ => true | _ => false end) eqn:Ek.
  2: { destruct (q_writer s) eqn:Ew.
    1: { assert (X : q_wire (fst (q_step c s l)) = q_wire s /\ q_buf (fst (q_step c s l)) = q_buf s).
      { unfold q_step. destruct K as (K1 & K2 & K3 & K4 & K5 & K6). rewrite K3. destruct l as [ | | |t d m|t ch o|ch o]; cbn in F, Ek; try contradiction; try discriminate.
        - cbn. auto.
        - rewrite K2. auto.
        - destruct (q_send s t); cbn; auto. destruct d; [contradiction|]. cbn. auto.
        - unfold send_step. pose proof (ct_dir _ _ C t) as D. destruct (q_send s t) eqn:Es; cbn in D; try discriminate; cbn; auto.
          + destruct (q_chan s); cbn; auto.
          + destruct (q_flag s); cbn; auto.
          + destruct (q_is_closed s); cbn; auto.
          + rewrite K2. destruct ch; cbn; auto. destruct nonnil; cbn; auto. destruct (q_chan s) as [[z [|]]|]; cbn; auto. destruct (length z <? max 1 (qc_cap c)); cbn; auto. }
      unfold put. cbn zeta. destruct X as [-> ->]. split; [exists []; now rewrite app_nil_r|lia]. }
    all: destruct (other_step c s tr l G F ltac:(intros ? ? ->; discriminate) ltac:(congruence)) as (_ & X & Y); unfold put; cbn zeta; rewrite X, Y;
      (split; [exists []; now rewrite app_nil_r|lia]). }
  destruct l as [ | | |t d m|t ch o|ch o]; try discriminate. destruct o; [|contradiction]. cbn zeta.
  pose proof K as (K1 & K2 & K3 & K4 & K5 & K6). rewrite step_writer by exact K3. unfold writer_step, put.
  assert (Z : forall w : list byte, prefix w w) by (intros w; exists []; now rewrite app_nil_r).
  destruct (q_writer s) eqn:Ew; cbn in K6; try discriminate.
  - cbn. auto.
  - rewrite K1. cbn. auto.
  - destruct ch; cbn; auto; [rewrite K2; auto|]. destruct (q_chan s) as [[[|[t m] l] [|]]|]; cbn; auto.
  - rewrite (calm_open s K). cbn. auto.
  - pose proof (write_conserve c s rest NetOk) as W. unfold buf_write in *. rewrite K5 in *.
    destruct (length rest <=? qc_buf c - length (q_buf s)).
    + cbn. split; [apply Z|]. rewrite app_length. lia.
    + destruct (q_buf s) as [|x b] eqn:Eb.
      * unfold net_write. rewrite K4. cbn -[skipn firstn]. rewrite firstn_all, Eb. cbn. split; [now eexists|]. rewrite app_length. lia.
      * match goal with |- context [buf_flush ?s0 _] => pose proof (flush_wire s0 eq_refl K4) as X; pose proof (flush_fine s0 eq_refl K4) as (_ & Y & _); destruct (buf_flush s0 NetOk) as [s1 ok] end.
        cbn -[firstn] in X, Y. cbn -[firstn length]. rewrite X, Y. split; [eexists; reflexivity|]. rewrite !app_length; cbn [length]; rewrite ?app_length; lia.
  - rewrite (calm_open s K). cbn. auto.
  - pose proof (flush_wire s K5 K4) as X. pose proof (flush_fine s K5 K4) as (_ & Y & _). destruct (buf_flush s NetOk) as [s1 ok]. cbn in *. rewrite X, Y. split; [eexists; reflexivity|]. rewrite app_length. cbn. lia.
Qed.

Lemma rank_step c s tr ch : good s tr -> q_writer s <> WNone -> q_writer s <> WSelect ->
  q_writer (fst (q_step c s (QWriter ch NetOk))) <> WNone /\
  (q_writer (fst (q_step c s (QWriter ch NetOk))) = WSelect \/ rank c (fst (q_step c s (QWriter ch NetOk))) < rank c s).
Proof.
  intros (S & C & K & E) N1 N2. pose proof K as (K1 & K2 & K3 & K4 & K5 & K6). rewrite step_writer by exact K3. unfold writer_step.
  destruct (q_writer s) eqn:Ew; cbn in K6; try discriminate; try congruence.
  - rewrite K1. cbn. split; [discriminate|auto].
  - rewrite (calm_open s K). cbn [fst]. split; [discriminate|]. right. unfold rank. cbn [q_writer set_writer q_buf]. rewrite Ew. destruct (length m <=? _); [lia|]. destruct (q_buf s); lia.
  - unfold buf_write. rewrite K5. unfold rank. rewrite Ew. destruct (length rest <=? qc_buf c - length (q_buf s)) eqn:El.
    + cbn. split; [discriminate|auto].
    + destruct (q_buf s) as [|x b] eqn:Eb.
      * unfold net_write. rewrite K4. cbn -[skipn firstn Nat.leb]. rewrite skipn_all, Eb. split; [discriminate|]. right. cbn [length]. replace (0 <=? _) with true by lia. lia.
      * match goal with |- context [buf_flush ?s0 _] => pose proof (flush_fine s0 eq_refl K4) as (_ & Y & _); destruct (buf_flush s0 NetOk) as [s1 ok] end.
        cbn -[firstn] in Y. cbn -[firstn skipn length Nat.leb]. split; [discriminate|]. right. rewrite Y. destruct (length (skipn _ rest) <=? _); lia.
  - rewrite (calm_open s K). cbn. split; [discriminate|]. right. unfold rank. cbn. rewrite Ew. lia.
  - destruct (flush_fine s K5 K4) as (X & _). destruct (buf_flush s NetOk) as [s1 ok]. cbn in X. subst ok. cbn. split; [discriminate|auto].
Qed.

Section fair.
Variable c : qcfg.
Variable sch : nat -> qlabel.
Hypothesis U : undisturbed sch.
Hypothesis GO : all_go_on sch.
Hypothesis SF : select_fair c sch.
Let st n := fst (conn_at c sch n).
Let tr n := snd (conn_at c sch n).

Lemma f_good n : good (st n) (tr n).
Proof. destruct (U n) as (A & B & D). exact (good_run c (first sch n) A B D). Qed.
Lemma f_fine n : fine_label (sch n).
Proof.
  destruct (U (S n)) as (A & B & (D & E)). rewrite firstS in A, B, D, E.
  assert (I : In (sch n) (first sch n ++ [sch n])) by (apply in_or_app; right; now left).
  destruct (sch n) as [ | | |t [|] m|t ch [|k]|ch [|k]]; cbn; auto.
  - eapply A, I.
  - eapply D, I.
  - eapply E, I.
Qed.
Lemma f_step n : st (S n) = fst (q_step c (st n) (sch n)) /\ tr (S n) = tr n ++ snd (q_step c (st n) (sch n)).
Proof.
  subst st tr. unfold conn_at. rewrite firstS, app_comm_cons, q_run_snoc. auto.
Qed.

Lemma f_queue_le n : length (queue (st n)) <= length (oks (tr n)).
Proof.
  destruct (f_good n) as (_ & C & K & _). destruct (ct_ex _ _ C ltac:(apply K)) as (d & X & _).
  apply (f_equal (@length _)) in X. rewrite !app_length, map_length in X. lia.
Qed.
Lemma f_tk_S n : tk (st n) (tr n) <= tk (st (S n)) (tr (S n)) /\ exists more, oks (tr (S n)) = oks (tr n) ++ more.
Proof.
  pose proof (f_queue_le n) as L. destruct (f_step n) as [-> ->].
  pose proof (queue_step c (st n) (tr n) (sch n) (f_good n) (f_fine n)) as Q. cbn zeta in Q. unfold tk. rewrite oks_app.
  split; [|eexists; reflexivity]. rewrite app_length.
  destruct Q as [[Q1 Q2]|[(t & m & Q1 & Q2)|(m & Q1 & Q2)]].
  - rewrite Q1, Q2. cbn. lia.
  - rewrite Q1, Q2, app_length. cbn. lia.
  - rewrite Q1, Q2 in *. cbn in *. lia.
Qed.
Lemma f_later n : forall m, n <= m ->
  tk (st n) (tr n) <= tk (st m) (tr m) /\ (exists more, oks (tr m) = oks (tr n) ++ more) /\
  prefix (q_wire (st n)) (q_wire (st m)) /\ put (st n) <= put (st m) /\ (q_writer (st n) <> WNone -> q_writer (st m) <> WNone).
Proof.
  induction 1 as [|m Hm (I1 & (mo & I2) & (w & I3) & I4 & I5)].
  - repeat split; auto; exists []; now rewrite app_nil_r.
  - destruct (f_tk_S m) as (J1 & mo' & J2).
    destruct (bytes_step c (st m) (tr m) (sch m) (f_good m) (f_fine m)) as ((w' & J3) & J4). rewrite <- (proj1 (f_step m)) in J3, J4.
    split; [lia|]. split; [exists (mo ++ mo'); now rewrite J2, I2, app_assoc|]. split; [exists (w ++ w'); now rewrite J3, I3, app_assoc|]. split; [lia|].
    intros H. specialize (I5 H). destruct (f_step m) as [-> _].
    destruct (match sch m with QWriter _ _ => true | _ => false end) eqn:Ek.
    + pose proof (f_fine m) as Fm. destruct (sch m) as [ | | |t d x|t ch o|ch o]; try discriminate. destruct o; [|contradiction].
      destruct (q_writer (st m)) eqn:Ew; try (apply (rank_step c (st m) (tr m) ch (f_good m)); congruence).
      destruct (f_good m) as (_ & _ & K & _). rewrite step_writer by apply K. unfold writer_step. rewrite Ew.
      destruct ch; cbn; try discriminate; [destruct (q_cancelled (st m)); cbn; congruence|]. destruct (q_chan (st m)) as [[[|[? ?] ?] [|]]|]; cbn; congruence.
    + destruct (other_step c (st m) (tr m) (sch m) (f_good m) (f_fine m)) as (X & _); [intros ? ? R; rewrite R in Ek; discriminate|exact I5|]. congruence.
Qed.

(* The next step of the writer: until then nothing changes for it. *)
Lemma next_writer n : q_writer (st n) <> WNone ->
  exists m ch, n <= m /\ sch m = QWriter ch NetOk /\ q_writer (st m) = q_writer (st n) /\ q_buf (st m) = q_buf (st n) /\ q_wire (st m) = q_wire (st n).
Proof.
  intros W. destruct (proj2 GO n) as (m & Hm & ch & E). 
  assert (D : forall k n, k = m - n -> n <= m -> q_writer (st n) <> WNone ->
    exists m ch, n <= m /\ sch m = QWriter ch NetOk /\ q_writer (st m) = q_writer (st n) /\ q_buf (st m) = q_buf (st n) /\ q_wire (st m) = q_wire (st n)).
  { clear W Hm n. induction k as [|k IH]; intros n Hk Hn W.
    - assert (n = m) by lia. subst n. exists m, ch. auto 10.
    - destruct (match sch n with QWriter _ _ => true | _ => false end) eqn:Ek.
      + pose proof (f_fine n) as Fm. destruct (sch n) as [ | | |t d x|t h o|h o] eqn:Es; try discriminate. destruct o; [|contradiction]. exists n, h. auto 10.
      + destruct (other_step c (st n) (tr n) (sch n) (f_good n) (f_fine n)) as (X & Y & Z); [intros ? ? R; rewrite R in Ek; discriminate|exact W|].
        rewrite <- (proj1 (f_step n)) in X, Y, Z.
        destruct (IH (S n) ltac:(lia) ltac:(lia) ltac:(congruence)) as (m' & ch' & A1 & A2 & A3 & A4 & A5).
        exists m', ch'. repeat split; auto; try congruence. lia. }
  eapply D; eauto.
Qed.

Lemma rank_same s s' : q_writer s = q_writer s' -> q_buf s = q_buf s' -> rank c s = rank c s'.
Proof. intros A B. unfold rank. now rewrite A, B. Qed.

Lemma to_select_fair n : q_writer (st n) <> WNone -> exists m, n <= m /\ q_writer (st m) = WSelect.
Proof.
  remember (rank c (st n)) as r eqn:Er. revert n Er. induction r as [r IH] using lt_wf_ind. intros n -> W.
  destruct (q_writer (st n)) eqn:Ew; [congruence| |exists n; auto|..].
  all: destruct (next_writer n ltac:(congruence)) as (pm & ch & A1 & A2 & A3 & A4 & A5).
  all: destruct (rank_step c (st pm) (tr pm) ch (f_good pm) ltac:(congruence) ltac:(congruence)) as (B1 & B2).
  all: rewrite <- A2, <- (proj1 (f_step pm)) in B1, B2; rewrite (rank_same (st pm) (st n) A3 A4) in B2.
  all: destruct B2 as [B2|B2]; [exists (S pm); split; [lia|exact B2]|].
  all: destruct (IH _ B2 (S pm) eq_refl B1) as (k & C1 & C2); exists k; split; [lia|exact C2].
Qed.
Lemma often_select n0 : q_writer (st n0) <> WNone -> often (fun m => q_writer (fst (conn_at c sch m)) = WSelect).
Proof.
  intros W n. destruct (f_later n0 (max n n0) ltac:(lia)) as (_ & _ & _ & _ & X).
  destruct (to_select_fair (max n n0) (X W)) as (m & A & B). exists m. split; [lia|exact B].
Qed.

(* Everything accepted by time n is taken some time. *)
Lemma taken_fair n0 : q_writer (st n0) <> WNone -> forall n, exists m, n <= m /\ length (oks (tr n)) <= tk (st m) (tr m).
Proof.
  intros W n. 
  assert (D : forall k m, n <= m -> length (oks (tr n)) - tk (st m) (tr m) <= k -> exists m', n <= m' /\ length (oks (tr n)) <= tk (st m') (tr m')).
  { induction k as [|k IH]; intros m Hm Hk; [exists m; split; [exact Hm|lia]|].
    destruct (SF ChChan (or_intror eq_refl) (often_select n0 W) m) as (q & Q1 & Q2 & Q3).
    destruct (f_later m q Q1) as (L1 & _). destruct (f_later n q ltac:(lia)) as (_ & (mo & L2) & _).
    destruct (le_lt_dec (length (oks (tr n))) (tk (st q) (tr q))) as [Hd|Hd]; [exists q; split; [lia|exact Hd]|].
    apply (IH (S q) ltac:(lia)). fold (st q) in Q2.
    destruct (f_step q) as [-> ->]. rewrite Q3. unfold tk in *. rewrite oks_app, writer_silent, app_nil_r.
    apply (f_equal (@length _)) in L2. rewrite app_length in L2.
    destruct (f_good q) as (_ & _ & K & _). rewrite step_writer by apply K. unfold writer_step. rewrite Q2.
    pose proof (f_queue_le q) as Lq.
    unfold queue in *. destruct (q_chan (st q)) as [[[|[t x] l] cl]|] eqn:Ec; cbn in *; try lia. }
  eapply (D _ n); [lia|reflexivity].
Qed.

Lemma started_fair n : q_chan (st n) <> None -> exists m, n <= m /\ q_writer (st m) <> WNone.
Proof.
  intros H. destruct (q_writer (st n)) eqn:Ew; try (exists n; split; [lia|congruence]).
  destruct (f_good n) as (S0 & C & K & E). destruct (E Ew) as (_ & _ & X). destruct (X H) as (t & x & Ht).
  destruct (proj1 GO t n) as (m & Hm & ch & Hs).
  assert (D : forall k n, k = m - n -> n <= m -> q_send (st n) t = SGo x -> exists m, n <= m /\ q_writer (st m) <> WNone).
  { clear -Hs U st tr. induction k as [|k IH]; intros n Hk Hn Ht.
    - assert (n = m) by lia. subst n. exists (S m). split; [lia|]. destruct (f_step m) as [-> _]. rewrite Hs. destruct (f_good m) as (_ & _ & K & _).
      unfold q_step. destruct K as (_ & _ & K3 & _). rewrite K3. unfold send_step. rewrite Ht. cbn. discriminate.
    - destruct (f_good n) as (S0 & C & (K1 & K2 & K3 & K4 & K5 & K6) & E).
      assert (Q : q_send (st (S n)) t = SGo x \/ q_writer (st (S n)) <> WNone).
      { destruct (f_step n) as [-> _]. pose proof (f_fine n) as Fn. unfold q_step. rewrite K3. destruct (sch n) as [ | | |u d y|u h o|h o]; cbn in Fn; try contradiction.
        - left. exact Ht.
        - rewrite K2. auto.
        - destruct (Nat.eq_dec u t) as [->|Hu]; [rewrite Ht; cbn; auto|]. destruct (q_send (st n) u); cbn; auto. destruct d; [contradiction|]. cbn. unfold upd. destruct (Nat.eqb_spec t u); [congruence|auto].
        - destruct (Nat.eq_dec u t) as [->|Hu].
          + unfold send_step. rewrite Ht. cbn. right. discriminate.
          + left. unfold send_step. pose proof (ct_dir _ _ C u) as Du.
            assert (Z : forall s p, q_send s t = SGo x -> q_send (set_send s u p) t = SGo x) by (intros s p Hp; cbn; unfold upd; destruct (Nat.eqb_spec t u); [congruence|exact Hp]).
            destruct (q_send (st n) u); cbn in Du; try discriminate; try (cbn [fst]; first [exact Ht|apply Z; exact Ht]).
            * destruct (q_chan (st n)); cbn [fst]; apply Z, Ht.
            * destruct (q_flag (st n)); cbn [fst]; apply Z, Ht.
            * destruct (q_is_closed (st n)); cbn [fst]; apply Z, Ht.
            * rewrite K2. destruct h; cbn [fst]; try exact Ht; try (apply Z; exact Ht). destruct nonnil; [|exact Ht].
              destruct (q_chan (st n)) as [[z [|]]|]; cbn [fst]; try exact Ht; try (apply Z; exact Ht). destruct (length z <? max 1 (qc_cap c)); cbn [fst]; [apply Z; exact Ht|exact Ht].
        - destruct (q_writer (st n)) eqn:Ew; try (exfalso; destruct (st_go _ S0 _ _ Ht) as (_ & Xw & _); congruence). left. unfold writer_step. rewrite Ew. exact Ht. }
      destruct Q as [Q|Q]; [|exists (S n); split; [lia|exact Q]].
      destruct (IH (S n) ltac:(lia) ltac:(lia) Q) as (m' & M1 & M2). exists m'. split; [lia|exact M2]. }
  eapply D; eauto.
Qed.

Lemma prefix_len {A} (a b l : list A) : prefix a l -> prefix b l -> length a <= length b -> prefix a b.
Proof.
  intros (x & Hx) (y & Hy) L. subst l. revert b Hy L. induction a as [|h a IH]; intros b Hy L; [now exists b|].
  destruct b as [|k b]; cbn in *; [lia|]. injection Hy as -> Hy. destruct (IH b Hy ltac:(lia)) as (z & Hz). exists z. cbn. now rewrite Hz.
Qed.
Lemma prefix_trans {A} (a b l : list A) : prefix a b -> prefix b l -> prefix a l.
Proof. intros (x & ->) (y & ->). exists (x ++ y). now rewrite app_assoc. Qed.
Lemma f_wire n : prefix (q_wire (st n)) (concat (map snd (oks (tr n)))).
Proof.
  destruct (f_good n) as (_ & C & K & _). eapply prefix_trans; [|exact (ct_pre _ _ C)]. now exists (q_buf (st n)).
Qed.

Theorem written_fair n : exists m, n <= m /\ prefix (concat (map snd (oks (tr n)))) (q_wire (st m)).
Proof.
  destruct (oks (tr n)) as [|o1 os] eqn:Eo; [exists n; split; [lia|]; now exists (q_wire (st n))|]. rewrite <- Eo.
  assert (W : exists n0, n <= n0 /\ q_writer (st n0) <> WNone).
  { apply started_fair. intros Ec. destruct (f_good n) as (S0 & C & K & E). pose proof (st_nil _ S0 Ec) as Ew. destruct (E Ew) as (E1 & E2 & _).
    destruct (ct_ex _ _ C ltac:(now rewrite Ew)) as (done & X & Y). unfold queue in X. rewrite Ew, Ec in X. rewrite Eo in X. cbn in X. rewrite app_nil_r in X. 
    subst done. rewrite Ew, E1, E2 in Y. cbn in Y. 
    (* the channel exists once something was accepted *)
    clear -Ec Eo U st tr. assert (G : forall k, q_chan (st k) = None -> oks (tr k) = []).
    { induction k as [|k IH]; intros H.
      - subst tr. cbn. reflexivity.
      - destruct (f_step k) as [S1 S2]. rewrite S2, oks_app. rewrite S1 in H.
        pose proof (queue_step c (st k) (tr k) (sch k) (f_good k) (f_fine k)) as Q. cbn zeta in Q.
        assert (Hk : q_chan (st k) = None).
        { destruct (f_good k) as (S0 & C & (K1 & K2 & K3 & K4 & K5 & K6) & E). destruct (q_chan (st k)) as [[z cl]|] eqn:Ez; [exfalso|reflexivity].
          unfold q_step in H. rewrite K3 in H. pose proof (f_fine k) as Fk. destruct (sch k) as [ | | |u d y|u h o|h o]; cbn in Fk; try contradiction.
          - cbn in H. congruence.
          - rewrite K2 in H. cbn in H. congruence.
          - destruct (q_send (st k) u); cbn in H; try congruence. destruct d; [contradiction|]. cbn in H. congruence.
          - unfold send_step in H. pose proof (ct_dir _ _ C u) as Du. rewrite K2, Ez in H. destruct (q_send (st k) u); cbn in Du, H; try discriminate; try congruence.
            + destruct (q_flag (st k)); cbn in H; congruence.
            + destruct (q_is_closed (st k)); cbn in H; congruence.
            + destruct h; cbn in H; try congruence. destruct nonnil; cbn in H; try congruence. destruct cl; cbn in H; try congruence. destruct (length z <? max 1 (qc_cap c)); cbn in H; congruence.
          - destruct o; [|contradiction]. unfold writer_step in H. destruct (q_writer (st k)) eqn:Ew; cbn in K6; try discriminate; cbn in H; try congruence.
            + rewrite K1 in H. cbn in H. congruence.
            + destruct h; rewrite ?K2, ?Ez in H; cbn in H; try congruence. destruct z as [|[? ?] ?]; [destruct cl|]; cbn in H; congruence.
            + destruct (q_is_closed (st k)); cbn in H; congruence.
            + destruct (buf_write_eq c (st k) rest NetOk) as (b & er & wi & br & Qe). destruct (buf_write c (st k) rest NetOk). cbn in Qe. subst q. cbn in H. congruence.
            + destruct (q_is_closed (st k)); cbn in H; congruence.
            + destruct (buf_flush_eq (st k) NetOk) as (b & er & wi & br & Qe). destruct (buf_flush (st k) NetOk). cbn in Qe. subst q. cbn in H. congruence. }
        rewrite (IH Hk). cbn. unfold queue in Q. rewrite Hk, H in Q. destruct Q as [(_ & Q)|[(t & m & Q & _)|(m & Q & _)]]; [exact Q|discriminate|discriminate]. }
    rewrite (G n Ec) in Eo. discriminate. }
  destruct W as (n0 & Hn0 & W).
  destruct (taken_fair n0 W n) as (m1 & M1 & T1).
  (* the writer comes back to its select: everything is in the buffer or on the wire *)
  destruct (SF ChTimer (or_introl eq_refl) (often_select n0 W) m1) as (m2 & M2 & S2 & L2). fold (st m2) in S2.
  destruct (f_later n m2 ltac:(lia)) as (_ & (mo & O2) & _).
  destruct (f_later m1 m2 M2) as (T2 & _).
  assert (P2 : prefix (concat (map snd (oks (tr n)))) (q_wire (st m2) ++ q_buf (st m2))).
  { destruct (f_good m2) as (_ & C & K & _). destruct (ct_ex _ _ C ltac:(now rewrite S2)) as (done & X & Y). rewrite S2 in X, Y. cbn in X, Y. rewrite app_nil_r in Y.
    pose proof X as X'. apply (f_equal (@length _)) in X'. rewrite app_length, map_length in X'.
    assert (Z : prefix (map snd (oks (tr n))) done).
    { apply (prefix_len _ _ (map snd (oks (tr m2)))); [exists (map snd mo); rewrite O2, map_app; reflexivity|exists (queue (st m2)); exact X|]. rewrite map_length. unfold tk in *. lia. }
    destruct Z as (z & Hz). rewrite <- Y, Hz, concat_app. now eexists. }
  (* flush *)
  destruct (next_writer (S m2)) as (m3 & c3 & M3 & L3 & W3 & B3 & R3).
  { destruct (f_step m2) as [-> _]. rewrite L2. destruct (f_good m2) as (_ & _ & K & _). rewrite step_writer by apply K. unfold writer_step. rewrite S2. cbn. discriminate. }
  assert (E3 : q_writer (st (S m2)) = WTick /\ q_buf (st (S m2)) = q_buf (st m2) /\ q_wire (st (S m2)) = q_wire (st m2)).
  { destruct (f_step m2) as [-> _]. rewrite L2. destruct (f_good m2) as (_ & _ & K & _). rewrite step_writer by apply K. unfold writer_step. rewrite S2. cbn. auto. }
  destruct E3 as (E3 & E3b & E3w).
  assert (E4 : q_writer (st (S m3)) = WFlush /\ q_buf (st (S m3)) = q_buf (st m3) /\ q_wire (st (S m3)) = q_wire (st m3)).
  { destruct (f_step m3) as [-> _]. rewrite L3. destruct (f_good m3) as (_ & _ & K & _). rewrite step_writer by apply K. unfold writer_step. rewrite W3, E3, (calm_open _ K). cbn. auto. }
  destruct E4 as (E4 & E4b & E4w).
  destruct (next_writer (S m3) ltac:(congruence)) as (m5 & c5 & M5 & L5 & W5 & B5 & R5).
  exists (S m5). split; [lia|].
  destruct (f_step m5) as [-> _]. rewrite L5. destruct (f_good m5) as (_ & _ & K & _). rewrite step_writer by apply K. unfold writer_step. rewrite W5, E4.
  destruct K as (K1 & K2 & K3 & K4 & K5 & K6). pose proof (flush_wire (st m5) K5 K4) as X. destruct (buf_flush (st m5) NetOk) as [s1 ok]. cbn in X. cbn. rewrite X.
  rewrite R5, B5, E4w, E4b, R3, B3, E3w, E3b. exact P2.
Qed.
End fair.

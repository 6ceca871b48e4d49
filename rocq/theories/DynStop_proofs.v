(* Proofs about DynStop.v. *)
From Coq Require Import List Bool Arith Lia Permutation.
From Verif Require Import Bytes GoSlice Router_proofs Workers_proofs DynStop Spec_DynStop.
Import ListNotations.

Section Dyn_.
Variable cap : nat.
Local Notation step := (dyn_step cap).
Local Notation run := (dyn_run cap).

Lemma run_app ls1 : forall s ls2, run s (ls1 ++ ls2) =
  (fst (run (fst (run s ls1)) ls2), snd (run s ls1) ++ snd (run (fst (run s ls1)) ls2)).
Proof.
  induction ls1 as [|l ls1 IH]; intros s ls2; cbn [dyn_run app].
  - cbn. now destruct (run s ls2).
  - destruct (step s l) as [s1 e1]. rewrite IH. destruct (run s1 ls1) as [s2 e2]. cbn. destruct (run s2 ls2) as [s3 e3]. cbn. now rewrite app_assoc.
Qed.

(* What the reader of connection c has in hand. *)
Definition hand_of (r : rdpc) : list nat := match r with RdHas m | RdSend _ m => [m] | _ => [] end.
Definition hand (s : dst) (c : nat) : list nat :=
  match nth_error (d_conns s) c with Some x => hand_of (dc_reader x) | None => [] end.

Definition in_queue (tr : list dev) : list (nat * nat) :=
  flat_map (fun e => match e with DeQueued c m => [(c, m)] | _ => [] end) tr.
Definition taken (tr : list dev) : list (nat * nat) :=
  flat_map (fun e => match e with DeHandled c m => [(c, m)] | _ => [] end) tr.
Definition mine (c : nat) (p : nat * nat) : list nat := if Nat.eqb (fst p) c then [snd p] else [].

Lemma queued_mine c tr : queued c tr = flat_map (mine c) (in_queue tr).
Proof.
  induction tr as [|e tr IH]; [reflexivity|]. cbn [flat_map]. unfold queued, handled, in_queue, taken in *. cbn [flat_map].
  rewrite flat_map_app, <- IH. destruct e; cbn; rewrite ?app_nil_r; reflexivity.
Qed.
Lemma handled_mine c tr : handled c tr = flat_map (mine c) (taken tr).
Proof.
  induction tr as [|e tr IH]; [reflexivity|]. cbn [flat_map]. unfold queued, handled, in_queue, taken in *. cbn [flat_map].
  rewrite flat_map_app, <- IH. destruct e; cbn; rewrite ?app_nil_r; reflexivity.
Qed.

Record dinv (s : dst) (tr : list dev) : Prop := {
  I_len : length (d_chans s) = length (d_conns s);
  I_conn : forall c x, nth_error (d_conns s) c = Some x -> In (DeStart c (dc_link x) (dc_wid x)) tr;
  I_start : forall c lk w, In (DeStart c lk w) tr -> exists x, nth_error (d_conns s) c = Some x /\ dc_wid x = w /\ dc_link x = lk;
  I_slot : forall w k, d_slot s w = Some k -> exists y, nth_error (d_conns s) k = Some y /\ dc_wid y = w;
  I_send : forall c x k m, nth_error (d_conns s) c = Some x -> dc_reader x = RdSend k m ->
             exists y, nth_error (d_conns s) k = Some y /\ dc_wid y = dc_wid x;
  I_closed : forall k h, nth_error (d_chans s) k = Some h -> dh_closed h = true ->
             exists y d lk, nth_error (d_conns s) k = Some y /\ In (DeFreed d) tr /\ In (DeStart d lk (dc_wid y)) tr;
  I_freed : forall d, In (DeFreed d) tr -> exists x, nth_error (d_conns s) d = Some x /\ dc_main x = MnGone;
  I_stop : forall c x, nth_error (d_conns s) c = Some x -> dc_stopped x = true -> In (DeStop c) tr;
  I_acc : forall c, reads c tr = queued c tr ++ lost c tr ++ hand s c;
  I_lost : forall c, lost c tr = [] \/
             (length (lost c tr) = 1 /\ exists x, nth_error (d_conns s) c = Some x /\ dc_reader x = RdGone);
  I_quit : forall k h, nth_error (d_chans s) k = Some h -> dh_quit h = true -> dh_q h = [] /\ dh_closed h = true;
  I_perm : Permutation (in_queue tr) (taken tr ++ flat_map dh_q (d_chans s));
  I_dead : d_dead s = true -> exists c w, In (DeStart c LkWs w) tr /\ (lost c tr <> [] \/ In (DeTwice c) tr)
}.

Lemma inv_init : dinv dyn_init [].
Proof.
  assert (N : forall {A} i, @nth_error A [] i = None) by (intros A [|i]; reflexivity).
  constructor; cbn; try tauto; try discriminate; intros *; rewrite ?N; try discriminate; try (now left).
  - unfold hand. cbn. now rewrite N.
  - apply perm_nil.
Qed.

(* Changing one connection, keeping its kind and ID. *)
Lemma conns_set s c x x' j y : nth_error (d_conns s) c = Some x -> nth_error (set_nth c x' (d_conns s)) j = Some y ->
  (j = c /\ y = x') \/ (j <> c /\ nth_error (d_conns s) j = Some y).
Proof. intros E H. apply nth_error_set_nth in H. destruct H as [(-> & -> & _)|[N H]]; [now left|right; split; congruence]. Qed.
Lemma conns_get s c x x' : nth_error (d_conns s) c = Some x -> nth_error (set_nth c x' (d_conns s)) c = Some x'.
Proof. intros E. apply nth_error_set_nth_same. apply nth_error_Some. congruence. Qed.
Lemma conns_keep s c x x' : nth_error (d_conns s) c = Some x -> dc_wid x' = dc_wid x -> dc_link x' = dc_link x -> forall j y, nth_error (d_conns s) j = Some y ->
  exists y', nth_error (set_nth c x' (d_conns s)) j = Some y' /\ dc_wid y' = dc_wid y /\ dc_link y' = dc_link y.
Proof.
  intros E W L j y Hy. destruct (Nat.eq_dec c j) as [<-|N].
  - exists x'. rewrite (conns_get s c x x' E). rewrite E in Hy. injection Hy as <-. auto.
  - exists y. rewrite nth_error_set_nth_other by exact N. auto.
Qed.

(* Events that mention no request, stop, start or freeing. *)
Lemma reads_app c a b : reads c (a ++ b) = reads c a ++ reads c b. Proof. apply flat_map_app. Qed.
Lemma queued_app c a b : queued c (a ++ b) = queued c a ++ queued c b. Proof. apply flat_map_app. Qed.
Lemma lost_app c a b : lost c (a ++ b) = lost c a ++ lost c b. Proof. apply flat_map_app. Qed.
Lemma handled_app c a b : handled c (a ++ b) = handled c a ++ handled c b. Proof. apply flat_map_app. Qed.
Lemma in_queue_app a b : in_queue (a ++ b) = in_queue a ++ in_queue b. Proof. apply flat_map_app. Qed.
Lemma taken_app a b : taken (a ++ b) = taken a ++ taken b. Proof. apply flat_map_app. Qed.

(* A step that replaces one connection (same kind and ID) and nothing else but the
   dead flag. *)
Lemma inv_conn s tr c x x' e dead' : dinv s tr -> nth_error (d_conns s) c = Some x ->
  dc_wid x' = dc_wid x -> dc_link x' = dc_link x ->
  (forall k m, dc_reader x' = RdSend k m -> exists y, nth_error (d_conns s) k = Some y /\ dc_wid y = dc_wid x) ->
  (dc_main x = MnGone -> dc_main x' = MnGone) ->
  (dc_stopped x' = true -> In (DeStop c) (tr ++ e)) ->
  (forall d, ~ In (DeFreed d) e) -> (forall d lk w, ~ In (DeStart d lk w) e) ->
  in_queue e = [] -> taken e = [] ->
  (forall d, d <> c -> reads d e = [] /\ lost d e = []) ->
  reads c (tr ++ e) = queued c tr ++ lost c (tr ++ e) ++ hand_of (dc_reader x') ->
  (lost c (tr ++ e) = [] \/ (length (lost c (tr ++ e)) = 1 /\ dc_reader x' = RdGone)) ->
  (dead' = true -> d_dead s = true \/ (dc_link x = LkWs /\ (lost c (tr ++ e) <> [] \/ In (DeTwice c) (tr ++ e)))) ->
  dinv (Dst (d_chans s) (d_slot s) (set_nth c x' (d_conns s)) dead') (tr ++ e).
Proof.
  intros [I1 I2 I3 I4 I5 I6 I7 I8 I9 I10 I11 I12 I13] E W L Hs Hm Hst Nf Ns Nq Nt Nd Ha Hl Hd.
  assert (K := conns_keep s c x x' E W L).
  assert (Q : forall d, queued d e = []) by (intros d; rewrite queued_mine, Nq; reflexivity).
  constructor; cbn [d_chans d_slot d_conns d_dead].
  - now rewrite set_nth_length.
  - intros d y Hy. apply in_or_app. left. destruct (conns_set s c x x' d y E Hy) as [[-> ->]|[N H]]; [rewrite W, L; auto|auto].
  - intros d lk w H. apply in_app_or in H. destruct H as [H|H]; [|now elim (Ns d lk w)].
    destruct (I3 _ _ _ H) as (y & Hy & Wy & Ly). destruct (K d y Hy) as (y' & A & B & C). exists y'. repeat split; congruence.
  - intros w k H. destruct (I4 _ _ H) as (y & Hy & Wy). destruct (K k y Hy) as (y' & A & B & C). exists y'. split; congruence.
  - intros d y k m Hy Hr. destruct (conns_set s c x x' d y E Hy) as [[-> ->]|[N H]].
    + destruct (Hs k m Hr) as (z & Hz & Wz). destruct (K k z Hz) as (z' & A & B & C). exists z'. split; congruence.
    + destruct (I5 _ _ _ _ H Hr) as (z & Hz & Wz). destruct (K k z Hz) as (z' & A & B & C). exists z'. split; congruence.
  - intros k h Hk Hc. destruct (I6 k h Hk Hc) as (y & d & lk & Hy & F & S). destruct (K k y Hy) as (y' & A & B & C).
    exists y', d, lk. rewrite B. repeat split; [exact A|apply in_or_app; auto|apply in_or_app; auto].
  - intros d H. apply in_app_or in H. destruct H as [H|H]; [|now elim (Nf d)]. destruct (I7 d H) as (y & Hy & My).
    destruct (Nat.eq_dec c d) as [<-|N].
    + exists x'. split; [exact (conns_get s c x x' E)|]. apply Hm. congruence.
    + exists y. split; [|exact My]. now rewrite nth_error_set_nth_other.
  - intros d y Hy Hst'. destruct (conns_set s c x x' d y E Hy) as [[-> ->]|[N H]]; [auto|apply in_or_app; left; eauto].
  - intros d. rewrite queued_app, Q, app_nil_r. unfold hand. cbn [d_conns]. destruct (Nat.eq_dec c d) as [<-|N].
    + now rewrite (conns_get s c x x' E).
    + rewrite nth_error_set_nth_other by exact N. destruct (Nd d) as [A B]; [congruence|]. rewrite reads_app, lost_app, A, B, !app_nil_r. apply I9.
  - intros d. destruct (Nat.eq_dec c d) as [<-|N].
    + destruct Hl as [Hl|[Hl Hg]]; [now left|right]. split; [exact Hl|]. exists x'. split; [exact (conns_get s c x x' E)|exact Hg].
    + destruct (Nd d) as [_ B]; [congruence|]. rewrite lost_app, B, app_nil_r. destruct (I10 d) as [H|[H (y & Hy & Ry)]]; [now left|right].
      split; [exact H|]. exists y. split; [|exact Ry]. now rewrite nth_error_set_nth_other.
  - exact I11.
  - rewrite in_queue_app, taken_app, Nq, Nt, !app_nil_r. exact I12.
  - intros D. destruct (Hd D) as [D'|[Lk D']].
    + destruct (I13 D') as (d & w & S & H). exists d, w. split; [apply in_or_app; auto|]. destruct H as [H|H].
      * left. rewrite lost_app. destruct (lost d tr); [contradiction|discriminate].
      * right. apply in_or_app. auto.
    + exists c, (dc_wid x). split; [apply in_or_app; left; rewrite <- Lk; auto|exact D'].
Qed.

(* A step that replaces one channel. *)
Lemma inv_chan s tr k h h' e : dinv s tr -> nth_error (d_chans s) k = Some h ->
  (dh_closed h' = true -> dh_closed h = true \/ exists y d lk, nth_error (d_conns s) k = Some y /\ In (DeFreed d) tr /\ In (DeStart d lk (dc_wid y)) tr) ->
  (dh_quit h' = true -> dh_q h' = [] /\ dh_closed h' = true) ->
  (forall d, ~ In (DeFreed d) e) -> (forall d lk w, ~ In (DeStart d lk w) e) ->
  in_queue e = [] -> Permutation (dh_q h) (taken e ++ dh_q h') ->
  (forall d, reads d e = [] /\ lost d e = []) ->
  dinv (put_chan s k h') (tr ++ e).
Proof.
  intros [I1 I2 I3 I4 I5 I6 I7 I8 I9 I10 I11 I12 I13] E Hc Hq Nf Ns Nq Pq Nd.
  assert (Q : forall d, queued d e = []) by (intros d; rewrite queued_mine, Nq; reflexivity).
  constructor; cbn [put_chan d_chans d_slot d_conns d_dead].
  - now rewrite set_nth_length.
  - intros d y Hy. apply in_or_app. auto.
  - intros d lk w H. apply in_app_or in H. destruct H as [H|H]; [eauto|now elim (Ns d lk w)].
  - exact I4.
  - exact I5.
  - intros j g Hj Hg. apply nth_error_set_nth in Hj.
    assert (X : exists y d lk, nth_error (d_conns s) j = Some y /\ In (DeFreed d) tr /\ In (DeStart d lk (dc_wid y)) tr).
    { destruct Hj as [(-> & -> & _)|[N Hj]]; [|eauto]. destruct (Hc Hg) as [H|H]; eauto. }
    destruct X as (y & d & lk & A & B & C). exists y, d, lk. repeat split; [exact A|apply in_or_app; auto|apply in_or_app; auto].
  - intros d H. apply in_app_or in H. destruct H as [H|H]; [eauto|now elim (Nf d)].
  - intros d y Hy Hst. apply in_or_app. left. eauto.
  - intros d. destruct (Nd d) as [A B]. rewrite reads_app, lost_app, queued_app, A, B, Q, !app_nil_r. apply I9.
  - intros d. destruct (Nd d) as [A B]. rewrite lost_app, B, app_nil_r. apply I10.
  - intros j g Hj Hg. apply nth_error_set_nth in Hj. destruct Hj as [(-> & -> & _)|[N Hj]]; [auto|eauto].
  - rewrite in_queue_app, taken_app, Nq, app_nil_r, I12. rewrite <- app_assoc. apply Permutation_app_head.
    pose proof (flat_map_set_nth dh_q (d_chans s) k h' h E) as P.
    apply (Permutation_app_inv_l (dh_q h')). rewrite <- P. rewrite Pq. rewrite !app_assoc.
    apply Permutation_app_tail. apply Permutation_app_comm.
  - intros D. destruct (I13 D) as (d & w & S & H). exists d, w. split; [apply in_or_app; auto|]. destruct H as [H|H].
    + left. rewrite lost_app. destruct (lost d tr); [contradiction|discriminate].
    + right. apply in_or_app. auto.
Qed.

Lemma put_queued s tr c x k m h : dinv s tr -> nth_error (d_conns s) c = Some x -> dc_reader x = RdSend k m ->
  nth_error (d_chans s) k = Some h -> dh_closed h = false ->
  dinv (put_chan (put_conn s c (at_reader x RdWait)) k (Dchan (dh_q h ++ [(c, m)]) false (dh_cur h) (dh_quit h))) (tr ++ [DeQueued c m]).
Proof.
  intros I E Er Eh Hc. assert (Hq : dh_quit h = false).
  { destruct (dh_quit h) eqn:Hq; [|reflexivity]. destruct (I_quit _ _ I k h Eh Hq). congruence. }
  rewrite Hq.
  destruct I as [I1 I2 I3 I4 I5 I6 I7 I8 I9 I10 I11 I12 I13].
  assert (K := conns_keep s c x (at_reader x RdWait) E eq_refl eq_refl).
  assert (In1 : forall e, In e (tr ++ [DeQueued c m]) -> In e tr \/ e = DeQueued c m).
  { intros e H. apply in_app_or in H. cbn in H. intuition. }
  constructor; cbn [put_chan put_conn d_chans d_slot d_conns d_dead].
  - now rewrite !set_nth_length.
  - intros d y Hy. apply in_or_app. left. destruct (conns_set s c x _ d y E Hy) as [[-> ->]|[N H]]; [apply (I2 c x E)|auto].
  - intros d lk w H. destruct (In1 _ H) as [H'|H']; [|discriminate]. destruct (I3 _ _ _ H') as (y & Hy & Wy & Ly).
    destruct (K d y Hy) as (y' & A & B & C). exists y'. repeat split; congruence.
  - intros w j H. destruct (I4 _ _ H) as (y & Hy & Wy). destruct (K j y Hy) as (y' & A & B & C). exists y'. split; congruence.
  - intros d y j n Hy Hr. destruct (conns_set s c x _ d y E Hy) as [[-> ->]|[N H]]; [discriminate|].
    destruct (I5 _ _ _ _ H Hr) as (z & Hz & Wz). destruct (K j z Hz) as (z' & A & B & C). exists z'. split; congruence.
  - intros j g Hj Hg. apply nth_error_set_nth in Hj. destruct Hj as [(-> & -> & _)|[N Hj]]; [discriminate|].
    destruct (I6 j g Hj Hg) as (y & d & lk & Hy & F & S). destruct (K j y Hy) as (y' & A & B & C).
    exists y', d, lk. rewrite B. repeat split; [exact A|apply in_or_app; auto|apply in_or_app; auto].
  - intros d H. destruct (In1 _ H) as [H'|H']; [|discriminate]. destruct (I7 d H') as (y & Hy & My). destruct (Nat.eq_dec c d) as [<-|N].
    + exists (at_reader x RdWait). split; [exact (conns_get s c x _ E)|]. cbn. congruence.
    + exists y. split; [|exact My]. now rewrite nth_error_set_nth_other.
  - intros d y Hy Hs. apply in_or_app. left. destruct (conns_set s c x _ d y E Hy) as [[-> ->]|[N H]]; [apply (I8 c x E Hs)|eauto].
  - intros d. specialize (I9 d). rewrite reads_app, queued_app, lost_app. cbn [reads queued lost flat_map]. rewrite !app_nil_r. unfold hand in *. cbn [put_chan put_conn d_conns].
    destruct (Nat.eq_dec c d) as [<-|N].
    + rewrite (conns_get s c x _ E). rewrite E, Er in I9. cbn [hand_of at_reader dc_reader] in *. rewrite Nat.eqb_refl, app_nil_r, I9.
      destruct (I10 c) as [L|[_ (y & Hy & Ry)]]; [now rewrite L, app_nil_r|congruence].
    + rewrite nth_error_set_nth_other by exact N. destruct (Nat.eqb_spec c d); [contradiction|]. now rewrite app_nil_r.
  - intros d. rewrite lost_app. cbn [lost flat_map]. rewrite app_nil_r. destruct (I10 d) as [H|[H (y & Hy & Ry)]]; [now left|right].
    split; [exact H|]. destruct (Nat.eq_dec c d) as [<-|N]; [congruence|]. exists y. split; [|exact Ry]. now rewrite nth_error_set_nth_other.
  - intros j g Hj Hg. apply nth_error_set_nth in Hj. destruct Hj as [(-> & -> & _)|[N Hj]]; [discriminate|eauto].
  - rewrite in_queue_app, taken_app. cbn [in_queue taken flat_map]. rewrite !app_nil_r. cbn [app].
    rewrite I12, <- app_assoc. apply Permutation_app_head.
    pose proof (flat_map_set_nth dh_q (d_chans s) k (Dchan (dh_q h ++ [(c, m)]) false (dh_cur h) false) h Eh) as P. cbn [dh_q] in P.
    apply (Permutation_app_inv_l (dh_q h)). rewrite P. rewrite <- app_assoc. apply Permutation_app_head. apply Permutation_app_comm.
  - intros D. destruct (I13 D) as (d & w & S & H). exists d, w. split; [apply in_or_app; auto|]. destruct H as [H|H].
    + left. rewrite lost_app. destruct (lost d tr); [contradiction|discriminate].
    + right. apply in_or_app. auto.
Qed.

Lemma inv_freed s tr c x k h : dinv s tr -> nth_error (d_conns s) c = Some x -> dc_stopped x = true ->
  d_slot s (dc_wid x) = Some k -> nth_error (d_chans s) k = Some h ->
  dinv (put_chan (put_conn s c (Dconn (dc_link x) (dc_wid x) true (dc_reader x) MnGone)) k (Dchan (dh_q h) true (dh_cur h) (dh_quit h))) (tr ++ [DeFreed c]).
Proof.
  intros [I1 I2 I3 I4 I5 I6 I7 I8 I9 I10 I11 I12 I13] E Hst Es Eh.
  set (x' := Dconn (dc_link x) (dc_wid x) true (dc_reader x) MnGone).
  assert (K := conns_keep s c x x' E eq_refl eq_refl).
  assert (In1 : forall e, In e (tr ++ [DeFreed c]) -> In e tr \/ e = DeFreed c).
  { intros e H. apply in_app_or in H. cbn in H. intuition. }
  constructor; cbn [put_chan put_conn d_chans d_slot d_conns d_dead].
  - now rewrite !set_nth_length.
  - intros d y Hy. apply in_or_app. left. destruct (conns_set s c x _ d y E Hy) as [[-> ->]|[N H]]; [apply (I2 c x E)|auto].
  - intros d lk w H. destruct (In1 _ H) as [H'|H']; [|discriminate]. destruct (I3 _ _ _ H') as (y & Hy & Wy & Ly).
    destruct (K d y Hy) as (y' & A & B & C). exists y'. repeat split; congruence.
  - intros w j H. destruct (I4 _ _ H) as (y & Hy & Wy). destruct (K j y Hy) as (y' & A & B & C). exists y'. split; congruence.
  - intros d y j n Hy Hr. assert (X : exists z, nth_error (d_conns s) j = Some z /\ dc_wid z = dc_wid y).
    { destruct (conns_set s c x _ d y E Hy) as [[-> ->]|[N H]]; [exact (I5 c x j n E Hr)|exact (I5 _ _ _ _ H Hr)]. }
    destruct X as (z & Hz & Wz). destruct (K j z Hz) as (z' & A & B & C). exists z'. split; congruence.
  - intros j g Hj Hg. apply nth_error_set_nth in Hj. destruct Hj as [(<- & -> & _)|[N Hj]].
    + destruct (I4 _ _ Es) as (y & Hy & Wy). destruct (K k y Hy) as (y' & A & B & C). exists y', c, (dc_link x).
      rewrite B, Wy. repeat split; [exact A|apply in_or_app; cbn; auto|apply in_or_app; auto].
    + destruct (I6 j g Hj Hg) as (y & d & lk & Hy & F & S). destruct (K j y Hy) as (y' & A & B & C).
      exists y', d, lk. rewrite B. repeat split; [exact A|apply in_or_app; auto|apply in_or_app; auto].
  - intros d H. destruct (Nat.eq_dec c d) as [<-|N].
    + exists x'. split; [exact (conns_get s c x _ E)|reflexivity].
    + destruct (In1 _ H) as [H'|H']; [|congruence]. destruct (I7 d H') as (y & Hy & My).
      exists y. split; [|exact My]. now rewrite nth_error_set_nth_other.
  - intros d y Hy Hs. apply in_or_app. left. destruct (conns_set s c x _ d y E Hy) as [[-> ->]|[N H]]; [apply (I8 c x E Hst)|eauto].
  - intros d. specialize (I9 d). rewrite reads_app, queued_app, lost_app. cbn [reads queued lost flat_map]. rewrite !app_nil_r. unfold hand in *. cbn [put_chan put_conn d_conns].
    destruct (Nat.eq_dec c d) as [<-|N].
    + rewrite (conns_get s c x _ E). rewrite E in I9. exact I9.
    + now rewrite nth_error_set_nth_other by exact N.
  - intros d. rewrite lost_app. cbn [lost flat_map]. rewrite app_nil_r. destruct (I10 d) as [H|[H (y & Hy & Ry)]]; [now left|right].
    split; [exact H|]. destruct (Nat.eq_dec c d) as [<-|N].
    + exists x'. split; [exact (conns_get s c x _ E)|]. cbn. congruence.
    + exists y. split; [|exact Ry]. now rewrite nth_error_set_nth_other.
  - intros j g Hj Hg. apply nth_error_set_nth in Hj. destruct Hj as [(<- & -> & _)|[N Hj]]; [split; [exact (proj1 (I11 k h Eh Hg))|reflexivity]|eauto].
  - rewrite in_queue_app, taken_app. cbn [in_queue taken flat_map]. rewrite !app_nil_r.
    rewrite I12. apply Permutation_app_head.
    pose proof (flat_map_set_nth dh_q (d_chans s) k (Dchan (dh_q h) true (dh_cur h) (dh_quit h)) h Eh) as P. cbn [dh_q] in P.
    apply (Permutation_app_inv_l (dh_q h)). now rewrite P.
  - intros D. destruct (I13 D) as (d & w & S & H). exists d, w. split; [apply in_or_app; auto|]. destruct H as [H|H].
    + left. rewrite lost_app. destruct (lost d tr); [contradiction|discriminate].
    + right. apply in_or_app. auto.
Qed.

Lemma nth_snoc {A} (l : list A) a i y : nth_error (l ++ [a]) i = Some y -> nth_error l i = Some y \/ (i = length l /\ y = a).
Proof.
  intros H. destruct (lt_dec i (length l)) as [L|L]; [rewrite nth_error_app1 in H by exact L; now left|].
  rewrite nth_error_app2 in H by lia. destruct (i - length l) as [|n] eqn:En; cbn in H; [|now destruct n].
  right. split; [lia|congruence].
Qed.
Lemma nth_snoc_old {A} (l : list A) a i y : nth_error l i = Some y -> nth_error (l ++ [a]) i = Some y.
Proof. intros H. rewrite nth_error_app1; [exact H|]. apply nth_error_Some. congruence. Qed.
Lemma nth_snoc_new {A} (l : list A) a : nth_error (l ++ [a]) (length l) = Some a.
Proof. rewrite nth_error_app2 by lia. now rewrite Nat.sub_diag. Qed.

Lemma inv_start s tr lk w : dinv s tr ->
  dinv (Dst (d_chans s ++ [Dchan [] false None false]) (upd_slot (d_slot s) w (length (d_chans s)))
            (d_conns s ++ [Dconn lk w false RdWait MnWait]) false) (tr ++ [DeStart (length (d_conns s)) lk w]).
Proof.
  intros [I1 I2 I3 I4 I5 I6 I7 I8 I9 I10 I11 I12 I13].
  assert (In1 : forall e, In e (tr ++ [DeStart (length (d_conns s)) lk w]) -> In e tr \/ e = DeStart (length (d_conns s)) lk w).
  { intros e H. apply in_app_or in H. cbn in H. intuition. }
  constructor; cbn [d_chans d_slot d_conns d_dead].
  - rewrite !app_length. cbn. lia.
  - intros d y Hy. apply in_or_app. apply nth_snoc in Hy. destruct Hy as [Hy|[-> ->]]; [left; auto|right; cbn; auto].
  - intros d lk' w' H. destruct (In1 _ H) as [H'|H'].
    + destruct (I3 _ _ _ H') as (y & Hy & Wy & Ly). exists y. split; [now apply nth_snoc_old|auto].
    + injection H' as -> -> ->. eexists. split; [apply nth_snoc_new|auto].
  - intros w' k H. unfold upd_slot in H. destruct (Nat.eqb_spec w' w) as [->|N].
    + injection H as <-. eexists. rewrite I1. split; [apply nth_snoc_new|reflexivity].
    + destruct (I4 _ _ H) as (y & Hy & Wy). exists y. split; [now apply nth_snoc_old|exact Wy].
  - intros d y k m Hy Hr. apply nth_snoc in Hy. destruct Hy as [Hy|[-> ->]]; [|discriminate].
    destruct (I5 _ _ _ _ Hy Hr) as (z & Hz & Wz). exists z. split; [now apply nth_snoc_old|exact Wz].
  - intros k h Hk Hc. apply nth_snoc in Hk. destruct Hk as [Hk|[-> ->]]; [|discriminate].
    destruct (I6 k h Hk Hc) as (y & d & lk' & Hy & F & S). exists y, d, lk'. repeat split; [now apply nth_snoc_old|apply in_or_app; auto|apply in_or_app; auto].
  - intros d H. destruct (In1 _ H) as [H'|H']; [|discriminate]. destruct (I7 d H') as (y & Hy & My). exists y. split; [now apply nth_snoc_old|exact My].
  - intros d y Hy Hs. apply nth_snoc in Hy. destruct Hy as [Hy|[-> ->]]; [|discriminate]. apply in_or_app. left. eauto.
  - intros d. specialize (I9 d). rewrite reads_app, queued_app, lost_app. cbn [reads queued lost flat_map]. rewrite !app_nil_r, I9. unfold hand. cbn [d_conns].
    destruct (nth_error (d_conns s) d) as [y|] eqn:Ey; [now rewrite (nth_snoc_old _ _ _ _ Ey)|].
    destruct (nth_error (d_conns s ++ _) d) as [y|] eqn:Ey'; [|reflexivity]. apply nth_snoc in Ey'. destruct Ey' as [Ey'|[-> ->]]; [congruence|reflexivity].
  - intros d. rewrite lost_app. cbn [lost flat_map]. rewrite app_nil_r. destruct (I10 d) as [H|[H (y & Hy & Ry)]]; [now left|right].
    split; [exact H|]. exists y. split; [now apply nth_snoc_old|exact Ry].
  - intros k h Hk Hq. apply nth_snoc in Hk. destruct Hk as [Hk|[-> ->]]; [eauto|discriminate].
  - rewrite in_queue_app, taken_app, flat_map_app. cbn [in_queue taken flat_map dh_q]. now rewrite !app_nil_r.
  - discriminate.
Qed.

Lemma inv_step s tr l : dinv s tr -> dinv (fst (step s l)) (tr ++ snd (step s l)).
Proof.
  intros I. assert (Same : dinv s (tr ++ [])) by now rewrite app_nil_r.
  unfold dyn_step. destruct (d_dead s) eqn:Dd; [exact Same|]. destruct l as [lk w|c m|c|c|c|c|k|k].
  - exact (inv_start s tr lk w I).
  - destruct (nth_error (d_conns s) c) as [x|] eqn:E; [|exact Same]. destruct (dc_reader x) eqn:Er; try exact Same. cbn [fst snd]. unfold put_conn.
    pose proof (I_acc _ _ I c) as A. unfold hand in A. rewrite E, Er in A. cbn [hand_of] in A.
    assert (L : lost c tr = []) by (destruct (I_lost _ _ I c) as [L|[_ (y & Hy & Ry)]]; [exact L|congruence]).
    apply (inv_conn s tr c x); auto; cbn; try (intros; intuition discriminate).
    + intros H. apply in_or_app. left. exact (I_stop _ _ I c x E H).
    + intros d Hd. destruct (Nat.eqb_spec c d); [congruence|auto].
    + rewrite reads_app, lost_app, A, L. cbn. now rewrite Nat.eqb_refl, app_nil_r.
    + left. rewrite lost_app, L. reflexivity.
  - destruct (nth_error (d_conns s) c) as [x|] eqn:E; [|exact Same]. unfold reader_step. destruct (dc_reader x) as [|m|k m|] eqn:Er; try exact Same.
    + destruct (d_slot s (dc_wid x)) as [k|] eqn:Es; [|exact Same]. cbn [fst snd]. rewrite app_nil_r. unfold put_conn.
      rewrite <- (app_nil_r tr). pose proof (I_acc _ _ I c) as A. unfold hand in A. rewrite E, Er in A. cbn [hand_of] in A.
      assert (L : lost c tr = []) by (destruct (I_lost _ _ I c) as [L|[_ (y & Hy & Ry)]]; [exact L|congruence]).
      apply (inv_conn s tr c x); auto; cbn; try (intros; intuition discriminate).
      * intros k' m' [= <- <-]. exact (I_slot _ _ I _ _ Es).
      * intros H. rewrite app_nil_r. exact (I_stop _ _ I c x E H).
      * rewrite app_nil_r. exact A.
      * left. now rewrite app_nil_r.
    + destruct (nth_error (d_chans s) k) as [h|] eqn:Eh; [|exact Same]. destruct (dh_closed h) eqn:Hc.
      * set (e := DeLost c m :: if dc_stopped x then [] else [DeStop c]).
        pose proof (I_acc _ _ I c) as A. unfold hand in A. rewrite E, Er in A. cbn [hand_of] in A.
        assert (L : lost c tr = []) by (destruct (I_lost _ _ I c) as [L|[_ (y & Hy & Ry)]]; [exact L|congruence]).
        assert (Le : lost c e = [m]) by (unfold e; destruct (dc_stopped x); cbn; now rewrite Nat.eqb_refl).
        assert (Re : reads c e = []) by (unfold e; destruct (dc_stopped x); reflexivity).
        assert (G : forall dead', (dead' = true -> dc_link x = LkWs) ->
          dinv (Dst (d_chans s) (d_slot s) (set_nth c (Dconn (dc_link x) (dc_wid x) true RdGone (dc_main x)) (d_conns s)) dead') (tr ++ e)).
        { intros dead' Hd. apply (inv_conn s tr c x); auto; try (cbn; intros; discriminate).
          - intros _. apply in_or_app. destruct (dc_stopped x) eqn:Hst; [left; exact (I_stop _ _ I c x E Hst)|right; unfold e; cbn; auto].
          - intros d. unfold e. destruct (dc_stopped x); cbn; intuition discriminate.
          - intros d lk w. unfold e. destruct (dc_stopped x); cbn; intuition discriminate.
          - unfold e. destruct (dc_stopped x); reflexivity.
          - unfold e. destruct (dc_stopped x); reflexivity.
          - intros d Hdc. unfold e. destruct (dc_stopped x); cbn; destruct (Nat.eqb_spec c d); try congruence; auto.
          - rewrite reads_app, lost_app, A, L, Le, Re. cbn. now rewrite !app_nil_r.
          - right. rewrite lost_app, L, Le. auto.
          - intros H. right. split; [auto|left]. rewrite lost_app, Le. destruct (lost c tr); discriminate. }
        cbn [fst snd]. fold e. unfold reader_panics, put_conn. rewrite Dd. destruct (dc_link x) eqn:Hl; cbn [d_chans d_slot d_conns]; apply G; congruence.
      * destruct (length (dh_q h) <? Nat.max 1 cap); [|exact Same]. cbn [fst snd].
        exact (put_queued s tr c x k m h I E Er Eh Hc).
  - destruct (nth_error (d_conns s) c) as [x|] eqn:E; [|exact Same]. destruct (dc_reader x) eqn:Er; try exact Same. cbn [fst snd]. unfold put_conn.
    set (e := if dc_stopped x then [] else [DeStop c]).
    pose proof (I_acc _ _ I c) as A. unfold hand in A. rewrite E, Er in A. cbn [hand_of] in A.
    assert (L : lost c tr = []) by (destruct (I_lost _ _ I c) as [L|[_ (y & Hy & Ry)]]; [exact L|congruence]).
    apply (inv_conn s tr c x); auto; try (cbn; intros; discriminate).
    + intros _. apply in_or_app. unfold e. destruct (dc_stopped x) eqn:Hst; [left; exact (I_stop _ _ I c x E Hst)|right; cbn; auto].
    + intros d. unfold e. destruct (dc_stopped x); cbn; intuition discriminate.
    + intros d lk w. unfold e. destruct (dc_stopped x); cbn; intuition discriminate.
    + unfold e. destruct (dc_stopped x); reflexivity.
    + unfold e. destruct (dc_stopped x); reflexivity.
    + intros d Hdc. unfold e. destruct (dc_stopped x); cbn; auto.
    + rewrite reads_app, lost_app, A, L. unfold e. destruct (dc_stopped x); cbn; now rewrite ?app_nil_r.
    + left. rewrite lost_app, L. unfold e. destruct (dc_stopped x); reflexivity.
  - destruct (nth_error (d_conns s) c) as [x|] eqn:E; [|exact Same]. destruct (dc_stopped x) eqn:Hst; [exact Same|]. cbn [fst snd]. unfold put_conn.
    pose proof (I_acc _ _ I c) as A. unfold hand in A. rewrite E in A.
    apply (inv_conn s tr c x); auto; try (cbn; intros; intuition discriminate).
    + intros k m Hr. exact (I_send _ _ I c x k m E Hr).
    + intros _. apply in_or_app. cbn. auto.
    + rewrite reads_app, lost_app. cbn. now rewrite !app_nil_r.
    + rewrite lost_app. cbn. rewrite app_nil_r. destruct (I_lost _ _ I c) as [L|[L (y & Hy & Ry)]]; [now left|right]. split; [exact L|]. congruence.
  - destruct (nth_error (d_conns s) c) as [x|] eqn:E; [|exact Same]. unfold main_step. destruct (dc_main x) eqn:Em; [|exact Same]. destruct (dc_stopped x) eqn:Hst; [|exact Same].
    destruct (d_slot s (dc_wid x)) as [k|] eqn:Es; [|exact Same]. destruct (nth_error (d_chans s) k) as [h|] eqn:Eh; [|exact Same].
    destruct (dh_closed h) eqn:Hc.
    + pose proof (I_acc _ _ I c) as A. unfold hand in A. rewrite E in A.
      assert (G : forall dead', (dead' = true -> dc_link x = LkWs) ->
        dinv (Dst (d_chans s) (d_slot s) (set_nth c (Dconn (dc_link x) (dc_wid x) (dc_stopped x) (dc_reader x) MnGone) (d_conns s)) dead') (tr ++ [DeTwice c])).
      { intros dead' Hd. apply (inv_conn s tr c x); auto; try (cbn; intros; intuition discriminate).
        - intros k' m Hr. exact (I_send _ _ I c x k' m E Hr).
        - intros _. apply in_or_app. left. exact (I_stop _ _ I c x E Hst).
        - rewrite reads_app, lost_app. cbn. now rewrite !app_nil_r.
        - rewrite lost_app. cbn. rewrite app_nil_r. destruct (I_lost _ _ I c) as [L|[L (y & Hy & Ry)]]; [now left|right]. split; [exact L|]. congruence.
        - intros H. right. split; [auto|right]. apply in_or_app. cbn. auto. }
      cbn [fst snd]. unfold main_panics, put_conn. rewrite Dd. destruct (dc_link x) eqn:Hl; cbn [d_chans d_slot d_conns]; apply G; congruence.
    + cbn [fst snd]. exact (inv_freed s tr c x k h I E Hst Es Eh).
  - unfold take_step. destruct (nth_error (d_chans s) k) as [h|] eqn:Eh; [|exact Same]. destruct (dh_quit h) eqn:Hq; [exact Same|].
    destruct (dh_cur h) eqn:Hcu; [exact Same|]. destruct (dh_q h) as [|[c m] q] eqn:Eq.
    + destruct (dh_closed h) eqn:Hc; [|exact Same]. cbn [fst snd]. apply (inv_chan s tr k h); auto; cbn; try tauto. now rewrite Eq.
    + cbn [fst snd]. apply (inv_chan s tr k h); auto; cbn; try (intros; intuition discriminate); try tauto. now rewrite Eq.
  - unfold done_step. destruct (nth_error (d_chans s) k) as [h|] eqn:Eh; [|exact Same]. destruct (dh_cur h) eqn:Hcu; [|exact Same].
    cbn [fst snd]. apply (inv_chan s tr k h); auto; cbn; try tauto. intros Hq. exact (I_quit _ _ I k h Eh Hq).
Qed.

Local Notation trace ls := (snd (run dyn_init ls)).
Local Notation final ls := (fst (run dyn_init ls)).

Lemma run_snoc ls l : run dyn_init (ls ++ [l]) = (fst (step (final ls) l), trace ls ++ snd (step (final ls) l)).
Proof. rewrite run_app. cbn [dyn_run]. destruct (step (final ls) l) as [s e]. cbn. now rewrite app_nil_r. Qed.

Lemma inv_run ls : dinv (final ls) (trace ls).
Proof.
  induction ls as [|l ls IH] using rev_ind; [exact inv_init|]. rewrite run_snoc. cbn [fst snd]. now apply inv_step.
Qed.

(* Every event was emitted by some step. *)
Lemma emitted ls : forall a ev b, trace ls = a ++ ev :: b ->
  exists ls1 l ls2 e1 e2, ls = ls1 ++ l :: ls2 /\ snd (step (final ls1) l) = e1 ++ ev :: e2 /\ a = trace ls1 ++ e1.
Proof.
  induction ls as [|l ls IH] using rev_ind; intros a ev b E.
  - cbn in E. now destruct a.
  - rewrite run_snoc in E. cbn [snd] in E.
    assert (X : (exists b1, trace ls = a ++ ev :: b1) \/ exists e1 e2, snd (step (final ls) l) = e1 ++ ev :: e2 /\ a = trace ls ++ e1).
    { clear IH. revert E. generalize (trace ls) as t, (snd (step (final ls) l)) as e. intros t. revert a. induction t as [|z t IHt]; intros a e E.
      - right. exists a, b. split; [exact E|reflexivity].
      - destruct a as [|z' a]; cbn in E; injection E as -> E.
        + left. now exists t.
        + destruct (IHt a e E) as [(b1 & ->)|(e1 & e2 & H1 & ->)]; [left; now exists b1|right; now exists e1, e2]. }
    destruct X as [(b1 & X)|(e1 & e2 & X1 & X2)].
    + destruct (IH _ _ _ X) as (ls1 & l' & ls2 & e1 & e2 & -> & H1 & H2). exists ls1, l', (ls2 ++ [l]), e1, e2.
      split; [now rewrite <- app_assoc|auto].
    + exists ls, l, [], e1, e2. auto.
Qed.

(* Each step emits at most one event, except a lost request, which comes first. *)
Lemma step_lost s l e1 c m e2 : snd (step s l) = e1 ++ DeLost c m :: e2 ->
  e1 = [] /\ l = DlReader c /\ exists x k h, nth_error (d_conns s) c = Some x /\ dc_reader x = RdSend k m /\
    nth_error (d_chans s) k = Some h /\ dh_closed h = true.
Proof.
  unfold dyn_step. destruct (d_dead s); [now destruct e1|]. destruct l as [lk w|c' m'|c'|c'|c'|c'|k|k]; intros E.
  - destruct e1 as [|? [|]]; discriminate.
  - destruct (nth_error (d_conns s) c') as [x|]; [|now destruct e1]. destruct (dc_reader x); destruct e1 as [|? [|]]; discriminate.
  - destruct (nth_error (d_conns s) c') as [x|] eqn:Ex; [|now destruct e1]. unfold reader_step in E.
    destruct (dc_reader x) as [|m'|k m'|] eqn:Er; try (destruct e1; discriminate).
    + destruct (d_slot s (dc_wid x)); destruct e1; discriminate.
    + destruct (nth_error (d_chans s) k) as [h|] eqn:Eh; [|destruct e1; discriminate]. destruct (dh_closed h) eqn:Hc.
      * cbn [snd] in E. destruct e1 as [|z e1].
        -- injection E as -> -> _. split; [reflexivity|]. split; [reflexivity|]. exists x, k, h. auto.
        -- injection E as _ E. destruct (dc_stopped x); destruct e1 as [|? [|]]; discriminate.
      * destruct (_ <? _); destruct e1 as [|? [|]]; discriminate.
  - destruct (nth_error (d_conns s) c') as [x|]; [|now destruct e1]. destruct (dc_reader x); try (destruct e1; discriminate).
    destruct (dc_stopped x); destruct e1 as [|? [|]]; discriminate.
  - destruct (nth_error (d_conns s) c') as [x|]; [|now destruct e1]. destruct (dc_stopped x); destruct e1 as [|? [|]]; discriminate.
  - destruct (nth_error (d_conns s) c') as [x|]; [|now destruct e1]. unfold main_step in E.
    destruct (dc_main x); [|destruct e1; discriminate]. destruct (dc_stopped x); [|destruct e1; discriminate].
    destruct (d_slot s (dc_wid x)) as [k|]; [|destruct e1; discriminate]. destruct (nth_error (d_chans s) k) as [h|]; [|destruct e1; discriminate].
    destruct (dh_closed h); destruct e1 as [|? [|]]; discriminate.
  - unfold take_step in E. destruct (nth_error (d_chans s) k) as [h|]; [|destruct e1; discriminate].
    destruct (dh_quit h); [destruct e1; discriminate|]. destruct (dh_cur h); [destruct e1; discriminate|].
    destruct (dh_q h) as [|[? ?] ?]; [destruct (dh_closed h); destruct e1; discriminate|]. destruct e1 as [|? [|]]; discriminate.
  - unfold done_step in E. destruct (nth_error (d_chans s) k) as [h|]; [|destruct e1; discriminate]. destruct (dh_cur h); destruct e1; discriminate.
Qed.
Lemma step_twice s l e1 c e2 : snd (step s l) = e1 ++ DeTwice c :: e2 ->
  e1 = [] /\ exists x k h, nth_error (d_conns s) c = Some x /\ dc_main x = MnWait /\ d_slot s (dc_wid x) = Some k /\
    nth_error (d_chans s) k = Some h /\ dh_closed h = true.
Proof.
  unfold dyn_step. destruct (d_dead s); [now destruct e1|]. destruct l as [lk w|c' m'|c'|c'|c'|c'|k|k]; intros E.
  - destruct e1 as [|? [|]]; discriminate.
  - destruct (nth_error (d_conns s) c') as [x|]; [|now destruct e1]. destruct (dc_reader x); destruct e1 as [|? [|]]; discriminate.
  - destruct (nth_error (d_conns s) c') as [x|] eqn:Ex; [|now destruct e1]. unfold reader_step in E.
    destruct (dc_reader x) as [|m'|k m'|] eqn:Er; try (destruct e1; discriminate).
    + destruct (d_slot s (dc_wid x)); destruct e1; discriminate.
    + destruct (nth_error (d_chans s) k) as [h|] eqn:Eh; [|destruct e1; discriminate]. destruct (dh_closed h) eqn:Hc.
      * cbn [snd] in E. destruct e1 as [|z e1]; [discriminate|].
        injection E as _ E. destruct (dc_stopped x); destruct e1 as [|? [|]]; discriminate.
      * destruct (_ <? _); destruct e1 as [|? [|]]; discriminate.
  - destruct (nth_error (d_conns s) c') as [x|]; [|now destruct e1]. destruct (dc_reader x); try (destruct e1; discriminate).
    destruct (dc_stopped x); destruct e1 as [|? [|]]; discriminate.
  - destruct (nth_error (d_conns s) c') as [x|]; [|now destruct e1]. destruct (dc_stopped x); destruct e1 as [|? [|]]; discriminate.
  - destruct (nth_error (d_conns s) c') as [x|] eqn:Ex; [|now destruct e1]. unfold main_step in E.
    destruct (dc_main x) eqn:Em; [|destruct e1; discriminate]. destruct (dc_stopped x); [|destruct e1; discriminate].
    destruct (d_slot s (dc_wid x)) as [k|] eqn:Es; [|destruct e1; discriminate]. destruct (nth_error (d_chans s) k) as [h|] eqn:Eh; [|destruct e1; discriminate].
    destruct (dh_closed h) eqn:Hc; [|destruct e1 as [|? [|]]; discriminate]. destruct e1 as [|? [|]]; try discriminate.
    injection E as -> _. split; [reflexivity|]. exists x, k, h. auto.
  - unfold take_step in E. destruct (nth_error (d_chans s) k) as [h|]; [|destruct e1; discriminate].
    destruct (dh_quit h); [destruct e1; discriminate|]. destruct (dh_cur h); [destruct e1; discriminate|].
    destruct (dh_q h) as [|[? ?] ?]; [destruct (dh_closed h); destruct e1; discriminate|]. destruct e1 as [|? [|]]; discriminate.
  - unfold done_step in E. destruct (nth_error (d_chans s) k) as [h|]; [|destruct e1; discriminate]. destruct (dh_cur h); destruct e1; discriminate.
Qed.

Lemma lost_why ls a c m b : trace ls = a ++ DeLost c m :: b ->
  exists d, In (DeFreed d) a /\ same_worker a c d.
Proof.
  intros E. destruct (emitted ls _ _ _ E) as (ls1 & l & ls2 & e1 & e2 & _ & He & ->).
  destruct (step_lost _ _ _ _ _ _ He) as (-> & _ & x & k & h & Ex & Er & Eh & Hc). rewrite app_nil_r.
  pose proof (inv_run ls1) as I. destruct (I_send _ _ I _ _ _ _ Ex Er) as (y & Hy & Wy).
  destruct (I_closed _ _ I _ _ Eh Hc) as (y' & d & lk & Hy' & F & S). exists d. split; [exact F|].
  exists (dc_link x), lk, (dc_wid x). split; [exact (I_conn _ _ I _ _ Ex)|]. assert (y' = y) by congruence. subst. now rewrite <- Wy.
Qed.
Lemma twice_why ls a c b : trace ls = a ++ DeTwice c :: b ->
  exists d, d <> c /\ In (DeFreed d) a /\ same_worker a c d.
Proof.
  intros E. destruct (emitted ls _ _ _ E) as (ls1 & l & ls2 & e1 & e2 & _ & He & ->).
  destruct (step_twice _ _ _ _ _ He) as (-> & x & k & h & Ex & Em & Es & Eh & Hc). rewrite app_nil_r.
  pose proof (inv_run ls1) as I. destruct (I_slot _ _ I _ _ Es) as (y & Hy & Wy).
  destruct (I_closed _ _ I _ _ Eh Hc) as (y' & d & lk & Hy' & F & S). exists d. split.
  - intros ->. destruct (I_freed _ _ I _ F) as (x' & Ex' & Mx). congruence.
  - split; [exact F|]. exists (dc_link x), lk, (dc_wid x). split; [exact (I_conn _ _ I _ _ Ex)|]. assert (y' = y) by congruence. subst. now rewrite <- Wy.
Qed.

Lemma accounted ls c : exists rest, reads c (trace ls) = queued c (trace ls) ++ rest /\ length rest <= 1 /\ begins (lost c (trace ls)) rest.
Proof.
  pose proof (inv_run ls) as I. exists (lost c (trace ls) ++ hand (final ls) c). split; [apply (I_acc _ _ I)|]. split; [|eexists; reflexivity].
  rewrite app_length. destruct (I_lost _ _ I c) as [L|[L (x & Ex & Rx)]].
  - rewrite L. unfold hand. destruct (nth_error _ c) as [y|]; [|cbn; lia]. destruct (dc_reader y); cbn; lia.
  - unfold hand. rewrite Ex, Rx, L. cbn. lia.
Qed.

Lemma dead_why ls : d_dead (final ls) = true ->
  exists c w, In (DeStart c LkWs w) (trace ls) /\ (lost c (trace ls) <> [] \/ In (DeTwice c) (trace ls)).
Proof. exact (I_dead _ _ (inv_run ls)). Qed.

(* ---- draining ---- *)
Lemma drain n : forall s tr, dinv s tr -> d_dead s = false -> length (flat_map dh_q (d_chans s)) = n ->
  exists ls, Forall worker_only ls /\ let r := run s ls in
    d_dead (fst r) = false /\ in_queue (snd r) = [] /\ flat_map dh_q (d_chans (fst r)) = [].
Proof.
  induction n as [|n IH]; intros s tr I Dd En.
  - exists []. split; [constructor|]. cbn. split; [exact Dd|]. split; [reflexivity|]. now apply length_zero_iff_nil.
  - assert (X : exists k h p q, nth_error (d_chans s) k = Some h /\ dh_q h = p :: q).
    { clear - En. revert En. generalize (d_chans s) as l. induction l as [|h l IHl]; [discriminate|]. cbn [flat_map]. intros E.
      destruct (dh_q h) as [|p q] eqn:Eq.
      - destruct (IHl E) as (k & h' & p & q & A & B). exists (S k), h', p, q. auto.
      - exists 0, h, p, q. auto. }
    destruct X as (k & h & [c m] & q & Eh & Eq).
    assert (Hq : dh_quit h = false). { destruct (dh_quit h) eqn:Hq; [|reflexivity]. destruct (I_quit _ _ I k h Eh Hq). congruence. }
    (* first let the handler return, if there is one at work *)
    assert (Y : exists ls0 s0 e0, Forall worker_only ls0 /\ run s ls0 = (s0, e0) /\ d_dead s0 = false /\ in_queue e0 = [] /\
       exists h0, nth_error (d_chans s0) k = Some h0 /\ dh_q h0 = (c, m) :: q /\ dh_cur h0 = None /\ dh_quit h0 = false /\
       length (flat_map dh_q (d_chans s0)) = S n).
    { destruct (dh_cur h) as [z|] eqn:Hcu.
      - set (h0 := Dchan (dh_q h) (dh_closed h) None (dh_quit h)).
        exists [DlDone k], (put_chan s k h0), []. split; [repeat constructor|].
        split; [cbn [dyn_run]; unfold dyn_step; rewrite Dd; unfold done_step; rewrite Eh, Hcu; reflexivity|].
        split; [exact Dd|]. split; [reflexivity|]. exists h0. cbn [put_chan d_chans].
        split; [apply nth_error_set_nth_same, nth_error_Some; congruence|]. split; [exact Eq|]. split; [reflexivity|]. split; [exact Hq|].
        pose proof (flat_map_set_nth dh_q (d_chans s) k h0 h Eh) as P. apply Permutation_length in P. rewrite !app_length in P. cbn [h0 dh_q] in P. fold h0 in P. lia.
      - exists [], s, []. split; [constructor|]. split; [reflexivity|]. split; [exact Dd|]. split; [reflexivity|]. exists h. auto. }
    destruct Y as (ls0 & s0 & e0 & F0 & R0 & D0 & Q0 & h0 & Eh0 & Eq0 & Hc0 & Hq0 & L0).
    assert (I0 : dinv s0 (tr ++ e0)).
    { clear - R0 I. revert s tr I s0 e0 R0. induction ls0 as [|l ls0 IH0]; intros s tr I s0 e0 R0; cbn [dyn_run] in R0.
      - injection R0 as <- <-. now rewrite app_nil_r.
      - pose proof (inv_step s tr l I) as J. destruct (step s l) as [s1 e1]. cbn [fst snd] in J. destruct (run s1 ls0) as [s2 e2] eqn:R. injection R0 as <- <-.
        rewrite app_assoc. exact (IH0 _ _ J _ _ R). }
    set (h1 := Dchan q (dh_closed h0) (Some (c, m)) false).
    assert (St : step s0 (DlTake k) = (put_chan s0 k h1, [DeHandled c m])).
    { unfold dyn_step. rewrite D0. unfold take_step. rewrite Eh0, Hq0, Hc0, Eq0. reflexivity. }
    pose proof (inv_step s0 (tr ++ e0) (DlTake k) I0) as I1. rewrite St in I1. cbn [fst snd] in I1.
    assert (L1 : length (flat_map dh_q (d_chans (put_chan s0 k h1))) = n).
    { cbn [put_chan d_chans]. pose proof (flat_map_set_nth dh_q (d_chans s0) k h1 h0 Eh0) as P. apply Permutation_length in P.
      rewrite !app_length, Eq0 in P. cbn [h1 dh_q length] in P. fold h1 in P. lia. }
    destruct (IH _ _ I1 D0 L1) as (ls1 & F1 & R1). cbv zeta in R1. destruct R1 as (A & B & C).
    exists (ls0 ++ DlTake k :: ls1). split; [apply Forall_app; split; [exact F0|constructor; [exact Logic.I|exact F1]]|].
    cbv zeta. rewrite run_app, R0. cbn [fst snd dyn_run]. rewrite St. destruct (run (put_chan s0 k h1) ls1) as [s2 e2]. cbn [fst snd] in *.
    split; [exact A|]. split; [|exact C]. rewrite in_queue_app, Q0. exact B.
Qed.

Lemma drains ls : d_dead (final ls) = false ->
  exists ls', Forall worker_only ls' /\ forall c,
    queued c (trace (ls ++ ls')) = queued c (trace ls) /\
    Permutation (handled c (trace (ls ++ ls'))) (queued c (trace ls)).
Proof.
  intros Dd. destruct (drain _ (final ls) (trace ls) (inv_run ls) Dd eq_refl) as (ls' & F & R). cbv zeta in R. destruct R as (_ & Q & C).
  exists ls'. split; [exact F|]. intros c. pose proof (inv_run (ls ++ ls')) as I. pose proof (I_perm _ _ I) as P.
  rewrite run_app in P |- *. cbn [fst snd] in *. rewrite C, app_nil_r in P.
  assert (E : queued c (trace ls ++ snd (run (final ls) ls')) = queued c (trace ls)).
  { rewrite queued_app. rewrite (queued_mine c (snd (run (final ls) ls'))), Q. apply app_nil_r. }
  split; [exact E|]. rewrite <- E, queued_mine, handled_mine. apply Permutation_flat_map. now symmetry.
Qed.

(* ---- order, when no ID is shared ---- *)
Definition waiting (s : dst) (c : nat) : list nat := match nth_error (d_chans s) c with Some h => map snd (dh_q h) | None => [] end.
Definition uinv (s : dst) (tr : list dev) : Prop :=
  (forall k h p, nth_error (d_chans s) k = Some h -> In p (dh_q h) -> fst p = k) /\
  (forall c, queued c tr = handled c tr ++ waiting s c).

Lemma unshared_app a b : unshared (a ++ b) -> unshared a.
Proof. intros H c d lk lk' w A B. apply (H c d lk lk' w); apply in_or_app; auto. Qed.

Lemma waiting_set s k h h' c : nth_error (d_chans s) k = Some h ->
  waiting (put_chan s k h') c = if Nat.eqb k c then map snd (dh_q h') else waiting s c.
Proof.
  intros E. unfold waiting. cbn [put_chan d_chans]. destruct (Nat.eqb_spec k c) as [<-|N].
  - rewrite nth_error_set_nth_same; [reflexivity|]. apply nth_error_Some. congruence.
  - now rewrite nth_error_set_nth_other.
Qed.
Lemma uinv_same s s' tr e : d_chans s' = d_chans s -> in_queue e = [] -> taken e = [] -> uinv s tr -> uinv s' (tr ++ e).
Proof.
  intros E Q T [A B]. unfold uinv, waiting. rewrite E. split; [exact A|]. intros c.
  rewrite queued_app, handled_app, (queued_mine c e), (handled_mine c e), Q, T. cbn. rewrite !app_nil_r. apply B.
Qed.
(* a channel whose contents stay *)
Lemma uinv_chan s tr k h h' e : nth_error (d_chans s) k = Some h -> dh_q h' = dh_q h -> in_queue e = [] -> taken e = [] ->
  uinv s tr -> uinv (put_chan s k h') (tr ++ e).
Proof.
  intros E Eq Q T [A B]. split.
  - intros j g p Hj Hp. cbn [put_chan d_chans] in Hj. apply nth_error_set_nth in Hj. destruct Hj as [(-> & -> & _)|[N Hj]]; [|eauto].
    rewrite Eq in Hp. eauto.
  - intros c. rewrite queued_app, handled_app, (queued_mine c e), (handled_mine c e), Q, T, (waiting_set s k h h' c E). cbn. rewrite !app_nil_r, B.
    f_equal. unfold waiting. destruct (Nat.eqb_spec k c) as [<-|N]; [now rewrite E, Eq|reflexivity].
Qed.

Lemma ustep s tr l : dinv s tr -> unshared tr -> uinv s tr -> uinv (fst (step s l)) (tr ++ snd (step s l)).
Proof.
  intros I U V. assert (Same : uinv s (tr ++ [])) by now rewrite app_nil_r.
  unfold dyn_step. destruct (d_dead s) eqn:Dd; [exact Same|]. destruct l as [lk w|c m|c|c|c|c|k|k].
  - cbn [fst snd]. destruct V as [A B]. split.
    + intros k h p Hk Hp. cbn [d_chans] in Hk. apply nth_snoc in Hk. destruct Hk as [Hk|[-> ->]]; [eauto|destruct Hp].
    + intros c. rewrite queued_app, handled_app. cbn [queued handled flat_map]. rewrite !app_nil_r, B. f_equal. unfold waiting. cbn [d_chans].
      destruct (nth_error (d_chans s) c) as [h|] eqn:Eh; [now rewrite (nth_snoc_old _ _ _ _ Eh)|].
      destruct (nth_error (d_chans s ++ _) c) as [h|] eqn:Eh'; [|reflexivity]. apply nth_snoc in Eh'. destruct Eh' as [Eh'|[-> ->]]; [congruence|reflexivity].
  - destruct (nth_error (d_conns s) c) as [x|]; [|exact Same]. destruct (dc_reader x); try exact Same. now apply (uinv_same s).
  - destruct (nth_error (d_conns s) c) as [x|] eqn:Ex; [|exact Same]. unfold reader_step. destruct (dc_reader x) as [|m|k m|] eqn:Er; try exact Same.
    + destruct (d_slot s (dc_wid x)); [|exact Same]. now apply (uinv_same s).
    + destruct (nth_error (d_chans s) k) as [h|] eqn:Eh; [|exact Same]. destruct (dh_closed h).
      * cbn [fst snd]. apply (uinv_same s); try (destruct (dc_stopped x); reflexivity); [|exact V].
        unfold reader_panics. destruct (dc_link x); reflexivity.
      * destruct (_ <? _); [|exact Same]. cbn [fst snd].
        assert (k = c) as ->.
        { destruct (I_send _ _ I _ _ _ _ Ex Er) as (y & Hy & Wy). pose proof (I_conn _ _ I _ _ Hy) as S1. pose proof (I_conn _ _ I _ _ Ex) as S2.
          rewrite Wy in S1. exact (U _ _ _ _ _ S1 S2). }
        destruct V as [A B]. set (s' := put_conn s c _). assert (Eh' : nth_error (d_chans s') c = Some h) by exact Eh. split.
        -- intros j g p Hj Hp. cbn [put_chan d_chans] in Hj. apply nth_error_set_nth in Hj. destruct Hj as [(-> & -> & _)|[N Hj]]; [|exact (A j g p Hj Hp)].
           cbn [dh_q] in Hp. apply in_app_or in Hp. destruct Hp as [Hp|[<-|[]]]; [exact (A _ h p Eh Hp)|reflexivity].
        -- intros d. rewrite queued_app, handled_app, (waiting_set s' c h _ d Eh'). cbn [queued handled flat_map dh_q]. rewrite !app_nil_r.
           destruct (Nat.eqb_spec c d) as [<-|N]; [|rewrite app_nil_r; exact (B d)].
           rewrite (B c), map_app, <- app_assoc. f_equal. unfold waiting. now rewrite Eh.
  - destruct (nth_error (d_conns s) c) as [x|]; [|exact Same]. destruct (dc_reader x); try exact Same. cbn [fst snd]. apply (uinv_same s); auto; destruct (dc_stopped x); reflexivity.
  - destruct (nth_error (d_conns s) c) as [x|]; [|exact Same]. destruct (dc_stopped x); [exact Same|]. now apply (uinv_same s).
  - destruct (nth_error (d_conns s) c) as [x|] eqn:Ex; [|exact Same]. unfold main_step. destruct (dc_main x); [|exact Same]. destruct (dc_stopped x); [|exact Same].
    destruct (d_slot s (dc_wid x)) as [k|]; [|exact Same]. destruct (nth_error (d_chans s) k) as [h|] eqn:Eh; [|exact Same]. destruct (dh_closed h).
    + cbn [fst snd]. apply (uinv_same s); auto. unfold main_panics. destruct (dc_link x); reflexivity.
    + cbn [fst snd]. apply (uinv_chan _ tr k h); auto.
  - unfold take_step. destruct (nth_error (d_chans s) k) as [h|] eqn:Eh; [|exact Same]. destruct (dh_quit h); [exact Same|]. destruct (dh_cur h); [exact Same|].
    destruct (dh_q h) as [|[c m] q] eqn:Eq.
    + destruct (dh_closed h); [|exact Same]. cbn [fst snd]. now apply (uinv_chan s tr k h).
    + cbn [fst snd]. destruct V as [A B]. assert (c = k) as -> by (apply (A k h (c, m) Eh); rewrite Eq; now left). split.
      * intros j g p Hj Hp. cbn [put_chan d_chans] in Hj. apply nth_error_set_nth in Hj. destruct Hj as [(-> & -> & _)|[N Hj]]; [|exact (A j g p Hj Hp)].
        apply (A _ h p Eh). rewrite Eq. now right.
      * intros d. rewrite queued_app, handled_app, (waiting_set s k h _ d Eh). cbn [queued handled flat_map dh_q]. rewrite !app_nil_r, B, <- app_assoc. f_equal.
        unfold waiting. destruct (Nat.eqb_spec k d) as [<-|N]; [now rewrite Eh, Eq|reflexivity].
  - unfold done_step. destruct (nth_error (d_chans s) k) as [h|] eqn:Eh; [|exact Same]. destruct (dh_cur h); [|exact Same]. cbn [fst snd]. now apply (uinv_chan s tr k h).
Qed.

Lemma uinv_run ls : unshared (trace ls) -> uinv (final ls) (trace ls).
Proof.
  induction ls as [|l ls IH] using rev_ind; intros U.
  - split; [intros [|k]; discriminate|]. intros [|c]; reflexivity.
  - rewrite run_snoc in *. cbn [fst snd] in *. apply unshared_app in U. apply ustep; auto. apply inv_run.
Qed.
Lemma order ls c : unshared (trace ls) -> begins (handled c (trace ls)) (queued c (trace ls)).
Proof. intros U. eexists. apply (uinv_run ls U). Qed.

Lemma lost_in c tr : lost c tr <> [] -> exists a m b, tr = a ++ DeLost c m :: b.
Proof.
  induction tr as [|e tr IH]; intros H; [now elim H|].
  assert (X : lost c tr <> [] -> exists a m b, e :: tr = a ++ DeLost c m :: b).
  { intros Y. destruct (IH Y) as (a & m & b & ->). now exists (e :: a), m, b. }
  destruct e; try (exact (X H)). cbn in H. destruct (Nat.eqb_spec c0 c) as [->|N]; [now exists [], m, tr|exact (X H)].
Qed.

Lemma clean ls : unshared (trace ls) -> quiet_stops (trace ls) ->
  (forall c, lost c (trace ls) = [] /\ ~ In (DeTwice c) (trace ls)) /\ d_dead (final ls) = false.
Proof.
  intros U Qs. assert (G : forall c, lost c (trace ls) = [] /\ ~ In (DeTwice c) (trace ls)).
  { intros c. split.
    - destruct (lost c (trace ls)) as [|m0 r] eqn:El; [reflexivity|exfalso].
      assert (H : lost c (trace ls) <> []) by (rewrite El; discriminate).
      destruct (lost_in c (trace ls) H) as (a & m & b & E). clear H El m0 r.
      destruct (emitted ls _ _ _ E) as (ls1 & l & ls2 & e1 & e2 & _ & He & Ea).
      destruct (step_lost _ _ _ _ _ _ He) as (-> & _ & x & k & h & Ex & Er & _ & _). rewrite app_nil_r in Ea.
      destruct (lost_why ls a c m b E) as (d & F & lk & lk' & w & S1 & S2).
      assert (c = d) as <-. { apply (U c d lk lk' w); rewrite E; apply in_or_app; left; assumption. }
      destruct (in_split _ _ F) as (a1 & a2 & Ea'). rewrite Ea' in E. rewrite <- app_assoc in E. cbn in E. destruct (Qs _ _ _ E) as [R1 R2].
      rewrite reads_app in R2. apply app_eq_nil in R2. destruct R2 as [R2 _].
      pose proof (I_acc _ _ (inv_run ls1) c) as A. rewrite <- Ea in A. unfold hand in A. rewrite Ex, Er in A. cbn [hand_of] in A. rewrite Ea' in A.
      rewrite !reads_app, !queued_app in A. cbn [reads flat_map app] in A. fold (reads c a2) in A. rewrite R2, R1, app_nil_r in A.
      apply (f_equal (@length nat)) in A. rewrite !app_length in A. cbn in A. lia.
    - intros T. destruct (in_split _ _ T) as (a & b & E). destruct (twice_why ls a c b E) as (d & N & _ & lk & lk' & w & S1 & S2).
      apply N. symmetry. apply (U c d lk lk' w); rewrite E; apply in_or_app; left; assumption. }
  split; [exact G|]. destruct (d_dead (final ls)) eqn:D; [|reflexivity]. destruct (dead_why ls D) as (c & w & _ & [L|T]).
  - now rewrite (proj1 (G c)) in L.
  - now elim (proj2 (G c)).
Qed.
End Dyn_.

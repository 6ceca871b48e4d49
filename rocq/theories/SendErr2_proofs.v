(* Sends that can only time out. *)
From Coq Require Import List Bool Arith Lia.
From Verif Require Import Bytes GoSlice SendQueue Spec_Send SendQueue_proofs SendLocked Spec_SendLocked SendLocked_proofs.
Import ListNotations.

(* Goroutine 0 has set the flag and not yet made the channel; goroutine 1 goes past. *)
Definition nil_wait_run (m1 m2 : msg) : list qlabel :=
  [QStart; QCall 0 false m1; QSend 0 ChChan NetOk; QSend 0 ChChan NetOk; QCall 1 false m2; QSend 1 ChChan NetOk; QSend 1 ChChan NetOk; QSend 1 ChChan NetOk; QSend 1 ChChan NetOk].
Definition stays (m2 : msg) (s : qst) (tr : list qev) : Prop := (q_send s 1 = SSel m2 false \/ q_send s 1 = SIdle) /\ ~ In (QOk 1 m2) tr.
Lemma stays_step c m2 s tr l : (forall d x, l <> QCall 1 d x) -> stays m2 s tr -> stays m2 (fst (q_step c s l)) (tr ++ snd (q_step c s l)).
Proof.
  intros N (A & B). unfold stays. rewrite in_app_iff. unfold q_step. destruct (q_crashed s); [cbn; tauto|]. destruct l as [| | |t d x|t ch o|ch o].
  - cbn. tauto.
  - destruct (q_ctx s); cbn; tauto.
  - destruct (q_cancelled s); cbn; tauto.
  - destruct (Nat.eq_dec t 1) as [->|Nt]; [now elim (N d x)|].
    assert (U : forall p, upd (q_send s) t p 1 = q_send s 1) by (intros p; unfold upd; destruct (Nat.eqb_spec 1 t); [congruence|reflexivity]).
    destruct (q_send s t); cbn; try tauto. destruct d; [destruct (q_is_closed s)|]; cbn; rewrite ?U; (split; [exact A|]); intuition discriminate.
  - destruct (Nat.eq_dec t 1) as [->|Nt].
    + unfold send_step. destruct A as [A|A]; rewrite A; [|cbn; tauto].
      destruct ch; [destruct (q_cancelled s); [destruct (q_chan s) as [[? []]|]|]| |]; cbn; rewrite ?A; unfold upd; cbn; intuition discriminate.
    + assert (U : forall p, upd (q_send s) t p 1 = q_send s 1) by (intros p; unfold upd; destruct (Nat.eqb_spec 1 t); [congruence|reflexivity]).
      assert (Q : forall x, QOk t x <> QOk 1 m2) by (intros x E; injection E as -> _; congruence).
      unfold send_step. destruct (q_send s t) as [|m|m|m|m|m|m|m nn|m|m] eqn:E;
      repeat match goal with
      | |- context [match q_chan s with _ => _ end] => destruct (q_chan s) as [[? []]|] eqn:?
      | |- context [match ch with _ => _ end] => destruct ch
      | |- context [net_write s ?m o] => let n := fresh "n" in let br := fresh "br" in let ok := fresh "ok" in let En := fresh "En" in
          destruct (net_write_eq s m o) as (n & br & ok & En & _); rewrite En; clear En; destruct ok
      | |- context [if ?b then _ else _] => destruct b eqn:?
      end; cbn; rewrite ?U; (split; [exact A|]; intuition (discriminate || (eapply Q; eassumption))).
  - assert (W : q_send (fst (writer_step c s ch o)) = q_send s /\ forall e, In e (snd (writer_step c s ch o)) -> e = QCrash).
    { unfold writer_step. destruct (q_writer s); repeat match goal with
      | |- context [match ch with _ => _ end] => destruct ch
      | |- context [match q_chan s with _ => _ end] => destruct (q_chan s) as [[[|[? ?] ?] []]|] eqn:?
      | |- context [if ?b then _ else _] => destruct b eqn:?
      | |- context [buf_write c s ?p o] => let E := fresh in let b := fresh in let er := fresh in let wi := fresh in let br := fresh in
          destruct (buf_write_eq c s p o) as (b & er & wi & br & E); destruct (buf_write c s p o) as [? ?]; cbn [fst] in E; subst
      | |- context [let '(_, _) := buf_flush s o in _] => let E := fresh in let b := fresh in let er := fresh in let wi := fresh in let br := fresh in
          destruct (buf_flush_eq s o) as (b & er & wi & br & E); destruct (buf_flush s o) as [? ?]; cbn [fst] in E; subst
      | |- context [fst (buf_flush s o)] => let E := fresh in let b := fresh in let er := fresh in let wi := fresh in let br := fresh in
          destruct (buf_flush_eq s o) as (b & er & wi & br & E); rewrite E
      end; cbn; (split; [reflexivity|]); intuition. }
    destruct W as (W1 & W2). rewrite W1. split; [exact A|]. intros [X|X]; [contradiction|]. apply W2 in X. discriminate.
Qed.
Lemma nil_waits c m1 m2 more : (forall x, ~ In (QCall 1 false x) more) -> (forall x, ~ In (QCall 1 true x) more) ->
  ~ In (QOk 1 m2) (snd (q_run c q_new (nil_wait_run m1 m2 ++ more))).
Proof.
  intros N1 N2. rewrite q_run_app. cbn [snd].
  refine (proj2 (run_inv c (fun l => forall d x, l <> QCall 1 d x) (stays m2) (fun s tr l H => stays_step c m2 s tr l H) more _ _ _ _)).
  - split; [left; reflexivity|]. cbn. intuition discriminate.
  - intros l H d x ->. destruct d; [exact (N2 x H)|exact (N1 x H)].
Qed.

(* Websocket, queue of one: m1 taken by the writer, m2 in the queue, the sender of m3
   waiting in the select with the lock. *)
Definition full_run (m1 m2 m3 : msg) : list llabel :=
  [MStart; MCall 0 ASendToQueue m1] ++ repeat (MSend 0 ChChan NetOk) 7 ++ [MWriter 0 ChChan NetOk; MWriter 0 ChChan NetOk] ++
  [MCall 0 ASendToQueue m2] ++ repeat (MSend 0 ChChan NetOk) 5 ++ [MCall 0 ASendToQueue m3] ++ repeat (MSend 0 ChChan NetOk) 4.
Record jam (m1 m2 m3 : msg) (s : lst) : Prop := {
  jm_lock : l_excl s = Some (OSend 0); jm_sh : l_shared s = []; jm_pc : l_send s 0 = LSel true m3 (Some 0);
  jm_chan : l_chans s = [([(0, m2)], false)]; jm_field : l_field s = Some 0; jm_w : l_writers s = [VAcq 0 m1];
  jm_wire : l_wire s = []; jm_fin : l_final s = FIdle \/ l_final s = FLock;
  jm_others : forall t, t <> 0 -> l_send s t = LIdle \/ (exists m, l_send s t = LAcq m) \/ exists m, l_send s t = LDAcq m }.
Lemma jam_step m1 m2 m3 s l : (forall o, l <> MSend 0 ChTimer o) -> jam m1 m2 m3 s ->
  jam m1 m2 m3 (fst (l_step 1 Ws s l)) /\ forall e, In e (snd (l_step 1 Ws s l)) -> exists t b m, e = MBegin t b m.
Proof.
  intros N J. assert (J0 := J). destruct J as [A B C D E F G H I].
  assert (T : forall x, take Ws s x = None) by (intros x; cbn; unfold take_excl; now rewrite A).
  unfold l_step. destruct (l_crashed s); [split; [exact J0|intros e []]|]. destruct l as [| |t a m|t ch o|i ch o|].
  - cbn. split; [now constructor|intros e []].
  - destruct (l_ctx s); cbn; (split; [now constructor|intros e []]).
  - destruct (Nat.eq_dec t 0) as [->|Nt]; [rewrite C; cbn; split; [exact J0|intros e []]|].
    destruct (I t Nt) as [Et|[(x & Et)|(x & Et)]]; rewrite Et; [|cbn; split; [exact J0|intros e []]..].
    destruct a; cbn; (split; [|intros e [<-|[]]; eauto]); constructor; cbn; auto;
      try (destruct t; [congruence|exact C]);
      intros u Nu; destruct (Nat.eqb_spec u t) as [->|]; eauto.
  - destruct (Nat.eq_dec t 0) as [->|Nt].
    + unfold lsend_step. rewrite C. destruct ch; [split; [exact J0|intros e []]|now elim (N o)|]. unfold chan_at. rewrite D. cbn. split; [exact J0|intros e []].
    + unfold lsend_step. destruct (I t Nt) as [Et|[(x & Et)|(x & Et)]]; rewrite Et; rewrite ?T; cbn; (split; [exact J0|intros e []]).
  - unfold lwriter_step. rewrite F. destruct i as [|[|i]]; cbn [nth_error]; [rewrite T|..]; cbn; (split; [exact J0|intros e []]).
  - unfold lfinal_step. destruct H as [H|H]; rewrite H.
    + destruct (l_cancelled s); cbn; (split; [try exact J0; constructor; auto|intros e []]).
    + unfold take_excl. rewrite A. split; [exact J0|intros e []].
Qed.
Lemma jam_run m1 m2 m3 : forall more s, (forall o, ~ In (MSend 0 ChTimer o) more) -> jam m1 m2 m3 s ->
  jam m1 m2 m3 (fst (l_run 1 Ws s more)) /\ forall e, In e (snd (l_run 1 Ws s more)) -> exists t b m, e = MBegin t b m.
Proof.
  induction more as [|l more IH]; intros s N J; [split; [exact J|intros e []]|]. cbn [l_run].
  destruct (jam_step m1 m2 m3 s l (fun o E => N o (or_introl E)) J) as (J1 & E1). destruct (l_step 1 Ws s l) as [s1 e1]. cbn [fst snd] in *.
  destruct (IH s1 (fun o H => N o (or_intror H)) J1) as (J2 & E2). destruct (l_run 1 Ws s1 more) as [s2 e2]. cbn [fst snd] in *.
  split; [exact J2|]. intros e He. apply in_app_or in He. destruct He; auto.
Qed.
Lemma full_waits m1 m2 m3 more : (forall o, ~ In (MSend 0 ChTimer o) more) ->
  ~ In (MOk 0 true m3) (skipn (length (snd (l_run 1 Ws l_new (full_run m1 m2 m3)))) (snd (l_run 1 Ws l_new (full_run m1 m2 m3 ++ more)))) /\
  l_wire (fst (l_run 1 Ws l_new (full_run m1 m2 m3 ++ more))) = [].
Proof.
  intros N. assert (J : jam m1 m2 m3 (fst (l_run 1 Ws l_new (full_run m1 m2 m3)))).
  { constructor; try reflexivity; [now left|]. intros [|t] Nt; [congruence|]. left. reflexivity. }
  destruct (jam_run m1 m2 m3 more _ N J) as (J2 & E2). rewrite l_run_app. cbn [fst snd]. split; [|exact (jm_wire _ _ _ _ J2)].
  rewrite skipn_app, skipn_all, Nat.sub_diag. cbn [app skipn]. intros H. destruct (E2 _ H) as (t & b & m & X). discriminate.
Qed.

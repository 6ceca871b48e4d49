(* C101: the heartbeat of a client that reconnects. *)
From Coq Require Import List Bool Arith Lia.
From Verif Require Import GoSlice ClientHb Spec_ClientHb ClientHb_proofs.
Import ListNotations.

(* The heartbeat only ever looks at, writes to and stops the connection made last. *)
Theorem C101_newest ls before e after i : seen ls = before ++ e :: after -> about i e -> newest before = Some i.
Proof.
  intros E A. destruct (seen_event ls before e after E) as (s0 & l & V & S).
  destruct (h_step_inv s0 before l V) as (_ & _ & H & _). destruct (H e i) as (N & _); [rewrite S; now left|exact A|exact N].
Qed.
Print Assumptions C101_newest.

(* While the process runs: if the connection made last has had its heartbeat started and its
   closing has not stopped it, it is being watched - whatever became of the client's other
   connections, one of the heartbeat goroutines, with steps of its own, looks at it next. *)
Theorem C101_watched ls i : newest (seen ls) = Some i -> beating (seen ls) i -> ~ In VCrash (seen ls) ->
  exists g a mid more, Forall of_heartbeat more /\ seen (ls ++ more) = seen ls ++ mid ++ [VCheck g i a].
Proof.
  intros N (B1 & B2) NC. pose proof (seen_inv ls) as V. set (s := fst (h_run hs_new ls)) in *.
  assert (Cr : hs_crash s = false).
  { assert (G : forall ls s0 tr, inv s0 tr -> hs_crash s0 = false -> ~ In VCrash (snd (h_run s0 ls)) -> hs_crash (fst (h_run s0 ls)) = false).
    { clear. induction ls as [|l ls IH]; intros s0 tr V C N; [exact C|]. cbn [h_run] in *. destruct (h_step_inv s0 tr l V) as (V1 & _ & _ & _ & _ & X).
      destruct (h_step s0 l) as [s1 e1]. cbn [fst snd] in *. specialize (IH s1 _ V1). destruct (h_run s1 ls) as [s2 e2]. cbn [fst snd] in *.
      rewrite in_app_iff in N. apply IH; [|tauto]. destruct (hs_crash s1); [|reflexivity]. destruct (X eq_refl) as [Y|Y]; [congruence|tauto]. }
    exact (G ls hs_new [] inv_new eq_refl NC). }
  assert (L : i < length (hs_conns s)) by (apply (in_have _ _ V); auto). apply nth_error_Some in L.
  destruct (nth_error (hs_conns s) i) as [k|] eqn:Hk; [clear L|congruence].
  pose proof (in_all _ _ V _ _ Hk) as G. apply (gd_go _ _ _ _ G) in B1.
  assert (Q : k_quit k = false) by (destruct (k_quit k) eqn:Q; [apply (gd_quit _ _ _ _ G) in Q; contradiction|reflexivity]).
  assert (P : 0 < count live (hs_gos s)) by (rewrite (in_count _ _ V); apply (count_in open _ _ _ Hk); unfold open; now rewrite B1, Q).
  destruct (count_pos live _ P) as (g & p & Hg & Hp). pose proof (in_conn _ _ V) as Hc. rewrite N in Hc.
  pose proof (gd_go_ctx _ _ _ _ G B1) as Hx.
  unfold seen. destruct p; [| | |discriminate Hp].
  - exists g, (is_alive k true), [], [HTick g true]. split; [constructor; [left; eauto|constructor]|].
    rewrite h_run_app. cbn [snd]. fold s. cbn [h_run]. unfold h_step. rewrite Cr, Hg, Hc, Hk. reflexivity.
  - exists g, (is_alive k true), [VBeat i], [HReact g; HTick g true]. split; [constructor; [right; eauto|constructor; [left; eauto|constructor]]|].
    rewrite h_run_app. cbn [snd]. fold s. cbn [h_run]. unfold h_step at 1. rewrite Cr, Hg, Hc. unfold h_step. cbn [go hs_crash hs_gos hs_conn hs_conns].
    rewrite Cr, (sn_same _ _ _ _ Hg), Hc, Hk. reflexivity.
  - destruct k as [bd x a b c q]. cbn in Hx. subst x.
    exists g, (is_alive (Hconn bd true a b true q) true), [VStop i], [HReact g; HTick g true]. split; [constructor; [right; eauto|constructor; [left; eauto|constructor]]|].
    rewrite h_run_app. cbn [snd]. fold s. cbn [h_run]. unfold h_step at 1. rewrite Cr, Hg, Hc, Hk. unfold h_step. cbn [go put hs_crash hs_gos hs_conn hs_conns].
    rewrite Cr, (sn_same _ _ _ _ Hg), Hc, (sn_same _ _ _ _ Hk). reflexivity.
Qed.
Print Assumptions C101_watched.

(* A client restarted only after the closing of its earlier connections has stopped their
   heartbeats: nothing crashes, and everything the heartbeat does concerns a connection whose own
   heartbeat has been started and not stopped. *)
Theorem C101_one_partial ls : one_at_a_time (seen ls) ->
  ~ In VCrash (seen ls) /\ forall before e after i, seen ls = before ++ e :: after -> about i e -> beating before i.
Proof.
  intros One.
  assert (Key : forall before e after s0, seen ls = before ++ e :: after -> inv s0 before -> 0 < count live (hs_gos s0) ->
    exists j k, newest before = Some j /\ nth_error (hs_conns s0) j = Some k /\ open k = true).
  { intros before e after s0 E V P. rewrite (in_count _ _ V) in P. destruct (count_pos open _ P) as (j & k & Hk & Ok).
    exists j, k. split; [|auto]. pose proof (in_all _ _ V _ _ Hk) as G. unfold open in Ok. apply andb_true_iff in Ok as (O1 & O2). apply negb_true_iff in O2.
    assert (Bj : In (VBind j) before) by (apply (gd_bound _ _ _ _ G), (gd_ctx _ _ _ _ G), (gd_go_ctx _ _ _ _ G), O1).
    assert (Qj : ~ In (VQuit j) before) by (intros I; apply (gd_quit _ _ _ _ G) in I; congruence).
    assert (X : forall b, (forall b1 i b2, b = b1 ++ VBind i :: b2 -> forall j, In (VBind j) b1 -> In (VQuit j) b1) -> In (VBind j) b -> ~ In (VQuit j) b -> newest b = Some j).
    { clear. induction b as [|x b IH] using rev_ind; intros O B Q; [destruct B|]. rewrite newest_app.
      assert (O' : forall b1 i b2, b = b1 ++ VBind i :: b2 -> forall j, In (VBind j) b1 -> In (VQuit j) b1).
      { intros b1 i b2 -> j0. apply (O b1 i (b2 ++ [x])). now rewrite <- app_assoc. }
      apply in_last in B. rewrite in_last in Q. destruct B as [B|B].
      - destruct x; try (apply IH; tauto). exfalso. apply Q. left. exact (O b i [] eq_refl j B).
      - now subst x. }
    apply X; [|exact Bj|exact Qj]. intros b1 i b2 Eb. apply (One b1 i (b2 ++ e :: after)). rewrite E, Eb, <- app_assoc. reflexivity. }
  split.
  - intros I. apply in_split in I as (before & after & E). destruct (seen_event ls before VCrash after E) as (s0 & l & V & S).
    destruct (h_step_inv s0 before l V) as (_ & _ & _ & H & _). destruct H as (i & k & N & Hk & X & P); [rewrite S; now left|].
    destruct (Key before VCrash after s0 E V P) as (j & k' & N' & Hk' & O). assert (j = i) by congruence. subst j. rewrite Hk in Hk'. injection Hk' as <-.
    unfold open in O. apply andb_true_iff in O as (O & _). pose proof (gd_go_ctx _ _ _ _ (in_all _ _ V _ _ Hk) O). congruence.
  - intros before e after i E A. destruct (seen_event ls before e after E) as (s0 & l & V & S).
    destruct (h_step_inv s0 before l V) as (_ & _ & H & _). destruct (H e i) as (N & P); [rewrite S; now left|exact A|].
    destruct (Key before e after s0 E V P) as (j & k & N' & Hk & O). assert (j = i) by congruence. subst j.
    pose proof (in_all _ _ V _ _ Hk) as G. unfold open in O. apply andb_true_iff in O as (O1 & O2). apply negb_true_iff in O2.
    split; [now apply (gd_go _ _ _ _ G)|]. intros I. apply (gd_quit _ _ _ _ G) in I. congruence.
Qed.
Print Assumptions C101_one_partial.
(* The connection is lost and found dead, closes, the client is restarted, and the second connection is watched. *)
Example C101_one_case :
  let up i := [HMade; HBind i; HCtx i; HGo i; HActive i] in
  let ls := up 0 ++ [HTick 0 true; HReact 0; HTick 0 false; HReact 0; HQuit 0 0] ++ up 1 ++ [HTick 1 true; HTick 0 true; HReact 1] in
  seen ls = [VBind 0; VGo 0; VCheck 0 0 true; VBeat 0; VCheck 0 0 false; VStop 0; VQuit 0; VBind 1; VGo 1; VCheck 1 1 true; VBeat 1] /\
  one_at_a_time (seen ls) /\ newest (seen ls) = Some 1 /\ beating (seen ls) 1.
Proof.
  cbv zeta. split; [reflexivity|]. split; [|split; [reflexivity|split; [cbn; tauto|cbn; intuition discriminate]]].
  intros before i after E j I.
  destruct before as [|x before]; [destruct I|]. cbn in E. injection E as <- E.
  do 6 (destruct before as [|x before]; cbn in E; [discriminate E|injection E as <- E]).
  destruct before as [|x before]; cbn in E; injection E as <- E.
  - cbn in *. intuition (try discriminate; try congruence).
  - exfalso. do 3 (destruct before as [|x before]; cbn in E; [discriminate E|injection E as <- E]). destruct before; discriminate E.
Qed.

(* Finding: the usual way to reconnect, Restart in the stop hook, restarts the client while the
   old connection's heartbeat is still running, with the one checker moved to the new connection.
   A tick that comes before the new connection has been started finds it not alive and stops it:
   its cancel function is nil, and the panic ends the process. *)
Theorem C101_reconnect_refuted : exists ls, seen ls = [VBind 0; VGo 0; VBind 1; VCheck 0 1 false; VCrash].
Proof. exists [HMade; HBind 0; HCtx 0; HGo 0; HActive 0; HCancel 0; HMade; HBind 1; HTick 0 true; HReact 0]. reflexivity. Qed.
Print Assumptions C101_reconnect_refuted.
(* Finding: a little later, before the first activity has been noted, it closes the new connection. *)
Theorem C101_cut_refuted : exists ls, seen ls = [VBind 0; VGo 0; VBind 1; VCheck 0 1 false; VStop 1] /\ Forall (fun l => forall g, l <> HTick g false) ls.
Proof.
  exists [HMade; HBind 0; HCtx 0; HGo 0; HActive 0; HCancel 0; HMade; HBind 1; HCtx 1; HTick 0 true; HReact 0]. split; [reflexivity|].
  repeat constructor; intros g; discriminate.
Qed.
Print Assumptions C101_cut_refuted.
(* Finding: once the client has been restarted, its earlier connections are never checked again,
   though they may be open and nobody has stopped them. *)
Theorem C101_unwatched_refuted ls more i j e : In (VBind i) (seen ls) -> newest (seen ls) = Some j -> j <> i ->
  In e (snd (h_run (fst (h_run hs_new ls)) more)) -> ~ about i e.
Proof.
  intros B N D I A. pose proof (seen_inv ls) as V. set (s := fst (h_run hs_new ls)) in *. set (tr := seen ls) in *. clearbody s tr.
  revert s tr j V B N D I. induction more as [|l more IH]; intros s tr j V B N D I; [destruct I|]. cbn [h_run] in I.
  destruct (h_step_inv s tr l V) as (V1 & One & H & _ & F & _). destruct (h_step s l) as [s1 e1]. cbn [fst snd] in *.
  specialize (IH s1 (tr ++ e1)). destruct (h_run s1 more) as [s2 e2]. cbn [fst snd] in *. apply in_app_iff in I as [I|I].
  - destruct (H e i I A) as (N' & _). congruence.
  - assert (B' : In (VBind i) (tr ++ e1)) by (apply in_or_app; now left).
    assert (N' : exists j', newest (tr ++ e1) = Some j' /\ j' <> i).
    { destruct One as [->|(x & ->)]; [rewrite app_nil_r; eauto|]. rewrite newest_app. destruct x; eauto. exists i0. split; [reflexivity|]. intros ->. exact (F i (or_introl eq_refl) B). }
    destruct N' as (j' & N' & D'). exact (IH j' V1 B' N' D' I).
Qed.
Print Assumptions C101_unwatched_refuted.
Example C101_unwatched_case :
  let ls := [HMade; HBind 0; HCtx 0; HGo 0; HActive 0; HMade; HBind 1] in
  In (VBind 0) (seen ls) /\ newest (seen ls) = Some 1 /\ beating (seen ls) 0.
Proof. cbv zeta. split; [now left|]. split; [reflexivity|]. split; [right; now left|cbn; intuition discriminate]. Qed.

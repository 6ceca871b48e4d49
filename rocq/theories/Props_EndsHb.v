(* C101, C102: what ends. *)
From Coq Require Import List Bool Arith Lia.
From Verif Require Import GoSlice Router_proofs DynStop Spec_DynStop ClientHb Spec_ClientHb ClientHb_proofs.
Import ListNotations.

(* Nothing happens after the process crashed. *)
Lemma crash_last ls : forall s before after, snd (h_run s ls) = before ++ VCrash :: after -> after = [].
Proof.
  assert (D : forall ls s, hs_crash s = true -> snd (h_run s ls) = []).
  { induction ls0 as [|l ls0 IH]; intros s C; [reflexivity|]. cbn [h_run]. unfold h_step. rewrite C. specialize (IH s C). destruct (h_run s ls0). cbn in *. exact IH. }
  induction ls as [|l ls IH]; intros s before after E; [destruct before; discriminate|]. cbn [h_run] in E.
  assert (K : forall b a, snd (h_step s l) = b ++ VCrash :: a -> a = [] /\ hs_crash (fst (h_step s l)) = true).
  { intros b a. unfold h_step. destruct (hs_crash s); [destruct b; discriminate|].
    destruct l; repeat match goal with |- context [match ?x with _ => _ end] => destruct x end; cbn; intros H; try (destruct b as [|? [|? ?]]; discriminate). all: destruct b as [|? [|? ?]]; try discriminate; injection H as <-; auto. }
  destruct (h_step s l) as [s1 e1]. specialize (IH s1). specialize (D ls s1). destruct (h_run s1 ls) as [s2 e2]. cbn [fst snd] in *.
  assert (X : (exists b', e1 = before ++ VCrash :: b' /\ after = b' ++ e2) \/ exists b', e2 = b' ++ VCrash :: after).
  { clear - E. revert before E. induction e1 as [|x e1 IH]; intros before E; [right; exists before; exact E|]. destruct before as [|y before]; cbn in E; injection E as -> E.
    - left. exists e1. split; [reflexivity|now symmetry].
    - destruct (IH before E) as [(b' & -> & ->)|(b' & ->)]; [left; exists b'; split; reflexivity|right; exists b'; reflexivity]. }
  destruct X as [(b' & E1 & ->)|(b' & E2)]; [|exact (IH _ _ E2)]. destruct (K _ _ E1) as (-> & C). rewrite (D C). reflexivity.
Qed.
Theorem C101_crash_ends : forall ls before after, seen ls = before ++ VCrash :: after -> after = [].
Proof. intros ls before after. apply crash_last. Qed.
Print Assumptions C101_crash_ends.
Example C101_crash_ends_case : exists ls, seen (ls ++ [HTick 0 true; HReact 0; HMade; HBind 2]) = [VBind 0; VGo 0; VBind 1; VCheck 0 1 false] ++ VCrash :: [].
Proof. exists [HMade; HBind 0; HCtx 0; HGo 0; HActive 0; HCancel 0; HMade; HBind 1; HTick 0 true; HReact 0]. reflexivity. Qed.

(* A worker whose queue was closed takes what is left in it and then ends: its own steps
   suffice.  And an ended worker takes nothing any more. *)
Theorem C102_worker_ends : forall cap s k h, d_dead s = false -> nth_error (d_chans s) k = Some h -> dh_closed h = true -> dh_quit h = false ->
  exists ls, Forall (fun l => l = DlTake k \/ l = DlDone k) ls /\ snd (dyn_run cap s ls) = map (fun r => DeHandled (fst r) (snd r)) (dh_q h) /\
  nth_error (d_chans (fst (dyn_run cap s ls))) k = Some (Dchan [] true None true).
Proof.
  intros cap s k [q cl cur qt] D E C Q. cbn in C, Q. subst cl qt.
  assert (G : forall q s, d_dead s = false -> nth_error (d_chans s) k = Some (Dchan q true None false) ->
    exists ls, Forall (fun l => l = DlTake k \/ l = DlDone k) ls /\ snd (dyn_run cap s ls) = map (fun r => DeHandled (fst r) (snd r)) q /\
    nth_error (d_chans (fst (dyn_run cap s ls))) k = Some (Dchan [] true None true)).
  { clear. induction q as [|[c m] q IH]; intros s D E.
    - exists [DlTake k]. split; [repeat constructor; auto|]. cbn. unfold dyn_step. rewrite D. unfold take_step. rewrite E. cbn. split; [reflexivity|]. apply nth_error_set_nth_same. apply nth_error_Some. congruence.
    - set (s1 := put_chan s k (Dchan q true (Some (c, m)) false)). assert (L : k < length (d_chans s)) by (apply nth_error_Some; congruence).
      assert (E1 : nth_error (d_chans s1) k = Some (Dchan q true (Some (c, m)) false)) by (apply nth_error_set_nth_same; exact L).
      set (s2 := put_chan s1 k (Dchan q true None false)).
      assert (E2 : nth_error (d_chans s2) k = Some (Dchan q true None false)) by (apply nth_error_set_nth_same; apply nth_error_Some; congruence).
      destruct (IH s2 D E2) as (ls & F & T & Z). exists (DlTake k :: DlDone k :: ls). split; [constructor; [now left|constructor; [now right|exact F]]|].
      assert (R : dyn_run cap s (DlTake k :: DlDone k :: ls) = let (s3, e) := dyn_run cap s2 ls in (s3, DeHandled c m :: e)).
      { cbn [dyn_run]. replace (dyn_step cap s (DlTake k)) with (s1, [DeHandled c m]) by (unfold dyn_step; rewrite D; unfold take_step; rewrite E; reflexivity).
        replace (dyn_step cap s1 (DlDone k)) with (s2, @nil dev) by (unfold dyn_step; change (d_dead s1) with (d_dead s); rewrite D; unfold done_step; rewrite E1; reflexivity).
        destruct (dyn_run cap s2 ls). reflexivity. }
      rewrite R. destruct (dyn_run cap s2 ls) as [s3 e]. cbn [fst snd map] in *. rewrite T. split; [reflexivity|exact Z]. }
  cbn [dh_q]. destruct cur as [r|]; [|exact (G q s D E)].
  set (s1 := put_chan s k (Dchan q true None false)). assert (L : k < length (d_chans s)) by (apply nth_error_Some; congruence).
  assert (E1 : nth_error (d_chans s1) k = Some (Dchan q true None false)) by (apply nth_error_set_nth_same; exact L).
  destruct (G q s1 D E1) as (ls & F & T & Z). exists (DlDone k :: ls). split; [constructor; [now right|exact F]|].
  cbn [dyn_run]. replace (dyn_step cap s (DlDone k)) with (s1, @nil dev) by (unfold dyn_step; rewrite D; unfold done_step; rewrite E; reflexivity).
  destruct (dyn_run cap s1 ls) as [s3 e]. cbn [fst snd] in *. split; [exact T|exact Z].
Qed.
Print Assumptions C102_worker_ends.
Example C102_worker_ends_case : let s := fst (dyn_run 5 dyn_init [DlStart LkTcp 11; DlRead 0 1; DlReader 0; DlReader 0; DlRead 0 2; DlReader 0; DlReader 0; DlTake 0; DlStop 0; DlMain 0]) in
  d_dead s = false /\ nth_error (d_chans s) 0 = Some (Dchan [(0, 2)] true (Some (0, 1)) false).
Proof. vm_compute. auto. Qed.

(* A connection that was closed is not taken for alive by any later check. *)
Definition closed_conn (s : hst) (i : nat) : Prop := exists k, nth_error (hs_conns s) i = Some k /\ k_ctx k = true /\ k_cancel k = true.
Lemma closed_step s l i : closed_conn s i -> closed_conn (fst (h_step s l)) i /\ forall g, ~ In (VCheck g i true) (snd (h_step s l)).
Proof.
  intros (k & E & X & C). assert (L : i < length (hs_conns s)) by (apply nth_error_Some; congruence).
  assert (P : forall j k', (j = i -> k_ctx k' = true /\ k_cancel k' = true) -> exists k0, nth_error (set_nth j k' (hs_conns s)) i = Some k0 /\ k_ctx k0 = true /\ k_cancel k0 = true).
  { intros j k' H. destruct (Nat.eq_dec j i) as [->|N]; [exists k'; split; [apply nth_error_set_nth_same; exact L|apply H; reflexivity]|]. exists k. rewrite nth_error_set_nth_other by congruence. auto. }
  unfold h_step, closed_conn. destruct (hs_crash s); [split; [exists k; auto|intros g []]|].
  destruct l as [|j|j|j|j|j|j g|g r|g].
  - cbn. split; [exists k; rewrite nth_error_app1 by exact L; auto|intros g []].
  - destruct (nth_error (hs_conns s) j) as [[[] x a b c q]|] eqn:Ej; cbn; (split; [|intros g H; cbn in H; intuition discriminate]); try (exists k; auto; fail). apply P. intros ->. rewrite E in Ej. injection Ej as ->. auto.
  - destruct (nth_error (hs_conns s) j) as [[[] [] a b c q]|] eqn:Ej; cbn; (split; [|intros g H; cbn in H; intuition discriminate]); try (exists k; auto; fail). apply P. intros ->. rewrite E in Ej. injection Ej as ->. auto.
  - destruct (nth_error (hs_conns s) j) as [[bd [] [] b c q]|] eqn:Ej; cbn; (split; [|intros g H; cbn in H; intuition discriminate]); try (exists k; auto; fail). apply P. intros ->. rewrite E in Ej. injection Ej as ->. auto.
  - destruct (nth_error (hs_conns s) j) as [[bd x [] [] c q]|] eqn:Ej; cbn; (split; [|intros g H; cbn in H; intuition discriminate]); try (exists k; auto; fail). apply P. intros ->. rewrite E in Ej. injection Ej as ->. auto.
  - destruct (nth_error (hs_conns s) j) as [[bd [] a b c q]|] eqn:Ej; cbn; (split; [|intros g H; cbn in H; intuition discriminate]); try (exists k; auto; fail). apply P. auto.
  - destruct (nth_error (hs_conns s) j) as [[bd x a [] [] []]|] eqn:Ej; cbn; try (split; [exists k; auto|intros g' []]; fail).
    destruct (nth_error (hs_gos s) g) as [[]|]; cbn; (split; [|intros g' H; cbn in H; intuition discriminate]); try (exists k; auto; fail). apply P. intros ->. rewrite E in Ej. injection Ej as ->. auto.
  - destruct (nth_error (hs_gos s) g) as [[]|]; cbn; try (split; [exists k; auto|intros g' []]; fail). destruct (hs_conn s) as [j|]; cbn; try (split; [exists k; auto|intros g' []]; fail).
    destruct (nth_error (hs_conns s) j) as [kj|] eqn:Ej; cbn; (split; [exists k; auto|intros g' H; cbn in H]); [|contradiction]. destruct H as [H|[]]. injection H as -> -> H. rewrite E in Ej. injection Ej as <-. unfold is_alive in H. rewrite X, C in H. discriminate.
  - destruct (nth_error (hs_gos s) g) as [[]|]; cbn; try (split; [exists k; auto|intros g' []]; fail); destruct (hs_conn s) as [j|]; cbn; try (split; [exists k; auto|intros g' H; cbn in H; intuition discriminate]; fail).
    destruct (nth_error (hs_conns s) j) as [[bd [] a b c q]|] eqn:Ej; cbn; (split; [|intros g' H; cbn in H; intuition discriminate]); try (exists k; auto; fail). apply P. auto.
Qed.
Lemma go_ctx ls i : In (VGo i) (seen ls) -> exists k, nth_error (hs_conns (fst (h_run hs_new ls))) i = Some k /\ k_ctx k = true.
Proof.
  unfold seen. assert (R : forall a o s, h_run s (a ++ [o]) = let (s1, e1) := h_run s a in let (s2, e2) := h_step s1 o in (s2, e1 ++ e2)).
  { induction a as [|x a IH]; intros o s; cbn [h_run app]; [destruct (h_step s o) as [s1 e1]; now rewrite app_nil_r|]. destruct (h_step s x) as [s1 e1]. rewrite IH. destruct (h_run s1 a) as [s2 e2]. destruct (h_step s2 o) as [s3 e3]. now rewrite app_assoc. }
  induction ls as [|l ls IH] using rev_ind; [intros []|]. rewrite R. destruct (h_run hs_new ls) as [s e]. destruct (h_step s l) as [s1 e1] eqn:St. cbn [fst snd] in *. intros I.
  assert (Keep : (exists k, nth_error (hs_conns s) i = Some k /\ k_ctx k = true) -> exists k, nth_error (hs_conns s1) i = Some k /\ k_ctx k = true).
  { intros (k & E & X). assert (L : i < length (hs_conns s)) by (apply nth_error_Some; congruence).
    assert (P : forall j k', (j = i -> k_ctx k' = true) -> exists k0, nth_error (set_nth j k' (hs_conns s)) i = Some k0 /\ k_ctx k0 = true).
    { intros j k' H. destruct (Nat.eq_dec j i) as [->|N]; [exists k'; split; [apply nth_error_set_nth_same; exact L|apply H; reflexivity]|]. exists k. rewrite nth_error_set_nth_other by congruence. auto. }
    revert St. unfold h_step. destruct (hs_crash s); [intros St; injection St as <- <-; eauto|].
    destruct l as [|j|j|j|j|j|j g|g r|g]; try (destruct (nth_error (hs_conns s) j) as [kj|] eqn:Ej; [|intros St; injection St as <- <-; eauto]).
    - intros St. injection St as <- <-. cbn. exists k. rewrite nth_error_app1 by exact L. auto.
    - destruct kj as [[] x a b c q]; intros St; injection St as <- <-; cbn; eauto. apply P. intros ->. rewrite E in Ej. injection Ej as ->. exact X.
    - destruct kj as [[] [] a b c q]; intros St; injection St as <- <-; cbn; eauto.
    - destruct kj as [bd [] [] b c q]; intros St; injection St as <- <-; cbn; eauto.
    - destruct kj as [bd x [] [] c q]; intros St; injection St as <- <-; cbn; eauto. apply P. intros ->. rewrite E in Ej. injection Ej as ->. exact X.
    - destruct kj as [bd [] a b c q]; intros St; injection St as <- <-; cbn; eauto.
    - destruct kj as [bd x a [] [] []]; try (intros St; injection St as <- <-; eauto; fail). destruct (nth_error (hs_gos s) g) as [[]|]; intros St; injection St as <- <-; cbn; eauto. apply P. intros ->. rewrite E in Ej. injection Ej as ->. exact X.
    - destruct (nth_error (hs_gos s) g) as [[]|]; try (intros St; injection St as <- <-; cbn; eauto; fail). destruct (hs_conn s) as [j|]; [|intros St; injection St as <- <-; eauto]. destruct (nth_error (hs_conns s) j); intros St; injection St as <- <-; cbn; eauto.
    - destruct (nth_error (hs_gos s) g) as [[]|]; try (intros St; injection St as <- <-; cbn; eauto; fail); destruct (hs_conn s) as [j|]; try (intros St; injection St as <- <-; cbn; eauto; fail).
      destruct (nth_error (hs_conns s) j) as [[bd [] a b c q]|] eqn:Ej; intros St; injection St as <- <-; cbn; eauto. }
  apply in_app_or in I. destruct I as [I|I]; [apply Keep, IH, I|].
  clear Keep IH. revert St I. unfold h_step. destruct (hs_crash s); [intros St; injection St as <- <-; intros []|].
  destruct l as [|j|j|j|j|j|j g|g r|g]; repeat match goal with |- context [match ?x with _ => _ end] => destruct x eqn:? end; intros St; injection St as <- <-; cbn; try contradiction; intros [I|[]]; try discriminate.
  injection I as <-. eexists. split; [apply nth_error_set_nth_same; apply nth_error_Some; congruence|reflexivity].
Qed.
Theorem C101_closed_not_alive : forall ls more i g, In (VGo i) (seen ls) ->
  ~ In (VCheck g i true) (snd (h_run (fst (h_run hs_new (ls ++ [HCancel i]))) more)).
Proof.
  intros ls more i g G. destruct (go_ctx ls i G) as (k & E & X). rewrite h_run_app. cbn [fst]. set (s := fst (h_run hs_new ls)) in *. clearbody s.
  assert (D : forall ls0 s0, hs_crash s0 = true -> snd (h_run s0 ls0) = []).
  { induction ls0 as [|l ls0 IH]; intros s0 C; [reflexivity|]. cbn [h_run]. unfold h_step. rewrite C. specialize (IH s0 C). destruct (h_run s0 ls0). cbn in *. exact IH. }
  destruct (hs_crash s) eqn:Cr.
  - replace (fst (h_run s [HCancel i])) with s by (cbn; unfold h_step; rewrite Cr; reflexivity). rewrite (D more s Cr). intros [].
  - assert (C : closed_conn (fst (h_run s [HCancel i])) i).
    { cbn [h_run]. unfold h_step. rewrite Cr, E. destruct k as [bd x a b c q]. cbn in X. subst x. cbn. eexists. split; [apply nth_error_set_nth_same; apply nth_error_Some; congruence|auto]. }
    revert C. generalize (fst (h_run s [HCancel i])). induction more as [|l more IH]; intros s0 C; [intros []|]. cbn [h_run]. destruct (closed_step s0 l i C) as (C1 & N).
    destruct (h_step s0 l) as [s1 e1]. specialize (IH s1 C1). destruct (h_run s1 more) as [s2 e2]. cbn [fst snd] in *. intros I. apply in_app_or in I. destruct I as [I|I]; [exact (N g I)|exact (IH I)].
Qed.
Print Assumptions C101_closed_not_alive.
Example C101_closed_not_alive_case : let ls := [HMade; HBind 0; HCtx 0; HGo 0; HActive 0; HTick 0 true; HReact 0] in
  seen ls = [VBind 0; VGo 0; VCheck 0 0 true; VBeat 0] /\ snd (h_run (fst (h_run hs_new (ls ++ [HCancel 0]))) [HTick 0 true]) = [VCheck 0 0 false].
Proof. split; reflexivity. Qed.

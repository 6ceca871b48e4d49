(* C26, further: giving a worker back, and queueing, do not panic unless extra workers are used. *)
From Coq Require Import ZArith List Bool Arith Lia.
From Verif Require Import Bytes Pack Request GoSlice Router Dispatch Workers Spec_Workers Workers_proofs Workers2_proofs Props_Workers.
Import ListNotations.

Lemma free_no_panic cf s tr c k w : (pool_size cf > 0 -> vinv cf s tr) -> (cf_mode cf = ModeDynamicBind -> pool_size cf > 0) ->
  nth_error (ws_conns s) c = Some k -> co_worker k = Some w -> snd (free_worker cf s w) = false.
Proof.
  intros V Hd Ek Ew. unfold free_worker. destruct (cf_mode cf); [reflexivity..|].
  assert (Hp : pool_size cf > 0) by now apply Hd.
  assert (Hw : w < pool_size cf) by (apply (v_wid _ _ _ (V Hp) c); unfold wid_of; now rewrite Ek).
  apply Nat.ltb_lt in Hw. now rewrite Hw.
Qed.

Lemma step_no_panic cf s tr l s' es c : (pool_size cf > 0 -> vinv cf s tr) -> (cf_mode cf = ModeDynamicBind -> pool_size cf > 0) ->
  wstep cf s l = (s', es) -> ~ In (EvClosePanic c) es /\ ~ In (EvClosedPanic c) es.
Proof.
  intros V Hd E. unfold wstep in E. destruct (ws_crashed s); [injection E as <- <-; cbn; auto|].
  destruct l as [|d pick|d j|w|w fuel|d|d].
  - destruct (_ <? _); injection E as <- <-; cbn; auto.
  - destruct (nth_error (ws_conns s) d) as [k|]; [|injection E as <- <-; cbn; auto]. destruct (co_worker k); [injection E as <- <-; cbn; auto|].
    destruct (use_worker cf s (co_id k) pick) as [[s3 w] b]. injection E as <- <-. destruct b; cbn; intuition discriminate.
  - destruct (nth_error (ws_conns s) d) as [k|] eqn:Ek; [|injection E as <- <-; cbn; auto]. destruct (co_worker k) as [n|] eqn:Ew; [|injection E as <- <-; cbn; auto].
    unfold send_task in E. destruct (Nat.eqb_spec (pool_size cf) 0) as [|Hp]; [injection E as <- <-; cbn; intuition discriminate|].
    destruct (nth_error (ws_tq s) n) as [[i|]|]; [|injection E as <- <-; cbn; intuition discriminate..].
    destruct (nth_error (ws_chans s) i) as [ch|] eqn:Ec; [|injection E as <- <-; cbn; auto].
    rewrite (v_open _ _ _ (V ltac:(lia)) _ _ Ec) in E. injection E as <- <-. cbn. intuition discriminate.
  - destruct (nth_error (ws_workers s) w) as [k|]; [|injection E as <- <-; cbn; auto]. destruct (wk_alive k); [|injection E as <- <-; cbn; auto].
    destruct (wk_cur k); [injection E as <- <-; cbn; auto|]. destruct (nth_error (ws_chans s) (wk_chan k)) as [ch|]; [|injection E as <- <-; cbn; auto].
    destruct (ch_buf ch); [destruct (ch_closed ch); injection E as <- <-; cbn; auto|]. injection E as <- <-. cbn. intuition discriminate.
  - destruct (nth_error (ws_workers s) w) as [k|]; [|injection E as <- <-; cbn; auto]. destruct (wk_cur k) as [[c0 j]|]; [|injection E as <- <-; cbn; auto].
    destruct (handle fuel (cf_routes cf) j) as [hs r]. destruct r; injection E as <- <-; cbn; intuition discriminate.
  - destruct (nth_error (ws_conns s) d) as [k|]; [|injection E as <- <-; cbn; auto]. destruct (co_worker k); injection E as <- <-; cbn; auto.
  - destruct (nth_error (ws_conns s) d) as [k|] eqn:Ek; [|injection E as <- <-; cbn; auto]. destruct (co_worker k) as [n|] eqn:Ew; [|injection E as <- <-; cbn; auto].
    destruct (co_mgr k); [injection E as <- <-; cbn; auto|]. destruct (co_freed k); [injection E as <- <-; cbn; auto|].
    pose proof (free_no_panic cf s tr d k n V Hd Ek Ew) as F. destruct (free_worker cf s n) as [s3 p]. cbn in F. subst p. injection E as <- <-. cbn. auto.
Qed.

Lemma run_no_panic cf c ls : (cf_mode cf = ModeDynamicBind -> pool_size cf > 0) -> forall s tr,
  uinv cf s tr -> (pool_size cf > 0 -> vinv cf s tr) -> (cf_max cf = 0 -> ws_conns s = []) ->
  (forall d, ~ In (EvExtra d) (snd (wrun cf s ls))) ->
  ~ In (EvClosePanic c) (snd (wrun cf s ls)) /\ ~ In (EvClosedPanic c) (snd (wrun cf s ls)).
Proof.
  intros Hd. induction ls as [|l ls IH]; intros s tr U V Z X; cbn [wrun] in *; [cbn; auto|].
  destruct (wstep cf s l) as [s1 e1] eqn:E1. destruct (wstep_inv cf s tr l s1 e1 U Z E1) as [U1 Z1].
  pose proof (step_no_panic cf s tr l s1 e1 c V Hd E1) as [N1 N2].
  assert (X1 : forall d, ~ In (EvExtra d) e1).
  { intros d H. apply (X d). destruct (wrun cf s1 ls) as [s2 e2]. apply in_or_app. now left. }
  assert (V1 : pool_size cf > 0 -> vinv cf s1 (tr ++ e1)) by (intros Hp; exact (wstep_v cf Hp s tr l s1 e1 U (V Hp) E1 X1)).
  assert (X2 : forall d, ~ In (EvExtra d) (snd (wrun cf s1 ls))).
  { intros d H. apply (X d). destruct (wrun cf s1 ls) as [s2 e2]. cbn [snd] in *. apply in_or_app. now right. }
  destruct (IH s1 (tr ++ e1) U1 V1 Z1 X2) as [M1 M2]. destruct (wrun cf s1 ls) as [s2 e2]. cbn [snd] in *.
  split; intros H; apply in_app_or in H; intuition.
Qed.

(* In Hash and Bind mode, and in DynamicBind mode as long as no extra worker was needed, neither
   giving a connection's worker back nor queueing one of its requests panics. *)
Theorem C26_no_panic_partial : forall cf ls s tr,
  server_run cf ls = Some (s, tr) -> cf_mode cf <> ModeDynamicBind \/ (pool_size cf > 0 /\ forall c, ~ In (EvExtra c) tr) ->
  forall c, ~ In (EvClosePanic c) tr /\ ~ In (EvClosedPanic c) tr.
Proof.
  intros cf ls s tr E H c. unfold server_run in E. destruct (start_pool cf) as [s0|] eqn:E0; [|discriminate]. injection E as E.
  assert (T : tr = snd (wrun cf s0 ls)) by now rewrite E. rewrite T. apply (run_no_panic cf c ls) with (tr := []).
  - intros D. destruct H as [H|[H _]]; [congruence|exact H].
  - exact (start_pool_inv cf s0 E0).
  - intros Hp. exact (v_start cf Hp s0 E0).
  - intros _. unfold start_pool in E0. destruct (_ <? _); [discriminate|]. now injection E0 as <-.
  - destruct H as [H|[_ H]]; [exact (extra_only_dynamic cf ls H s0)|]. intros d. rewrite <- T. apply H.
Qed.
Print Assumptions C26_no_panic_partial.
Example C26_no_panic_case :
  exists s tr, server_run bind_cfg (clean_schedule ++ [LSend 1 (job_id 1); LTake 0; LRemove 1; LFree 1]) = Some (s, tr) /\ length tr = 2.
Proof. do 2 eexists. split; [vm_compute; reflexivity|reflexivity]. Qed.

(* Refuted with extra workers: when two connections that were given the same one both close, the
   second close panics. *)
Theorem C26_no_panic_refuted :
  exists s tr, server_run dyn_cfg (shared_extra ++ [LRemove 1; LFree 1; LRemove 2; LFree 2]) = Some (s, tr) /\ In (EvClosePanic 2) tr.
Proof. do 2 eexists. split; [vm_compute; reflexivity|]. cbn. tauto. Qed.
Print Assumptions C26_no_panic_refuted.

(* Property theorems C20, C23-C27 (worker pool).  [server_run cf ls]: start the
   pool, then run any schedule ls of accepts, connection starts, arriving
   requests, worker steps and closes. *)
From Coq Require Import ZArith List Bool Arith Lia Permutation.
From Verif Require Import Bytes Pack Request GoSlice Router Dispatch Workers Spec_Workers
  Workers_proofs Workers2_proofs Workers3_proofs Dispatch_proofs.
Import ListNotations.

(* ---- a concrete pool used by the examples ---- *)
Definition job_id (n : Z) : job := JMsg (new_msg_package n []).
Definition some_routes : routes :=
  {| ro_slices_mode := true; ro_apis := [];
     ro_slices := [(1%Z, [Handler 10 (HNext HRet); Handler 11 HRet]); (2%Z, [Handler 20 HPanic])] |}.
Definition hash_cfg : wcfg := {| cf_mode := ModeHash; cf_pool := 2; cf_max := 5; cf_routes := some_routes |}.
Definition bind_cfg : wcfg := {| cf_mode := ModeBind; cf_pool := 7; cf_max := 2; cf_routes := some_routes |}.
Definition dyn_cfg : wcfg := {| cf_mode := ModeDynamicBind; cf_pool := 1; cf_max := 3; cf_routes := some_routes |}.

(* Three connections on two workers: a panicking handler (2), an unknown ID (9). *)
Definition some_schedule : list wlabel :=
  [LAccept; LAccept; LAccept; LStart 0 0; LStart 1 0; LStart 2 0;
   LSend 0 (job_id 1); LSend 2 (job_id 2); LSend 1 (job_id 9); LSend 0 (job_id 2);
   LTake 1; LTake 0; LFinish 1 0; LTake 1; LFinish 0 0; LFinish 1 0; LSend 2 (job_id 1); LTake 1].

(* ---- C20 ---- *)

(* Whatever the schedule, a request with an unknown ID that has been processed
   ran no user code. *)
Theorem C20_unknown_runs_nothing : forall cf ls s tr c m es,
  server_run cf ls = Some (s, tr) -> In (EvEnd c (JMsg m) es) tr ->
  ~ routed (cf_routes cf) (m_id m) -> es = [].
Proof.
  intros cf ls s tr c m es E Hin Hr. destruct (run_does cf ls s tr E c _ _ Hin) as [f Hf].
  rewrite unrouted_handle in Hf by exact Hr. now injection Hf as <-.
Qed.
Print Assumptions C20_unknown_runs_nothing.

(* Every other request does what its own handlers do, which the job and the
   routes alone determine. *)
Theorem C20_others_undisturbed : forall cf ls s tr ls' s' tr' c c' j es es',
  server_run cf ls = Some (s, tr) -> In (EvEnd c j es) tr ->
  server_run cf ls' = Some (s', tr') -> In (EvEnd c' j es') tr' -> es = es'.
Proof.
  intros cf ls s tr ls' s' tr' c c' j es es' E Hin E' Hin'.
  eapply does_fun; [eapply (run_does cf ls)|eapply (run_does cf ls')]; eauto.
Qed.
Print Assumptions C20_others_undisturbed.

(* A request with a known ID runs exactly the handlers registered for that ID
   (registration keeps IDs distinct, C19), to their end or to a panic. *)
Theorem C20_known_slices : forall cf ls s tr c m hs es,
  server_run cf ls = Some (s, tr) -> In (EvEnd c (JMsg m) es) tr ->
  ro_slices_mode (cf_routes cf) = true -> NoDup (map fst (ro_slices (cf_routes cf))) ->
  In (m_id m, hs) (ro_slices (cf_routes cf)) ->
  exists o, run_slices hs (fresh_request m) = (es, o).
Proof.
  intros cf ls s tr c m hs es E Hin Hm Hnd Hr.
  exact (does_routed_slices _ m hs es Hm Hnd Hr (run_does cf ls s tr E c _ _ Hin)).
Qed.
Print Assumptions C20_known_slices.

Theorem C20_known_phases : forall cf ls s tr c m r es,
  server_run cf ls = Some (s, tr) -> In (EvEnd c (JMsg m) es) tr ->
  ro_slices_mode (cf_routes cf) = false -> NoDup (map fst (ro_apis (cf_routes cf))) ->
  In (m_id m, r) (ro_apis (cf_routes cf)) ->
  exists fuel o, call fuel (Some r) (fresh_request m) = (es, o) /\ o <> HFuel.
Proof.
  intros cf ls s tr c m r es E Hin Hm Hnd Hr.
  exact (does_routed_phases _ m r es Hm Hnd Hr (run_does cf ls s tr E c _ _ Hin)).
Qed.
Print Assumptions C20_known_phases.

(* And its worker goes on: an unknown request always ends (so C24_accounting and
   C24_progress apply). *)
Theorem C20_unknown_returns : forall ro m, ~ routed ro (m_id m) -> returns ro (JMsg m).
Proof. intros ro m H. exists 0. rewrite unrouted_handle by exact H. discriminate. Qed.
Print Assumptions C20_unknown_returns.

Example C20_nonvacuous :
  (exists s tr, server_run hash_cfg some_schedule = Some (s, tr) /\ In (EvEnd 1 (job_id 9) []) tr) /\
  ~ routed some_routes 9 /\
  (exists s tr, server_run hash_cfg some_schedule = Some (s, tr) /\
     In (EvEnd 0 (job_id 1) [HvStart 10; HvNext; HvStart 11; HvEnd 11; HvEnd 10]) tr) /\
  NoDup (map fst (ro_slices some_routes)).
Proof.
  split; [|split; [|split]].
  - do 2 eexists. split; [vm_compute; reflexivity|]. cbn. tauto.
  - cbn. intros [H|[H|[]]]; discriminate.
  - do 2 eexists. split; [vm_compute; reflexivity|]. cbn. tauto.
  - repeat constructor; cbn; intuition discriminate.
Qed.

(* ---- C23 ---- *)

(* Hash and Bind mode: requests of one connection are handled in arrival order,
   never two at a time, under every schedule. *)
Theorem C23_order_partial : forall cf ls s tr,
  cf_mode cf <> ModeDynamicBind -> pool_size cf > 0 -> server_run cf ls = Some (s, tr) ->
  forall c, one_at_a_time (sent c tr) (activity c tr).
Proof. exact order_no_dynamic. Qed.
Print Assumptions C23_order_partial.

(* DynamicBind mode as long as no extra worker is started. *)
Theorem C23_order_dynamic_partial : forall cf ls s tr,
  pool_size cf > 0 -> server_run cf ls = Some (s, tr) -> (forall c, ~ In (EvExtra c) tr) ->
  forall c, one_at_a_time (sent c tr) (activity c tr).
Proof. exact (fun cf ls s tr Hp => order_of_run cf Hp ls s tr). Qed.
Print Assumptions C23_order_dynamic_partial.

(* With extra workers it is false: a third connection is given the extra worker
   ID of the second, whose later requests go to the new queue and overtake. *)
Definition overtake : list wlabel :=
  [LAccept; LAccept; LAccept; LStart 0 0; LStart 1 0; LSend 1 (job_id 1);
   LStart 2 0; LSend 1 (job_id 2); LTake 2; LTake 1].
Theorem C23_dynamic_refuted : exists s tr,
  server_run dyn_cfg overtake = Some (s, tr) /\
  sent 1 tr = [job_id 1; job_id 2] /\
  activity 1 tr = [ABegin (job_id 2); ABegin (job_id 1)] /\
  ~ one_at_a_time (sent 1 tr) (activity 1 tr).
Proof.
  do 2 eexists. split; [vm_compute; reflexivity|]. split; [reflexivity|]. split; [reflexivity|].
  cbn. intros H. inversion H.
Qed.
Print Assumptions C23_dynamic_refuted.

Example C23_nonvacuous :
  exists s tr, server_run hash_cfg some_schedule = Some (s, tr) /\ pool_size hash_cfg > 0 /\
    sent 0 tr = [job_id 1; job_id 2] /\
    activity 0 tr = [ABegin (job_id 1); AEnd (job_id 1); ABegin (job_id 2)] /\
    activity 2 tr = [ABegin (job_id 2); AEnd (job_id 2)].
Proof.
  do 2 eexists. split; [vm_compute; reflexivity|]. split; [cbn; lia|]. repeat split; reflexivity.
Qed.

(* ---- C24 ---- *)

(* Every mode and schedule, whatever handlers panic: each request received is, at
   any time, exactly once processed, being processed or waiting; the process does
   not crash. *)
Theorem C24_accounting : forall cf ls s tr,
  server_run cf ls = Some (s, tr) ->
  Permutation (all_sent tr) (all_ended tr ++ in_flight s ++ waiting s) /\ ws_crashed s = false.
Proof. exact accounting. Qed.
Print Assumptions C24_accounting.

(* Each request arriving on a started connection is received.  The one exception
   is the queue of an extra worker closed under it (C26_dynamic_refuted). *)
Theorem C24_received : forall cf ls s tr c k w j,
  server_run cf ls = Some (s, tr) -> nth_error (ws_conns s) c = Some k -> co_worker k = Some w ->
  (snd (wstep cf s (LSend c j)) = [EvSend c j] \/ snd (wstep cf s (LSend c j)) = [EvClosedPanic c]) /\
  ((forall d, ~ In (EvExtra d) tr) -> snd (wstep cf s (LSend c j)) = [EvSend c j]).
Proof. exact accepted. Qed.
Print Assumptions C24_received.

(* As long as something is waiting or being processed a worker can go on (unless
   a handler never returns), so nothing stays behind. *)
Theorem C24_progress : forall cf ls s tr,
  server_run cf ls = Some (s, tr) -> in_flight s ++ waiting s <> [] ->
  (forall x, In x (in_flight s) -> returns (cf_routes cf) (snd x)) ->
  exists l s' c j, (wstep cf s l = (s', [EvBegin c j]) \/ exists es, wstep cf s l = (s', [EvEnd c j es])).
Proof. exact progress. Qed.
Print Assumptions C24_progress.

(* Other requests do what they would have done anyway: C20_others_undisturbed. *)
Theorem C24_panic_returns : forall ro m hs es,
  ro_slices_mode ro = true -> find_router (ro_slices ro) (m_id m) = Some hs ->
  run_slices hs (fresh_request m) = (es, HPanicked) -> does ro (JMsg m) es.
Proof.
  intros ro m hs es E1 E2 E3. exists 0. cbn [handle]. rewrite E1. unfold do_msg_handler_slices. now rewrite E2, E3.
Qed.
Print Assumptions C24_panic_returns.

Example C24_nonvacuous :
  exists s tr, server_run hash_cfg some_schedule = Some (s, tr) /\
    all_ended tr = [(0, job_id 1); (1, job_id 9); (2, job_id 2)] /\
    In (EvEnd 2 (job_id 2) [HvStart 20; HvPanic]) tr /\
    in_flight s = [(0, job_id 2)] /\ waiting s = [(2, job_id 1)] /\
    (forall x, In x (in_flight s) -> returns some_routes (snd x)).
Proof.
  do 2 eexists. split; [vm_compute; reflexivity|]. split; [reflexivity|]. split; [cbn; tauto|].
  split; [reflexivity|]. split; [reflexivity|].
  intros x [<-|[]]. exists 0. discriminate.
Qed.

(* ---- C25 ---- *)

(* Bind mode: distinct workers, provided no connection starts while another is
   between its removal from the manager and the return of its worker.  (At most
   MaxConn connections are in the manager: the accept loop's rule.)  Missing from
   the full statement: that proviso; without it the property is false, below. *)
Theorem C25_bind_partial : forall cf s0 ls s tr c d w,
  cf_mode cf = ModeBind -> start_pool cf = Some s0 -> server_run cf ls = Some (s, tr) ->
  at_every_start cf s0 ls no_close_in_progress ->
  c <> d -> live_worker s c w -> ~ live_worker s d w.
Proof. exact bind_distinct. Qed.
Print Assumptions C25_bind_partial.

(* MaxConn = 2: the first connection leaves the manager, a third is accepted and
   starts before the first returns its worker: it shares the second's worker. *)
Definition early_accept : list wlabel :=
  [LAccept; LAccept; LStart 0 0; LStart 1 0; LRemove 0; LAccept; LStart 2 0].
Theorem C25_bind_refuted : exists s tr,
  server_run bind_cfg early_accept = Some (s, tr) /\
  live_worker s 1 1 /\ live_worker s 2 1 /\ in_manager s = 2.
Proof.
  do 2 eexists. split; [vm_compute; reflexivity|].
  split; [eexists; repeat split|]. split; [eexists; repeat split|]. reflexivity.
Qed.
Print Assumptions C25_bind_refuted.

Definition clean_schedule : list wlabel :=
  [LAccept; LAccept; LStart 0 1; LStart 1 0; LRemove 0; LFree 0; LAccept; LStart 2 0].
Example C25_nonvacuous :
  exists s0 s tr, start_pool bind_cfg = Some s0 /\ server_run bind_cfg clean_schedule = Some (s, tr) /\
    at_every_start bind_cfg s0 clean_schedule no_close_in_progress /\
    live_worker s 1 0 /\ live_worker s 2 1.
Proof.
  do 3 eexists. split; [vm_compute; reflexivity|]. split; [vm_compute; reflexivity|]. split.
  - apply (starts_ok_spec _ closes_done); [exact closes_done_spec|vm_compute; reflexivity].
  - split; (eexists; repeat split).
Qed.

(* ---- C26 ---- *)

(* DynamicBind mode while fewer connections hold workers than the pool has:
   distinct workers, and no worker is ever stopped.  Missing: the extra workers,
   for which both claims are false, below. *)
Theorem C26_dynamic_partial : forall cf s0 ls s tr,
  cf_mode cf = ModeDynamicBind -> pool_size cf > 0 -> start_pool cf = Some s0 ->
  server_run cf ls = Some (s, tr) ->
  at_every_start cf s0 ls (fun s => holding s < pool_size cf) ->
  (forall c d w, c <> d -> live_worker s c w -> ~ live_worker s d w) /\
  (forall w ch, queue_of s w = Some ch -> ch_closed ch = false).
Proof.
  intros cf s0 ls s tr Hm Hp E0 E Hat. assert (Hm' : cf_mode cf <> ModeHash) by congruence. split.
  - exact (proj1 (pool_distinct cf s0 ls s tr Hm' E0 E Hat)).
  - exact (pool_open cf s0 ls s tr Hm' Hp E0 E Hat).
Qed.
Print Assumptions C26_dynamic_partial.

(* With three live connections of at most three: the second and third share an
   extra worker ID; closing the second closes the third's queue, and queueing the
   third's next request panics. *)
Definition shared_extra : list wlabel :=
  [LAccept; LAccept; LAccept; LStart 0 0; LStart 1 0; LStart 2 0].
Theorem C26_dynamic_refuted :
  (exists s tr, server_run dyn_cfg shared_extra = Some (s, tr) /\
     live_worker s 1 1 /\ live_worker s 2 1 /\ in_manager s <= cf_max dyn_cfg) /\
  (exists s tr ch, server_run dyn_cfg (shared_extra ++ [LRemove 1; LFree 1; LSend 2 (job_id 1)]) = Some (s, tr) /\
     live_worker s 2 1 /\ queue_of s 1 = Some ch /\ ch_closed ch = true /\ In (EvClosedPanic 2) tr).
Proof.
  split.
  - do 2 eexists. split; [vm_compute; reflexivity|]. split; [eexists; repeat split|]. split; [eexists; repeat split|]. cbn. lia.
  - do 3 eexists. split; [vm_compute; reflexivity|]. split; [eexists; repeat split|]. split; [reflexivity|]. split; [reflexivity|]. cbn. tauto.
Qed.
Print Assumptions C26_dynamic_refuted.

Example C26_nonvacuous :
  let cf := {| cf_mode := ModeDynamicBind; cf_pool := 2; cf_max := 3; cf_routes := some_routes |} in
  exists s0 s tr, start_pool cf = Some s0 /\ server_run cf clean_schedule = Some (s, tr) /\
    at_every_start cf s0 clean_schedule (fun s => holding s < pool_size cf) /\
    live_worker s 1 0 /\ live_worker s 2 1.
Proof.
  do 3 eexists. split; [vm_compute; reflexivity|]. split; [vm_compute; reflexivity|]. split.
  - apply (starts_ok_spec _ (fun s => holding s <? 2)); [intros s H; now apply Nat.ltb_lt|vm_compute; reflexivity].
  - split; (eexists; repeat split).
Qed.

(* ---- C27 ---- *)

(* In every mode and after every history the worker ID of a connection names an
   existing queue, and queueing never hits an index error or a nil queue. *)
Theorem C27_index_valid : forall cf ls s tr,
  server_run cf ls = Some (s, tr) ->
  (pool_size cf > 0 -> forall c k w,
     nth_error (ws_conns s) c = Some k -> co_worker k = Some w -> exists ch, queue_of s w = Some ch) /\
  (forall c, ~ In (EvIndexPanic c) tr /\ ~ In (EvNilQueue c) tr).
Proof.
  exact (fun cf ls s tr E =>
    conj (fun Hp => index_valid cf ls s tr Hp E) (no_index_panic cf ls s tr E)).
Qed.
Print Assumptions C27_index_valid.

(* Starting the pool succeeds, except in DynamicBind mode with a pool larger than
   MaxConn, where it panics with an index error. *)
Theorem C27_pool_start : forall cf,
  start_pool cf = None <-> cf_mode cf = ModeDynamicBind /\ cf_max cf < cf_pool cf.
Proof.
  intros cf. unfold start_pool, queue_len, pool_size. destruct (cf_mode cf) eqn:Em.
  - rewrite Nat.ltb_irrefl. split; [discriminate|intros [? _]; discriminate].
  - rewrite Nat.ltb_irrefl. split; [discriminate|intros [? _]; discriminate].
  - destruct (Nat.ltb_spec (cf_max cf) (cf_pool cf)); split; try discriminate; auto. intros [_ ?]. lia.
Qed.
Print Assumptions C27_pool_start.

Example C27_nonvacuous :
  exists s tr k, server_run dyn_cfg shared_extra = Some (s, tr) /\
    nth_error (ws_conns s) 2 = Some k /\ co_worker k = Some 1 /\ pool_size dyn_cfg > 0.
Proof. do 3 eexists. split; [vm_compute; reflexivity|]. repeat split. cbn. lia. Qed.

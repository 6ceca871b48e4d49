(* C28: closing a connection.  C29: IDs.  C30: the connection limit.  C31: stopping. *)
From Coq Require Import ZArith List Bool Arith Lia.
From Verif Require Import Bytes ShardMap ConnManager ConnLife Spec_ConnLife ConnLife_proofs
  ConnServer Spec_ConnServer ConnServer_proofs ConnServer2_proofs.
Import ListNotations.

(* C28. In every run of the server, with any number of Stop calls, reader
   failures, heartbeat ticks and server stops, for every connection: the stop
   hook, the socket close and the removal from the manager each happen at most
   once. *)
Theorem C28_at_most_once c ls i e :
  closing_event e -> happened i e (snd (srv_run c (srv_new c) ls)) <= 1.
Proof. exact (server_at_most_once c ls i e). Qed.
Print Assumptions C28_at_most_once.

(* The manager holds a connection until its removal and not afterwards. *)
Theorem C28_manager c ls i n :
  let s := fst (srv_run c (srv_new c) ls) in let tr := snd (srv_run c (srv_new c) ls) in
  (Z.of_nat (length (ids_given s)) <= 2 ^ 64)%Z -> nth_error (sv_conns s) i = Some n ->
  cm_get (sv_mgr s) (cn_id (sn_conn n)) = match happened i EvRemove tr with O => Some (sn_conn n) | _ => None end.
Proof. exact (manager_contents c ls i n). Qed.
Print Assumptions C28_manager.

(* Full statement: once stopped, the connection is closed and removed exactly
   once.  Proved when the hooks do not panic and, for websocket and KCP, no
   heartbeat is running: whenever the connection was asked to stop (Stop called
   by the start hook or later, the reader ended, or the heartbeat found no recent
   activity), the connection's own goroutines can finish without further help
   (the heartbeat's socket write, if one is under way, must return), and then
   each event has happened exactly once, whatever happens later. *)
Theorem C28_exactly_once_partial c ls :
  lc_start_panics c = false -> lc_stop_panics c = false -> (lc_kind c = KTcp \/ lc_hc c = false) ->
  stop_asked c ls ->
  exists ls', Forall own_step ls' /\ forall more e, closing_event e ->
    times e (snd (life_run c (life_new c) (ls ++ ls' ++ more))) = 1.
Proof. intros H1 H2 H3 Ha. exact (exactly_once c ls (conj H1 (conj H2 H3)) (asked_cancels c ls (conj H1 (conj H2 H3)) Ha)). Qed.
Print Assumptions C28_exactly_once_partial.
(* Three Stops from other goroutines, one of them during the start hook, and a
   reader failure; a beat is being written when the finalizer wants to stop the
   heartbeat. *)
Example C28_case :
  let c := Lcfg KTcp true false false in
  let ls := [LMain; LMain; LMain; LMain; LTick true; LStop; LStop; LMain; LMain; LReaderEnd; LMain; LMain; LMain; LStop; LMain] in
  stop_asked c ls /\ times EvClose (snd (life_run c (life_new c) ls)) = 0 /\
  snd (life_run c (life_new c) (ls ++ [LBeat; LMain; LMain; LMain; LMain; LMain; LStop])) =
    [EvStartHook; EvStopHook; EvClose; EvRemove; EvCallbacks; EvFree].
Proof.
  cbv zeta. split; [|split; reflexivity].
  exists [LMain; LMain; LMain; LMain; LTick true], LStop, [LStop; LMain; LMain; LReaderEnd; LMain; LMain; LMain; LStop; LMain].
  split; [reflexivity|]. left. split; [reflexivity|]. now left.
Qed.

(* Finding: the websocket and KCP finalizers hold msgLock while they hand the
   quit message to the heartbeat goroutine, and that goroutine may be waiting
   for msgLock in SendMsg: neither moves again, the connection is never closed
   or removed. *)
Theorem C28_heartbeat_refuted k : (k = KWs \/ k = KKcp) ->
  let c := Lcfg k true false false in
  exists ls, lf_cancelled (fst (life_run c (life_new c) ls)) = true /\
    forall more, times EvClose (snd (life_run c (life_new c) (ls ++ more))) = 0 /\
                 times EvRemove (snd (life_run c (life_new c) (ls ++ more))) = 0.
Proof.
  intros Hk c.
  assert (G : forall ls, stuck (fst (life_run c (life_new c) ls)) -> times EvClose (snd (life_run c (life_new c) ls)) = 0 ->
     times EvRemove (snd (life_run c (life_new c) ls)) = 0 ->
     forall more, times EvClose (snd (life_run c (life_new c) (ls ++ more))) = 0 /\ times EvRemove (snd (life_run c (life_new c) (ls ++ more))) = 0).
  { intros ls S T1 T2 more. rewrite run_app. cbn [snd]. rewrite !times_app, T1, T2.
    rewrite !(stuck_run c eq_refl more _ S); [auto|right; now right|right; now left]. }
  destruct Hk as [->| ->];
  [exists [LMain; LMain; LMain; LMain; LMain; LMain; LStop; LMain; LTick true; LMain; LMain; LMain]
  |exists [LMain; LMain; LMain; LMain; LMain; LMain; LTick true; LStop; LMain; LMain; LMain; LMain]];
  (split; [reflexivity|]; apply G; [|reflexivity|reflexivity]; repeat split; eexists; reflexivity).
Qed.
Print Assumptions C28_heartbeat_refuted.
(* Finding: if the stop hook panics the connection is never closed nor removed. *)
Theorem C28_hook_panic_refuted c ls : lc_stop_panics c = true ->
  times EvClose (snd (life_run c (life_new c) ls)) = 0 /\ times EvRemove (snd (life_run c (life_new c) ls)) = 0.
Proof.
  intros P. apply panic_left; [exact P|]. left. destruct c as [[] h p q]; cbn [lc_kind life_new lf_todo];
  [exists start_prog|exists start_prog|exists (start_prog ++ [ISetClose])]; (split; [reflexivity|]);
  split; cbn; intuition discriminate.
Qed.
Print Assumptions C28_hook_panic_refuted.

(* C29. In every run, IDs of accepted connections (and IDs taken by accepting
   goroutines that have yet to create theirs) are pairwise different, as long as
   at most 2^64 were given out. *)
Theorem C29_ids_unique c ls :
  let s := fst (srv_run c (srv_new c) ls) in
  (Z.of_nat (length (ids_given s)) <= 2 ^ 64)%Z -> NoDup (ids_given s).
Proof. exact (ids_unique c ls). Qed.
Print Assumptions C29_ids_unique.
(* Tcp loop and two websocket handlers interleaved between taking an ID and creating the connection. *)
Example C29_case :
  let c := Scfg ServeBoth 10 false false false in
  let s := fst (srv_run c (srv_new c)
    [SWsNew; STcp true; SWs 0 true; SWsNew; STcp true; SWs 0 true; SWs 1 true; SWs 1 true; STcp true; SWs 1 true; SWs 0 true; STcp true; SWs 0 true]) in
  ids_given s = [1; 3; 2]%Z /\ length (sv_conns s) = 2.
Proof. vm_compute. split; reflexivity. Qed.

(* C30. Full statement: in every mode the manager never holds more than MaxConn
   connections.  Proved for the modes with a single accept loop. *)
Theorem C30_limit_partial c ls :
  (sf_mode c = ServeTcp \/ sf_mode c = ServeKcp) -> cm_len (sv_mgr (fst (srv_run c (srv_new c) ls))) <= sf_max c.
Proof. exact (limit_kept c ls). Qed.
Print Assumptions C30_limit_partial.
(* A limit of one: the second accept has to wait until the first connection is removed. *)
Example C30_case :
  let c := Scfg ServeTcp 1 false false false in
  let a := [STcp true; STcp true; STcp true; STcp true] in
  let go i := repeat (SConn i LMain) 6 ++ [SConn i LStop] ++ repeat (SConn i LMain) 7 in
  length (sv_conns (fst (srv_run c (srv_new c) (a ++ a ++ a)))) = 1 /\
  length (sv_conns (fst (srv_run c (srv_new c) (a ++ a ++ go 0 ++ a)))) = 2 /\
  cm_len (sv_mgr (fst (srv_run c (srv_new c) (a ++ a ++ go 0 ++ a)))) = 1.
Proof. vm_compute. repeat split; reflexivity. Qed.
(* Finding: with websocket (also in the default mode) any number of connections
   can pass the check before the first is added. *)
Theorem C30_limit_refuted c n :
  (sf_mode c = ServeWs \/ sf_mode c = ServeBoth) -> 0 < sf_max c -> (Z.of_nat n < 2 ^ 64)%Z ->
  exists ls, n <= cm_len (sv_mgr (fst (srv_run c (srv_new c) ls))).
Proof. intros H. apply ws_overshoot. now destruct H as [-> | ->]. Qed.
Print Assumptions C30_limit_refuted.

(* C31. Full statement: Server.Stop and ClearConn never panic.  Proved when none
   of them begins while a connection has been accepted whose Start has not yet
   set its cancel function, and Server.Stop is called at most once. *)
Theorem C31_stop_partial c ls :
  no_window c (srv_new c) ls = true -> one_stop ls ->
  forall x, In x (snd (srv_run c (srv_new c) ls)) -> ~ stop_panic x.
Proof. intros W O. apply no_stop_panic; [|exact W]. now apply swf_new. Qed.
Print Assumptions C31_stop_partial.
(* Two clears and a Server.Stop with one connection closing and another being
   accepted meanwhile. *)
Example C31_case :
  let c := Scfg ServeTcp 5 false false false in
  let a := [STcp true; STcp true; STcp true; STcp true] in
  let ls := a ++ a ++ [SConn 0 LMain; SConn 0 LMain; SConn 1 LMain; SConn 1 LMain; SClearCall; SStopCall; STcp true; STcp true; STcp true;
             SConn 0 LMain; SStopStep 0 1; STcp true; SStopStep 1 0; SStopStep 1 0; SStopStep 0 0; SStopStep 1 0; SStopStep 1 0; SStopStep 1 0] in
  no_window c (srv_new c) ls = true /\ one_stop ls /\
  sv_exit_closed (fst (srv_run c (srv_new c) ls)) = true /\ length (sv_conns (fst (srv_run c (srv_new c) ls))) = 3.
Proof.
  cbv zeta. split; [vm_compute; reflexivity|]. split; [unfold one_stop; cbn; lia|]. split; vm_compute; reflexivity.
Qed.
(* Finding: in every mode ClearConn panics (nil cancel) on a connection that has
   just been accepted. *)
Theorem C31_window_refuted c : 0 < sf_max c ->
  exists ls, one_stop ls /\ In (SvClearPanic 0) (snd (srv_run c (srv_new c) ls)).
Proof.
  intros Hm. destruct c as [m [|x] h p q]; [cbn in Hm; lia|].
  destruct m;
  [exists ([STcp true; STcp true; STcp true; STcp true; SClearCall; SStopStep 0 0])
  |exists ([SWsNew; SWs 0 true; SWs 0 true; SWs 0 true; SWs 0 true; SClearCall; SStopStep 0 0])
  |exists ([SKcp true; SKcp true; SKcp true; SKcp true; SClearCall; SStopStep 0 0])
  |exists ([STcp true; STcp true; STcp true; STcp true; SClearCall; SStopStep 0 0])];
  (split; [unfold one_stop; cbn; lia|]; vm_compute; auto).
Qed.
Print Assumptions C31_window_refuted.
(* Finding: a second Server.Stop sends on the closed exit channel and panics. *)
Theorem C31_stop_twice_refuted c : (sf_mode c = ServeTcp \/ sf_mode c = ServeKcp \/ sf_mode c = ServeBoth) ->
  exists ls, no_window c (srv_new c) ls = true /\ In SvSendPanic (snd (srv_run c (srv_new c) ls)).
Proof.
  intros Hm. exists [SStopCall; SStopStep 0 0; SStopStep 0 0; SStopStep 0 0; SStopCall; SStopStep 1 0; SStopStep 1 0].
  destruct c as [m x h p q]. cbn in Hm. destruct Hm as [->|[->| ->]]; (split; [reflexivity|]; vm_compute; auto).
Qed.
Print Assumptions C31_stop_twice_refuted.

(* What has happened when ClearConn or Server.Stop returns: C69. *)
From Coq Require Import ZArith List Bool Arith Lia.
From Verif Require Import Bytes GoSlice ShardMap ConnManager ConnLife Spec_ConnLife ConnServer Spec_ConnServer ConnServer_proofs ConnServer2_proofs ConnStop_proofs.
Import ListNotations.

(* C69. When a call of ClearConn or Server.Stop returns, every connection that was
   in the connection manager when the call began has been stopped.  a is
   everything before the call, l the call, b everything after it, by any
   goroutine, in any order. *)
Theorem C69_all_stopped c a l b i : let s := fst (srv_run c (srv_new c) a) in
  is_call l = true -> managed s i -> In (SvReturned (length (calls a))) (snd (srv_run c s (l :: b))) ->
  conn_stopped (fst (srv_run c s (l :: b))) i.
Proof. exact (all_stopped c a l b i). Qed.
Print Assumptions C69_all_stopped.
(* Two connections; while Server.Stop runs, a third is accepted and the first
   closes by itself. *)
Definition accept4 : list slabel := [STcp true; STcp true; STcp true; STcp true].
Definition start (i : nat) : list slabel := [SConn i LMain; SConn i LMain].
Example C69_case :
  let c := Scfg ServeTcp 5 false false false in
  let a := accept4 ++ accept4 ++ start 0 ++ start 1 in
  let b := [STcp true; STcp true; STcp true; SStopStep 0 1; STcp true; SConn 0 LStop; SStopStep 0 0; SStopStep 0 0; SStopStep 0 0; SStopStep 0 0] in
  let s := fst (srv_run c (srv_new c) a) in let s' := fst (srv_run c s (SStopCall :: b)) in
  managed s 0 /\ managed s 1 /\ In (SvReturned (length (calls a))) (snd (srv_run c s (SStopCall :: b))) /\
  conn_stopped s' 0 /\ conn_stopped s' 1 /\ managed s' 2 /\ sv_crashed s' = false.
Proof.
  cbv zeta. unfold managed, conn_stopped.
  do 2 (split; [eexists; split; [vm_compute; reflexivity|]; vm_compute; reflexivity|]). split; [vm_compute; auto|].
  do 3 (split; [eexists; split; [vm_compute; reflexivity|]; vm_compute; reflexivity|]). vm_compute. reflexivity.
Qed.

(* When Server.Stop has returned, the listener is closed as soon as the listening
   goroutine runs again... *)
Theorem C69_closes c ls g : sv_crashed (fst (srv_run c (srv_new c) ls)) = false ->
  nth_error (calls ls) g = Some SStopCall -> In (SvReturned g) (snd (srv_run c (srv_new c) ls)) ->
  sv_lclosed (fst (srv_run c (srv_new c) (ls ++ [SListener]))) = true.
Proof. intros H1 H2 H3. exact (proj2 (stop_closes c ls g H1 H2 H3)). Qed.
Print Assumptions C69_closes.
(* ... and from then on a server that listens on Tcp only creates at most one more
   connection (the one whose Accept had already returned). *)
Theorem C69_accepts_partial c a b : let s := fst (srv_run c (srv_new c) a) in
  sf_mode c = ServeTcp -> sv_lclosed s = true -> added (snd (srv_run c s b)) <= 1.
Proof. exact (accepts_after c a b). Qed.
Print Assumptions C69_accepts_partial.
(* At most one call of Server.Stop ever returns. *)
Theorem C69_once c ls g h : let tr := snd (srv_run c (srv_new c) ls) in
  In (SvReturned g) tr -> In (SvReturned h) tr -> nth_error (calls ls) g = Some SStopCall -> nth_error (calls ls) h = Some SStopCall -> g = h.
Proof. exact (stop_once c ls g h). Qed.
Print Assumptions C69_once.
(* And a Server.Stop that begins when every accepted connection has started, with
   no other Server.Stop, never hangs in the Tcp, Kcp and default modes: whatever
   has happened, its own steps lead to its return. *)
Theorem C69_returns_partial c ls g : sf_mode c <> ServeWs -> one_stop ls -> no_window c (srv_new c) ls = true ->
  nth_error (calls ls) g = Some SStopCall -> sv_crashed (fst (srv_run c (srv_new c) ls)) = false ->
  exists n, In (SvReturned g) (snd (srv_run c (srv_new c) (ls ++ repeat (SStopStep g 0) n))).
Proof. intros M. apply stop_returns. unfold listener. now destruct (sf_mode c). Qed.
Print Assumptions C69_returns_partial.
Example C69_stop_case :
  let c := Scfg ServeTcp 5 false false false in
  let ls := accept4 ++ start 0 ++ [STcp true; STcp true; SClearCall; SStopCall; SStopStep 1 0] in
  let all := ls ++ [SStopStep 1 0; SStopStep 1 0; SStopStep 1 0] in
  one_stop ls /\ no_window c (srv_new c) ls = true /\ nth_error (calls ls) 1 = Some SStopCall /\ sv_crashed (fst (srv_run c (srv_new c) ls)) = false /\
  In (SvReturned 1) (snd (srv_run c (srv_new c) all)) /\
  sv_lclosed (fst (srv_run c (srv_new c) (all ++ [SListener]))) = true /\
  added (snd (srv_run c (fst (srv_run c (srv_new c) (all ++ [SListener]))) (accept4 ++ accept4))) = 1.
Proof.
  cbv zeta. split; [unfold one_stop; cbn; lia|]. do 5 (split; [vm_compute; tauto|]). vm_compute. reflexivity.
Qed.

(* Finding: in websocket mode nobody receives from exitChan: Server.Stop never returns. *)
Theorem C69_ws_refuted c ls g : sf_mode c = ServeWs -> nth_error (calls ls) g = Some SStopCall ->
  ~ In (SvReturned g) (snd (srv_run c (srv_new c) ls)).
Proof. exact (stop_hangs c ls g). Qed.
Print Assumptions C69_ws_refuted.
Example C69_ws_case :
  let ls := [SStopCall; SStopStep 0 0; SStopStep 0 0; SStopStep 0 0; SListener] in
  nth_error (calls ls) 0 = Some SStopCall /\ sv_stops (fst (srv_run (Scfg ServeWs 5 false false false) (srv_new (Scfg ServeWs 5 false false false)) ls)) = [PSend].
Proof. vm_compute. auto. Qed.
(* Finding: a connection accepted while Server.Stop runs outlives it: Stop has
   returned, the listener is closed, and the connection is managed and running. *)
Theorem C69_survivor_refuted c : sf_mode c <> ServeWs -> 0 < sf_max c ->
  exists ls, let s := fst (srv_run c (srv_new c) ls) in
  In (SvReturned 0) (snd (srv_run c (srv_new c) ls)) /\ sv_lclosed s = true /\ managed s 0 /\ ~ conn_stopped s 0.
Proof.
  intros M Hm. destruct c as [m [|x] h p q]; [cbn in Hm; lia|].
  set (stop := [SStopCall; SStopStep 0 0; SStopStep 0 0; SStopStep 0 0; SListener]).
  destruct m; [|destruct (M eq_refl)|..].
  - exists ([STcp true; STcp true] ++ stop ++ [STcp true; STcp true]). cbv zeta. unfold managed, conn_stopped. split; [vm_compute; auto|]. split; [vm_compute; auto|]. split.
    + eexists. split; [vm_compute; reflexivity|]. vm_compute. reflexivity.
    + intros (n & E & H). vm_compute in E. injection E as <-. vm_compute in H. discriminate.
  - exists ([SKcp true; SKcp true] ++ stop ++ [SKcp true; SKcp true]). cbv zeta. unfold managed, conn_stopped. split; [vm_compute; auto|]. split; [vm_compute; auto|]. split.
    + eexists. split; [vm_compute; reflexivity|]. vm_compute. reflexivity.
    + intros (n & E & H). vm_compute in E. injection E as <-. vm_compute in H. discriminate.
  - exists ([STcp true; STcp true] ++ stop ++ [STcp true; STcp true]). cbv zeta. unfold managed, conn_stopped. split; [vm_compute; auto|]. split; [vm_compute; auto|]. split.
    + eexists. split; [vm_compute; reflexivity|]. vm_compute. reflexivity.
    + intros (n & E & H). vm_compute in E. injection E as <-. vm_compute in H. discriminate.
Qed.
Print Assumptions C69_survivor_refuted.
(* Finding: in the default mode the websocket server is never stopped; it goes on
   accepting after Server.Stop has returned and the Tcp listener is closed. *)
Theorem C69_default_mode_refuted c : sf_mode c = ServeBoth -> 0 < sf_max c ->
  exists a b, let s := fst (srv_run c (srv_new c) a) in
  In (SvReturned 0) (snd (srv_run c (srv_new c) a)) /\ sv_lclosed s = true /\ added (snd (srv_run c s b)) = 2.
Proof.
  intros M Hm. destruct c as [m [|x] h p q]; [cbn in Hm; lia|]. cbn in M. subst m.
  exists [SStopCall; SStopStep 0 0; SStopStep 0 0; SStopStep 0 0; SListener].
  exists [SWsNew; SWsNew; SWs 0 true; SWs 1 true; SWs 0 true; SWs 1 true; SWs 0 true; SWs 1 true; SWs 0 true; SWs 1 true].
  vm_compute. auto.
Qed.
Print Assumptions C69_default_mode_refuted.

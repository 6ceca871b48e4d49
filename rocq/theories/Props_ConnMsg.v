(* C76: messages and the life of the connection they arrive on. *)
From Coq Require Import List Bool Arith Lia Permutation.
From Verif Require Import ConnLife ConnMsg Spec_ConnMsg ConnMsg_proofs.
Import ListNotations.

(* C76. A handler begins only after the start hook has returned, and none ever begins
   if that hook panics. *)
Theorem C76_after_start (M : Type) c (ls : list (mlabel M)) before m after :
  snd (cm_run c (cm_new c) ls) = before ++ MvBegin m :: after ->
  In (MvLife EvStartHook) before /\ lc_start_panics c = false.
Proof.
  intros H. destruct (split_run c ls _ _ _ _ H) as (l1 & l & l2 & p & q & -> & H1 & -> & _). apply step_begin in H1 as [-> [-> W]].
  rewrite app_nil_r. apply (n_msgs _ _ _ (ninv_run c l1)). now right.
Qed.
Print Assumptions C76_after_start.

(* After Stop at most one more read delivers anything. *)
Theorem C76_after_stop (M : Type) c (ls : list (mlabel M)) before after :
  snd (cm_run c (cm_new c) ls) = before ++ MvStop :: after -> reads after <= 1.
Proof.
  intros H. destruct (split_run c ls _ _ _ _ H) as (l1 & l & l2 & p & q & -> & H1 & -> & ->). apply step_stop in H1 as [-> C].
  cbn [app]. etransitivity; [apply after_run; exact C|]. unfold may_read. destruct (cm_rd _); lia.
Qed.
Print Assumptions C76_after_stop.

(* Every message taken from the network is handed to a handler at most once, and
   exactly once when reader and workers go on, whatever happens to the connection;
   what a panic in a decoder or interceptor gives up is listed. *)
Theorem C76_each_once (M : Type) c (ls : list (mlabel M)) :
  let s := fst (cm_run c (cm_new c) ls) in
  let tr := snd (cm_run c (cm_new c) ls) in
  lf_dead (cm_life s) = false ->
  (exists rest, Permutation (begun tr ++ lost tr ++ rest) (read_of tr)) /\
  exists more, Forall handing_over more /\
    let tr2 := snd (cm_run c (cm_new c) (ls ++ more)) in Permutation (begun tr2 ++ lost tr) (read_of tr).
Proof.
  intros s tr D. split; [eexists; exact (proj1 (minv_run c ls) D)|]. destruct (drain_all c s D) as [more [F [W [Hd [D2 [R L]]]]]].
  exists more. split; [exact F|]. pose proof (proj1 (minv_run c (ls ++ more))) as P. unfold minv in P. rewrite cm_run_app in *. cbn [fst snd] in *.
  fold s in P. fold tr in P. specialize (P D2). cbv zeta. rewrite W, Hd, !app_nil_r, lost_app, read_app, L, R, !app_nil_r in P. exact P.
Qed.
Print Assumptions C76_each_once.
Theorem C76_none_lost (M : Type) c (ls : list (mlabel M)) : no_panic ls -> lost (snd (cm_run c (cm_new c) ls)) = [].
Proof. intros H. exact (no_lost c ls _ H). Qed.
Print Assumptions C76_none_lost.

(* On TCP and KCP no panic in a hook, a decoder or an interceptor ends the process. *)
Theorem C76_contained_partial (M : Type) c (ls : list (mlabel M)) : lc_kind c <> KWs -> lf_dead (cm_life (fst (cm_run c (cm_new c) ls))) = false.
Proof. intros K. apply alive; [exact K|reflexivity]. Qed.
Print Assumptions C76_contained_partial.
(* Refuted for websocket (F65): the reader does not recover.  Any data that makes a
   decoder or interceptor panic ends the process; what waits is never handled. *)
Theorem C76_contained_refuted (M : Type) c (m m2 : M) : lc_kind c = KWs -> lc_start_panics c = false ->
  exists ls, let s := fst (cm_run c (cm_new c) ls) in let tr := snd (cm_run c (cm_new c) ls) in
    In MvCrash tr /\ cm_wait s = [m] /\ forall more, cm_run c s more = (s, []).
Proof.
  intros K P. exists (repeat (MLife LMain) 6 ++ [MTop; MRead (Some [m; m2]); MExec false; MExec true]).
  cbv zeta. destruct c as [k hc sp st]; cbn in K, P; subst k sp. split; [|split].
  - destruct hc; vm_compute; tauto.
  - destruct hc; vm_compute; reflexivity.
  - intros more. apply dead_run. destruct hc; vm_compute; reflexivity.
Qed.
Print Assumptions C76_contained_refuted.

(* Refuted (F66): handlers do begin after the stop hook has returned, on every kind of
   connection without a heartbeat. *)
Theorem C76_after_end_refuted (M : Type) k (m : M) :
  exists ls before after, snd (cm_run (Lcfg k false false false) (cm_new (Lcfg k false false false)) ls) = before ++ MvBegin m :: after /\
    In (MvLife EvStopHook) before /\ In (MvLife EvRemove) before.
Proof.
  exists (repeat (MLife LMain) 6 ++ [MTop; MRead (Some [m]); MExec false; MLife LStop] ++ repeat (MLife LMain) 14 ++ [MBegin 0]).
  exists (match k with
          | KTcp => [MvLife EvStartHook; MvRead [m]; MvStop; MvLife EvStopHook; MvLife EvClose; MvLife EvRemove; MvLife EvCallbacks; MvLife EvFree]
          | KWs => [MvLife EvStartHook; MvRead [m]; MvStop; MvLife EvStopHook; MvLife EvClose; MvLife EvRemove; MvLife EvChanClosed; MvLife EvCallbacks; MvLife EvFree]
          | KKcp => [MvLife EvStartHook; MvRead [m]; MvStop; MvLife EvStopHook; MvLife EvClose; MvLife EvRemove; MvLife EvChanClosed; MvLife EvCallbacks; MvLife EvFree]
          end), [].
  destruct k; (split; [vm_compute; reflexivity|]); cbn; tauto.
Qed.
Print Assumptions C76_after_end_refuted.

(* Two messages of one read, one handled before Stop, one after; a last read succeeds
   after Stop, its message is handled too. *)
Example C76_case :
  let c := Lcfg KTcp true false false in
  let ls := repeat (MLife LMain) 6 ++ [MTop; MRead (Some [1; 2]); MExec false; MBegin 0; MExec false; MExec false; MTop; MLife LStop;
            MRead (Some [3]); MExec false; MExec false; MTop; MBegin 0; MBegin 0] ++ repeat (MLife LMain) 8 in
  snd (cm_run c (cm_new c) ls) =
    [MvLife EvStartHook; MvRead [1; 2]; MvBegin 1; MvStop; MvRead [3]; MvBegin 2; MvBegin 3;
     MvLife EvStopHook; MvLife EvClose; MvLife EvRemove; MvLife EvCallbacks; MvLife EvFree] /\
  no_panic ls /\ lf_dead (cm_life (fst (cm_run c (cm_new c) ls))) = false.
Proof.
  cbv zeta. split; [vm_compute; reflexivity|]. split; [|vm_compute; reflexivity].
  apply Forall_forall. intros l H E. subst l. vm_compute in H. intuition discriminate.
Qed.

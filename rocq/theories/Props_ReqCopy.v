(* C94: a copied request is passive. *)
From Coq Require Import ZArith List Bool Lia.
From Verif Require Import Bytes Pack Request Spec_Request Request_proofs RequestHeap Spec_RequestHeap RequestHeap_proofs ReqCopy Spec_ReqCopy ReqCopy_proofs Props_Request.
Import ListNotations.
Local Open Scope Z_scope.

(* [copy_rst] is what Copy makes (C21's object model). *)
Theorem C94_copy : forall w r o s, nth_error (w_objs w) r = Some o -> rs_msg s = o_msg o -> rs_steps s = o_steps o ->
  exists oc, nth_error (w_objs (fst (req_copy w r))) (snd (req_copy w r)) = Some oc /\ o_conn oc = None /\
    o_msg oc = rs_msg (copy_rst s) /\ o_steps oc = rs_steps (copy_rst s) /\ o_need oc = rs_need (copy_rst s) /\
    o_index oc = rs_index (copy_rst s) /\ o_resp oc = rs_resp (copy_rst s).
Proof.
  intros w r o s E M S. unfold req_copy. rewrite E. cbn [add_obj fst snd w_objs]. eexists. rewrite nth_error_app2, PeanoNat.Nat.sub_diag by lia.
  cbn. split; [reflexivity|]. cbn. rewrite M, S. repeat split.
Qed.
Print Assumptions C94_copy.

(* Whatever user code calls on a copy, in either router mode, no handler or phase starts; Call on
   it does nothing at all. *)
Theorem C94_runs_nothing : forall mode a s, starts (fst (use_copy mode a s)) = [] /\ forall fuel, call_copy fuel s = ([], HDone (copy_rst s)).
Proof.
  intros mode a s. split; [|reflexivity]. pose proof (use_quiet mode a (copy_rst s)) as H. unfold use_copy. induction H as [|e es He _ IH]; [reflexivity|].
  cbn [starts flat_map]. unfold starts in IH. rewrite IH. destruct e; cbn in He; try contradiction; reflexivity.
Qed.
Print Assumptions C94_runs_nothing.

(* It comes to its end, unless it panics of itself or calls RouterSlicesNext.  Missing: code that
   calls RouterSlicesNext; false (below). *)
Theorem C94_ends_partial : forall mode a s es o, use_copy mode a s = (es, o) -> ~ In HvPanic es -> ~ In HvNext es -> exists s', o = HDone s'.
Proof.
  intros mode a s es o E P N. destruct (use_ends _ _ _ _ _ E) as (F & B). destruct o as [s'| |]; [eauto| |congruence].
  destruct (B eq_refl); contradiction.
Qed.
Print Assumptions C94_ends_partial.

(* Refuted (F97): RouterSlicesNext on a copy panics, for every request and in both modes: its int8
   index wraps to -128.  The goroutine is the user's own, so nothing recovers. *)
Theorem C94_next_refuted : forall mode k s, use_copy mode (HNext k) s = ([HvNext], HPanicked).
Proof. intros. reflexivity. Qed.
Print Assumptions C94_next_refuted.

(* For every history of requests, copies and calls (pooled or not): what is done to other
   requests, such as its copies or its original, leaves a request in use alone: its object, message,
   phase, index and response, and its context. *)
Theorem C94_apart : forall pooled pre os h r o, let s := fst (qrun pooled qinit pre) in
  live s h = Some r -> nth_error (w_objs (q_world s)) r = Some o -> (forall p, In p os -> ~ writes_to h p) ->
  let s' := fst (qrun pooled s os) in
  live s' h = Some r /\ nth_error (w_objs (q_world s')) r = Some o /\ forall key, req_get (q_world s') r key = req_get (q_world s) r key.
Proof. intros pooled pre os h r o s L E N. destruct (reach_qsim pooled pre) as (l & Q). exact (run_apart pooled os h r o s l Q L E N). Qed.
Print Assumptions C94_apart.

(* A copy that is given a router again: Call runs the phase the original was in, and then a legal
   run that begins with the same phase once more. *)
Theorem C94_rebound_twice : forall fuel r s es o es1 s1, 0 <= rs_steps s < 3 ->
  use_copy false (code_of r (rs_steps s)) s = (es1, HDone s1) -> last_redirect es1 = NoRedirect ->
  bind_copy (S fuel) r s = (es, o) ->
  exists rest, es = HvStart (rs_steps s) :: es1 ++ HvEnd (rs_steps s) :: rest /\ phase_run r (completed o) (Some (rs_steps s)) rest.
Proof.
  intros fuel r s es o es1 s1 Hr H1 H2 E. unfold bind_copy, call in E. cbn [call_loop copy_rst rs_steps] in E.
  destruct (Z.ltb_spec (rs_steps s) 3); [|lia].
  assert (Eb : phase_body r (rs_steps s) = Some (code_of r (rs_steps s))) by (assert (rs_steps s = 0 \/ rs_steps s = 1 \/ rs_steps s = 2) as [->|[->| ->]] by lia; reflexivity).
  change (rs_steps (copy_rst s)) with (rs_steps s) in E. rewrite Eb in E. unfold use_copy in H1. rewrite H1 in E.
  destruct (call_loop fuel r (next_step s1)) as [es2 o2] eqn:E2. injection E as <- <-. exists es2. split; [reflexivity|].
  destruct (phase_body_run _ _ _ _ H1) as (_ & _ & Hd). specialize (Hd _ eq_refl). rewrite H2 in Hd. destruct Hd as (D1 & D2). cbn in D1, D2.
  assert (Hn : rs_need (next_step s1) = true) by (unfold next_step; rewrite D2; reflexivity).
  destruct (call_loop_phases _ _ _ _ _ Hn E2) as (P & _). unfold next_step in P. rewrite D2 in P. cbn [set_need rs_steps] in P. rewrite D1 in P.
  unfold valid_phase in P. replace (rs_steps s <? 0) with false in P by (symmetry; apply Z.ltb_ge; lia). replace (rs_steps s <? 3) with true in P by (symmetry; apply Z.ltb_lt; lia). exact P.
Qed.
Print Assumptions C94_rebound_twice.

(* A request in its second phase is copied; the copy's code sets, reads, aborts and even goes on
   after an Abort in the slice mode. *)
Definition in_handle : rst := set_keys (set_steps (fresh_request some_msg) 1) [(5, 50)].
Definition copy_code : hact := HSet 6 60 (HGet 5 (fun v => match v with Some 50 => HGoto 0 HRet | _ => HPanic end)).
Example C94_case :
  fst (use_copy true copy_code in_handle) = [HvSet 6 60; HvGot 5 (Some 50); HvGoto 0] /\
  (exists s, snd (use_copy true copy_code in_handle) = HDone s) /\
  (exists s, use_copy true (HAbort (HNext HRet)) in_handle = ([HvAbort; HvNext], HDone s)) /\
  (exists s, bind_copy 9 (Router HRet (HSet 6 60 HRet) HRet) in_handle = ([HvStart 1; HvSet 6 60; HvEnd 1; HvStart 1; HvSet 6 60; HvEnd 1; HvStart 2; HvEnd 2], HDone s)).
Proof. repeat split; try reflexivity; eexists; vm_compute; reflexivity. Qed.
(* A pooled request, its copy, and others that come and go. *)
Definition life : list qop := [QNew None 1 some_msg; QSet 0 5 50; QCopy 0].
Definition others : list qop := [QSet 1 5 51; QControl 1 3 true 0; QNew None 2 some_msg; QPut 2; QNew (Some 0%nat) 3 some_msg; QSet 3 5 52; QSetResp 1 9; QPut 1].
Example C94_apart_case : let s := fst (qrun true qinit life) in
  live s 0 = Some 0%nat /\ (exists o, nth_error (w_objs (q_world s)) 0 = Some o /\ o_steps o = 0) /\ (forall p, In p others -> ~ writes_to 0 p) /\
  req_get (q_world (fst (qrun true s others))) 0 5 = Some 50.
Proof.
  split; [reflexivity|]. split; [eexists; split; reflexivity|]. split; [|reflexivity].
  intros p I. cbn in I. repeat destruct I as [<-|I]; cbn; try lia; try tauto.
Qed.

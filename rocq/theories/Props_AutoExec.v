(* C79: a scheduler that calls the functions itself calls each due timer's function, once and with its own arguments. *)
From Coq Require Import ZArith List Bool Lia Permutation.
From Verif Require Import Bytes TimeWheel Spec_TimeWheel TimeWheel_proofs TimeWheel2_proofs TimedWheel TimedWheel_proofs Spec_TimedWheel TimeWheel3_proofs AutoExec Spec_AutoExec AutoExec_proofs AutoExec2_proofs.
Import ListNotations.
Local Open Scope Z_scope.

(* C79. Each timer's function is called at most once, and every call is for a timer that was set up
   before, with a function: no call comes from nowhere. *)
Theorem C79_once : forall conf ls, let a := x_run (new_auto conf) ls in
  NoDup (map c_src (x_begun a)) /\
  forall c, In c (x_begun a) -> exists ls1 l ls2 d, ls = ls1 ++ l :: ls2 /\ sets_up (x_run (new_auto conf) ls1) l (Some d) (c_src c).
Proof.
  intros conf ls a. destruct (begun_run conf ls) as (N & B). fold a in N, B. split; [exact N|]. intros c Hc. destruct (B c Hc) as (g & Ig & Eg & _).
  destruct (sourced conf ls) as (S1 & S2). fold a in S1, S2.
  assert (X : exists ls1 l ls2 df, ls = ls1 ++ l :: ls2 /\ sets_up (x_run (new_auto conf) ls1) l df (c_src c)).
  { destruct (c_src c) as [o|n] eqn:Ec.
    - assert (R : 0 <= o < Z.of_nat (length (s_made (x_sched a)))) by (apply (sched_range conf ls); fold a; apply in_or_app; left; rewrite <- Eg; now apply in_map).
      destruct (nth_error (s_made (x_sched a)) (Z.to_nat o)) as [e|] eqn:En; [|apply nth_error_None in En; lia]. destruct (x_once conf ls) as ((_ & M) & _). fold a in M. assert (Q := M _ _ En).
      replace o with (e_obj e) by lia. apply S1. now apply nth_error_In in En.
    - apply S2. apply (lone_range conf ls). fold a. rewrite <- Eg. now apply in_map. }
  destruct X as (ls1 & l & ls2 & df & E & U). destruct df as [d|]; [eauto 8|]. exfalso.
  (* a nil DelayFunc is never called *)
  destruct (set_up_tied conf ls1 l None (c_src c) U) as (T & _ & _ & B0 & NB).
  assert (K : forall q, tied (c_src c) None (wake_of l) (x_run (new_auto conf) (ls1 ++ l :: q)) /\ forall c', In c' (x_begun (x_run (new_auto conf) (ls1 ++ l :: q))) -> c_src c' <> c_src c).
  { induction q as [|y q (IH1 & IH2)] using rev_ind.
    - rewrite x_run_snoc. split; [exact T|]. rewrite B0. exact NB.
    - rewrite app_comm_cons, app_assoc, x_run_snoc. split; [apply tied_step; [intros x; apply chan_sched|exact IH1]|].
      set (b := x_run (new_auto conf) (ls1 ++ l :: q)) in *. apply (step_cases (fun b' => forall c', In c' (x_begun b') -> c_src c' <> c_src c)); try (intros; apply IH2; assumption).
      intros i now g' -> E' St W. apply (begin_cases b i g' now (fun b' => forall c', In c' (x_begun b') -> c_src c' <> c_src c)); try (intros; apply IH2; assumption).
      intros d f sl Ed Ef c' Hc' Ec'. cbn [x_begun] in Hc'. apply in_app_or in Hc'. destruct Hc' as [Hc'|[<-|[]]]; [now apply (IH2 c')|]. cbn in Ec'. destruct IH1 as (T1 & _).
      destruct (T1 g') as (Q & _); [now apply nth_error_In in E'|exact Ec'|]. congruence. }
  destruct (K ls2) as (_ & K2). rewrite <- E in K2. now apply (K2 c Hc).
Qed.
Print Assumptions C79_once.

(* The call is of the function given, with the arguments given, provided nobody writes to the
   argument slice in between. *)
Theorem C79_function_partial : forall conf ls1 l ls2 d f sl args src, let a := x_run (new_auto conf) ls1 in
  sets_up a l (Some d) src -> nth_error (x_funcs a) d = Some (DFunc (Some f) sl) -> nth_error (x_slices a) sl = Some args -> unwritten sl ls2 ->
  forall c, In c (x_begun (x_run (new_auto conf) (ls1 ++ l :: ls2))) -> c_src c = src -> c_fun c = f /\ c_args c = args.
Proof.
  intros conf ls1 l ls2 d f sl args src a U F S W. destruct (set_up_tied conf ls1 l (Some d) src U) as (T & E1 & E2 & E3 & NB). fold a in E1, E2, E3, NB.
  assert (X : said src d sl f args (wake_of l) (x_run (new_auto conf) (ls1 ++ [l]))).
  { rewrite x_run_snoc. split; [exact T|]. fold a. rewrite E1, E2, E3. split; [exact F|]. split; [exact S|]. intros c Hc Ec. now destruct (NB c Hc). }
  apply (said_run conf ls2) in X; [|exact W]. rewrite <- app_assoc in X. cbn [app] in X. destruct X as (_ & _ & _ & X). exact X.
Qed.
Print Assumptions C79_function_partial.

(* Timers are put in the channel, and get a goroutine each, in the order they are handed out. *)
Theorem C79_fifo : forall conf ls, let a := x_run (new_auto conf) ls in
  launched a ++ in_channel a = map (fun e => OfSched (e_obj e)) (due_out a).
Proof. intros conf ls a. destruct (links_run conf ls) as (L & _). exact L. Qed.
Print Assumptions C79_fifo.

(* Whatever has happened, and even if no function that was called ever ends, the scheduler's own
   goroutines can take every timer a poll has found through the channel and call its function. *)
Theorem C79_progress : forall conf ls, (forall l, In l ls -> passes_nil l = false) ->
  exists own, (forall l, In l own -> own_step l = true) /\
    let a := x_run (new_auto conf) ls in let b := x_run (new_auto conf) (ls ++ own) in
    taken (x_sched b) = [] /\ in_channel b = [] /\ due_out b = due_out a ++ taken (x_sched a) /\
    forall e, In e (due_out b) -> has_function b e -> called b e.
Proof. exact progress. Qed.
Print Assumptions C79_progress.

(* Panics of called functions, and nil functions, do not end the process: only a nil DelayFunc does. *)
Theorem C79_alive_partial : forall conf ls, (forall l, In l ls -> passes_nil l = false) -> x_dead (x_run (new_auto conf) ls) = false.
Proof. intros conf ls H. now destruct (no_nil_run conf ls H). Qed.
Print Assumptions C79_alive_partial.

(* A function that panics does no more harm than one that returns: a line is logged, the rest is the same. *)
Theorem C79_panic : forall conf ls, all_but_log (x_run (new_auto conf) ls) = all_but_log (x_run (new_auto conf) (map no_panic ls)).
Proof. intros. now apply panic_run. Qed.
Print Assumptions C79_panic.

(* At most 2048 timers wait in the channel; if nobody reads it (NewTimerScheduler and Start), no more than
   2048 timers are ever handed out. *)
Theorem C79_channel : forall conf ls, let a := x_run (new_auto conf) ls in
  Z.of_nat (length (in_channel a)) <= 2048 /\ (~ In XReceive ls -> Z.of_nat (length (due_out a)) <= 2048).
Proof.
  intros conf ls a. assert (B := chan_bound conf ls). fold a in B. unfold in_channel. rewrite map_length. split; [exact B|]. intros N.
  assert (L := C79_fifo conf ls). cbv zeta in L. fold a in L. rewrite (unread conf ls N : launched a = []) in L. apply (f_equal (@length _)) in L. unfold in_channel in L. cbn [app] in L. rewrite !map_length in L. lia.
Qed.
Print Assumptions C79_channel.

(* Timer.Run calls not earlier than one millisecond before the moment asked for. *)
Theorem C79_lone_not_early : forall conf ls1 t df now ls2 src c, let l := XRun t df now in
  sets_up (x_run (new_auto conf) ls1) l df src -> a_create t = true -> fits (requested (call_time t) t) -> 0 <= now ->
  In c (x_begun (x_run (new_auto conf) (ls1 ++ l :: ls2))) -> c_src c = src -> requested (call_time t) t - c_now c < 1000000.
Proof.
  intros conf ls1 t df now ls2 src c l U C F Hn Hc Ec. destruct (set_up_tied conf ls1 l df src U) as (T & _ & _ & E3 & NB). cbn [wake_of l] in T. assert (U' := U). destruct U' as (_ & _ & ->).
  set (n := x_lone (x_run (new_auto conf) ls1)) in *.
  assert (X : slept n (wake_at (due_of t) now) (x_run (new_auto conf) (ls1 ++ [l]))).
  { rewrite x_run_snoc. split; [now exists df|]. rewrite E3. intros c' Hc' Ec'. now destruct (NB c' Hc'). }
  apply (slept_run conf ls2) in X. rewrite <- app_assoc in X. cbn [app] in X. destruct X as (_ & X). specialize (X c Hc Ec). assert (W := wake_late t now C F Hn). lia.
Qed.
Print Assumptions C79_lone_not_early.

(* Timers wanted far enough apart are handed out in that order: when the first one's latest moment
   (C51) is 100 ms or more before the moment wanted for the second. *)
Theorem C79_order_partial : forall late gap now0 due p1 l1 e1 q1 p2 l2 e2 q2 r2, 0 <= late -> 0 <= gap -> 0 <= now0 -> first_ticks late hms now0 due ->
  p1 ++ Do l1 :: q1 = p2 ++ Do l2 :: q2 -> tm_creations (p1 ++ Do l1 :: q1) <= 2 ^ 32 ->
  let t1 := tm_run late gap (tm_start hms now0 due) p1 in
  let t2 := tm_run late gap (tm_start hms now0 due) p2 in
  let t := tm_run late gap (tm_start hms now0 due) (p1 ++ Do l1 :: q1) in
  let latest := Z.max (requested (t_now t1) l1) (t_now t1) + 999999 + 60 * late + gap in
  tm_makes late gap t1 l1 e1 -> fits (requested (t_now t1) l1) -> ~ In (Do (CancelStart (e_id e1))) q1 ->
  tm_makes late gap t2 l2 e2 -> fits (requested (t_now t2) l2) ->
  latest + 100000000 <= requested (t_now t2) l2 -> In (e2, r2) (s_sent (t_sched t)) ->
  exists r1, before (s_sent (t_sched t)) (e1, r1) (e2, r2).
Proof. exact far_apart. Qed.
Print Assumptions C79_order_partial.

(* Two timers due 300 ms apart, the later one created first, both called. *)
Definition morning : Z := 1700000000000000000.
Definition m_clock : list Z := [morning; morning; morning].
Definition later_t : tlabel := CreateAfter morning 400000000 m_clock.
Definition sooner_t : tlabel := CreateAfter morning 100000000 m_clock.
Definition two : list xlabel :=
  [XSlice [7; 8]; XSlice [9]; XFunc (Some 1) 0; XFunc (Some 2) 1; XCreate later_t (Some 0%nat); XCreate sooner_t (Some 1%nat);
   XWheel (Poll (morning + 50000000)); XWheel (PollSend 0); XReceive; XBegin 0 (morning + 50000000); XPanic 0;
   XWheel (Poll (morning + 350000000)); XWheel (PollSend 0)].
Example C79_case : let a := x_run (new_auto hms) two in
  x_begun a = [Call (OfSched 1) 2 [9] (morning + 50000000)] /\ in_channel a = [OfSched 0] /\ x_errs a = [OfSched 1] /\
  (forall l, In l two -> passes_nil l = false) /\ ~ In (XWrite 1 0 0) two /\
  sets_up (x_run (new_auto hms) (firstn 5 two)) (XCreate sooner_t (Some 1%nat)) (Some 1%nat) (OfSched 1) /\
  x_begun (x_run a [XReceive; XBegin 1 (morning + 360000000)]) = [Call (OfSched 1) 2 [9] (morning + 50000000); Call (OfSched 0) 1 [7; 8] (morning + 360000000)].
Proof.
  cbv zeta. split; [vm_compute; reflexivity|]. split; [vm_compute; reflexivity|]. split; [vm_compute; reflexivity|].
  split; [intros l H; repeat (destruct H as [<-|H]; [reflexivity|]); destruct H|].
  split; [cbn; intuition discriminate|]. split; [|vm_compute; reflexivity]. split; [reflexivity|]. exists (Entry 2 1 1700000000100). split; vm_compute; reflexivity.
Qed.

(* Timer.Run by itself. *)
Example C79_case_lone : let a := x_run (new_auto hms) [XSlice [5]; XFunc (Some 3) 0; XRun (CreateAfter morning 2500000 []) (Some 0%nat) (morning + 300000);
    XBegin 0 (morning + 1900000); XBegin 0 (morning + 2300000)] in
  x_begun a = [Call (Lone 0) 3 [5] (morning + 2300000)].
Proof. vm_compute. reflexivity. Qed.

(* Order, timed: the later one was created first. *)
Definition m_ticks : list Z := [morning + 3600000000000; morning + 60000000000; morning + 1000000000].
Definition fifties (n : nat) : list tmlabel := concat (repeat [Advance 50000000; Do (Poll 0); Do (PollSend 0)] n).
Example C79_case_order : let l2 := CreateAfter 0 400000000 [] in let l1 := CreateAfter 0 100000000 [] in let tail := fifties 8 in
  let t := tm_run 0 50000000 (tm_start hms morning m_ticks) ([] ++ Do l2 :: Do l1 :: tail) in
  first_ticks 0 hms morning m_ticks /\ [Do l2] ++ Do l1 :: tail = [] ++ Do l2 :: (Do l1 :: tail) /\
  tm_makes 0 50000000 (tm_run 0 50000000 (tm_start hms morning m_ticks) [Do l2]) l1 (Entry 2 1 1700000000100) /\
  tm_makes 0 50000000 (tm_start hms morning m_ticks) l2 (Entry 1 0 1700000000400) /\
  Z.max (requested morning l1) morning + 999999 + 60 * 0 + 50000000 + 100000000 <= requested morning l2 /\
  s_sent (t_sched t) = [(Entry 2 1 1700000000100, morning + 50000000); (Entry 1 0 1700000000400, morning + 350000000)].
Proof.
  cbv zeta. split; [repeat constructor; vm_compute; discriminate|]. split; [reflexivity|]. split; [split; vm_compute; reflexivity|]. split; [split; vm_compute; reflexivity|].
  split; [vm_compute; discriminate|vm_compute; reflexivity].
Qed.

(* Refuted: the arguments given.  The slice is not copied, not even by the call: a function that changes
   its parameters changes those of a second timer with the same DelayFunc. *)
Theorem C79_arguments_refuted : exists ls1 l ls2 d sl args, let a := x_run (new_auto hms) ls1 in let b := x_run (new_auto hms) (ls1 ++ l :: ls2) in
  sets_up a l (Some d) (OfSched 1) /\ nth_error (x_funcs a) d = Some (DFunc (Some 1) sl) /\ nth_error (x_slices a) sl = Some args /\
  (* the write is made while the function of timer 0, which was given this slice, runs *)
  (exists u i v w, ls2 = u ++ XWrite sl i v :: w /\ exists g, nth_error (x_gos (x_run (new_auto hms) (ls1 ++ l :: u))) 0 = Some g /\ g_src g = OfSched 0 /\ g_stage g = Running) /\
  exists c, In c (x_begun b) /\ c_src c = OfSched 1 /\ c_args c <> args.
Proof.
  exists [XSlice [7]; XFunc (Some 1) 0; XCreate (CreateAfter morning 50000000 m_clock) (Some 0%nat)], (XCreate (CreateAfter morning 50000000 m_clock) (Some 0%nat)),
    ([XWheel (Poll morning); XWheel (PollSend 0); XWheel (PollSend 0); XReceive; XReceive; XBegin 0 morning] ++ XWrite 0 0 99 :: [XReturn 0; XBegin 1 morning]), 0%nat, 0%nat, [7].
  cbv zeta. split; [split; [reflexivity|]; exists (Entry 2 1 1700000000050); split; vm_compute; reflexivity|]. split; [vm_compute; reflexivity|]. split; [vm_compute; reflexivity|]. split.
  - eexists _, 0%nat, 99, _. split; [reflexivity|]. eexists. split; [vm_compute; reflexivity|]. split; reflexivity.
  - exists (Call (OfSched 1) 1 [99] morning). split; [vm_compute; auto|]. split; [reflexivity|discriminate].
Qed.
Print Assumptions C79_arguments_refuted.

(* Refuted: a failing call is contained.  A timer with a nil DelayFunc ends the process when it is
   due: the handler of the panic uses the DelayFunc again. *)
Theorem C79_nil_refuted : exists ls, let a := x_run (new_auto hms) ls in
  x_dead a = true /\ (forall l, In l ls -> l = XCreate (CreateAfter morning 50000000 m_clock) None \/ own_step l = true \/ l = XWheel (Poll morning)) /\
  forall ls2, x_begun (x_run a ls2) = x_begun a.
Proof.
  exists [XCreate (CreateAfter morning 50000000 m_clock) None; XWheel (Poll morning); XWheel (PollSend 0); XReceive; XBegin 0 morning]. cbv zeta.
  set (a := x_run _ _). assert (D : x_dead a = true) by (vm_compute; reflexivity). split; [exact D|]. split.
  - intros l [<-|[<-|[<-|[<-|[<-|[]]]]]]; auto.
  - clearbody a. induction ls2 as [|l ls2 IH] using rev_ind; [reflexivity|]. assert (X : x_run a (ls2 ++ [l]) = a).
    { clear IH. induction (ls2 ++ [l]) as [|y r IHr]; [reflexivity|]. cbn. unfold x_step at 2. rewrite D. exact IHr. }
    now rewrite X.
Qed.
Print Assumptions C79_nil_refuted.

(* Refuted: functions are called in the order their timers are due, however far apart: each has a
   goroutine of its own.  (Timers less than 100 ms apart may even be handed out in the other order.) *)
Theorem C79_order_refuted : exists ls c1 c2, let a := x_run (new_auto hms) ls in
  before (x_begun a) c2 c1 /\ before (due_out a) (Entry 2 1 1700000000100) (Entry 1 0 1700000000400) /\ c_src c1 = OfSched 1 /\ c_src c2 = OfSched 0.
Proof.
  exists (firstn 9 two ++ [XWheel (Poll (morning + 350000000)); XWheel (PollSend 0); XReceive; XBegin 1 (morning + 350000000); XBegin 0 (morning + 350000000)]),
    (Call (OfSched 1) 2 [9] (morning + 350000000)), (Call (OfSched 0) 1 [7; 8] (morning + 350000000)).
  cbv zeta. split; [exists [], [], []; vm_compute; reflexivity|]. split; [exists [], [], []; vm_compute; reflexivity|]. split; reflexivity.
Qed.
Print Assumptions C79_order_refuted.
Theorem C79_close_refuted : exists ls e1 e2, let s := x_sched (x_run (new_auto hms) ls) in
  before (handed s) e2 e1 /\ e_due e1 + 90 = e_due e2 /\ forall e, In e (handed s) -> e_due e - e_due e1 < 100.
Proof.
  exists [XSlice []; XFunc (Some 1) 0; XCreate (CreateAfter morning 5000000 m_clock) (Some 0%nat); XCreate (CreateAfter morning 95000000 m_clock) (Some 0%nat); XWheel (Poll morning); XWheel (PollSend 1); XWheel (PollSend 0)],
    (Entry 1 0 1700000000005), (Entry 2 1 1700000000095).
  cbv zeta. split; [exists [], [], []; vm_compute; reflexivity|]. split; [reflexivity|].
  match goal with |- forall e, In e ?h -> _ => assert (E : h = [Entry 2 1 1700000000095; Entry 1 0 1700000000005]) by (vm_compute; reflexivity); rewrite E end. intros e [<-|[<-|[]]]; reflexivity.
Qed.
Print Assumptions C79_close_refuted.

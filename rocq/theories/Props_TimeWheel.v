(* C47-C51: the timer scheduler. *)
From Coq Require Import ZArith List Bool Lia.
From Verif Require Import Bytes TimeWheel Spec_TimeWheel TimeWheel_proofs TimeWheel2_proofs TimedWheel Spec_TimedWheel TimedWheel_proofs TimeWheel3_proofs.
Import ListNotations.
Local Open Scope Z_scope.

(* C47: no timer is handed out twice, whatever the wheels, the schedule and the clock
   readings.  The number e_obj tells timers apart: no two created timers share it. *)
Theorem C47_at_most_once : forall conf ls, let s := t_run (new_sched_of conf) ls in
  NoDup (map e_obj (handed s)) /\ NoDup (map e_obj (s_made s)) /\ incl (handed s) (s_made s).
Proof.
  intros conf ls s. destruct (once_run conf ls) as (M & N & I). fold s in M, N, I. unfold everywhere in N, I. rewrite !map_app in N. split; [|split].
  - apply nodup_app_r in N. now apply nodup_app_r in N.
  - apply (NoDup_nth_error (map e_obj (s_made s))). intros i j Hi E. rewrite map_length in Hi. destruct M as (_ & M). rewrite !nth_error_map in E.
    destruct (nth_error (s_made s) i) as [x|] eqn:Ex; [|apply nth_error_None in Ex; lia]. destruct (nth_error (s_made s) j) as [y|] eqn:Ey; [|discriminate].
    apply M in Ex, Ey. cbn in E. injection E as E. lia.
  - intros x Hx. apply I. apply in_or_app. right. apply in_or_app. now right.
Qed.
Print Assumptions C47_at_most_once.

(* A timer due now is handed out; a second poll does not find it again. *)
Definition due_now : list tlabel := [CreateAt 5000000000 [5000000000; 5000000000; 5000000000]; Poll 5000000000; PollSend 0; Poll 5050000000; PollSend 0].
Example C47_case : handed (t_run new_sched due_now) = [Entry 1 0 5000].
Proof. reflexivity. Qed.

(* C48: a timer handed out on a clock reading [now] was wanted less than 100 ms later. *)
Theorem C48_never_early : forall conf ls1 l e ls2 e' now,
  makes (t_run (new_sched_of conf) ls1) l e -> fits (requested (call_time l) l) ->
  In (e', now) (s_sent (t_run (new_sched_of conf) (ls1 ++ l :: ls2))) -> e_obj e' = e_obj e -> 0 <= now ->
  requested (call_time l) l - now < 100000000.
Proof. exact not_early. Qed.
Print Assumptions C48_never_early.

Example C48_case : let l := CreateAfter 5000000000 80000000 [5000000000; 5000000000; 5000000000] in
  let e := Entry 1 0 5080 in
  makes (t_run new_sched []) l e /\ fits (requested (call_time l) l) /\ In (e, 5000000000) (s_sent (t_run new_sched ([] ++ l :: [Poll 5000000000; PollSend 0]))).
Proof. vm_compute. repeat split; try discriminate. now left. Qed.
(* At 100 ms the poll leaves it. *)
Example C48_edge : let l := CreateAfter 5000000000 100000000 [5000000000; 5000000000; 5000000000] in
  s_sent (t_run new_sched (l :: [Poll 5000000000; PollSend 0])) = [] /\ s_sent (t_run new_sched (l :: [Poll 5001000000; PollSend 0])) = [(Entry 1 0 5100, 5001000000)].
Proof. split; reflexivity. Qed.

(* A duration that takes the sum past the int64 range: the timer is handed out at once. *)
Theorem C48_overflow_refuted : exists now dur clock r e, let l := CreateAfter now dur clock in
  0 < dur < 2 ^ 63 /\ makes new_sched l e /\ In (e, r) (s_sent (t_run new_sched [l; Poll r; PollSend 0])) /\ requested (call_time l) l - r = dur /\ 100000000 <= dur.
Proof.
  exists 1800000000000000000, (2 ^ 63 - 1), [1800000000000000000; 1800000000000000000; 1800000000000000000], 1800000000000000000, (Entry 1 0 (-7423372036854)).
  vm_compute. repeat split; try congruence. now left.
Qed.
Print Assumptions C48_overflow_refuted.

(* C49: when a CancelTimer of [id] ends (its last CancelScan), a timer with that ID that was
   created before and that no poll had already taken is never handed out afterwards. *)
Theorem C49_cancelled_partial : forall conf ls id k s1, s_cancel (t_run (new_sched_of conf) ls) = Some (id, k) ->
  t_step1 (t_run (new_sched_of conf) ls) CancelScan = Some s1 -> s_cancel s1 = None ->
  forall e ls2, In e (s_made s1) -> e_id e = id -> ~ In e (taken s1) -> ~ In e (handed s1) -> ~ In e (handed (t_run s1 ls2)).
Proof.
  intros conf ls id k s1 Ec E En e ls2 Hm Hid Nt Nh H.
  assert (O : once s1) by (apply (once_step _ _ _ (once_run conf ls) E)).
  destruct (gone_run e ls2 s1 O Hm) as (_ & X); [intros Hs; apply (cancelled_gone conf ls id k s1 Ec E En e Hs Hid)|]. destruct (X H); auto.
Qed.
Print Assumptions C49_cancelled_partial.

(* The cancel runs while the minute wheel is moving the timer down. *)
Definition cancel_run : list tlabel :=
  [CreateAt 61000000000 [1000000000; 1000000000; 1000000000]; TickStart 1; CancelStart 1; CancelScan; CancelScan; TickNext 1; TickMove 1 0 [2000000000; 2000000000; 2000000000]; TickEnd 1; CancelScan; CancelScan].
Example C49_case : s_cancel (t_run new_sched cancel_run) = Some (1, 3%nat) /\
  match t_step1 (t_run new_sched cancel_run) CancelScan with Some s1 => s_cancel s1 = None /\ s_made s1 = [Entry 1 0 61000] /\ taken s1 = [] /\ handed s1 = [] | None => False end /\
  stored (t_run new_sched (firstn 8 cancel_run)) = [Entry 1 0 61000].
Proof. vm_compute. repeat split. Qed.

(* The missing part: the poll has the timer in its hands; CancelTimer(1) starts and returns; then the timer is handed out. *)
Definition late_cancel : list tlabel := [CreateAt 5000000000 [5000000000; 5000000000; 5000000000]; Poll 5000000000; CancelStart 1; CancelScan; CancelScan; CancelScan; CancelScan].
Theorem C49_already_polled_refuted : exists ls e, let s := t_run new_sched ls in
  (exists ls0, ls = ls0 ++ [CancelScan] /\ exists k, s_cancel (t_run new_sched ls0) = Some (e_id e, k)) /\ s_cancel s = None /\
  In e (s_made s) /\ ~ In e (handed s) /\ In e (handed (t_run s [PollSend 0])).
Proof.
  exists late_cancel, (Entry 1 0 5000). cbn zeta. split; [exists (removelast late_cancel); split; [reflexivity|exists 3%nat; reflexivity]|].
  split; [reflexivity|]. split; [vm_compute; now left|]. split; [vm_compute; intros []|vm_compute; now left].
Qed.
Print Assumptions C49_already_polled_refuted.

(* C50: a timer not cancelled since its creation is in exactly one place: in a wheel's slot or the
   hands of its tick (stored), in the hands of a poll (taken), or handed out. *)
Theorem C50_one_place : forall conf ls1 ls2 e, let s := t_run (new_sched_of conf) (ls1 ++ ls2) in
  creations (ls1 ++ ls2) <= 2 ^ 32 -> ~ In e (s_made (t_run (new_sched_of conf) ls1)) -> In e (s_made s) -> ~ In (CancelStart (e_id e)) ls2 ->
  places e (stored s ++ taken s ++ handed s) = 1%nat.
Proof.
  intros conf ls1 ls2 e s L N M C. destruct (once_run conf (ls1 ++ ls2)) as (_ & ND & _). fold s in ND. apply nodup_places; [exact ND|].
  unfold s in *. rewrite t_run_app in *. apply (kept_run e ls2); [apply once_run| |contradiction|exact C|exact M].
  assert (X := made_bound ls1 (new_sched_of conf)). cbn [s_made new_sched_of length] in X. unfold creations in *. rewrite filter_app, app_length in L. lia.
Qed.
Print Assumptions C50_one_place.
(* Cancelled or not, no timer is ever in two places. *)
Theorem C50_never_two : forall conf ls e, let s := t_run (new_sched_of conf) ls in (places e (stored s ++ taken s ++ handed s) <= 1)%nat.
Proof.
  intros conf ls e s. destruct (once_run conf ls) as (_ & ND & _). fold s in ND. unfold everywhere in ND. unfold places. set (l := stored s ++ taken s ++ handed s) in *.
  destruct (filter (fun x => e_obj x =? e_obj e) l) as [|x r] eqn:E; [cbn; lia|].
  assert (Hx : In x (filter (fun x => e_obj x =? e_obj e) l)) by (rewrite E; now left). apply filter_In in Hx. destruct Hx as (Hx & Eq). apply Z.eqb_eq in Eq.
  assert (P := nodup_places x l ND Hx). unfold places in P. rewrite Eq, E in P. lia.
Qed.
Print Assumptions C50_never_two.
Example C50_case : let s := t_run new_sched (firstn 6 cancel_run ++ []) in s_made s = [Entry 1 0 61000] /\ stored s = [Entry 1 0 61000] /\
  let s' := t_run new_sched [CreateAt 61000000000 [1000000000; 1000000000; 1000000000]; TickStart 1; TickNext 1] in s_made s' = [Entry 1 0 61000] /\ map w_queue (s_wheels s') = [[]; []; []] /\
  places (Entry 1 0 61000) (stored s' ++ taken s' ++ handed s') = 1%nat.
Proof. vm_compute. repeat split. Qed.

(* With more than 2^32 creations the IDs repeat and a new timer can push an old one out. *)
Theorem C50_id_wrap_refuted : exists ls e, (forall id, ~ In (CancelStart id) ls) /\ creations ls = 2 ^ 32 + 1 /\ In e (s_made (t_run new_sched ls)) /\
  ~ In e (stored (t_run new_sched ls) ++ taken (t_run new_sched ls) ++ handed (t_run new_sched ls)).
Proof. exact id_wrap. Qed.
Print Assumptions C50_id_wrap_refuted.

(* C51: ticks at most [late] ns late, polls at most [gap] ns apart: once the time
   max(wanted, creation) + 1 ms + 60 late + gap has passed, an uncancelled timer has been handed out, and on a clock reading
   not after that time.  Any delay, longer than 12 hours as well. *)
Theorem C51_in_time : forall late gap now0 due ls1 l e ls2, 0 <= late -> 0 <= gap -> 0 <= now0 -> first_ticks late hms now0 due ->
  tm_creations (ls1 ++ Do l :: ls2) <= 2 ^ 32 ->
  let t1 := tm_run late gap (tm_start hms now0 due) ls1 in
  let t2 := tm_run late gap (tm_start hms now0 due) (ls1 ++ Do l :: ls2) in
  let latest := Z.max (requested (t_now t1) l) (t_now t1) + 999999 + 60 * late + gap in
  tm_makes late gap t1 l e -> fits (requested (t_now t1) l) -> ~ In (Do (CancelStart (e_id e))) ls2 ->
  latest < t_now t2 -> exists r, In (e, r) (s_sent (t_sched t2)) /\ r <= latest.
Proof.
  intros late gap now0 due ls1 l e ls2 Hl Hg Hn Hf Hc. apply (in_time_handed late gap 60 hms); auto; [lia|]. repeat constructor; cbn; lia.
Qed.
Print Assumptions C51_in_time.

(* A 61.5 s timer through the minute wheel and the second wheel; ticks exactly on time, polls every 50 ms. *)
Definition tick (k : nat) : list tmlabel := map Do [TickStart k; TickMove k 0 []; TickNext k; TickMove k 0 []; TickEnd k].
Definition fifty : list tmlabel := [Advance 50000000; Do (Poll 0); Do (PollSend 0)].
Definition second : list tmlabel := concat (repeat fifty 20) ++ tick 2.
Definition minute_and_three : list tmlabel := concat (repeat second 60) ++ tick 1 ++ concat (repeat second 3).
Definition noon : Z := 1700000000000000000.
Definition noon_ticks : list Z := [noon + 3600000000000; noon + 60000000000; noon + 1000000000].
Example C51_case : let l := CreateAfter 0 61500000000 [] in let e := Entry 1 0 1700000061500 in
  first_ticks 0 hms noon noon_ticks /\ tm_makes 0 50000000 (tm_start hms noon noon_ticks) l e /\
  let t2 := tm_run 0 50000000 (tm_start hms noon noon_ticks) (Do l :: minute_and_three) in
  t_now t2 = noon + 63000000000 /\ s_sent (t_sched t2) = [(e, noon + 61450000000)].
Proof.
  cbn zeta. split; [repeat constructor; vm_compute; discriminate|]. split; [split; reflexivity|]. vm_compute. split; reflexivity.
Qed.

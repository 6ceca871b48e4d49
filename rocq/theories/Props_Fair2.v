(* Liveness on infinite executions of the asynchronous operations (C52, C54) and of a scheduler
   that calls the functions itself (C79): what those properties say can happen does happen, if
   the goroutines go on again and again. *)
From Coq Require Import ZArith List Bool Arith Lia Cantor.
From Verif Require Import Bytes AsyncResult Spec_Async Async_proofs AsyncWorker Spec_AsyncWorker AsyncWorker_proofs AsyncWorker2_proofs.
From Verif Require TimeWheel Spec_TimeWheel AutoExec Spec_AutoExec Props_Async Props_AutoExec.
From Verif Require Import Spec_Fair Spec_Fair2 Props_Fair FairAsync_proofs FairTimer_proofs.
Import ListNotations.
Local Open Scope nat_scope.

(* Three kinds of steps in turn, each with every number again and again. *)
Definition in_turn {L} (a b c : nat -> nat -> L) (k : nat) : L :=
  let (i, j) := Cantor.of_nat (k / 3) in match k mod 3 with 0 => a i j | 1 => b i j | _ => c i j end.
Lemma in_turn_all {L} pre (a b c : nat -> nat -> L) i j n : let s := then_round pre (in_turn a b c) in
  (exists m j', n <= m /\ j <= j' /\ s m = a i j') /\ (exists m j', n <= m /\ j <= j' /\ s m = b i j') /\ exists m j', n <= m /\ j <= j' /\ s m = c i j'.
Proof.
  intros s. set (q := Cantor.to_nat (i, j + n)). pose proof (Cantor.to_nat_non_decreasing i (j + n)) as Q. fold q in Q.
  assert (D : forall r, r < 3 -> (3 * q + r) / 3 = q /\ (3 * q + r) mod 3 = r) by (intros r Hr; split; [symmetry; now apply (Nat.div_unique _ _ _ r)|symmetry; now apply (Nat.mod_unique _ _ q)]).
  repeat split; [exists (length pre + (3 * q + 0))|exists (length pre + (3 * q + 1))|exists (length pre + (3 * q + 2))]; exists (j + n); (split; [lia|]; split; [lia|]; unfold s; rewrite in_round; unfold in_turn).
  - destruct (D 0 ltac:(lia)) as (-> & ->). unfold q. now rewrite Cantor.cancel_of_to.
  - destruct (D 1 ltac:(lia)) as (-> & ->). unfold q. now rewrite Cantor.cancel_of_to.
  - destruct (D 2 ltac:(lia)) as (-> & ->). unfold q. now rewrite Cantor.cancel_of_to.
Qed.

(* ---- C52 ---- *)

(* If every call goes on and the connection's worker does, then - given a result and a
   callback - a moment comes when exactly one callback has run, one that was given. *)
Theorem C52_fair : forall calls sch v f, result_goes_on sch -> In (SetCall v) calls -> In (CbCall f) calls -> ~ In (CbCall None) calls ->
  forall n, exists m g seen, n <= m /\ all_returned (result_at calls sch m) /\ In (CbCall (Some g)) calls /\ r_ran (a_mem (result_at calls sch m)) = [(Some g, seen)].
Proof.
  intros calls sch v f R S C N n. destruct (result_fair calls sch R n) as (m & Lm & A & Q). destruct (Props_Async.C52_exactly_once calls (first sch m) v f S C N A) as (g & G & Sc).
  unfold scheduled in Sc. change (a_run (a_new calls) (first sch m)) with (result_at calls sch m) in Sc. rewrite Q, app_nil_r in Sc. destruct (r_ran (a_mem (result_at calls sch m))) as [|[g' seen] [|]] eqn:E; try discriminate.
  injection Sc as ->. exists m, g, seen. auto.
Qed.
Print Assumptions C52_fair.
Definition calls_turn : nat -> alabel := in_turn (fun i _ => Go i) (fun _ _ => Run) (fun i _ => Go i).
Example C52_fair_case : result_goes_on (then_round [Go 1; Go 0; Go 1] calls_turn) /\
  scheduled (result_at [SetCall 7%Z; CbCall (Some 1%Z); CbCall (Some 2%Z)] (then_round [Go 1; Go 0; Go 1] calls_turn) 3) = [].
Proof.
  split; [|rewrite (first_pre _ _ 3 (le_n 3)) || (unfold result_at; rewrite first_pre by (cbn; lia)); vm_compute; reflexivity].
  split; [intros i n; destruct (in_turn_all [Go 1; Go 0; Go 1] (fun i _ => Go i) (fun _ _ => Run) (fun i _ => Go i) i 0 n) as ((m & j & A & _ & B) & _)
         |intros n; destruct (in_turn_all [Go 1; Go 0; Go 1] (fun i _ => Go i) (fun _ _ => Run) (fun i _ => Go i) 0 0 n) as (_ & (m & j & A & _ & B) & _)]; eauto.
Qed.

(* ---- C54 ---- *)

(* If all the calling goroutines go on, and all the workers do, and operations end - it does not
   matter whether by returning or by a panic -, then a moment comes when every operation of every
   goroutine has ended, those with the same ID in the order of the calls. *)
Theorem C54_fair : forall progs sch, (forall g, caller_goes_on sch g) -> (forall w, worker_goes_on sch w) ->
  forall n, exists m, n <= m /\ forall g p id, nth_error progs g = Some p -> with_id id (from g (map fst (y_ended (async_at progs sch m)))) = with_id id (tasks_of g p).
Proof.
  intros progs sch C W n. destruct (all_fair progs sch C W n) as (m & Lm & Q). exists m. split; [exact Lm|]. intros g p id E. exact (all_done progs _ g p id (winv_reach progs (first sch m)) Q E).
Qed.
Print Assumptions C54_fair.
(* An operation that hangs holds up only those that share its worker: whatever the other workers
   and all the calling goroutines do or do not do, what was put in for an ID by step n ends, in
   that order, if the one worker of that ID goes on. *)
Theorem C54_isolated : forall progs sch n id,
  (forall w k, nth_error (y_heap (async_at progs sch n)) w = Some k -> k_idx k = worker_index id -> worker_goes_on sch w) ->
  exists m more, n <= m /\
    with_id id (map (fun x => snd (fst x)) (y_ended (async_at progs sch m))) = with_id id (map snd (y_sent (async_at progs sch n))) ++ more.
Proof.
  intros progs sch n id H. pose proof (winv_reach progs (first sch n)) as I. change (w_run (w_new progs) (first sch n)) with (async_at progs sch n) in I.
  assert (X : forall m, with_id id (map (fun x => snd (fst x)) (y_ended (async_at progs sch m))) = with_id id (at_index (worker_index id) (map fst (y_ended (async_at progs sch m))))).
  { intros m. pose proof (winv_reach progs (first sch m)) as I'. change (w_run (w_new progs) (first sch m)) with (async_at progs sch m) in I'.
    rewrite (with_id_index id _ _ eq_refl (fun x Hx => j_where _ _ I' x (started_sub _ _ I' x (ended_sub _ _ I' x Hx)))), map_map. reflexivity. }
  rewrite <- (with_id_index id _ (y_sent (async_at progs sch n)) eq_refl (j_where _ _ I)).
  destruct (find_or (fun k => Z.eqb (k_idx k) (worker_index id)) (y_heap (async_at progs sch n))) as [(w & k & E & Q)|Q].
  - apply Z.eqb_eq in Q. destruct (index_fair progs sch n w k E (H w k E Q)) as (m & more & Lm & Em). rewrite Q in Em. exists m, (with_id id more). split; [exact Lm|]. rewrite X, Em. unfold with_id. now rewrite filter_app.
  - exists n, []. split; [lia|]. rewrite X, app_nil_r.
    assert (Wn : waiting (worker_index id) (async_at progs sch n) = []).
    { unfold waiting. clear H. induction (y_heap (async_at progs sch n)) as [|k l IH]; [reflexivity|]. cbn [flat_map]. rewrite (Q k (or_introl eq_refl)). apply IH. intros x Hx. apply Q. now right. }
    assert (Rn : running (worker_index id) (async_at progs sch n) = []).
    { unfold running. clear H. induction (y_heap (async_at progs sch n)) as [|k l IH]; [reflexivity|]. cbn [flat_map]. rewrite (Q k (or_introl eq_refl)). apply IH. intros x Hx. apply Q. now right. }
    rewrite (j_sent _ _ I), (j_started _ _ I), Wn, Rn, !app_nil_r. reflexivity.
Qed.
Print Assumptions C54_isolated.
Definition ops_turn : nat -> wlabel := in_turn (fun i _ => Submit i) (fun i _ => Take i) (fun i j => Finish i (Nat.even j)).
Lemma ops_turn_goes pre : (forall g, caller_goes_on (then_round pre ops_turn) g) /\ forall w, worker_goes_on (then_round pre ops_turn) w.
Proof.
  pose proof (fun i => in_turn_all pre (fun i _ => Submit i) (fun i _ => Take i) (fun i j => Finish i (Nat.even j)) i 0) as T.
  split; [intros g n|intros w; split; intros n].
  - destruct (T g n) as ((m & j & A & _ & B) & _). eauto.
  - destruct (T w n) as (_ & (m & j & A & _ & B) & _). eauto.
  - destruct (T w n) as (_ & _ & (m & j & A & _ & B)). eauto.
Qed.
Example C54_fair_case : let sch := then_round Props_Async.some_schedule ops_turn in let s := async_at Props_Async.two_gors sch (length Props_Async.some_schedule) in
  (forall g, caller_goes_on sch g) /\ (forall w, worker_goes_on sch w) /\ y_ended s = [] /\ length (running 5 s) = 1 /\ length (waiting 5 s) = 2.
Proof.
  cbv zeta. split; [apply ops_turn_goes|]. split; [apply ops_turn_goes|]. unfold async_at. rewrite first_pre by apply le_n. rewrite firstn_all. vm_compute. auto.
Qed.
(* Here the operation with ID 5 that is running never ends; that with ID 6 does. *)
Definition hangs : nat -> wlabel := then_round Props_Async.some_schedule (fun k => if Nat.even k then Take 1 else Finish 1 false).
Example C54_isolated_case : let s := async_at Props_Async.two_gors hangs (length Props_Async.some_schedule) in
  (forall w k, nth_error (y_heap s) w = Some k -> k_idx k = worker_index 6 -> worker_goes_on hangs w) /\ with_id 6 (map snd (y_sent s)) = [Task 0 6 12].
Proof.
  cbv zeta. unfold async_at, hangs at 1 3. rewrite first_pre by apply le_n. rewrite firstn_all. split; [|vm_compute; reflexivity]. intros w k E I.
  assert (W : w = 1).
  { assert (H : map k_idx (y_heap (w_run (w_new Props_Async.two_gors) Props_Async.some_schedule)) = [5%Z; 6%Z]) by (vm_compute; reflexivity).
    apply (map_nth_error k_idx) in E. rewrite H, I in E. change (worker_index 6) with 6%Z in E. clear H. destruct w as [|[|[|w]]]; [discriminate E|reflexivity|discriminate E|destruct w; discriminate E]. }
  subst w. clear E I. split; intros n.
  - exists (length Props_Async.some_schedule + 2 * n). split; [lia|]. unfold hangs. rewrite in_round. replace (Nat.even (2 * n)) with true; [reflexivity|]. symmetry. apply Nat.even_spec. now exists n.
  - exists (length Props_Async.some_schedule + (2 * n + 1)). split; [lia|]. exists false. unfold hangs. rewrite in_round. replace (Nat.even (2 * n + 1)) with false; [reflexivity|]. symmetry. rewrite <- Nat.negb_odd. apply negb_false_iff, Nat.odd_spec. now exists n.
Qed.

(* ---- C79 ---- *)
Import TimeWheel Spec_TimeWheel AutoExec Spec_AutoExec.

(* If the polling goroutine goes on sending, the consumer goes on receiving and the goroutines
   that are to call a function get to run, then the function of every timer a poll has found is
   called, whether or not any function ends. *)
Theorem C79_fair : forall conf sch, (forall m, passes_nil (sch m) = false) -> timers_go_on conf sch ->
  forall n e, In e (taken (x_sched (auto_at conf sch n)) ++ due_out (auto_at conf sch n)) -> has_function (auto_at conf sch n) e -> exists m, n <= m /\ called (auto_at conf sch m) e.
Proof. exact timer_fair. Qed.
Print Assumptions C79_fair.
(* So is the function of a timer that is run by itself. *)
Theorem C79_fair_lone : forall conf sch, (forall m, passes_nil (sch m) = false) -> timers_go_on conf sch ->
  forall n k d f sl, sets_up (auto_at conf sch n) (sch n) (Some d) (Lone k) -> nth_error (x_funcs (auto_at conf sch n)) d = Some (DFunc (Some f) sl) ->
  exists m c, n <= m /\ In c (x_begun (auto_at conf sch m)) /\ c_src c = Lone k.
Proof. exact lone_fair. Qed.
Print Assumptions C79_fair_lone.
Definition timers_turn : nat -> xlabel := in_turn (fun _ _ => XWheel (PollSend 0)) (fun _ _ => XReceive) (fun i j => XBegin i (Z.of_nat j)).
Lemma timers_turn_go conf pre : timers_go_on conf (then_round pre timers_turn).
Proof.
  pose proof (in_turn_all pre (fun _ _ => XWheel (PollSend 0)) (fun _ _ => XReceive) (fun i j => XBegin i (Z.of_nat j))) as T. split; [|split; [|intros i t]]; intros n.
  - destruct (T 0 0 n) as ((m & j & A & _ & B) & _). exists m. split; [exact A|]. exists 0. split; [exact B|]. cbv zeta. destruct (s_polled _); [now left|right; cbn; lia].
  - destruct (T 0 0 n) as (_ & (m & j & A & _ & B) & _). eauto.
  - destruct (T i (Z.to_nat t) n) as (_ & _ & (m & j & A & C & B)). exists m. split; [exact A|]. exists (Z.of_nat j). split; [lia|exact B].
Qed.
Lemma timers_turn_no_nil pre m : (forall l, In l pre -> passes_nil l = false) -> passes_nil (then_round pre timers_turn m) = false.
Proof.
  intros H. unfold then_round. destruct (Nat.lt_ge_cases m (length pre)) as [L|L]; [apply H; now apply nth_In|]. rewrite nth_overflow by exact L. unfold timers_turn, in_turn.
  destruct (Cantor.of_nat _) as [i j]. destruct (_ mod 3) as [|[|]]; reflexivity.
Qed.
Example C79_fair_case : let sch := then_round (firstn 7 Props_AutoExec.two) timers_turn in let a := auto_at hms sch 7 in
  (forall m, passes_nil (sch m) = false) /\ timers_go_on hms sch /\ In (Entry 2 1 1700000000100) (taken (x_sched a)) /\ has_function a (Entry 2 1 1700000000100) /\ x_begun a = [].
Proof.
  cbv zeta. split; [intros m; apply timers_turn_no_nil; intros l H; repeat (destruct H as [<-|H]; [reflexivity|]); destruct H|]. split; [apply timers_turn_go|].
  unfold auto_at. rewrite first_pre by (vm_compute; repeat constructor). split; [vm_compute; auto|]. split; [exists 1, 2%Z, 1; split; vm_compute; reflexivity|vm_compute; reflexivity].
Qed.
Example C79_fair_lone_case : let pre := [XSlice [5%Z]; XFunc (Some 3%Z) 0; XRun (CreateAfter Props_AutoExec.morning 2500000 []) (Some 0) (Props_AutoExec.morning + 300000)] in
  let sch := then_round pre timers_turn in let a := auto_at hms sch 2 in
  (forall m, passes_nil (sch m) = false) /\ timers_go_on hms sch /\ sets_up a (sch 2) (Some 0) (Lone 0) /\ nth_error (x_funcs a) 0 = Some (DFunc (Some 3%Z) 0).
Proof.
  cbv zeta. split; [intros m; apply timers_turn_no_nil; intros l H; repeat (destruct H as [<-|H]; [reflexivity|]); destruct H|]. split; [apply timers_turn_go|].
  unfold auto_at. rewrite first_pre by (cbn; lia). split; [repeat split; vm_compute; reflexivity|vm_compute; reflexivity].
Qed.

(* C52-C54: asynchronous operations. *)
From Coq Require Import ZArith List Bool Lia.
From Verif Require Import Bytes AsyncResult Spec_Async Async_proofs AsyncWorker Spec_AsyncWorker AsyncWorker_proofs AsyncWorker2_proofs.
Import ListNotations.
Local Open Scope Z_scope.

(* C52: concurrent calls supplying results and (non-nil) callbacks, at least one of each:
   when they have all returned exactly one callback has been scheduled. *)
Theorem C52_exactly_once : forall calls ls v f,
  In (SetCall v) calls -> In (CbCall f) calls -> ~ In (CbCall None) calls -> all_returned (a_run (a_new calls) ls) ->
  exists g, In (CbCall (Some g)) calls /\ scheduled (a_run (a_new calls) ls) = [Some g].
Proof. exact exactly_once. Qed.
Print Assumptions C52_exactly_once.

Example C52_case : let s := a_run (a_new [SetCall 7; CbCall (Some 1)]) [Go 0; Go 1; Go 0; Go 1; Go 0; Go 1; Go 0; Go 1; Go 0; Go 1; Go 0; Go 1]%nat in
  all_returned s /\ scheduled s = [Some 1].
Proof. vm_compute. split; [|reflexivity]. intros c p [E|[E|[]]]; congruence. Qed.

(* At every moment of every schedule at most one callback has been scheduled ... *)
Theorem C52_at_most_once : forall calls ls, (length (scheduled (a_run (a_new calls) ls)) <= 1)%nat.
Proof. intros. apply at_most_one. Qed.
Print Assumptions C52_at_most_once.

(* ... and none without both a result and a callback. *)
Theorem C52_needs_both : forall calls ls,
  (forall v, ~ In (SetCall v) calls) \/ (forall f, ~ In (CbCall (Some f)) calls) -> scheduled (a_run (a_new calls) ls) = [].
Proof.
  intros calls ls H. destruct (scheduled _) as [|f r] eqn:E; [reflexivity|exfalso]. destruct (at_most_one calls ls) as (_ & A). destruct (A f) as (N & B & (v & C)); [rewrite E; now left|].
  destruct f as [f|]; [|congruence]. destruct H as [H|H]; [exact (H v C)|exact (H f B)].
Qed.
Print Assumptions C52_needs_both.

Example C52_needs_case : scheduled (a_run (a_new [SetCall 7; SetCall 8]) [Go 0; Go 1; Go 0; Go 1; Go 0; Go 1]%nat) = [] /\
  scheduled (a_run (a_new [CbCall (Some 1)]) [Go 0; Go 0; Go 0; Go 0; Go 0; Go 0]%nat) = [].
Proof. split; reflexivity. Qed.

(* C53, when the calls that supply results and the calls that supply callbacks do not
   overlap: every callback that runs finds a supplied result.  Missing: overlapping calls,
   for which it is false (C53_refuted). *)
Theorem C53_set_first_partial : forall calls v ls1 ls2, let s1 := a_run (a_new calls) ls1 in
  In (SetCall v) calls -> returned is_set s1 -> untouched (fun c => negb (is_set c)) s1 ->
  forall f seen, In (f, seen) (r_ran (a_mem (a_run s1 ls2))) -> exists v', seen = Some v' /\ In (SetCall v') calls.
Proof. intros calls v ls1 ls2 s1 A B C f seen H. exact (set_first calls v ls1 ls2 A B C _ H). Qed.
Print Assumptions C53_set_first_partial.

Theorem C53_callback_first_partial : forall calls ls1 ls2, let s1 := a_run (a_new calls) ls1 in
  returned (fun c => negb (is_set c)) s1 -> untouched is_set s1 ->
  forall f seen, In (f, seen) (r_ran (a_mem (a_run s1 ls2))) -> exists v', seen = Some v' /\ In (SetCall v') calls.
Proof. intros calls ls1 ls2 s1 A B f seen H. exact (cb_first calls ls1 ls2 A B _ H). Qed.
Print Assumptions C53_callback_first_partial.

Example C53_case : let s1 := a_run (a_new [SetCall 7; CbCall (Some 1)]) [Go 0; Go 0; Go 0; Go 0; Go 0; Go 0]%nat in
  returned is_set s1 /\ untouched (fun c => negb (is_set c)) s1 /\ r_ran (a_mem (a_run s1 [Go 1; Go 1; Go 1; Go 1; Go 1; Go 1; Run]%nat)) = [(Some 1, Some 7)].
Proof. vm_compute. split; [|split; [|reflexivity]]; intros c p [E|[E|[]]]; injection E as <- <-; congruence. Qed.
Example C53_case2 : let s1 := a_run (a_new [SetCall 7; CbCall (Some 1)]) [Go 1; Go 1; Go 1; Go 1; Go 1; Go 1]%nat in
  returned (fun c => negb (is_set c)) s1 /\ untouched is_set s1 /\ r_ran (a_mem (a_run s1 [Go 0; Go 0; Go 0; Go 0; Go 0; Go 0; Run]%nat)) = [(Some 1, Some 7)].
Proof. vm_compute. split; [|split; [|reflexivity]]; intros c p [E|[E|[]]]; injection E as <- <-; congruence. Qed.

(* C53 is false: SetReturnedObj marks the result as present before it stores it, and
   OnComplete running in between schedules the callback, which finds nothing. *)
Theorem C53_refuted : exists calls ls f, In (f, None) (r_ran (a_mem (a_run (a_new calls) ls))) /\ exists v, In (SetCall v) calls.
Proof. exists [SetCall 7; CbCall (Some 1)], [Go 0; Go 1; Go 1; Go 1; Go 1; Go 1; Go 1; Run]%nat, (Some 1). split; [vm_compute; now left|exists 7; now left]. Qed.
Print Assumptions C53_refuted.

(* C54: every int64 ID, the smallest included, has a worker. *)
Theorem C54_index : forall id, - 2 ^ 63 <= id < 2 ^ 63 -> 0 <= worker_index id < worker_count.
Proof. exact index_range. Qed.
Print Assumptions C54_index.
Example C54_index_case : worker_index (- 2 ^ 63) = 0 /\ worker_index (-2049) = 1 /\ worker_index 4095 = 2047.
Proof. repeat split; reflexivity. Qed.

(* Operations with the same ID - indeed with the same worker index - never overlap, whatever
   the goroutines submit and however everything is scheduled. *)
Theorem C54_one_at_a_time : forall progs ls i, (length (running i (w_run (w_new progs) ls)) <= 1)%nat.
Proof. intros progs ls i. exact (one_running progs _ i (winv_reach progs ls)). Qed.
Print Assumptions C54_one_at_a_time.

(* They start in the order in which they were put in, each once; what has not started is
   waiting, in that order. *)
Theorem C54_order : forall progs ls id, let s := w_run (w_new progs) ls in
  with_id id (map snd (y_sent s)) = with_id id (map snd (y_started s)) ++ with_id id (waiting (worker_index id) s).
Proof.
  intros progs ls id s. assert (H := winv_reach progs ls). fold s in H.
  rewrite <- (with_id_index id _ (y_sent s) eq_refl (j_where _ _ H)), <- (with_id_index id _ (y_started s) eq_refl (fun x Hx => j_where _ _ H x (started_sub _ _ H x Hx))).
  rewrite (j_sent _ _ H). unfold with_id. now rewrite filter_app.
Qed.
Print Assumptions C54_order.

(* For one submitting goroutine that is the order of its own calls. *)
Theorem C54_program_order : forall progs ls g p id, nth_error progs g = Some p -> let s := w_run (w_new progs) ls in
  exists rest, with_id id (tasks_of g p) = with_id id (from g (y_started s)) ++ rest.
Proof. exact program_order. Qed.
Print Assumptions C54_program_order.

(* No call is lost: the operations a goroutine has submitted are, in order, those put in by
   its calls so far; when it has made all its calls every one of them has been put in. *)
Theorem C54_submitted : forall progs ls g p, nth_error progs g = Some p -> let s := w_run (w_new progs) ls in
  exists gr, nth_error (y_gors s) g = Some gr /\ tasks_of g p = from g (y_sent s) ++ tasks_of g (g_prog gr) /\
    (g_prog gr = [] -> from g (y_sent s) = tasks_of g p).
Proof.
  intros progs ls g p E s. destruct (j_prog _ _ (winv_reach progs ls) g p E) as (gr & A & B). exists gr. split; [exact A|]. split; [exact B|].
  intros N. rewrite N in B. cbn in B. rewrite app_nil_r in B. now symmetry.
Qed.
Print Assumptions C54_submitted.
(* A panic stops nothing: from any reachable state, whichever operations panic from then on,
   the goroutines and the workers can go on until every call has been made and every
   operation has run to its end, for each goroutine and ID in the order of the calls. *)
Theorem C54_all_run : forall progs ls (panics : task -> bool), exists ls' more, let s := w_run (w_new progs) ls in let s' := w_run s ls' in
  y_ended s' = y_ended s ++ more /\ (forall i t b, In (i, t, b) more -> b = panics t) /\
  forall g p id, nth_error progs g = Some p -> with_id id (from g (map fst (y_ended s'))) = with_id id (tasks_of g p).
Proof.
  intros progs ls panics. assert (H := winv_reach progs ls). destruct (can_finish progs panics _ _ H (le_n _)) as (ls' & Q & more & A & B).
  exists ls', more. split; [exact A|]. split; [exact B|]. intros g p id E. exact (all_done progs _ g p id (winv_run progs ls' _ H) Q E).
Qed.
Print Assumptions C54_all_run.

(* Two goroutines, IDs 5 and -2053 share worker 5; ID 6 runs at the same time on another;
   the first operation panics. *)
Definition two_gors : list (list (Z * option Z)) := [[(5, Some 10); (5, None); (5, Some 11); (6, Some 12)]; [(-2053, Some 20)]].
Definition some_schedule : list wlabel := ([Submit 0; Submit 1; Submit 0; Submit 0; Submit 1; Submit 1; Take 0; Submit 0; Submit 0; Submit 0; Submit 0; Submit 0; Submit 0; Take 1])%nat.
Example C54_case : let s := w_run (w_new two_gors) some_schedule in
  running 5 s = [Task 0 5 10] /\ running 6 s = [Task 0 6 12] /\ waiting 5 s = [Task 1 (-2053) 20; Task 0 5 11] /\
  map snd (y_started (w_run s [Take 0; Finish 0 true; Take 0; Finish 0 false; Take 0]%nat)) = [Task 0 5 10; Task 0 6 12; Task 1 (-2053) 20; Task 0 5 11].
Proof. vm_compute. repeat split. Qed.

(* C107: a server that is started again. *)
From Coq Require Import List Bool Arith Lia Permutation.
From Verif Require Import GoSlice Again Spec_Again Again_proofs.
Import ListNotations.

(* Starting again loses no request and handles none twice: from every point on, when nothing more is read,
   there is a way to have handled exactly what was read, of every connection. *)
Theorem C107_handled : forall size cap ls, 0 < cap ->
  exists more, Forall quiet more /\ forall c, Permutation (reads c (seen size cap ls)) (done c (seen size cap (ls ++ more))).
Proof.
  intros size cap ls Hc. destruct (finish size cap Hc (readers ls) ls) as (more & Q & Z & H & K). exists more. split; [exact Q|]. intros c. pose proof (kept size cap (ls ++ more) c) as P. rewrite (reads_quiet size cap ls more c Q) in P.
  rewrite (mu0_in _ c Z) in P. unfold heldl in P. assert (Hn : a_held (fst (a_run size cap (a_new size) (ls ++ more))) c = None).
  { destruct (in_dec Nat.eq_dec c (readers ls)) as [I|N]; [now apply H|]. apply K. now apply held_readers. }
  rewrite Hn in P. cbn [app] in P. now rewrite app_nil_r in P.
Qed.
Print Assumptions C107_handled.
(* At no time has more been handled than was read. *)
Theorem C107_once : forall size cap ls c, exists rest, Permutation (reads c (seen size cap ls)) (done c (seen size cap ls) ++ rest).
Proof. intros size cap ls c. eexists. apply kept. Qed.
Print Assumptions C107_once.
Example C107_handled_used : let ls := start 1 ++ [LRead 7 1; LPut 7; LRead 7 2] ++ start 1 ++ [LPut 7; LRead 7 3] in
  reads 7 (seen 1 4 ls) = [1; 2; 3] /\ done 7 (seen 1 4 ls) = [] /\
  done 7 (seen 1 4 (ls ++ [LTake 0 0; LDone 0 0; LTake 0 0; LDone 0 0; LPut 7; LTake 0 1; LDone 0 1])) = [1; 2; 3].
Proof. repeat split; reflexivity. Qed.

(* Never more handlers at the same time than workers were started; started once, never more than WorkerPoolSize. *)
Theorem C107_bound : forall size cap ls, begins (seen size cap ls) <= ends (seen size cap ls) + started size ls.
Proof. intros size cap ls. destruct (running size cap ls) as (R & L & _). pose proof (sum_le (concat (a_slots (fst (a_run size cap (a_new size) ls))))). lia. Qed.
Print Assumptions C107_bound.
Theorem C107_pool_partial : forall size cap ls, (forall i, ~ In (LNew i) ls) ->
  begins (seen size cap (start size ++ ls)) <= ends (seen size cap (start size ++ ls)) + size.
Proof.
  intros size cap ls N. pose proof (C107_bound size cap (start size ++ ls)) as B. replace (started size (start size ++ ls)) with size in B; [exact B|].
  unfold started. rewrite filter_app, app_length. assert (E : filter (fun l => match l with LNew i => Nat.ltb i size | _ => false end) ls = []).
  { clear B. induction ls as [|l ls IH]; [reflexivity|]. cbn [filter]. rewrite IH by (intros i I; apply (N i); now right). destruct l; try reflexivity. exfalso. apply (N i). now left. }
  rewrite E. cbn [length]. rewrite Nat.add_0_r. unfold start. assert (G : forall n k, k + n <= size -> length (filter (fun l => match l with LNew i => Nat.ltb i size | _ => false end) (map LNew (seq k n))) = n).
  { induction n as [|n IHn]; intros k L; [reflexivity|]. cbn [seq map filter]. destruct (Nat.ltb_spec k size); [|lia]. cbn [length]. rewrite IHn by lia. reflexivity. }
  symmetry. apply G. lia.
Qed.
Print Assumptions C107_pool_partial.
Example C107_pool_used : let tr := seen 2 4 (start 2 ++ [LRead 0 1; LPut 0; LRead 0 2; LPut 0; LRead 1 1; LPut 1; LRead 3 1; LPut 3; LTake 0 0; LTake 1 0; LTake 0 0; LTake 1 0]) in
  begins tr = 2 /\ ends tr = 0.
Proof. split; reflexivity. Qed.

(* A connection whose worker was not started again while it lived has its requests handled one at a time, in the order they were read. *)
Theorem C107_order_partial : forall size cap ls c, not_again size c ls -> let tr := seen size cap ls in
  (exists rest, reads c tr = begun c tr ++ rest) /\ (begun c tr = done c tr \/ exists r, begun c tr = done c tr ++ [r]).
Proof.
  intros size cap ls c NA tr. destruct (run_ordered size cap c ls NA) as (_ & _ & O3 & O4). fold tr in O3, O4. split.
  - rewrite O3, O4. unfold lastw, lastb. destruct (get_q _ _ _) as [w|]; [unfold inw|]; eexists; rewrite <- !app_assoc; reflexivity.
  - rewrite O4. unfold lastb. destruct (get_q _ _ _) as [w|]; [|left; apply app_nil_r]. unfold bz. destruct (q_busy w) as [[d r]|]; [|left; apply app_nil_r]. cbn. destruct (Nat.eqb d c); [right; exists r; reflexivity|left; apply app_nil_r].
Qed.
Print Assumptions C107_order_partial.
Lemma not_again_split size c pre post : (forall r, ~ In (LRead c r) pre) -> ~ In (LNew (c mod size)) post -> not_again size c (pre ++ post).
Proof.
  intros Np Nq a b r E I. destruct (app_eq_app _ _ _ _ E) as (l & [(-> & E2)|(-> & E2)]).
  - apply (Np r), in_or_app. now left.
  - apply Nq. rewrite E2. apply in_or_app. right. now left.
Qed.
Example C107_order_used : let ls := (start 2 ++ start 2) ++ [LRead 3 1; LNew 0; LPut 3; LRead 3 2; LPut 3; LTake 1 1] in
  not_again 2 3 ls /\ reads 3 (seen 2 4 ls) = [1; 2] /\ begun 3 (seen 2 4 ls) = [1].
Proof.
  split; [|split; reflexivity]. apply not_again_split.
  - cbn. intros r I. decompose [or] I; try discriminate. assumption.
  - cbn. intros I. decompose [or] I; try discriminate. assumption.
Qed.

(* A connection that lives on through Stop and Start has its requests handled out of order, and two at the same time. *)
Theorem C107_order_refuted : let tr := seen 1 4 (start 1 ++ [LRead 7 1; LPut 7] ++ start 1 ++ [LRead 7 2; LPut 7; LTake 0 1; LDone 0 1; LTake 0 0]) in
  reads 7 tr = [1; 2] /\ begun 7 tr = [2; 1].
Proof. split; reflexivity. Qed.
Print Assumptions C107_order_refuted.
Theorem C107_both_refuted : let tr := seen 1 4 (start 1 ++ [LRead 7 1; LPut 7; LTake 0 0] ++ start 1 ++ [LRead 7 2; LPut 7; LTake 0 1]) in
  begun 7 tr = [1; 2] /\ done 7 tr = [].
Proof. split; reflexivity. Qed.
Print Assumptions C107_both_refuted.
(* One more round of a server with one worker: started, a request read, sent and taken. *)
Lemma round k h : h 0 = None -> let B := Wq [] (Some (0, 0)) in
  let s := fst (a_run 1 1 (Ast [repeat B k] h) [LNew 0; LRead 0 0; LPut 0; LTake 0 k]) in a_slots s = [repeat B (S k)] /\ a_held s 0 = None.
Proof.
  intros Eh B. assert (Nk : forall w, nth_error (repeat B k ++ [w]) k = Some w) by (intros w; rewrite nth_error_app2; rewrite repeat_length; [now rewrite Nat.sub_diag|lia]).
  assert (Sk : forall w w', set_nth k w (repeat B k ++ [w']) = repeat B k ++ [w]) by (clear; induction k as [|k IHk]; intros w w'; [reflexivity|]; cbn; f_equal; apply IHk).
  set (s1 := Ast [repeat B k ++ [Wq [] None]] h).
  assert (E1 : a_step 1 1 (Ast [repeat B k] h) (LNew 0) = (s1, [])) by reflexivity.
  set (s2 := Ast [repeat B k ++ [Wq [] None]] (hold s1 0 (Some (k, 0)))).
  assert (E2 : a_step 1 1 s1 (LRead 0 0) = (s2, [ERead 0 0])).
  { unfold a_step, s1. cbn [a_held a_slots]. rewrite Eh. change (worker_of 1 0) with 0. cbn [nth_error]. assert (Lq : length (repeat B k ++ [Wq [] None]) = S k) by (rewrite app_length, repeat_length; cbn; lia).
    unfold s2, s1. destruct (repeat B k ++ [Wq [] None]) as [|q qs]; [discriminate|]. injection Lq as ->. reflexivity. }
  set (s3 := Ast [repeat B k ++ [Wq [(0, 0)] None]] (hold s2 0 None)).
  assert (E3 : a_step 1 1 s2 (LPut 0) = (s3, [])).
  { unfold a_step. change (a_held s2 0) with (Some (k, 0)). change (worker_of 1 0) with 0. cbv iota beta. change (get_q s2 0 k) with (nth_error (repeat B k ++ [Wq [] None]) k). rewrite Nk. cbn [q_items q_busy length Nat.ltb Nat.leb app]. unfold put_q. cbn [s2 a_slots nth_error set_nth]. rewrite Sk. reflexivity. }
  assert (E4 : a_step 1 1 s3 (LTake 0 k) = (Ast [repeat B k ++ [B]] (a_held s3), [EBegin 0 0])).
  { unfold a_step. change (get_q s3 0 k) with (nth_error (repeat B k ++ [Wq [(0, 0)] None]) k). rewrite Nk. unfold put_q. cbn [s3 a_slots nth_error set_nth]. rewrite Sk. reflexivity. }
  cbn [a_run]. rewrite E1, E2, E3, E4. cbn [fst snd a_slots a_held]. split; [|reflexivity]. f_equal. clear. induction k as [|k IHk]; [reflexivity|]. cbn. f_equal. exact IHk.
Qed.
(* Started k times, a server with one worker can run k handlers at the same time: the workers of earlier starts never end. *)
Theorem C107_pool_refuted : forall k, exists ls, started 1 ls = k /\ begins (seen 1 1 ls) = ends (seen 1 1 ls) + k.
Proof.
  assert (G : forall k, exists ls, started 1 ls = k /\ a_slots (fst (a_run 1 1 (a_new 1) ls)) = [repeat (Wq [] (Some (0, 0))) k] /\ a_held (fst (a_run 1 1 (a_new 1) ls)) 0 = None).
  { induction k as [|k (ls & Sl & Es & Eh)]; [exists []; repeat split|]. exists (ls ++ [LNew 0; LRead 0 0; LPut 0; LTake 0 k]). split; [unfold started in *; rewrite filter_app, app_length, Sl; cbn; lia|].
    rewrite run_nil_end. destruct (fst (a_run 1 1 (a_new 1) ls)) as [sl h]. cbn [a_slots a_held] in Es, Eh. subst sl. exact (round k h Eh). }
  intros k. destruct (G k) as (ls & Sl & Es & _). exists ls. split; [exact Sl|]. destruct (running 1 1 ls) as (R & _). rewrite R, Es. f_equal. cbn [concat]. rewrite app_nil_r. clear. unfold sum. induction k as [|k IHk]; [reflexivity|]. cbn [repeat fold_right]. rewrite IHk. reflexivity.
Qed.
Print Assumptions C107_pool_refuted.

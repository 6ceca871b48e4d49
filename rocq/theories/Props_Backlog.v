(* C80: the bounded queues in front of the workers. *)
From Coq Require Import ZArith List Bool Arith Lia.
From Verif Require Import GoSlice AsyncWorker Workers Backlog Spec_Backlog Backlog_proofs.
Import ListNotations.

(* C80. Whatever is sent, from wherever: a worker begins on what its queue has accepted in
   that order, each once, and only when it has ended the one before; no queue ever holds
   more than its capacity. *)
Theorem C80_queue : forall cf ls i w, let s := fst (b_run cf (b_new cf) ls) in let tr := snd (b_run cf (b_new cf) ls) in
  nth_error (bs_work s) i = Some w ->
  accepted i tr = begun i tr ++ bw_buf w /\ begun i tr = ended i tr ++ running w /\
  length (bw_buf w) <= (if i <? b_tasks cf then b_len cf else 2048).
Proof. intros cf ls i w s tr H. destruct (fifo_run cf ls i) as (A & B & C). fold s in A, B, C. fold tr in A, B. unfold W in *. rewrite (proj2 (nth_err_nth idle _ _ _ H)) in *. repeat split; assumption. Qed.
Print Assumptions C80_queue.

(* C80. A reader whose requests go to one worker is held back by it: what it has read of
   them, and the worker has not begun on, is what fits in the queue and one more; the
   handlers see its requests in the order of their arrival. *)
Theorem C80_held_back : forall cf ls n i, let tr := snd (b_run cf (b_new cf) ls) in
  reads_for cf n i ls -> exists rest, offered n tr = of_reader n (begun i tr) ++ rest /\ length rest <= capacity cf i + 1.
Proof.
  intros cf ls n i tr H. destruct (rinv_run cf n i ls H) as (A & _). destruct (fifo_run cf ls i) as (B & _ & C). fold tr in A, B. rewrite B, ofr_app, <- app_assoc in A. eexists. split; [exact A|].
  rewrite app_length. pose proof (ofr_length n (bw_buf (W (fst (b_run cf (b_new cf) ls)) i))). destruct (R (fst (b_run cf (b_new cf) ls)) n) as [[t r]|]; cbn [pending length]; lia.
Qed.
Print Assumptions C80_held_back.

(* C80. The sends of handlers are made in the order the handlers make them, none left out;
   those of a handler that is over have all been accepted. *)
Theorem C80_sends : forall cf ls i, let s := fst (b_run cf (b_new cf) ls) in let tr := snd (b_run cf (b_new cf) ls) in
  exists rest, flat_map (asked cf) (begun i tr) = put_by i tr ++ rest /\ (begun i tr = ended i tr -> rest = []).
Proof.
  intros cf ls i s tr. eexists. split; [exact (sinv_run cf ls i)|]. destruct (fifo_run cf ls i) as (_ & B & _). fold s in B |- *. fold tr in B. unfold todo. unfold running in B. destruct (bw_run (W s i)) as [[[g r] l]|]; [|reflexivity].
  intros E. rewrite E in B. apply (f_equal (@length _)) in B. rewrite app_length in B. cbn in B. lia.
Qed.
Print Assumptions C80_sends.

(* C80. Without new requests the goroutines come to a stop after a bounded number of steps,
   however they are scheduled. *)
Theorem C80_ends : forall cf ls, let s := fst (b_run cf (b_new cf) ls) in
  exists bound, forall more, Forall internal more -> all_taken cf s more -> length more <= bound.
Proof. intros cf ls s. exists (measure s). intros more. apply taken_bound. Qed.
Print Assumptions C80_ends.

(* C80, progress.  If workers can be ranked so that handlers send only to queues of workers
   of lower rank, then where they come to a stop everything has been handled.  Only workers
   of rank up to k are considered and only what they run needs to obey that rule: what
   others do, or that they are stuck, makes no difference to these. *)
Theorem C80_progress_partial : forall cf rank k ls, let s := fst (b_run cf (b_new cf) ls) in let tr := snd (b_run cf (b_new cf) ls) in
  pool_ok cf -> offers_ok cf rank k ls -> no_move cf rank k s ->
  forall i, rank i <= k -> at_rest cf s i /\ ended i tr = accepted i tr.
Proof.
  intros cf rank k ls s tr P O M i Hk. assert (A := no_move_rest cf rank k s P (dinv_run cf rank k ls O) M i Hk). split; [exact A|]. destruct (fifo_run cf ls i) as (B & C & _). fold s tr in B, C.
  assert (E : W s i = idle). { destruct (Nat.lt_ge_cases i (length (bs_work s))) as [L|L]; [|now apply nth_overflow]. apply (proj1 A). now apply nth_nth_err. }
  rewrite E in B, C. cbn in B, C. rewrite app_nil_r in B, C. congruence.
Qed.
Print Assumptions C80_progress_partial.

(* In particular, when handlers send nothing to queues, one slow or stuck worker holds up
   only itself and the readers that send to it: any other worker w ends all it is given. *)
Definition sends_nothing (r : req) : Prop := sends_of r = [].
Corollary C80_isolated_partial : forall cf ls w, let s := fst (b_run cf (b_new cf) ls) in let tr := snd (b_run cf (b_new cf) ls) in
  pool_ok cf -> (forall n t r, In (BOffer n t r) ls -> sends_nothing r) ->
  b_step cf s (BTake w) = None -> b_step cf s (BEnd w) = None -> (forall n t r, nth_error (bs_read s) n = Some (Some (t, r)) -> index cf t = w -> b_step cf s (BSend n true) = None) ->
  at_rest cf s w /\ ended w tr = accepted w tr.
Proof.
  intros cf ls w s tr P H T E B. assert (O : forall rank k, offers_ok cf rank k ls) by (intros rank k n t r I; apply down_eq; rewrite (H n t r I); constructor).
  assert (D := proj1 (proj2 (dinv_run cf (fun _ => 0) 0 ls (O _ _))) w). fold s in D. assert (I : W s w = idle).
  { destruct (Nat.lt_ge_cases w (length (bs_work s))) as [L|L]; [|now apply nth_overflow]. cbn [b_step] in T, E. rewrite (nth_nth_err idle) in T, E by exact L. unfold W in *. destruct (nth w (bs_work s) idle) as [b [[[g r] [|[t x] q]]|]]; cbn in *.
    - discriminate. - destruct D as (_ & D). inversion D as [|? ? (D1 & _) _]; subst. cbn in D1. lia. - destruct b as [|[g r] b]; [reflexivity|discriminate]. }
  split. 2: { destruct (fifo_run cf ls w) as (X & Y & _). fold s tr in X, Y. rewrite I in X, Y. cbn in X, Y. rewrite app_nil_r in X, Y. congruence. }
  split.
  - intros v V. apply (nth_err_nth idle) in V as (_ & V). unfold W in I. congruence.
  - intros n t r R0 X. assert (F := B n t r R0 X). cbn [b_step] in F. rewrite R0 in F. unfold give in F. rewrite X in F.
    assert (L : w < length (bs_work s)) by (unfold s; rewrite (proj1 (dinv_run cf (fun _ => 0) 0 ls (O _ _))); subst w; now apply index_range).
    rewrite (nth_nth_err idle) in F by exact L. unfold W in I. rewrite I in F. cbn in F. discriminate.
Qed.
Print Assumptions C80_isolated_partial.

(* Two workers, two readers on the first, queues of two: the first worker is busy with a
   slow request, its queue is full, both readers wait; the second handles a request that
   has an operation done asynchronously. *)
Definition two_workers : bcfg := Bcfg 2 2 (fun c => Z.to_nat (c mod 2)) 3.
Definition plain (n : nat) : req := Req n [].
Definition busy_run : list blabel :=
  [BOffer 0 (ForConn 2) (plain 1); BSend 0 true; BOffer 0 (ForConn 2) (plain 2); BSend 0 false; BOffer 1 (ForConn 4) (plain 3); BSend 1 false; BOffer 0 (ForConn 2) (plain 4); BSend 0 false; BOffer 1 (ForConn 4) (plain 5); BSend 1 false;
   BOffer 2 (ForConn 1) (Req 6 [(ForAsync (-7), plain 7)]); BSend 2 true; BPut 1 false; BTake 9; BEnd 1; BEnd 9].
Lemma two_ok : pool_ok two_workers.
Proof. intros c. cbn. pose proof (Z.mod_pos_bound c 2). lia. Qed.
Example C80_case :
  let s := fst (b_run two_workers (b_new two_workers) busy_run) in let tr := snd (b_run two_workers (b_new two_workers) busy_run) in
  pool_ok two_workers /\ reads_for two_workers 0 0 busy_run /\ offered 0 tr = [plain 1; plain 2; plain 4] /\ of_reader 0 (begun 0 tr) = [plain 1] /\
  accepted 0 tr = [(Reader 0, plain 1); (Reader 0, plain 2); (Reader 1, plain 3)] /\ ended 0 tr = [] /\
  ended 1 tr = accepted 1 tr /\ ended 9 tr = [(Worker 1, plain 7)] /\ put_by 1 tr = [(9, plain 7)].
Proof.
  cbv zeta. split; [exact two_ok|]. split; [intros t r H; cbn in H; repeat destruct H as [H|H]; inversion H; reflexivity|]. repeat split; vm_compute; reflexivity.
Qed.
(* The asynchronous workers have rank 0, the second worker rank 1, the first rank 2: with
   k = 1 the theorem speaks of all but the first, which stays busy. *)
Definition rank3 (i : nat) : nat := match i with 0 => 2 | 1 => 1 | _ => 0 end.
Example C80_case_progress :
  let s := fst (b_run two_workers (b_new two_workers) busy_run) in
  offers_ok two_workers rank3 1 busy_run /\ no_move two_workers rank3 1 s /\ (exists w, nth_error (bs_work s) 0 = Some w /\ bw_run w <> None).
Proof.
  cbv zeta. split; [|split].
  - intros n t r H. assert (A9 : index two_workers (ForAsync (-7)) = 9) by (vm_compute; reflexivity). apply down_eq. cbn [In busy_run] in H. repeat destruct H as [H|H]; inversion H; subst; try constructor.
    + split; [cbn [fst]; rewrite A9; intros _; apply Nat.leb_le; vm_compute; reflexivity|apply down_eq; constructor].
    + constructor.
  - assert (E : forallb (fun i => match nth i (bs_work (fst (b_run two_workers (b_new two_workers) busy_run))) idle with Bwork [] None => true | _ => false end) (seq 1 2049) = true) by (vm_compute; reflexivity).
    assert (L : length (bs_work (fst (b_run two_workers (b_new two_workers) busy_run))) = 2050) by (vm_compute; reflexivity).
    assert (RD : bs_read (fst (b_run two_workers (b_new two_workers) busy_run)) = [Some (ForConn 2, plain 4); Some (ForConn 4, plain 5); None]) by (vm_compute; reflexivity).
    revert E L RD. generalize (fst (b_run two_workers (b_new two_workers) busy_run)). intros s E L RD. rewrite forallb_forall in E.
    assert (I : forall i w, rank3 i <= 1 -> nth_error (bs_work s) i = Some w -> w = idle).
    { intros i w Hi H. apply (nth_err_nth idle) in H as (H1 & <-). destruct i as [|i]; [cbn in Hi; lia|]. specialize (E (S i)). rewrite in_seq in E. destruct (nth (S i) (bs_work s) idle) as [[|x b] [y|]]; try (discriminate E; lia). reflexivity. }
    split.
    + intros i d Hi. cbn [b_step]. destruct (nth_error (bs_work s) i) as [w|] eqn:N; [|auto]. rewrite (I i w Hi N). auto.
    + intros n t r d. rewrite RD. destruct n as [|[|[|n]]]; cbn; try discriminate; [intros [= <- <-]|intros [= <- <-]|destruct n; discriminate]; cbn; lia.
  - eexists. split; [vm_compute; reflexivity|discriminate].
Qed.

(* The same with plain requests only: the first worker is busy, the second is done. *)
Definition plain_run : list blabel := firstn 10 busy_run ++ [BOffer 2 (ForConn 1) (plain 6); BSend 2 false; BTake 1; BEnd 1].
Example C80_case_isolated : let s := fst (b_run two_workers (b_new two_workers) plain_run) in let tr := snd (b_run two_workers (b_new two_workers) plain_run) in
  (forall n t r, In (BOffer n t r) plain_run -> sends_nothing r) /\ b_step two_workers s (BTake 1) = None /\ b_step two_workers s (BEnd 1) = None /\
  (forall n t r, nth_error (bs_read s) n = Some (Some (t, r)) -> index two_workers t = 1 -> b_step two_workers s (BSend n true) = None) /\
  ended 1 tr = [(Reader 2, plain 6)] /\ ended 0 tr = [] /\ length (accepted 0 tr) = 3.
Proof.
  cbv zeta. split; [intros n t r H; cbn in H; repeat destruct H as [H|H]; inversion H; reflexivity|]. split; [vm_compute; reflexivity|]. split; [vm_compute; reflexivity|]. split; [|repeat split; vm_compute; reflexivity].
  assert (RD : bs_read (fst (b_run two_workers (b_new two_workers) plain_run)) = [Some (ForConn 2, plain 4); Some (ForConn 4, plain 5); None]) by (vm_compute; reflexivity).
  intros n t r. rewrite RD. destruct n as [|[|[|n]]]; cbn [nth_error]; try discriminate; [intros [= <- <-]|intros [= <- <-]|destruct n; discriminate]; intros X; vm_compute in X; discriminate.
Qed.

(* C80, progress, is false without the ranking (F77): a handler that dispatches to its own
   connection (OnComplete on an operation that is already done) waits for ever when the
   queue is full, whatever its capacity.  From then on no request of any connection of that
   worker is ever begun, and no goroutine can move. *)
Definition dispatching (t : target) : req := Req 1 [(t, leaf)].
Theorem C80_own_queue_refuted : forall cf c, pool_ok cf -> b_readers cf > 0 ->
  exists ls, let s := fst (b_run cf (b_new cf) ls) in let w := b_worker cf c in
  (forall n t r, In (BOffer n t r) ls -> t = ForConn c /\ (r = leaf \/ r = dispatching (ForConn c))) /\ deadlocked cf s /\
  forall more, let tr := snd (b_run cf (b_new cf) (ls ++ more)) in begun w tr = [(Reader 0, dispatching (ForConn c))] /\ ended w tr = [].
Proof.
  intros cf c P Hr. set (i := b_worker cf c). exists ([BOffer 0 (ForConn c) (dispatching (ForConn c)); BSend 0 true] ++ fill (ForConn c) (capacity cf i)). cbv zeta.
  assert (Li := index_range cf P (ForConn c)). cbn [index] in Li. fold i in Li.
  destruct (straight_run cf (ForConn c) (dispatching (ForConn c)) (b_new cf)) as (T1 & R1 & Lr1 & Lw1 & Ro1 & W1); [apply nth_repeat|cbn; rewrite repeat_length; lia|cbn [b_new bs_work index]; rewrite repeat_length; exact Li|apply nth_repeat|].
  assert (X := fun more => run_app cf ([BOffer 0 (ForConn c) (dispatching (ForConn c)); BSend 0 true] ++ fill (ForConn c) (capacity cf i)) (b_new cf) more).
  rewrite (run_app cf [_; _]) in X. rewrite (run_app cf [_; _]). destruct (b_run cf (b_new cf) [_; _]) as [s1 tr1]. cbn [fst snd] in *. cbn [b_new bs_work bs_read] in Lw1, Lr1. rewrite repeat_length in Lw1, Lr1.
  assert (Wi : W s1 i = Bwork [] (Some (Reader 0, dispatching (ForConn c), [(ForConn c, leaf)]))) by (rewrite W1; unfold at_i; cbn [index]; fold i; now rewrite Nat.eqb_refl).
  destruct (fill_run cf (ForConn c) (capacity cf i) s1) as (R2 & _ & _ & Ro2 & B2 & E2 & W2 & T2); [exact R1|lia|cbn [index]; fold i; lia|cbn [index]; fold i; rewrite Wi; cbn; lia|]. cbn [index] in B2, E2, W2. fold i in B2, E2, W2. rewrite Wi in B2, E2. cbn in B2, E2.
  destruct (b_run cf s1 (fill (ForConn c) (capacity cf i))) as [s2 e2]. cbn [fst snd] in *. assert (J : jammed cf s2 i i) by (split; [lia|]; do 5 eexists; split; [exact E2|reflexivity]).
  split; [|split].
  - intros n t r H. apply in_app_or in H as [H|H]; [cbn in H; destruct H as [H|[H|[]]]; inversion H; subst; auto|]. revert H. clear. induction (capacity cf i) as [|k IH]; cbn; [contradiction|]. intros [H|[H|H]]; [inversion H; auto|discriminate|auto].
  - apply (jam_stuck cf s2 i i J J).
    + intros k Hk _. rewrite (W2 k Hk), W1. unfold at_i. cbn [index]. fold i. destruct (Nat.eqb_spec k i); [contradiction|]. apply nth_repeat.
    + intros [|n]; [exact R2|]. rewrite (Ro2 (S n)) by discriminate. rewrite (Ro1 (S n)) by discriminate. apply nth_repeat.
  - intros more. rewrite X. destruct (jammed_run cf i i more s2 J J) as (A & B). destruct (b_run cf s2 more) as [s3 e3]. cbn [snd] in *. rewrite !beg_app, !end_app, A, B, (proj1 (T2 i)), (proj2 (T2 i)), T1. cbn [index]. fold i. cbn. rewrite Nat.eqb_refl. auto.
Qed.
Print Assumptions C80_own_queue_refuted.

(* Nor need a handler send to its own queue (F78): two queues are enough, of two connections
   on different workers, or of a connection and an asynchronous worker: the handler is in
   Process while the operation is in SetReturnedObj. *)
Theorem C80_two_queues_refuted : forall cf t1 t2, pool_ok cf -> b_readers cf > 0 -> index cf t1 <> index cf t2 ->
  exists ls, let s := fst (b_run cf (b_new cf) ls) in
  (forall n t r, In (BOffer n t r) ls -> (t = t1 /\ (r = leaf \/ r = dispatching t2)) \/ (t = t2 /\ (r = leaf \/ r = dispatching t1))) /\ deadlocked cf s /\
  forall more, let tr := snd (b_run cf (b_new cf) (ls ++ more)) in
    begun (index cf t1) tr = [(Reader 0, dispatching t2)] /\ ended (index cf t1) tr = [] /\ begun (index cf t2) tr = [(Reader 0, dispatching t1)] /\ ended (index cf t2) tr = [].
Proof.
  intros cf t1 t2 P Hr D. set (i := index cf t1) in *. set (j := index cf t2) in *.
  set (p1 := [BOffer 0 t1 (dispatching t2); BSend 0 true]). set (p2 := [BOffer 0 t2 (dispatching t1); BSend 0 true]).
  exists (p1 ++ p2 ++ fill t1 (capacity cf i) ++ fill t2 (capacity cf j)). cbv zeta.
  assert (Li := index_range cf P t1). fold i in Li. assert (Lj := index_range cf P t2). fold j in Lj.
  assert (X := fun more => run_app cf (p1 ++ p2 ++ fill t1 (capacity cf i) ++ fill t2 (capacity cf j)) (b_new cf) more).
  destruct (straight_run cf t1 (dispatching t2) (b_new cf)) as (T1 & R1 & Lr1 & Lw1 & Ro1 & W1); [apply nth_repeat|cbn; rewrite repeat_length; lia|cbn [b_new bs_work]; rewrite repeat_length; exact Li|apply nth_repeat|]. fold p1 i in T1, R1, Lr1, Lw1, Ro1, W1.
  rewrite (run_app cf p1) in X. rewrite (run_app cf p1). destruct (b_run cf (b_new cf) p1) as [s1 tr1]. cbn [fst snd] in T1, R1, Lr1, Lw1, Ro1, W1. cbn [b_new bs_work bs_read] in Lw1, Lr1. rewrite repeat_length in Lw1, Lr1.
  destruct (straight_run cf t2 (dispatching t1) s1) as (T2 & R2 & Lr2 & Lw2 & Ro2 & W2); [exact R1|lia|fold j; lia|fold j; rewrite W1; unfold at_i; destruct (Nat.eqb_spec j i); [congruence|apply nth_repeat]|]. fold p2 j in T2, R2, Lr2, Lw2, Ro2, W2.
  rewrite (run_app cf p2) in X. rewrite (run_app cf p2). destruct (b_run cf s1 p2) as [s2 tr2]. cbn [fst snd] in T2, R2, Lr2, Lw2, Ro2, W2.
  assert (Wi : W s2 i = Bwork [] (Some (Reader 0, dispatching t2, [(t2, leaf)]))) by (rewrite W2; unfold at_i; destruct (Nat.eqb_spec i j); [congruence|]; rewrite W1; unfold at_i; now rewrite Nat.eqb_refl).
  assert (Wj : W s2 j = Bwork [] (Some (Reader 0, dispatching t1, [(t1, leaf)]))) by (rewrite W2; unfold at_i; now rewrite Nat.eqb_refl).
  destruct (fill_run cf t1 (capacity cf i) s2) as (R3 & Lr3 & Lw3 & Ro3 & B3 & E3 & W3 & T3); [exact R2|lia|fold i; lia|fold i; rewrite Wi; cbn; lia|]. fold i in B3, E3, W3.
  rewrite (run_app cf (fill t1 _)) in X. rewrite (run_app cf (fill t1 _)). destruct (b_run cf s2 (fill t1 (capacity cf i))) as [s3 tr3]. cbn [fst snd] in R3, Lr3, Lw3, Ro3, B3, E3, W3, T3. rewrite Wi in B3, E3. cbn in B3, E3.
  assert (Wj3 : W s3 j = Bwork [] (Some (Reader 0, dispatching t1, [(t1, leaf)]))) by (rewrite (W3 j) by congruence; exact Wj).
  destruct (fill_run cf t2 (capacity cf j) s3) as (R4 & _ & _ & Ro4 & B4 & E4 & W4 & T4); [exact R3|lia|fold j; lia|fold j; rewrite Wj3; cbn; lia|]. fold j in B4, E4, W4.
  destruct (b_run cf s3 (fill t2 (capacity cf j))) as [s4 tr4]. cbn [fst snd] in R4, Ro4, B4, E4, W4, T4 |- *. rewrite Wj3 in B4, E4. cbn in B4, E4.
  assert (J1 : jammed cf s4 i j) by (unfold jammed; rewrite (W4 i D); split; [lia|]; do 5 eexists; split; [exact E3|reflexivity]).
  assert (J2 : jammed cf s4 j i) by (split; [lia|]; do 5 eexists; split; [exact E4|reflexivity]).
  split; [|split].
  - assert (F : forall t n m u r, In (BOffer m u r) (fill t n) -> u = t /\ r = leaf) by (clear; induction n as [|k IH]; cbn; [contradiction|]; intros m u r [H|[H|H]]; [inversion H; auto|discriminate|eauto]).
    intros n t r H. apply in_app_or in H as [H|H]; [cbn in H; destruct H as [H|[H|[]]]; inversion H; subst; auto|]. apply in_app_or in H as [H|H]; [cbn in H; destruct H as [H|[H|[]]]; inversion H; subst; auto|].
    apply in_app_or in H as [H|H]; apply F in H as (-> & ->); auto.
  - apply (jam_stuck cf s4 i j J1 J2).
    + intros k K1 K2. rewrite (W4 k K2), (W3 k K1), W2. unfold at_i. destruct (Nat.eqb_spec k j); [contradiction|]. rewrite W1. unfold at_i. destruct (Nat.eqb_spec k i); [contradiction|]. apply nth_repeat.
    + intros [|n]; [exact R4|]. rewrite (Ro4 (S n)), (Ro3 (S n)), (Ro2 (S n)), (Ro1 (S n)) by discriminate. apply nth_repeat.
  - intros more. rewrite X. destruct (jammed_run cf i j more s4 J1 J2) as (A & B). destruct (jammed_run cf j i more s4 J2 J1) as (A' & B'). destruct (b_run cf s4 more) as [s5 e5]. cbn [snd] in *.
    rewrite !beg_app, !end_app, A, B, A', B', (proj1 (T3 i)), (proj2 (T3 i)), (proj1 (T3 j)), (proj2 (T3 j)), (proj1 (T4 i)), (proj2 (T4 i)), (proj1 (T4 j)), (proj2 (T4 j)), T1, T2. fold i j. cbn. rewrite !Nat.eqb_refl.
    destruct (Nat.eqb_spec i j); [contradiction|]. destruct (Nat.eqb_spec j i); [congruence|]. auto.
Qed.
Print Assumptions C80_two_queues_refuted.
(* The conditions are met: two connections of the hash rule on two workers; a connection and
   any asynchronous operation. *)
Example C80_two_queues_case : index two_workers (ForConn 1) <> index two_workers (ForConn 2) /\ (forall c op, index two_workers (ForConn c) <> index two_workers (ForAsync op)).
Proof. split; [discriminate|]. intros c op. pose proof (two_ok c). cbn [index two_workers b_worker b_tasks] in *. generalize dependent (Z.to_nat (worker_index op)). intros. lia. Qed.

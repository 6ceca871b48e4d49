(* Fair executions of the asynchronous operations. *)
From Coq Require Import ZArith List Bool Lia.
From Verif Require Import Bytes Spec_Fair Spec_Fair2 GenFair_proofs AsyncResult Spec_Async Async_proofs AsyncWorker Spec_AsyncWorker AsyncWorker_proofs AsyncWorker2_proofs.
Import ListNotations.
Local Open Scope Z_scope.

Section Ops.
  Variable progs : list (list (Z * option Z)).
  Variable sch : nat -> AsyncWorker.wlabel.
  Let st (n : nat) : wsys := async_at progs sch n.
  Lemma st_S n : st (S n) = w_step (st n) (sch n).
  Proof. unfold st, async_at, w_run. now rewrite first_S, fold_left_app. Qed.
  Lemma st_inv n : WInv progs (st n). Proof. apply winv_reach. Qed.

  Lemma all_fair : (forall g, caller_goes_on sch g) -> (forall w, worker_goes_on sch w) -> forall n, exists m, (n <= m)%nat /\ quiet (st m).
  Proof.
    intros C W. apply (GenFair_proofs.drain w_step (w_new progs) sch weight quiet).
    - intros n. unfold w_step. destruct (w_step1 _ (sch n)) as [s'|] eqn:E; [right; now apply step_weight in E|now left].
    - intros n. change (at_ w_step (w_new progs) sch n) with (st n). destruct (can_go progs (st n) (fun _ => true) (st_inv n)) as [Q|(l & s' & E & _)]; [now left|right].
      assert (H : exists m, (n <= m)%nat /\ exists s2, w_step1 (st n) (sch m) = Some s2).
      { destruct l as [g|w|w b].
        - destruct (C g n) as (m & Lm & Em). exists m. split; [exact Lm|]. rewrite Em. eauto.
        - destruct (proj1 (W w) n) as (m & Lm & Em). exists m. split; [exact Lm|]. rewrite Em. eauto.
        - destruct (proj2 (W w) n) as (m & Lm & b' & Em). exists m. split; [exact Lm|]. rewrite Em. cbn [w_step1] in *. unfold end_step in *. destruct (nth_error (y_heap (st n)) w) as [[i q [t|]]|]; try discriminate. eauto. }
      destruct H as (m & Lm & s2 & E2). exists m. split; [exact Lm|]. unfold w_step. rewrite E2. apply step_weight in E2. intros X. subst s2. lia.
  Qed.

  (* One worker, whatever the others do. *)
  Lemma heap_kept s l w k : nth_error (y_heap s) w = Some k -> exists k', nth_error (y_heap (w_step s l)) w = Some k' /\ k_idx k' = k_idx k /\
    (k_running k <> None -> (forall b, l <> Finish w b) -> k_running k' = k_running k) /\
    (k_running k = None -> k_queue k <> [] -> l <> Take w -> k_running k' = None /\ k_queue k' <> []).
  Proof.
    intros E. assert (Id : exists k', nth_error (y_heap s) w = Some k' /\ k_idx k' = k_idx k /\ (k_running k <> None -> (forall b, l <> Finish w b) -> k_running k' = k_running k) /\ (k_running k = None -> k_queue k <> [] -> l <> Take w -> k_running k' = None /\ k_queue k' <> [])) by (exists k; auto).
    assert (Ap : forall x, exists k', nth_error (y_heap s ++ [x]) w = Some k' /\ k_idx k' = k_idx k /\ (k_running k <> None -> (forall b, l <> Finish w b) -> k_running k' = k_running k) /\ (k_running k = None -> k_queue k <> [] -> l <> Take w -> k_running k' = None /\ k_queue k' <> [])).
    { intros x. exists k. split; [|auto]. rewrite nth_error_app1; [exact E|]. apply nth_error_Some. congruence. }
    unfold w_step. destruct (w_step1 s l) as [s'|] eqn:E1; [|exact Id]. destruct l as [g|w'|w' b]; cbn [w_step1] in E1.
    - unfold sub_step in E1. destruct (nth_error (y_gors s) g) as [[prog pc]|]; [|discriminate]. destruct pc as [|i|i].
      + destruct prog as [|[id [op|]] r]; [discriminate| |injection E1 as <-; exact Id]. destruct (y_once s (worker_index id)); try discriminate; injection E1 as <-; exact Id.
      + injection E1 as <-. cbn [y_heap]. apply Ap.
      + destruct prog as [|[id [op|]] r]; try discriminate. destruct (y_arr s i) as [w0|]; [|injection E1 as <-; exact Id]. destruct (nth_error (y_heap s) w0) as [[ki q run]|] eqn:E0; [|injection E1 as <-; exact Id].
        destruct (Nat.ltb _ _); [|discriminate]. injection E1 as <-. cbn [y_heap]. destruct (Nat.eq_dec w0 w) as [->|N].
        * rewrite E in E0. injection E0 as ->. eexists. split; [eapply upd_nth; exact E|]. cbn. split; [reflexivity|]. split; [auto|]. intros A _ _. split; [exact A|]. destruct q; discriminate.
        * rewrite upd_nth_other by exact N. exact Id.
    - unfold take_step in E1. destruct (nth_error (y_heap s) w') as [[ki [|t q] [run|]]|] eqn:E0; try discriminate. injection E1 as <-. cbn [y_heap]. destruct (Nat.eq_dec w' w) as [->|N].
      + rewrite E in E0. injection E0 as ->. eexists. split; [eapply upd_nth; exact E|]. cbn. split; [reflexivity|]. split; [congruence|]. intros _ _ X. now destruct X.
      + rewrite upd_nth_other by exact N. exact Id.
    - unfold end_step in E1. destruct (nth_error (y_heap s) w') as [[ki q [t|]]|] eqn:E0; try discriminate. injection E1 as <-. cbn [y_heap]. destruct (Nat.eq_dec w' w) as [->|N].
      + rewrite E in E0. injection E0 as ->. eexists. split; [eapply upd_nth; exact E|]. cbn. split; [reflexivity|]. split; [intros _ X; now destruct (X b)|discriminate].
      + rewrite upd_nth_other by exact N. exact Id.
  Qed.
  Lemma heap_later n m w k : (n <= m)%nat -> nth_error (y_heap (st n)) w = Some k -> exists k', nth_error (y_heap (st m)) w = Some k' /\ k_idx k' = k_idx k.
  Proof. intros L E. induction L as [|m L (k1 & E1 & I1)]; [eauto|]. destruct (heap_kept (st m) (sch m) w k1 E1) as (k2 & E2 & I2 & _). rewrite <- st_S in E2. exists k2. split; [exact E2|congruence]. Qed.
  Lemma ended_grows s l : exists x, y_ended (w_step s l) = y_ended s ++ x.
  Proof.
    assert (Id : exists x, y_ended s = y_ended s ++ x) by (exists []; now rewrite app_nil_r). unfold w_step. destruct (w_step1 s l) as [s'|] eqn:E1; [|exact Id]. destruct l as [g|w'|w' b]; cbn [w_step1] in E1.
    - unfold sub_step in E1. destruct (nth_error (y_gors s) g) as [[prog pc]|]; [|discriminate]. destruct pc as [|i|i].
      + destruct prog as [|[id [op|]] r]; [discriminate| |injection E1 as <-; exact Id]. destruct (y_once s (worker_index id)); try discriminate; injection E1 as <-; exact Id.
      + injection E1 as <-. exact Id.
      + destruct prog as [|[id [op|]] r]; try discriminate. destruct (y_arr s i) as [w0|]; [|injection E1 as <-; exact Id]. destruct (nth_error (y_heap s) w0) as [[ki q run]|]; [|injection E1 as <-; exact Id].
        destruct (Nat.ltb _ _); [|discriminate]. injection E1 as <-. exact Id.
    - unfold take_step in E1. destruct (nth_error (y_heap s) w') as [[ki [|t q] [run|]]|]; try discriminate. injection E1 as <-. exact Id.
    - unfold end_step in E1. destruct (nth_error (y_heap s) w') as [[ki q [t|]]|]; try discriminate. injection E1 as <-. cbn. eauto.
  Qed.
  Lemma sent_grows s l : exists x, y_sent (w_step s l) = y_sent s ++ x.
  Proof.
    assert (Id : exists x, y_sent s = y_sent s ++ x) by (exists []; now rewrite app_nil_r). unfold w_step. destruct (w_step1 s l) as [s'|] eqn:E1; [|exact Id]. destruct l as [g|w'|w' b]; cbn [w_step1] in E1.
    - unfold sub_step in E1. destruct (nth_error (y_gors s) g) as [[prog pc]|]; [|discriminate]. destruct pc as [|i|i].
      + destruct prog as [|[id [op|]] r]; [discriminate| |injection E1 as <-; exact Id]. destruct (y_once s (worker_index id)); try discriminate; injection E1 as <-; exact Id.
      + injection E1 as <-. exact Id.
      + destruct prog as [|[id [op|]] r]; try discriminate. destruct (y_arr s i) as [w0|]; [|injection E1 as <-; exact Id]. destruct (nth_error (y_heap s) w0) as [[ki q run]|]; [|injection E1 as <-; exact Id].
        destruct (Nat.ltb _ _); [|discriminate]. injection E1 as <-. cbn. eauto.
    - unfold take_step in E1. destruct (nth_error (y_heap s) w') as [[ki [|t q] [run|]]|]; try discriminate. injection E1 as <-. exact Id.
    - unfold end_step in E1. destruct (nth_error (y_heap s) w') as [[ki q [t|]]|]; try discriminate. injection E1 as <-. exact Id.
  Qed.
  Lemma grows_later n m : (n <= m)%nat -> (exists x, y_ended (st m) = y_ended (st n) ++ x) /\ (exists x, y_sent (st m) = y_sent (st n) ++ x).
  Proof.
    intros L. induction L as [|m L ((x & Ex) & (y & Ey))]; [split; exists []; now rewrite app_nil_r|]. rewrite st_S. destruct (ended_grows (st m) (sch m)) as (x' & ->). destruct (sent_grows (st m) (sch m)) as (y' & ->).
    rewrite Ex, Ey, <- !app_assoc. eauto.
  Qed.
  Lemma at_index_app i a b : at_index i (a ++ b) = at_index i a ++ at_index i b.
  Proof. unfold at_index. now rewrite filter_app, map_app. Qed.

  Definition over (i : Z) (n : nat) : nat := length (at_index i (map fst (y_ended (st n)))).
  Lemma over_le i n m : (n <= m)%nat -> (over i n <= over i m)%nat.
  Proof. intros L. destruct (grows_later n m L) as ((x & E) & _). unfold over. rewrite E, map_app, at_index_app, app_length. lia. Qed.
  Lemma finish_over n w i q t b : nth_error (y_heap (st n)) w = Some (AWorker i q (Some t)) -> sch n = Finish w b -> over i (S n) = S (over i n).
  Proof.
    intros E F. unfold over. rewrite st_S, F. unfold w_step. cbn [w_step1]. unfold end_step. rewrite E. cbn [y_ended]. rewrite map_app, at_index_app, app_length. cbn. unfold at_index. cbn. rewrite Z.eqb_refl. cbn. lia.
  Qed.

  Lemma busy_ends w i : worker_goes_on sch w -> forall n k, nth_error (y_heap (st n)) w = Some k -> k_idx k = i -> k_running k <> None -> exists m, (n < m)%nat /\ (over i n < over i m)%nat.
  Proof.
    intros (_ & Fi) n k E I R. destruct (Fi n) as (m & Lm & b & Em).
    destruct (GenFair_proofs.until (fun j => exists k, nth_error (y_heap (st j)) w = Some k /\ k_idx k = i /\ k_running k <> None) (fun j => (over i n < over i j)%nat) n) with (m := m) as [(k' & E' & I' & R')|(j & Lj & Dj)].
    - eauto.
    - intros j Lj (k1 & E1 & I1 & R1). destruct (heap_kept (st j) (sch j) w k1 E1) as (k2 & E2 & I2 & K & _). rewrite <- st_S in E2.
      destruct (sch j) as [g|w'|w' b'] eqn:Es; [left; exists k2; rewrite K by (try exact R1; congruence); split; [exact E2|split; [congruence|exact R1]]..|].
      destruct (Nat.eq_dec w' w) as [->|N]; [right|left; exists k2; rewrite K by (try exact R1; congruence); split; [exact E2|split; [congruence|exact R1]]].
      destruct k1 as [i1 q1 [t1|]]; [|now destruct R1]. cbn in I1. subst i1. rewrite (finish_over j w i q1 t1 b' E1 Es). pose proof (over_le i n j Lj). lia.
    - exact Lm.
    - exists (S m). split; [lia|]. destruct k' as [i1 q1 [t1|]]; [|now destruct R']. cbn in I'. subst i1. rewrite (finish_over m w i q1 t1 b E' Em). pose proof (over_le i n m Lm). lia.
    - exists j. split; [lia|exact Dj].
  Qed.
  Lemma queued_starts w : worker_goes_on sch w -> forall n k, nth_error (y_heap (st n)) w = Some k -> k_running k = None -> k_queue k <> [] ->
    exists m k', (n < m)%nat /\ nth_error (y_heap (st m)) w = Some k' /\ k_idx k' = k_idx k /\ k_running k' <> None.
  Proof.
    intros (Ta & _) n k E R Q. destruct (Ta n) as (m & Lm & Em).
    assert (Go : forall j k1, sch j = Take w -> nth_error (y_heap (st j)) w = Some k1 -> k_idx k1 = k_idx k -> k_running k1 = None -> k_queue k1 <> [] -> exists k', nth_error (y_heap (st (S j))) w = Some k' /\ k_idx k' = k_idx k /\ k_running k' <> None).
    { intros j [i1 [|t1 q1] r1] Ej E1 I1 R1 Q1; [now destruct Q1|]. cbn in R1, I1. subst r1 i1. rewrite st_S, Ej. unfold w_step. cbn [w_step1]. unfold take_step. rewrite E1. cbn [y_heap]. eexists. split; [eapply upd_nth; exact E1|]. cbn. split; [reflexivity|discriminate]. }
    destruct (GenFair_proofs.until (fun j => exists k1, nth_error (y_heap (st j)) w = Some k1 /\ k_idx k1 = k_idx k /\ k_running k1 = None /\ k_queue k1 <> []) (fun j => exists k', nth_error (y_heap (st j)) w = Some k' /\ k_idx k' = k_idx k /\ k_running k' <> None) n) with (m := m) as [(k1 & E1 & I1 & R1 & Q1)|(j & Lj & k' & A)].
    - eauto 6.
    - intros j Lj (k1 & E1 & I1 & R1 & Q1). destruct (heap_kept (st j) (sch j) w k1 E1) as (k2 & E2 & I2 & _ & K). rewrite <- st_S in E2.
      assert (T : sch j = Take w \/ sch j <> Take w) by (destruct (sch j) as [|w'|]; [right; discriminate| |right; discriminate]; destruct (Nat.eq_dec w' w) as [->|]; [now left|right; congruence]).
      destruct T as [T|T]; [right; exact (Go j k1 T E1 I1 R1 Q1)|left]. destruct (K R1 Q1 T) as (A & B). exists k2. split; [exact E2|]. split; [congruence|auto].
    - exact Lm.
    - destruct (Go m k1 Em E1 I1 R1 Q1) as (k' & A). exists (S m), k'. split; [lia|exact A].
    - exists j, k'. split; [lia|exact A].
  Qed.

  Lemma index_fair n w k : nth_error (y_heap (st n)) w = Some k -> worker_goes_on sch w ->
    exists m more, (n <= m)%nat /\ at_index (k_idx k) (map fst (y_ended (st m))) = at_index (k_idx k) (y_sent (st n)) ++ more.
  Proof.
    intros E W. set (i := k_idx k). destruct (GenFair_proofs.climb (over i) (length (at_index i (y_sent (st n)))) n) as (m & Lm & Q).
    - intros m Lm Lt. destruct (heap_later n m w k Lm E) as (k1 & E1 & I1). fold i in I1. pose proof (st_inv m) as H.
      destruct (grows_later n m Lm) as (_ & (x & Ex)).
      assert (Pend : k_running k1 <> None \/ k_running k1 = None /\ k_queue k1 <> []).
      { pose proof (f_equal (@length task) (j_sent _ _ H i)) as A. rewrite (j_started _ _ H i), Ex, at_index_app, !app_length in A. unfold over in Lt.
        assert (Wt : waiting i (st m) = k_queue k1) by (rewrite <- I1; exact (fm_at k_queue _ _ _ (j_nodup _ _ H) E1)).
        assert (Rn : running i (st m) = match k_running k1 with Some t => [t] | None => [] end) by (rewrite <- I1; exact (fm_at (fun k => match k_running k with Some t => [t] | None => [] end) _ _ _ (j_nodup _ _ H) E1)).
        rewrite Wt, Rn in A. destruct (k_running k1); [left; discriminate|]. right. split; [reflexivity|]. intros Z0. rewrite Z0 in A. cbn in A. lia. }
      destruct Pend as [R|(R & Qn)].
      + destruct (busy_ends w i W m k1 E1 I1 R) as (j & Lj & O). exists j. auto.
      + destruct (queued_starts w W m k1 E1 R Qn) as (j & k' & Lj & E' & I' & R'). destruct (busy_ends w i W j k' E' ltac:(congruence) R') as (j2 & Lj2 & O). exists j2. split; [lia|]. pose proof (over_le i m j ltac:(lia)). lia.
    - pose proof (st_inv m) as H. destruct (grows_later n m Lm) as (_ & (x & Ex)). pose proof (j_sent _ _ H i) as A. rewrite (j_started _ _ H i), Ex, at_index_app, <- app_assoc in A.
      exists m. unfold over in Q. set (e := at_index i (map fst (y_ended (st m)))) in *. set (sn := at_index i (y_sent (st n))) in *.
      assert (X : e = sn ++ skipn (length sn) e).
      { rewrite <- (firstn_skipn (length sn) e) at 1. f_equal. pose proof (f_equal (firstn (length sn)) A) as F. rewrite firstn_app, Nat.sub_diag, firstn_O, app_nil_r, firstn_all in F. rewrite firstn_app in F. replace (length sn - length e)%nat with 0%nat in F by lia. rewrite firstn_O, app_nil_r in F. now symmetry. }
      eexists. split; [exact Lm|exact X].
  Qed.
End Ops.

(* AsyncOpResult. *)
Definition rank (p : AsyncResult.pc) : nat := match p with P0 => 6 | P1 => 5 | P2 => 4 | D0 => 3 | D1 => 2 | D2 => 1 | End => 0 end.
Fixpoint ranks (l : list (AsyncResult.call * AsyncResult.pc)) : nat := match l with [] => 0 | (_, p) :: r => rank p + ranks r end.
Definition left_over (s : asys) : nat := (2 * ranks (a_calls s) + length (r_queue (a_mem s)))%nat.
Lemma sum_ranks i c p c' p' : forall l, nth_error l i = Some (c, p) ->
  (ranks (upd i (c', p') l) + rank p = ranks l + rank p')%nat.
Proof. induction i as [|i IH]; intros [|[c0 p0] l] E; cbn in *; try discriminate; [injection E as -> ->; lia|]. specialize (IH l E). lia. Qed.
Lemma upd_self {A} i (x : A) : forall l, nth_error l i = Some x -> upd i x l = l.
Proof. induction i as [|i IH]; intros [|y l] E; cbn in *; try discriminate; [now injection E as ->|now rewrite IH]. Qed.
Lemma call_rank c p m : p <> End -> (2 * rank (snd (call_step c p m)) + length (r_queue (fst (call_step c p m))) < 2 * rank p + length (r_queue m))%nat.
Proof. intros N. destruct p; cbn; try (now destruct N); try (destruct c; cbn); repeat (match goal with |- context [if ?b then _ else _] => destruct b | |- context [match ?b with None => _ | Some _ => _ end] => destruct b end; cbn); rewrite ?app_length; cbn; lia. Qed.
Lemma result_step s l : a_step s l = s \/ (left_over (a_step s l) < left_over s)%nat.
Proof.
  destruct l as [i|]; cbn [a_step].
  - destruct (nth_error (a_calls s) i) as [[c p]|] eqn:E; [|now left]. destruct (call_step c p (a_mem s)) as [m p'] eqn:C.
    assert (D : p = End \/ p <> End) by (destruct p; (now left) || (right; discriminate)). destruct D as [->|N].
    + left. cbn in C. injection C as <- <-. rewrite upd_self by exact E. now destruct s.
    + right. pose proof (call_rank c p (a_mem s) N) as R. rewrite C in R. cbn [fst snd] in R. unfold left_over. cbn [a_calls a_mem]. pose proof (sum_ranks i c p c p' _ E). lia.
  - destruct (r_queue (a_mem s)) as [|f q] eqn:Eq; [now left|right]. unfold left_over. cbn. rewrite Eq. cbn. lia.
Qed.
Lemma result_fair calls sch : result_goes_on sch -> forall n, exists m, (n <= m)%nat /\ all_returned (result_at calls sch m) /\ r_queue (a_mem (result_at calls sch m)) = [].
Proof.
  intros (G & R). apply (GenFair_proofs.drain a_step (a_new calls) sch left_over (fun s => all_returned s /\ r_queue (a_mem s) = [])).
  - intros n. apply result_step.
  - intros n. set (s := at_ a_step (a_new calls) sch n). destruct (find_or (fun x : call * pc => match snd x with End => false | _ => true end) (a_calls s)) as [(i & [c p] & E & N)|N].
    + right. destruct (G i n) as (m & Lm & Em). exists m. split; [exact Lm|]. rewrite Em. intros X. assert (Q : (left_over (a_step s (Go i)) < left_over s)%nat); [|rewrite X in Q; lia].
      cbn [a_step]. rewrite E. destruct (call_step c p (a_mem s)) as [m' p'] eqn:C. assert (Np : p <> End) by (intros ->; discriminate). pose proof (call_rank c p (a_mem s) Np) as Rk. rewrite C in Rk. cbn [fst snd] in Rk. unfold left_over. cbn [a_calls a_mem]. pose proof (sum_ranks i c p c p' _ E). lia.
    + destruct (r_queue (a_mem s)) as [|f q] eqn:Eq.
      * left. split; [|reflexivity]. intros c p H. specialize (N _ H). cbn in N. now destruct p.
      * right. destruct (R n) as (m & Lm & Em). exists m. split; [exact Lm|]. rewrite Em. intros X. assert (Q : (left_over (a_step s Run) < left_over s)%nat); [|rewrite X in Q; lia]. cbn [a_step]. rewrite Eq. unfold left_over. cbn. rewrite Eq. cbn. lia.
Qed.

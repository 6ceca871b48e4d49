(* C102 on infinite executions. *)
From Coq Require Import List Bool Arith Lia.
From Verif Require Import Bytes GoSlice Router_proofs Workers_proofs Spec_Fair GenFair_proofs DynStop Spec_DynStop DynStop_proofs.
Import ListNotations.

Section Fair_.
  Context (cap : nat) (sch : nat -> dlabel).
  Let st (n : nat) : dst := fst (dyn_run cap dyn_init (first sch n)).
  Let tr (n : nat) : list dev := snd (dyn_run cap dyn_init (first sch n)).
  Lemma st_S n : st (S n) = fst (dyn_step cap (st n) (sch n)).
  Proof. unfold st. now rewrite first_S, run_snoc. Qed.
  Lemma tr_S n : tr (S n) = tr n ++ snd (dyn_step cap (st n) (sch n)).
  Proof. unfold tr. now rewrite first_S, run_snoc. Qed.
  Lemma tr_le n m : n <= m -> exists e, tr m = tr n ++ e.
  Proof. induction 1 as [|m L [e IH]]; [exists []; now rewrite app_nil_r|]. rewrite tr_S, IH, <- app_assoc. eexists. reflexivity. Qed.
  Lemma handled_le c n m : n <= m -> length (handled c (tr n)) <= length (handled c (tr m)).
  Proof. intros L. destruct (tr_le n m L) as [e ->]. rewrite handled_app, app_length. lia. Qed.
  Lemma queued_le c n m : n <= m -> length (queued c (tr n)) <= length (queued c (tr m)).
  Proof. intros L. destruct (tr_le n m L) as [e ->]. rewrite queued_app, app_length. lia. Qed.

  Context (U : forall n, unshared (tr n)) (Al : forall n, d_dead (st n) = false).

  Definition free_at (c n : nat) : Prop := exists h, nth_error (d_chans (st n)) c = Some h /\ dh_cur h = None.

  (* A worker that is not in a handler is not in one a step later, unless it took a request. *)
  Lemma stays_free c n : free_at c n -> free_at c (S n) \/ length (handled c (tr n)) < length (handled c (tr (S n))).
  Proof.
    intros (h & Eh & Hc). unfold free_at. rewrite st_S, tr_S, handled_app, app_length.
    assert (Same : exists g, nth_error (d_chans (st n)) c = Some g /\ dh_cur g = None) by eauto.
    assert (Set_ : forall k g s', d_chans s' = d_chans (st n) -> dh_cur g = None -> exists g', nth_error (d_chans (put_chan s' k g)) c = Some g' /\ dh_cur g' = None).
    { intros k g s' E Hg. cbn [put_chan d_chans]. rewrite E. destruct (Nat.eq_dec k c) as [->|N].
      - exists g. split; [apply nth_error_set_nth_same, nth_error_Some; congruence|exact Hg].
      - exists h. split; [now rewrite nth_error_set_nth_other|exact Hc]. }
    unfold dyn_step. rewrite (Al n). destruct (sch n) as [lk w|d m|d|d|d|d|k|k].
    - left. exists h. split; [|exact Hc]. cbn [fst d_chans]. now apply nth_snoc_old.
    - left. destruct (nth_error (d_conns (st n)) d) as [x|]; [|exact Same]. destruct (dc_reader x); exact Same.
    - left. destruct (nth_error (d_conns (st n)) d) as [x|]; [|exact Same]. unfold reader_step. destruct (dc_reader x) as [|m|k m|]; try exact Same.
      + destruct (d_slot (st n) (dc_wid x)); exact Same.
      + destruct (nth_error (d_chans (st n)) k) as [g|] eqn:Eg; [|exact Same]. destruct (dh_closed g).
        * unfold reader_panics. destruct (dc_link x); exact Same.
        * destruct (_ <? _); [|exact Same]. cbn [fst put_chan put_conn d_chans]. destruct (Nat.eq_dec k c) as [->|N].
          -- eexists. split; [apply nth_error_set_nth_same, nth_error_Some; congruence|]. cbn. congruence.
          -- exists h. split; [now rewrite nth_error_set_nth_other|exact Hc].
    - left. destruct (nth_error (d_conns (st n)) d) as [x|]; [|exact Same]. destruct (dc_reader x); exact Same.
    - left. destruct (nth_error (d_conns (st n)) d) as [x|]; [|exact Same]. destruct (dc_stopped x); exact Same.
    - left. destruct (nth_error (d_conns (st n)) d) as [x|]; [|exact Same]. unfold main_step. destruct (dc_main x); [|exact Same]. destruct (dc_stopped x); [|exact Same].
      destruct (d_slot (st n) (dc_wid x)) as [k|]; [|exact Same]. destruct (nth_error (d_chans (st n)) k) as [g|] eqn:Eg; [|exact Same]. destruct (dh_closed g).
      + unfold main_panics. destruct (dc_link x); exact Same.
      + cbn [fst put_chan put_conn d_chans]. destruct (Nat.eq_dec k c) as [->|N].
        * eexists. split; [apply nth_error_set_nth_same, nth_error_Some; congruence|]. cbn. congruence.
        * exists h. split; [now rewrite nth_error_set_nth_other|exact Hc].
    - unfold take_step. destruct (nth_error (d_chans (st n)) k) as [g|] eqn:Eg; [|left; exact Same]. destruct (dh_quit g); [left; exact Same|]. destruct (dh_cur g); [left; exact Same|].
      destruct (dh_q g) as [|[d m] q] eqn:Eq; [destruct (dh_closed g); left; [now apply Set_|exact Same]|]. cbn [fst snd].
      destruct (uinv_run cap (first sch n) (U n)) as [A _].
      assert (d = k) as -> by (apply (A k g (d, m) Eg); rewrite Eq; now left).
      destruct (Nat.eq_dec k c) as [->|N].
      + right. cbn. rewrite Nat.eqb_refl. cbn. lia.
      + left. exists h. split; [|exact Hc]. cbn [put_chan d_chans]. now rewrite nth_error_set_nth_other.
    - left. unfold done_step. destruct (nth_error (d_chans (st n)) k) as [g|] eqn:Eg; [|exact Same]. destruct (dh_cur g); [|exact Same]. now apply Set_.
  Qed.

  Lemma all_handled c n : often (fun m => sch m = DlTake c) -> often (fun m => sch m = DlDone c) ->
    exists m, n <= m /\ begins (queued c (tr n)) (handled c (tr m)).
  Proof.
    intros Ft Fd. destruct (climb (fun m => length (handled c (tr m))) (length (queued c (tr n))) n) as (m & Lm & Hm).
    - intros m Lm Hlt. destruct (Fd m) as (m1 & L1 & E1). destruct (Ft (S m1)) as (m2 & L2 & E2).
      destruct (le_lt_dec (length (handled c (tr (S m2)))) (length (handled c (tr m)))) as [Le|Gt]; [exfalso|exists (S m2); split; [lia|exact Gt]].
      assert (Wt : forall j, m <= j <= m2 -> exists h, nth_error (d_chans (st j)) c = Some h /\ dh_q h <> []).
      { intros j Lj. destruct (uinv_run cap (first sch j) (U j)) as [_ B]. specialize (B c). fold (tr j) (st j) in B.
        apply (f_equal (@length nat)) in B. rewrite app_length in B. pose proof (queued_le c n j ltac:(lia)). pose proof (handled_le c j (S m2) ltac:(lia)).
        unfold waiting in B. fold (st j) in B. destruct (nth_error (d_chans (st j)) c) as [h|]; [|cbn in B; lia]. exists h. split; [reflexivity|]. intros Q. rewrite Q in B. cbn in B. lia. }
      assert (F1 : free_at c (S m1)).
      { destruct (Wt m1 ltac:(lia)) as (h & Eh & _). unfold free_at. rewrite st_S, E1. unfold dyn_step. rewrite (Al m1). unfold done_step. rewrite Eh.
        destruct (dh_cur h) eqn:Hc; [|exists h; auto]. eexists. cbn [fst put_chan d_chans]. split; [apply nth_error_set_nth_same, nth_error_Some; congruence|reflexivity]. }
      assert (F2 : forall j, S m1 <= j <= m2 -> free_at c j).
      { intros j [La Lb]. induction La as [|j La IH]; [exact F1|]. destruct (stays_free c j (IH ltac:(lia))) as [Q|Q]; [exact Q|].
        pose proof (handled_le c m j ltac:(lia)). pose proof (handled_le c (S j) (S m2) ltac:(lia)). lia. }
      destruct (F2 m2 ltac:(lia)) as (h & Eh & Hc). destruct (Wt m2 ltac:(lia)) as (h' & Eh' & Qh). assert (h' = h) by congruence. subst h'.
      pose proof (handled_le c m m2 ltac:(lia)) as G. revert Le. rewrite tr_S, E2. unfold dyn_step. rewrite (Al m2). unfold take_step. rewrite Eh, Hc.
      assert (Hq : dh_quit h = false). { destruct (dh_quit h) eqn:Hq; [|reflexivity]. destruct (I_quit _ _ (inv_run cap (first sch m2)) c h Eh Hq). contradiction. }
      rewrite Hq. destruct (dh_q h) as [|[d x] q] eqn:Eq; [congruence|]. destruct (uinv_run cap (first sch m2) (U m2)) as [A _].
      assert (d = c) as -> by (apply (A c h (d, x) Eh); rewrite Eq; now left). cbn [snd]. rewrite handled_app, app_length. cbn. rewrite Nat.eqb_refl. cbn. lia.
    - exists m. split; [exact Lm|]. destruct (order cap (first sch m) c (U m)) as [r Hr]. fold (tr m) in Hr. destruct (tr_le n m Lm) as [e He].
      rewrite He, queued_app in Hr. cbn beta in Hm. rewrite He in Hm |- *.
      exists (skipn (length (queued c (tr n))) (handled c (tr n ++ e))).
      rewrite <- (firstn_skipn (length (queued c (tr n))) (handled c (tr n ++ e))) at 1. f_equal.
      apply (f_equal (firstn (length (queued c (tr n))))) in Hr. rewrite firstn_app, Nat.sub_diag, firstn_all, firstn_O, app_nil_r in Hr.
      rewrite firstn_app in Hr. replace (length (queued c (tr n)) - length (handled c (tr n ++ e))) with 0 in Hr by lia. now rewrite firstn_O, app_nil_r in Hr.
  Qed.
End Fair_.

(* As long as no ID is handed out twice and the process lives: what has been queued
   is handled some time, in order, in every execution in which the worker runs again
   and again and its handlers return; also after the connection is closed. *)
Theorem C102_fair_partial cap sch c n :
  let at_ k := dyn_run cap dyn_init (first sch k) in
  (forall k, unshared (snd (at_ k))) -> (forall k, d_dead (fst (at_ k)) = false) ->
  often (fun m => sch m = DlTake c) -> often (fun m => sch m = DlDone c) ->
  exists m, n <= m /\ begins (queued c (snd (at_ n))) (handled c (snd (at_ m))).
Proof. cbv zeta. intros U Al Ft Fd. exact (all_handled cap sch U Al c n Ft Fd). Qed.
Print Assumptions C102_fair_partial.

(* Two requests are queued, the connection is closed and its worker stopped; then the worker
   goes on for ever. *)
Definition closing_then_work : list dlabel :=
  [DlStart LkTcp 4; DlRead 0 10; DlReader 0; DlReader 0; DlRead 0 11; DlReader 0; DlReader 0; DlEnd 0; DlMain 0].
Definition fair_case (n : nat) : dlabel :=
  match nth_error closing_then_work n with Some l => l | None => if Nat.even n then DlTake 0 else DlDone 0 end.
Lemma fair_case_tail n : 9 <= n -> fair_case n = if Nat.even n then DlTake 0 else DlDone 0.
Proof. intros H. unfold fair_case. assert (E : nth_error closing_then_work n = None) by (apply nth_error_None; cbn; lia). now rewrite E. Qed.
Example C102_fair_case :
  let at_ k := dyn_run 2 dyn_init (first fair_case k) in
  (forall k, unshared (snd (at_ k))) /\ (forall k, d_dead (fst (at_ k)) = false) /\
  often (fun m => fair_case m = DlTake 0) /\ often (fun m => fair_case m = DlDone 0) /\
  queued 0 (snd (at_ 9)) = [10; 11] /\ handled 0 (snd (at_ 9)) = [].
Proof.
  cbv zeta.
  assert (T : forall k, dyn_run 2 dyn_init (first fair_case (15 + k)) = dyn_run 2 dyn_init (first fair_case 15)).
  { induction k as [|k IH]; [reflexivity|]. rewrite Nat.add_succ_r, first_S, run_snoc, IH, (fair_case_tail (15 + k)) by lia.
    destruct (Nat.even (15 + k)); vm_compute; reflexivity. }
  assert (G : forall P, (forall k, k <= 15 -> P (dyn_run 2 dyn_init (first fair_case k))) -> forall k, P (dyn_run 2 dyn_init (first fair_case k))).
  { intros P H k. destruct (le_lt_dec k 15) as [L|L]; [auto|]. replace k with (15 + (k - 15)) by lia. rewrite T. apply H. lia. }
  split; [|split; [|split; [|split; [|split; reflexivity]]]].
  - apply (G (fun r => unshared (snd r))). intros k L c d lk lk' w H1 H2.
    do 16 (destruct k as [|k]; [vm_compute in H1, H2; intuition congruence|]). lia.
  - apply (G (fun r => d_dead (fst r) = false)). intros k L. do 16 (destruct k as [|k]; [reflexivity|]). lia.
  - intros n. exists (2 * (n + 5)). split; [lia|]. rewrite fair_case_tail by lia. now rewrite Nat.even_mul.
  - intros n. exists (S (2 * (n + 5))). split; [lia|]. rewrite fair_case_tail by lia. rewrite Nat.even_succ, <- Nat.negb_even, Nat.even_mul. reflexivity.
Qed.

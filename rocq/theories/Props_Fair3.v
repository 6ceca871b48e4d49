(* C28 on infinite executions: a connection that has been asked to stop closes, if its goroutines
   go on again and again. *)
From Coq Require Import List Bool Arith Lia.
From Verif Require Import ConnLife Spec_ConnLife ConnLife_proofs Spec_Fair GenFair_proofs Props_Fair.
Import ListNotations.

Section Closing.
  Context (c : lcfg) (sch : nat -> llabel) (C : calm c).
  Let st (k : nat) : life := fst (life_run c (life_new c) (first sch k)).
  Lemma st_S k : st (S k) = fst (life_step c (st k) (sch k)).
  Proof. unfold st. rewrite first_S, run_app. cbn [fst life_run]. destruct (life_step c _ (sch k)); reflexivity. Qed.
  Lemma st_inv k : exists n, linv c (st k) n /\ forall e i, emits e i -> times e (snd (life_run c (life_new c) (first sch k))) + left i (st k) = left i (life_new c).
  Proof. exact (linv_run c C (first sch k) _ 0 (linv_new c)). Qed.
  Lemma shorter k : length (lf_todo (st (S k))) <= length (lf_todo (st k)).
  Proof.
    rewrite st_S. destruct (st_inv k) as (n & I & _). unfold life_step. rewrite (li_dead _ _ _ I). destruct (sch k) as [| | |f|]; unfold stop_call.
    - destruct (linv_main c _ n C I) as [[-> _]|(L & I' & _)]; [lia|]. rewrite (li_todo _ _ _ I), (li_todo _ _ _ I'), !skipn_length. lia.
    - destruct (lf_ctx (st k)); cbn; lia.
    - destruct (lf_reader (st k)); cbn; lia.
    - destruct (lf_hb (st k)); try (cbn; lia). destruct (f && negb (is_closed c (st k))); [cbn; lia|]. destruct (lf_ctx (st k)); cbn; lia.
    - destruct (lf_hb (st k)); try (cbn; lia). destruct (lf_lock (st k)); cbn; lia.
  Qed.
  Lemma shorter_le k j : k <= j -> length (lf_todo (st j)) <= length (lf_todo (st k)).
  Proof. induction 1 as [|j L IH]; [lia|]. pose proof (shorter j). lia. Qed.
  Lemma no_more_beats k : lf_cancelled (st k) = true -> lf_hb (st k) <> HbWrite -> lf_cancelled (st (S k)) = true /\ lf_hb (st (S k)) <> HbWrite.
  Proof.
    intros Hc Hw. rewrite st_S. split; [now apply cancelled_step|]. destruct (st_inv k) as (n & I & _). unfold life_step. rewrite (li_dead _ _ _ I). destruct (sch k) as [| | |f|]; unfold stop_call.
    - unfold main_step. destruct (lf_todo (st k)) as [|i r]; [exact Hw|]. destruct i; unfold hook_panic; lcase; cbn; auto; try congruence.
    - destruct (lf_ctx (st k)); exact Hw.
    - destruct (lf_reader (st k)); exact Hw.
    - destruct (lf_hb (st k)) eqn:E; cbn [fst]; try congruence. destruct C as (_ & _ & [T|T]); [|pose proof (li_hb0 _ _ _ I T); congruence].
      assert (Q : is_closed c (st k) = true) by (unfold is_closed; rewrite T, Hc; apply orb_true_r). rewrite Q, andb_false_r. destruct (lf_ctx (st k)); cbn; congruence.
    - destruct (lf_hb (st k)) eqn:E; cbn; try congruence. destruct (lc_hc c) eqn:H; [pose proof (li_hb1 _ _ _ I H) as Q; rewrite E in Q; contradiction|pose proof (li_hb0 _ _ _ I H); congruence].
  Qed.
  Lemma no_more_beats_le k j : k <= j -> lf_cancelled (st k) = true -> lf_hb (st k) <> HbWrite -> lf_cancelled (st j) = true /\ lf_hb (st j) <> HbWrite.
  Proof. intros L Hc Hw. induction L as [|j L IH]; [auto|]. destruct IH. now apply no_more_beats. Qed.
  Lemma cancelled_le k j : k <= j -> lf_cancelled (st k) = true -> lf_cancelled (st j) = true.
  Proof. intros L Hc. induction L as [|j L IH]; [auto|]. rewrite st_S. now apply cancelled_step. Qed.
  Lemma gets_shorter k : often (fun m => sch m = LMain) -> often (fun m => sch m = LBeat) -> lf_cancelled (st k) = true -> lf_todo (st k) <> [] ->
    exists j, k < j /\ length (lf_todo (st j)) < length (lf_todo (st k)).
  Proof.
    intros M B Hc Hn. destruct (B k) as (m1 & L1 & E1). destruct (M (S m1)) as (m2 & L2 & E2).
    assert (W : lf_hb (st (S m1)) <> HbWrite).
    { rewrite st_S. destruct (st_inv m1) as (n & I & _). unfold life_step. rewrite (li_dead _ _ _ I), E1. destruct (lf_hb (st m1)) eqn:E; cbn; try congruence.
      destruct (lc_hc c) eqn:H; [pose proof (li_hb1 _ _ _ I H) as Q; rewrite E in Q; contradiction|pose proof (li_hb0 _ _ _ I H); congruence]. }
    destruct (no_more_beats_le (S m1) m2 ltac:(lia) (cancelled_le k (S m1) ltac:(lia) Hc) W) as (Hc2 & W2).
    exists (S m2). split; [lia|]. pose proof (shorter_le k m2 ltac:(lia)) as S1. destruct (st_inv m2) as (n & I & _).
    destruct (Nat.lt_ge_cases n (length (prog c))) as [Ln|Ln].
    - pose proof (linv_goes c _ n C I Ln Hc2 W2) as Q. rewrite st_S. unfold life_step. rewrite (li_dead _ _ _ I), E2. lia.
    - assert (T0 : length (lf_todo (st m2)) = 0) by (rewrite (li_todo _ _ _ I), skipn_length; lia). pose proof (shorter m2). destruct (lf_todo (st k)); [congruence|]. cbn [length] in *. lia.
  Qed.
  Lemma closes n : often (fun m => sch m = LMain) -> often (fun m => sch m = LBeat) -> lf_cancelled (st n) = true -> exists m, n <= m /\ lf_todo (st m) = [].
  Proof.
    intros M B Hc. remember (length (lf_todo (st n))) as k eqn:E. revert n E Hc. induction k as [k IH] using lt_wf_ind. intros n E Hc.
    destruct (lf_todo (st n)) as [|i r] eqn:T; [exists n; auto|]. destruct (gets_shorter n M B Hc ltac:(congruence)) as (j & Lj & Q).
    destruct (IH (length (lf_todo (st j))) ltac:(rewrite T in Q; cbn in *; lia) j eq_refl (cancelled_le n j ltac:(lia) Hc)) as (m & Lm & D). exists m. split; [lia|exact D].
  Qed.
End Closing.

(* Hooks that return; a Tcp connection, or no heartbeat (for the others see C28_heartbeat_refuted).
   Once a stop has been asked for, a moment comes after which the stop hook has been called, the
   socket closed and the connection removed exactly once, at whatever later moment one looks. *)
Theorem C28_fair c sch n : lc_start_panics c = false -> lc_stop_panics c = false -> (lc_kind c = KTcp \/ lc_hc c = false) ->
  often (fun m => sch m = LMain) -> often (fun m => sch m = LBeat) -> stop_asked c (first sch n) ->
  exists m, n <= m /\ forall k e, m <= k -> closing_event e -> times e (snd (life_run c (life_new c) (first sch k))) = 1.
Proof.
  intros P1 P2 P3 M B A. assert (C : calm c) by (repeat split; assumption). pose proof (asked_cancels c _ C A) as Hc.
  destruct (closes c sch C n M B Hc) as (m & Lm & T). exists m. split; [exact Lm|]. intros k e Lk He.
  destruct (st_inv c sch C k) as (j & I & E). cbv beta zeta in E. destruct (closing_emits e He) as (i & Em & _ & H1). specialize (E e i Em). rewrite H1 in E.
  assert (T' : lf_todo (fst (life_run c (life_new c) (first sch k))) = []).
  { pose proof (shorter_le c sch C m k Lk) as Q. cbv beta zeta in Q, T. rewrite T in Q. destruct (lf_todo (fst (life_run c (life_new c) (first sch k)))); [reflexivity|cbn in Q; lia]. }
  unfold left in E at 1. rewrite T' in E. cbn in E. lia.
Qed.
Print Assumptions C28_fair.
Definition life_turn (k : nat) : llabel := match k mod 3 with 0 => LMain | 1 => LBeat | _ => LTick true end.
(* A heartbeat is being written when the connection is stopped. *)
Example C28_fair_case : let c := Lcfg KTcp true false false in let pre := repeat LMain 6 ++ [LTick true; LStop] in let sch := then_round pre life_turn in
  often (fun m => sch m = LMain) /\ often (fun m => sch m = LBeat) /\ stop_asked c (first sch 8) /\ lf_hb (fst (life_run c (life_new c) (first sch 8))) = HbWrite.
Proof.
  intros c pre sch. split; [|split; [|split]].
  - intros n. exists (length pre + 3 * n). split; [lia|]. unfold sch. rewrite in_round. unfold life_turn. now rewrite Nat.mul_comm, Nat.mod_mul by lia.
  - intros n. exists (length pre + (1 + n * 3)). split; [lia|]. unfold sch. rewrite in_round. unfold life_turn. now rewrite Nat.mod_add by lia.
  - exists (repeat LMain 6 ++ [LTick true]), LStop, []. unfold sch. rewrite (first_pre pre life_turn 8) by (vm_compute; lia). split; [reflexivity|]. vm_compute. auto.
  - unfold sch. rewrite (first_pre pre life_turn 8) by (vm_compute; lia). vm_compute. reflexivity.
Qed.

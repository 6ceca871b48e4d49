(* C43, C44: the ID generator. *)
From Coq Require Import ZArith List Bool Lia Sorted.
From Verif Require Import Snowflake Spec_Snowflake Snowflake_proofs.
Import ListNotations.
Local Open Scope Z_scope.

(* C43. Whatever the clock does in the supported range, the IDs of a generator are
   strictly increasing. *)
Theorem C43_increasing id w n clock : new_idworker id = Some w -> supported clock ->
  StronglySorted Z.lt (ids (id_run n w clock)).
Proof. intros H S. exact (proj1 (ids_sorted n w clock (proj1 (new_good _ _ H)) S)). Qed.
Print Assumptions C43_increasing.

(* ... and generators with different numbers never return the same ID. *)
Theorem C43_disjoint id1 id2 w1 w2 n1 n2 clock1 clock2 i :
  new_idworker id1 = Some w1 -> new_idworker id2 = Some w2 -> id1 <> id2 -> supported clock1 -> supported clock2 ->
  In i (ids (id_run n1 w1 clock1)) -> ~ In i (ids (id_run n2 w2 clock2)).
Proof.
  intros H1 H2 Hd S1 S2 I1 I2. destruct (new_good _ _ H1) as (G1 & E1), (new_good _ _ H2) as (G2 & E2).
  apply (ids_sorted n1 w1 clock1 G1 S1) in I1. apply (ids_sorted n2 w2 clock2 G2 S2) in I2. apply Hd. rewrite <- E1, <- E2. destruct I1 as (_ & _ & <-), I2 as (_ & _ & <-). reflexivity.
Qed.
Print Assumptions C43_disjoint.

(* The clock stalls within a millisecond, goes back, and catches up; and a stall so long that
   all 4096 numbers of the millisecond are used and the generator has to wait. *)
Example C43_case : forall w, new_idworker 7 = Some w ->
  ids (id_run 5 w [5000000; 5999999; 4000000; 5000000; 6000000]) =
    [20971520 + 28672; 20971520 + 28673; 20971520 + 28674; 25165824 + 28672] /\
  id_run 5 w [5000000; 5999999; 4000000; 5000000; 6000000] <> map Got (ids (id_run 5 w [5000000; 5999999; 4000000; 5000000; 6000000])) /\
  supported [5000000; 5999999; 4000000; 5000000; 6000000] /\
  (let clock := repeat 5000000 4097 ++ [4000000; 5999999; 9000000] in
   supported clock /\ last (ids (id_run 4097 w clock)) 0 = 9 * 2 ^ 22 + 28672 /\ length (ids (id_run 4097 w clock)) = 4097%nat).
Proof.
  intros w [= <-]. split; [reflexivity|]. split; [discriminate|].
  split; [intros ns H; cbn in H; lia|]. cbv zeta. split; [|split; vm_compute; reflexivity].
  intros ns H. apply in_app_or in H. destruct H as [H|H]; [apply repeat_spec in H; lia|cbn in H; lia].
Qed.

(* C44. The accepted worker numbers. *)
Theorem C44_accepts id : (exists w, new_idworker id = Some w) <-> 0 <= id <= 1023.
Proof.
  unfold new_idworker. rewrite max_worker_eq. split.
  - intros (w & H). destruct (Z.ltb_spec id 0), (Z.ltb_spec 1023 id); try discriminate H; lia.
  - intros H. destruct (Z.ltb_spec id 0), (Z.ltb_spec 1023 id); try lia. eexists. reflexivity.
Qed.
Print Assumptions C44_accepts.

(* After any number of calls, the next one fails iff the clock now reads less than the
   time of the last ID. *)
Theorem C44_fails_iff id w n clock ns rest : new_idworker id = Some w -> supported clock ->
  snd (id_state n w clock) = ns :: rest ->
  ((exists w' rest', next_id (fst (id_state n w clock)) (ns :: rest) = Some (w', ClockBack, rest')) <->
   (exists before i, ids (id_run n w clock) = before ++ [i] /\ ns / 1000000 < time_of i)).
Proof.
  intros Hn Hs E. rewrite (fails_iff id w n clock ns rest Hn Hs E).
  assert (B : 0 <= ns). { destruct (new_good _ _ Hn) as (G & _). destruct (state_last n w clock G Hs) as (_ & B & _). rewrite E in B. apply B. now left. }
  unfold millis. rewrite Z.quot_div_nonneg by lia. reflexivity.
Qed.
Print Assumptions C44_fails_iff.

(* A call returns once the clock has gone past the last ID's time. *)
Theorem C44_returns w clock ns : (exists later, In later clock /\ iw_last w < millis later) -> next_id w (ns :: clock) <> None.
Proof. exact (returns w clock ns). Qed.
Print Assumptions C44_returns.

Theorem C44_non_negative id w n clock i : new_idworker id = Some w -> supported clock ->
  In i (ids (id_run n w clock)) -> 0 <= i < 2 ^ 63.
Proof. intros H S I. apply (ids_sorted n w clock (proj1 (new_good _ _ H)) S) in I. tauto. Qed.
Print Assumptions C44_non_negative.

Example C44_case : forall w, new_idworker 1023 = Some w ->
  let clock := [5000000; 5000001; 4999999; 6000000] in
  snd (id_state 2 w clock) = [4999999; 6000000] /\ ids (id_run 2 w clock) = [5 * 2 ^ 22 + 1023 * 4096; 5 * 2 ^ 22 + 1023 * 4096 + 1] /\
  4999999 / 1000000 < time_of (5 * 2 ^ 22 + 1023 * 4096 + 1) /\ id_run 4 w clock = [Got (5 * 2 ^ 22 + 1023 * 4096); Got (5 * 2 ^ 22 + 1023 * 4096 + 1); ClockBack; Got (6 * 2 ^ 22 + 1023 * 4096)].
Proof. intros w [= <-]. vm_compute. auto. Qed.

(* Outside the supported range (from 2039-09-07 on) IDs are negative. *)
Example C44_after_2039 : forall w, new_idworker 0 = Some w -> ids (id_run 1 w [2 ^ 41 * 1000000]) = [- 2 ^ 63].
Proof. intros w [= <-]. vm_compute. reflexivity. Qed.

(* Proofs about the ID generator. *)
From Coq Require Import ZArith List Bool Lia Sorted ZifyBool.
From Verif Require Import Bytes Snowflake Spec_Snowflake.
Import ListNotations.
Local Open Scope Z_scope.

Lemma max_worker_eq : max_worker = 1023. Proof. reflexivity. Qed.
Lemma mask_eq : sequence_mask = 4095. Proof. reflexivity. Qed.

Lemma lor_add a b n : 0 <= n -> 0 <= b < 2 ^ n -> Z.lor (a * 2 ^ n) b = a * 2 ^ n + b.
Proof.
  intros Hn Hb. assert (L : Z.land (a * 2 ^ n) b = 0).
  { apply Z.bits_inj'. intros k Hk. rewrite Z.land_spec, Z.bits_0.
    destruct (Z.lt_ge_cases k n) as [H|H]; [rewrite Z.mul_pow2_bits_low by lia; reflexivity|].
    destruct (Z.eq_dec b 0) as [->|Hz]; [rewrite Z.bits_0; apply andb_false_r|].
    rewrite (Z.bits_above_log2 b k); [apply andb_false_r|lia|]. assert (Z.log2 b < n) by (apply Z.log2_lt_pow2; lia). lia. }
  rewrite <- Z.lxor_lor by exact L. symmetry. apply Z.add_nocarry_lxor. exact L.
Qed.

(* The ID as a number. *)
Definition id_of (ts w seq : Z) : Z := ts * 2 ^ 22 + w * 2 ^ 12 + seq.
Lemma id_eq ts w seq : 0 <= ts < 2 ^ 41 -> 0 <= w <= 1023 -> 0 <= seq < 4096 ->
  id_bits ts w seq = id_of ts w seq.
Proof.
  intros H1 H2 H3. unfold id_bits. change timestamp_shift with 22. change worker_shift with 12.
  rewrite !Z.shiftl_mul_pow2 by lia. unfold s64. rewrite !Z.mod_small by lia.
  replace (ts * 2 ^ 22 + 2 ^ 63 - 2 ^ 63) with (ts * 2 ^ 22) by lia. replace (w * 2 ^ 12 + 2 ^ 63 - 2 ^ 63) with (w * 2 ^ 12) by lia.
  rewrite lor_add by lia. replace (ts * 2 ^ 22 + w * 2 ^ 12) with ((ts * 2 ^ 10 + w) * 2 ^ 12) by lia.
  rewrite lor_add by lia. unfold id_of. lia.
Qed.

Lemma millis_range ns : 0 <= ns < 2 ^ 41 * 1000000 -> 0 <= millis ns < 2 ^ 41.
Proof. intros H. unfold millis. rewrite Z.quot_div_nonneg by lia. split; [apply Z.div_pos; lia|apply Z.div_lt_upper_bound; lia]. Qed.

Local Opaque id_bits.
Definition good (w : idworker) : Prop :=
  0 <= iw_id w <= 1023 /\ 0 <= iw_seq w < 4096 /\ (iw_last w = -1 /\ iw_seq w = 0 \/ 0 <= iw_last w < 2 ^ 41).

Lemma wait_spec last : forall clock cur ts rest, supported clock -> cur = last \/ 0 <= cur < 2 ^ 41 ->
  next_millisecond last cur clock = Some (ts, rest) -> last < ts /\ (ts = cur \/ 0 <= ts < 2 ^ 41) /\ supported rest.
Proof.
  induction clock as [|ns clock IH]; intros cur ts rest Hs Hc; cbn; destruct (Z.leb_spec cur last); try discriminate.
  - intros [= <- <-]. split; [lia|]. split; [now left|exact Hs].
  - intros H0. assert (R : 0 <= millis ns < 2 ^ 41) by (apply millis_range, Hs; now left).
    destruct (IH (millis ns) ts rest) as (A & B & C); auto; [intros x Hx; apply Hs; now right|].
    split; [exact A|]. split; [right; destruct B as [->|]; lia|exact C].
  - intros [= <- <-]. split; [lia|]. split; [now left|exact Hs].
Qed.

(* One call. *)
Lemma next_spec w clock w' r rest : good w -> supported clock -> next_id w clock = Some (w', r, rest) ->
  supported rest /\ good w' /\ iw_id w' = iw_id w /\
  exists ns clock1, clock = ns :: clock1 /\
  match r with
  | ClockBack => w' = w /\ millis ns < iw_last w
  | Got id => iw_last w <= millis ns /\ id = id_of (iw_last w') (iw_id w) (iw_seq w') /\ 0 <= iw_last w' /\
              (iw_last w < iw_last w' \/ iw_last w = iw_last w' /\ iw_seq w < iw_seq w')
  end.
Proof.
  intros (G1 & G2 & G3) Hs. unfold next_id. destruct clock as [|ns clock1]; [discriminate|].
  assert (R : 0 <= millis ns < 2 ^ 41) by (apply millis_range, Hs; now left).
  assert (Hs1 : supported clock1) by (intros x Hx; apply Hs; now right).
  destruct (Z.ltb_spec (millis ns) (iw_last w)) as [Hl|Hl].
  { intros [= <- <- <-]. split; [exact Hs1|]. split; [split; auto|]. split; [reflexivity|]. exists ns, clock1. auto. }
  destruct (Z.eqb_spec (millis ns) (iw_last w)) as [He|He].
  - assert (Hl0 : 0 <= iw_last w < 2 ^ 41) by lia. rewrite mask_eq.
    replace (s64 (iw_seq w + 1)) with (iw_seq w + 1) by (unfold s64; rewrite Z.mod_small by lia; lia).
    change 4095 with (Z.ones 12). rewrite Z.land_ones by lia. change (2 ^ 12) with 4096.
    destruct (Z.eqb_spec ((iw_seq w + 1) mod 4096) 0) as [Hz|Hz].
    + destruct (next_millisecond (iw_last w) (millis ns) clock1) as [[ts rest']|] eqn:En; [|discriminate].
      destruct (wait_spec _ _ _ _ _ Hs1 (or_introl He) En) as (A & B & C). intros [= <- <- <-].
      assert (Ht : 0 <= ts < 2 ^ 41) by lia.
      split; [exact C|]. cbn [iw_last iw_seq iw_id]. rewrite Hz. split; [repeat split; cbn; lia|]. split; [reflexivity|].
      exists ns, clock1. split; [reflexivity|]. rewrite id_eq by lia. repeat split; try lia.
    + assert (Hq : (iw_seq w + 1) mod 4096 = iw_seq w + 1).
      { apply Z.mod_small. split; [lia|]. assert (iw_seq w <> 4095) by (intros X; rewrite X in Hz; now apply Hz). lia. }
      rewrite Hq in *. assert (iw_seq w + 1 < 4096) by (pose proof (Z.mod_pos_bound (iw_seq w + 1) 4096); lia).
      intros [= <- <- <-]. split; [exact Hs1|]. cbn [iw_last iw_seq iw_id]. split; [repeat split; cbn; lia|]. split; [reflexivity|].
      exists ns, clock1. split; [reflexivity|]. rewrite id_eq by lia. repeat split; try lia.
  - intros [= <- <- <-]. split; [exact Hs1|]. cbn [iw_last iw_seq iw_id]. split; [repeat split; cbn; lia|]. split; [reflexivity|].
    exists ns, clock1. split; [reflexivity|]. rewrite id_eq by lia. repeat split; try lia.
Qed.

Definition floor_of (w : idworker) : Z := id_of (iw_last w) (iw_id w) (iw_seq w).
Lemma ids_sorted : forall n w clock, good w -> supported clock ->
  StronglySorted Z.lt (ids (id_run n w clock)) /\
  (forall i, In i (ids (id_run n w clock)) -> floor_of w < i /\ 0 <= i < 2 ^ 63 /\ (i / 2 ^ 12) mod 2 ^ 10 = iw_id w).
Proof.
  induction n as [|n IH]; intros w clock G Hs; cbn; [split; [constructor|contradiction]|].
  destruct (next_id w clock) as [[[w' r] rest]|] eqn:En; [|cbn; split; [constructor|contradiction]].
  destruct (next_spec w clock w' r rest G Hs En) as (Hr & G' & Hid & ns & clock1 & _ & X).
  destruct (IH w' rest G' Hr) as (S & F). unfold ids in *. cbn.
  destruct r as [id|].
  - destruct X as (_ & E & P & L). destruct G as (G1 & G2 & G3), G' as (G1' & G2' & G3').
    assert (E2 : id = floor_of w') by (unfold floor_of; congruence).
    assert (L2 : floor_of w < id) by (rewrite E; unfold floor_of, id_of; lia).
    cbn. split; [constructor; [exact S|]; apply Forall_forall; intros i Hi; apply F in Hi; lia|].
    intros i [<-|Hi].
    + split; [exact L2|]. rewrite E. unfold id_of. split; [lia|].
      replace (iw_last w' * 2 ^ 22 + iw_id w * 2 ^ 12 + iw_seq w') with (iw_seq w' + (iw_last w' * 2 ^ 10 + iw_id w) * 2 ^ 12) by lia.
      rewrite Z.div_add by lia. rewrite (Z.div_small (iw_seq w')) by lia.
      replace (0 + (iw_last w' * 2 ^ 10 + iw_id w)) with (iw_id w + iw_last w' * 2 ^ 10) by lia.
      rewrite Z.mod_add by lia. apply Z.mod_small. lia.
    + apply F in Hi. rewrite <- Hid. split; [lia|]. tauto.
  - destruct X as (-> & _). auto.
Qed.

Lemma new_good id w : new_idworker id = Some w -> good w /\ iw_id w = id.
Proof.
  unfold new_idworker. rewrite max_worker_eq. destruct (Z.ltb_spec id 0); [discriminate|]. destruct (Z.ltb_spec 1023 id); [discriminate|].
  cbn. intros [= <-]. unfold good. cbn. repeat split; lia.
Qed.

Definition time_of_last (w : idworker) (prev : Z) (l : list Z) : Z := match rev l with [] => prev | i :: _ => time_of i end.
Lemma state_last : forall n w clock, good w -> supported clock ->
  good (fst (id_state n w clock)) /\ supported (snd (id_state n w clock)) /\
  iw_last (fst (id_state n w clock)) = time_of_last w (iw_last w) (ids (id_run n w clock)).
Proof.
  induction n as [|n IH]; intros w clock G Hs; cbn; [auto|].
  destruct (next_id w clock) as [[[w' r] rest]|] eqn:En; [|cbn; auto].
  destruct (next_spec w clock w' r rest G Hs En) as (Hr & G' & Hid & ns & clock1 & _ & X).
  destruct (IH w' rest G' Hr) as (A & B & C). split; [exact A|]. split; [exact B|]. rewrite C. unfold ids, time_of_last. cbn.
  destruct r as [id|].
  - destruct X as (_ & E & P & _). cbn [app]. cbn [rev].
    destruct (rev (flat_map _ (id_run n w' rest))) as [|y l]; [|reflexivity]. cbn. rewrite E. unfold time_of, id_of.
    destruct G as (G1 & _ & _), G' as (G1' & G2' & G3'). symmetry. symmetry.
    replace (iw_last w' * 2 ^ 22 + iw_id w * 2 ^ 12 + iw_seq w') with ((iw_id w * 2 ^ 12 + iw_seq w') + iw_last w' * 2 ^ 22) by lia.
    rewrite Z.div_add by lia. rewrite Z.div_small by lia. lia.
  - destruct X as (-> & _). reflexivity.
Qed.

(* Waiting ends as soon as a later reading comes. *)
Lemma wait_ends last : forall clock cur, (exists ns, In ns clock /\ last < millis ns) -> next_millisecond last cur clock <> None.
Proof.
  induction clock as [|ns clock IH]; intros cur (x & Hx & Hl); [contradiction|]. cbn. destruct (cur <=? last) eqn:E; [|discriminate].
  destruct Hx as [->|Hx]; [|apply IH; eauto]. destruct clock as [|y clock]; cbn; destruct (Z.leb_spec (millis x) last); try discriminate; lia.
Qed.

Lemma fails_iff id w n clock ns rest : new_idworker id = Some w -> supported clock ->
  snd (id_state n w clock) = ns :: rest ->
  ((exists w' rest', next_id (fst (id_state n w clock)) (ns :: rest) = Some (w', ClockBack, rest')) <->
   (exists before i, ids (id_run n w clock) = before ++ [i] /\ millis ns < time_of i)).
Proof.
  intros Hn Hs E. destruct (new_good _ _ Hn) as (G & _). destruct (state_last n w clock G Hs) as (A & B & C).
  rewrite E in B. assert (R : 0 <= millis ns < 2 ^ 41) by (apply millis_range, B; now left).
  assert (L0 : iw_last w = -1). { unfold new_idworker in Hn. destruct ((id <? 0) || (max_worker <? id)); [discriminate|]. now injection Hn as <-. }
  split.
  - intros (w' & rest' & X). destruct (next_spec _ _ _ _ _ A B X) as (_ & _ & _ & ns0 & c0 & [= <- <-] & _ & Hl).
    rewrite C in Hl. unfold time_of_last in Hl. destruct (rev (ids (id_run n w clock))) as [|i l] eqn:Er; [lia|].
    exists (rev l), i. split; [|exact Hl]. rewrite <- (rev_involutive (ids _)), Er. reflexivity.
  - intros (before & i & Ei & Hl). unfold time_of_last in C. rewrite Ei, rev_app_distr in C. cbn in C.
    exists (fst (id_state n w clock)), rest. unfold next_id. rewrite C. now destruct (Z.ltb_spec (millis ns) (time_of i)); [|lia].
Qed.

Lemma returns w clock ns : (exists later, In later clock /\ iw_last w < millis later) -> next_id w (ns :: clock) <> None.
Proof.
  intros H. unfold next_id. destruct (millis ns <? iw_last w); [discriminate|]. destruct (millis ns =? iw_last w); [|discriminate].
  destruct (_ =? 0); [|discriminate]. destruct (next_millisecond _ _ clock) as [[? ?]|] eqn:E; [discriminate|]. now apply wait_ends in E.
Qed.

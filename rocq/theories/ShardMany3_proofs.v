(* Proofs for C98: two callbacks that wait for each other. *)
From Coq Require Import ZArith List Bool Arith Lia.
From Verif Require Import Bytes GoSlice ShardMap Spec_Map ShardMap_proofs ShardIter Spec_ShardIter ShardIter_proofs ShardIter2_proofs ShardIter3_proofs ShardMany Spec_ShardMany ShardMany_proofs.
Import ListNotations.

Section P.
Context {V : Type}.
(* The j-th iteration holds shard i, its callback is about to call o. *)
Definition stuck_at (s : many V) (j i : nat) (o : mop V) : Prop :=
  exists cb c w seen os, nth_error (mn_parts s) j = Some (PCb cb c w) /\ cb_seen c = Some seen /\ cb_i c = i /\ cb_calls c = o :: os.
Definition goes (s : many V) (o : mop V) : bool :=
  may (mn_map s) (m_held s) o && match reads o with Some k => negb (m_waited s (shard_of (sm_hash (mn_map s)) k)) | None => true end.
Lemma stuck_held s j i o : stuck_at s j i o -> m_held s i = true.
Proof.
  intros (cb & c & w & seen & os & E & Es & Ei & _). unfold m_held. apply existsb_exists. eexists. split; [eapply nth_error_In; exact E|]. cbn. unfold cb_held. rewrite Es, Ei. apply Nat.eqb_refl.
Qed.
Lemma put_other {A} (l : list A) j j' x y : nth_error l j = Some x -> j' <> j -> nth_error (set_nth j' y l) j = Some x.
Proof. revert j j'. induction l as [|a l IH]; intros [|j] [|j'] E N; cbn in *; try discriminate; try congruence; try exact E. apply IH; [exact E|congruence]. Qed.
Lemma put_same {A} (l : list A) j x y : nth_error l j = Some x -> nth_error (set_nth j y l) j = Some y.
Proof. revert j. induction l as [|a l IH]; intros [|j] E; cbn in *; try discriminate; auto. Qed.
Lemma stuck_after s o' w j i o : stuck_at s j i o -> stuck_at (m_after s o' w) j i o.
Proof.
  intros (cb & c & w0 & seen & os & E & Es & Ei & Ec). unfold m_after. exists cb. eexists. exists w0, seen, os. cbn [mn_parts]. split; [rewrite nth_error_map, E; reflexivity|]. cbn. auto.
Qed.
Lemma frozen s lb j i o : stuck_at s j i o -> goes s o = false -> stuck_at (many_step s lb) j i o.
Proof.
  intros St G. pose proof St as (cb & c & w & seen & os & E & Es & Ei & Ec).
  assert (Put : forall j' p, (j' = j -> exists w', p = PCb cb c w') -> stuck_at (put_part s j' p) j i o).
  { intros j' p H. destruct (Nat.eq_dec j' j) as [->|N].
    - destruct (H eq_refl) as (w' & ->). exists cb, c, w', seen, os. cbn [put_part mn_parts]. split; [now apply (put_same _ _ _ _ E)|auto].
    - exists cb, c, w, seen, os. cbn [put_part mn_parts]. split; [now apply put_other|auto]. }
  destruct lb as [k|o'|n|j' l|j' l|j'|j' l|j']; cbn [many_step].
  - exists cb, c, w, seen, os. cbn [mn_parts]. split; [rewrite nth_error_app1; [exact E|eapply nth_lt; exact E]|auto].
  - destruct (may _ _ o'); [now apply stuck_after|]. exists cb, c, w, seen, os. auto.
  - destruct (nth_error (mn_wait s) n) as [o'|]; [|exact St]. destruct (may _ _ o'); [now apply stuck_after|exact St].
  - destruct (nth_error (mn_parts s) j') as [[p|p|p|cb' p w']|] eqn:E'; try exact St. assert (forall q, stuck_at (put_part s j' q) j i o) by (intros q; apply Put; intros ->; congruence). destruct l; try exact St; auto. destruct (m_waited s _); auto.
  - destruct (nth_error (mn_parts s) j') as [[p|p|p|cb' p w']|] eqn:E'; try exact St. assert (forall q, stuck_at (put_part s j' q) j i o) by (intros q; apply Put; intros ->; congruence). destruct l; try exact St; auto; destruct (m_waited s _); auto.
  - destruct (nth_error (mn_parts s) j') as [[p|p|p|cb' p w']|] eqn:E'; try exact St. destruct (m_waited s _); [exact St|]. apply Put. intros ->. congruence.
  - destruct (nth_error (mn_parts s) j') as [[p|p|p|cb' p w']|] eqn:E'; try exact St.
    destruct l as [o'|n| |n| |]; try exact St.
    + destruct (m_waited s _); [exact St|]. apply Put. intros ->. rewrite E in E'. injection E' as <- <- <-. exists w. cbn [cb_step]. now rewrite Es.
    + apply Put. intros ->. rewrite E in E'. injection E' as <- <- <-. exists w. cbn [cb_step]. now rewrite Es, Ec.
    + destruct (cb_calls p) as [|o' os'] eqn:Ec'; [exact St|]. destruct (_ && _) eqn:G'; [|exact St]. apply stuck_after. apply Put. intros ->. rewrite E in E'. injection E' as <- <- <-. rewrite Ec in Ec'. injection Ec' as <- <-. unfold goes in G. congruence.
    + apply Put. intros ->. rewrite E in E'. injection E' as <- <- <-. exists w. cbn [cb_step]. now rewrite Es, Ec.
  - destruct (nth_error (mn_parts s) j') as [[p|p|p|cb' p w']|] eqn:E'; try exact St. destruct (cb_calls p); [exact St|]. destruct (may _ _ _); [exact St|]. apply Put. intros ->. rewrite E in E'. injection E' as <- <- <-. eauto.
Qed.
Lemma remove_nth_in {A} (l : list A) n x y : In x l -> nth_error l n = Some y -> x <> y -> In x (remove_nth n l).
Proof. revert n. induction l as [|a l IH]; intros [|n] H E N; cbn in *; try contradiction. - injection E as ->. destruct H; [congruence|assumption]. - destruct H; [now left|right; eauto]. Qed.
Lemma wait_stays (s : many V) lb o : In o (mn_wait s) -> may (mn_map s) (m_held s) o = false -> In o (mn_wait (many_step s lb)).
Proof.
  intros H M. destruct lb as [k|o'|n|j l|j l|j|j l|j]; cbn [many_step].
  - exact H.
  - destruct (may _ _ o'); cbn; [exact H|apply in_or_app; now left].
  - destruct (nth_error (mn_wait s) n) as [o'|] eqn:E; [|exact H]. destruct (may _ _ o') eqn:M'; [|exact H]. cbn. eapply remove_nth_in; eauto. congruence.
  - destruct (nth_error _ _) as [[]|]; try exact H. destruct l; try exact H. destruct (m_waited _ _); exact H.
  - destruct (nth_error _ _) as [[]|]; try exact H. destruct l; try exact H; destruct (m_waited _ _); exact H.
  - destruct (nth_error _ _) as [[]|]; try exact H. destruct (m_waited _ _); exact H.
  - destruct (nth_error _ _) as [[]|]; try exact H. destruct l; try exact H; [destruct (m_waited _ _); exact H|]. destruct (cb_calls s0); [exact H|]. destruct (_ && _); exact H.
  - destruct (nth_error _ _) as [[]|]; try exact H. destruct (cb_calls s0) as [|x ?]; [exact H|]. destruct (may _ _ x); exact H.
Qed.

(* Each wants to write to the shard the other holds. *)
Lemma dead_writes i0 i1 o0 o1 k0 k1 ls : forall s : many V, minv (mn_map s) -> stuck_at s 0 i0 o0 -> stuck_at s 1 i1 o1 ->
  writes o0 = Some k0 -> writes o1 = Some k1 -> shard_of (sm_hash (mn_map s)) k0 = i1 -> shard_of (sm_hash (mn_map s)) k1 = i0 ->
  stuck_at (many_run s ls) 0 i0 o0 /\ stuck_at (many_run s ls) 1 i1 o1.
Proof.
  induction ls as [|l ls IH]; intros s M S0 S1 W0 W1 H0 H1; [auto|]. cbn [many_run fold_left].
  assert (G0 : goes s o0 = false) by (unfold goes, may; rewrite W0, H0, (stuck_held _ _ _ _ S1); reflexivity).
  assert (G1 : goes s o1 = false) by (unfold goes, may; rewrite W1, H1, (stuck_held _ _ _ _ S0); reflexivity).
  destruct (step_minv s l M) as (M' & Hh). apply IH; auto; try (rewrite Hh; auto); now apply frozen.
Qed.
(* Each wants to read in the shard the other holds, and writers wait for both shards. *)
Lemma dead_reads i0 i1 o0 o1 k0 k1 w0 w1 x0 x1 ls : forall s : many V, minv (mn_map s) -> stuck_at s 0 i0 o0 -> stuck_at s 1 i1 o1 ->
  reads o0 = Some k0 -> reads o1 = Some k1 -> shard_of (sm_hash (mn_map s)) k0 = i1 -> shard_of (sm_hash (mn_map s)) k1 = i0 ->
  In w0 (mn_wait s) -> In w1 (mn_wait s) -> writes w0 = Some x0 -> writes w1 = Some x1 ->
  shard_of (sm_hash (mn_map s)) x0 = i0 -> shard_of (sm_hash (mn_map s)) x1 = i1 ->
  stuck_at (many_run s ls) 0 i0 o0 /\ stuck_at (many_run s ls) 1 i1 o1 /\ In w0 (mn_wait (many_run s ls)) /\ In w1 (mn_wait (many_run s ls)).
Proof.
  induction ls as [|l ls IH]; intros s M S0 S1 R0 R1 H0 H1 I0 I1 W0 W1 X0 X1; [auto|]. cbn [many_run fold_left].
  assert (Wt0 : m_waited s i0 = true). { unfold m_waited. apply orb_true_iff. left. apply existsb_exists. exists w0. split; [exact I0|]. unfold to_shard. rewrite W0, X0. apply Nat.eqb_refl. }
  assert (Wt1 : m_waited s i1 = true). { unfold m_waited. apply orb_true_iff. left. apply existsb_exists. exists w1. split; [exact I1|]. unfold to_shard. rewrite W1, X1. apply Nat.eqb_refl. }
  assert (G0 : goes s o0 = false) by (unfold goes; rewrite R0, H0, Wt1; apply andb_false_r).
  assert (G1 : goes s o1 = false) by (unfold goes; rewrite R1, H1, Wt0; apply andb_false_r).
  assert (B0 : may (mn_map s) (m_held s) w0 = false) by (unfold may; rewrite W0, X0, (stuck_held _ _ _ _ S0); reflexivity).
  assert (B1 : may (mn_map s) (m_held s) w1 = false) by (unfold may; rewrite W1, X1, (stuck_held _ _ _ _ S1); reflexivity).
  destruct (step_minv s l M) as (M' & Hh). apply IH; auto; try (rewrite Hh; auto); try (now apply frozen); now apply wait_stays.
Qed.
Lemma stuck_open s j i o : i < shard_count -> stuck_at s j i o -> exists p, nth_error (mn_parts s) j = Some p /\ p_end p = false.
Proof. intros H (cb & c & w & seen & os & E & _ & Ei & _). eexists. split; [exact E|]. cbn [p_end]. unfold cb_end. rewrite Ei. now apply Nat.leb_gt. Qed.
Definition where_at (s : many V) (j : nat) : option (nat * mop V) :=
  match nth_error (mn_parts s) j with
  | Some (PCb _ c _) => match cb_seen c, cb_calls c with Some _, o :: _ => Some (cb_i c, o) | _, _ => None end
  | _ => None
  end.
Lemma stuck_where s j i o : where_at s j = Some (i, o) -> stuck_at s j i o.
Proof.
  unfold where_at. destruct (nth_error (mn_parts s) j) as [[?|?|?|cb c w]|] eqn:E; try discriminate. destruct (cb_seen c) as [seen|] eqn:Es; [|discriminate].
  destruct (cb_calls c) as [|o' os] eqn:Ec; [discriminate|]. intros H. injection H as <- <-. exists cb, c, w, seen, os. auto.
Qed.
Lemma many_run_app (s : many V) a b : many_run s (a ++ b) = many_run (many_run s a) b.
Proof. apply fold_left_app. Qed.
End P.

(* Fair executions of a scheduler that calls the functions itself. *)
From Coq Require Import ZArith List Bool Lia Permutation.
From Verif Require Import Bytes TimeWheel Spec_TimeWheel TimeWheel_proofs TimeWheel2_proofs AutoExec Spec_AutoExec AutoExec_proofs AutoExec2_proofs.
From Verif Require Import Spec_Fair Spec_Fair2 GenFair_proofs.
Import ListNotations.
Local Open Scope Z_scope.

Lemma gos_kept a l i g : nth_error (x_gos a) i = Some g -> exists g', nth_error (x_gos (x_step a l)) i = Some g' /\ g_src g' = g_src g /\ g_df g' = g_df g /\ g_wake g' = g_wake g /\ (acting g = true -> acting g' = true).
Proof.
  intros E. set (P := fun b : auto => exists g', nth_error (x_gos b) i = Some g' /\ g_src g' = g_src g /\ g_df g' = g_df g /\ g_wake g' = g_wake g /\ (acting g = true -> acting g' = true)).
  change (P (x_step a l)). assert (P0 : P a) by (exists g; auto 6).
  assert (Ap : forall x, exists g', nth_error (x_gos a ++ [x]) i = Some g' /\ g_src g' = g_src g /\ g_df g' = g_df g /\ g_wake g' = g_wake g /\ (acting g = true -> acting g' = true)).
  { intros x. exists g. rewrite nth_error_app1 by (apply nth_error_Some; congruence). auto 6. }
  assert (Set_ : forall j h h', nth_error (x_gos a) j = Some h -> g_src h' = g_src h -> g_df h' = g_df h -> g_wake h' = g_wake h -> acting h' = true ->
    exists g', nth_error (set_nth j h' (x_gos a)) i = Some g' /\ g_src g' = g_src g /\ g_df g' = g_df g /\ g_wake g' = g_wake g /\ (acting g = true -> acting g' = true)).
  { intros j h h' Ej A1 A2 A3 A4. rewrite (set_nth_error _ _ _ _ _ Ej). destruct (Nat.eqb_spec i j) as [->|N]; [|exists g; auto 6]. rewrite E in Ej. injection Ej as <-. exists h'. auto 6. }
  apply step_cases; try (intros; exact P0).
  - intros src df rest _ _. apply Ap.
  - intros t df now _ _ _. apply Ap.
  - intros j now h _ Ej Sj _. apply begin_cases; try (intros; exact P0); intros; (eapply Set_; [exact Ej|reflexivity..]).
  - intros j h errs _ Ej Sj. eapply Set_; [exact Ej|reflexivity..].
Qed.
Lemma function_kept a l e : has_function a e -> has_function (x_step a l) e.
Proof.
  intros (d & f & sl & A & B). set (P := fun b => has_function b e). change (P (x_step a l)). assert (P0 : P a) by (exists d, f, sl; auto).
  apply step_cases; try (intros; exact P0).
  - intros f' sl' _ _. exists d, f, sl. split; [exact A|]. cbn. rewrite nth_error_app1; [exact B|]. apply nth_error_Some. congruence.
  - intros t df s e' _ _ _ _ _ _. exists d, f, sl. split; [|exact B]. unfold df_of in *. cbn [x_df]. rewrite app_nth1; [exact A|]. destruct (Nat.lt_ge_cases (Z.to_nat (e_obj e)) (length (x_df a))) as [H|H]; [exact H|]. rewrite nth_overflow in A by exact H. discriminate.
  - intros i now g _ _ _ _. apply begin_cases; intros; exact P0.
Qed.
Lemma funcs_kept a l d x : nth_error (x_funcs a) d = Some x -> nth_error (x_funcs (x_step a l)) d = Some x.
Proof.
  intros E. set (P := fun b => nth_error (x_funcs b) d = Some x). change (P (x_step a l)). apply step_cases; try (intros; exact E).
  - intros f sl _ _. unfold P. cbn. rewrite nth_error_app1; [exact E|]. apply nth_error_Some. congruence.
  - intros i now g _ _ _ _. apply begin_cases; intros; exact E.
Qed.
Lemma due_kept a l : exists x, s_sent (x_sched (x_step a l)) = s_sent (x_sched a) ++ x.
Proof.
  set (P := fun b => exists x, s_sent (x_sched b) = s_sent (x_sched a) ++ x). change (P (x_step a l)). assert (P0 : P a) by (exists []; now rewrite app_nil_r).
  apply step_cases; try (intros; exact P0).
  - intros t df s e _ _ E C _ _. exists []. cbn. rewrite app_nil_r. apply (sent_step _ _ _ E). intros i ->. discriminate.
  - intros t s _ _ _ E. exists []. cbn. now rewrite app_nil_r.
  - intros i e r rest _ _ E. unfold P. cbn [x_sched]. rewrite (polled_send _ _ _ _ E). cbn. eauto.
  - intros i now g _ _ _ _. apply begin_cases; intros; exact P0.
Qed.
Lemma polled_kept a l : s_polled (x_sched a) <> [] ->
  (s_polled (x_sched (x_step a l)) = s_polled (x_sched a) /\ (length (x_chan (x_step a l)) <= length (x_chan a))%nat) \/
  exists i x rest, take i (s_polled (x_sched a)) = Some (x, rest) /\ s_polled (x_sched (x_step a l)) = rest /\ s_sent (x_sched (x_step a l)) = s_sent (x_sched a) ++ [x].
Proof.
  intros N. set (P := fun b => (s_polled (x_sched b) = s_polled (x_sched a) /\ (length (x_chan b) <= length (x_chan a))%nat) \/
    exists i x rest, take i (s_polled (x_sched a)) = Some (x, rest) /\ s_polled (x_sched b) = rest /\ s_sent (x_sched b) = s_sent (x_sched a) ++ [x]).
  change (P (x_step a l)). assert (P0 : P a) by (left; auto). apply step_cases; try (intros; exact P0).
  - intros t df s e _ _ E C _ _. left. cbn. split; [|lia]. apply (polled_step _ _ _ E); [intros i ->; discriminate|intros i ->; discriminate].
  - intros t s _ E _ Es. left. cbn. split; [|lia]. destruct t as [| | | | | | | |now|i]; try (apply (polled_step _ _ _ E); intros ? ?; discriminate).
    + cbn in E. destruct (s_polled (x_sched a)); [now destruct N|discriminate].
    + cbn in E. destruct (take i (s_polled (x_sched a))) as [[x rest]|]; [|discriminate]. injection E as <-. cbn in Es. symmetry in Es. now apply no_snoc in Es.
  - intros i e r rest _ _ E. right. exists i, (e, r), rest. split; [exact E|]. cbn [x_sched]. rewrite (polled_send _ _ _ _ E). auto.
  - intros src df rest _ E. left. cbn. rewrite E. cbn. split; [reflexivity|lia].
  - intros i now g _ _ _ _. apply begin_cases; intros; exact P0.
Qed.

Section Timers.
  Variable conf : list (Z * Z).
  Variable sch : nat -> xlabel.
  Hypothesis no_nil_sch : forall m, passes_nil (sch m) = false.
  Hypothesis go_on : timers_go_on conf sch.
  Let st (n : nat) : auto := auto_at conf sch n.
  Lemma xs_S n : st (S n) = x_step (st n) (sch n).
  Proof. unfold st, auto_at. rewrite first_S. apply x_run_snoc. Qed.
  Lemma st_no_nil n : no_nil (st n).
  Proof. apply no_nil_run. intros l H. unfold first in H. apply in_map_iff in H. now destruct H as (m & <- & _). Qed.
  Lemma later_gos n m i g : (n <= m)%nat -> nth_error (x_gos (st n)) i = Some g -> exists g', nth_error (x_gos (st m)) i = Some g' /\ g_src g' = g_src g /\ g_df g' = g_df g /\ g_wake g' = g_wake g /\ (acting g = true -> acting g' = true).
  Proof.
    intros L E. induction L as [|m L (g1 & E1 & A1 & B1 & C1 & D1)]; [exists g; auto 6|]. destruct (gos_kept (st m) (sch m) i g1 E1) as (g2 & E2 & A2 & B2 & C2 & D2). rewrite <- xs_S in E2. exists g2.
    split; [exact E2|]. repeat split; [congruence..|auto].
  Qed.
  Lemma gor_acts n i g : nth_error (x_gos (st n)) i = Some g -> exists m g', (n <= m)%nat /\ nth_error (x_gos (st m)) i = Some g' /\ g_src g' = g_src g /\ g_df g' = g_df g /\ acting g' = true.
  Proof.
    intros E. destruct go_on as (_ & _ & B). destruct (B i (g_wake g) n) as (m & Lm & now & Lw & Em). destruct (later_gos n m i g Lm E) as (g1 & E1 & A1 & D1 & W1 & _).
    destruct (acting g1) eqn:Ac; [exists m, g1; auto 6|]. destruct (gos_kept (st m) (sch m) i g1 E1) as (g2 & E2 & A2 & D2 & _). rewrite <- xs_S in E2. exists (S m), g2. split; [lia|]. split; [exact E2|].
    split; [congruence|]. split; [congruence|]. rewrite xs_S, Em in E2. destruct (st_no_nil m) as (Al & _ & _ & G). unfold x_step in E2. rewrite Al, E1 in E2.
    unfold acting in Ac. destruct (g_stage g1) eqn:Sg; try discriminate. replace (match g_src g1 with OfSched _ => true | Lone _ => g_wake g1 <=? now end) with true in E2 by (destruct (g_src g1); [reflexivity|symmetry; apply Z.leb_le; lia]).
    destruct (G g1 (nth_error_In _ _ E1)) as (d & Ed & Ld). unfold begin in E2. rewrite Ed in E2. destruct (nth_error (x_funcs (st m)) d) as [[[f|] sl]|] eqn:Ef; [| |apply nth_error_None in Ef; lia].
    - cbn [x_gos] in E2. rewrite (set_nth_error _ _ _ _ _ E1), Nat.eqb_refl in E2. injection E2 as <-. reflexivity.
    - cbn [x_gos] in E2. rewrite (set_nth_error _ _ _ _ _ E1), Nat.eqb_refl in E2. injection E2 as <-. reflexivity.
  Qed.
  Lemma later_due n m : (n <= m)%nat -> exists x, s_sent (x_sched (st m)) = s_sent (x_sched (st n)) ++ x.
  Proof. intros L. induction L as [|m L (x & E)]; [exists []; now rewrite app_nil_r|]. rewrite xs_S. destruct (due_kept (st m) (sch m)) as (y & ->). rewrite E, <- app_assoc. eauto. Qed.
  Lemma all_launched n : exists m, (n <= m)%nat /\ (length (due_out (st n)) <= length (launched (st m)))%nat.
  Proof.
    apply climb. intros m Lm Lt. destruct go_on as (_ & R & _). destruct (R m) as (j & Lj & Ej). exists (S j). split; [lia|].
    assert (Len : forall k, length (launched (st k)) = (length (due_out (st k)) - length (x_chan (st k)))%nat /\ (length (x_chan (st k)) <= length (due_out (st k)))%nat).
    { intros k. destruct (links_run conf (first sch k)) as (X & _). apply (f_equal (@length source)) in X. rewrite app_length, map_length in X. unfold in_channel in X. rewrite map_length in X. change (x_run (new_auto conf) (first sch k)) with (st k) in X. lia. }
    assert (Up : forall k k', (k <= k')%nat -> (length (due_out (st k)) <= length (due_out (st k')))%nat).
    { intros k k' Lk. destruct (later_due k k' Lk) as (x & E). unfold due_out, handed. rewrite E, !map_length, app_length. lia. }
    assert (Mono : forall k k', (k <= k')%nat -> (length (launched (st k)) <= length (launched (st k')))%nat).
    { intros k k' Lk. induction Lk as [|k' Lk IH]; [lia|]. etransitivity; [exact IH|]. rewrite xs_S. set (P := fun b => (length (launched (st k')) <= length (launched b))%nat). change (P (x_step (st k') (sch k'))).
      assert (P0 : P (st k')) by (unfold P; lia). assert (Se : forall i h h', nth_error (x_gos (st k')) i = Some h -> g_src h' = g_src h -> (length (launched (st k')) <= length (filter of_sched (map g_src (set_nth i h' (x_gos (st k'))))))%nat).
      { intros i h h' Ei Es. rewrite (set_nth_map g_src _ _ _ _ Ei Es). apply le_n. }
      apply step_cases; try (intros; exact P0).
      - intros src df rest _ _. unfold P, launched. cbn. rewrite map_app, filter_app, app_length. lia.
      - intros t df now _ _ _. unfold P, launched. cbn. rewrite map_app, filter_app, app_length. lia.
      - intros i now g _ Ei _ _. apply begin_cases; try (intros; exact P0); intros; eapply Se; try exact Ei; reflexivity.
      - intros i g errs _ Ei _. eapply Se; [exact Ei|reflexivity]. }
    destruct (x_chan (st j)) as [|[src df] rest] eqn:Ec.
    - destruct (Len j) as (A & _). rewrite Ec in A. cbn [length] in A. pose proof (Up n j ltac:(lia)). pose proof (Mono j (S j) ltac:(lia)). lia.
    - rewrite xs_S, Ej. destruct (st_no_nil j) as (Al & _). unfold x_step. rewrite Al, Ec. unfold launched at 2. cbn [x_gos]. rewrite map_app, filter_app, app_length. cbn [map g_src].
      assert (Sc : of_sched src = true) by (apply (chan_sched conf (first sch j)); unfold in_channel; change (x_run (new_auto conf) (first sch j)) with (st j); rewrite Ec; now left). cbn. rewrite Sc. cbn. pose proof (Mono m j Lj). unfold launched in *. lia.
  Qed.
  Lemma taken_sent k : forall n e, length (s_polled (x_sched (st n))) = k -> In e (taken (x_sched (st n))) -> exists m, (n <= m)%nat /\ In e (due_out (st m)).
  Proof.
    induction k as [k IH] using lt_wf_ind. intros n e Ek He. set (P0 := s_polled (x_sched (st n))) in *.
    set (D := fun j => In e (due_out (st j)) \/ In e (taken (x_sched (st j))) /\ (length (s_polled (x_sched (st j))) < k)%nat).
    assert (Fin : forall j, (n <= j)%nat -> D j -> exists m, (n <= m)%nat /\ In e (due_out (st m))).
    { intros j Lj [H|(H & Ls)]; [eauto|]. destruct (IH _ Ls j e eq_refl H) as (m & Lm & Q). exists m. split; [lia|exact Q]. }
    assert (Ne : P0 <> []) by (intros Z0; unfold taken in He; fold P0 in He; rewrite Z0 in He; destruct He).
    assert (Step : forall j, s_polled (x_sched (st j)) = P0 -> (s_polled (x_sched (st (S j))) = P0 /\ (length (x_chan (st (S j))) <= length (x_chan (st j)))%nat) \/ D (S j)).
    { intros j Ej. destruct (polled_kept (st j) (sch j) ltac:(rewrite Ej; exact Ne)) as [(A & B)|(i & x & rest & T & A & B)]; rewrite <- xs_S in *; [left; rewrite A, Ej; auto|right]. rewrite Ej in T. pose proof (take_perm _ _ _ _ T) as Pm.
      unfold D, due_out, handed, taken. rewrite A, B. unfold taken in He. fold P0 in He. apply (Permutation_map fst) in Pm. apply (Permutation_in _ Pm) in He. destruct He as [<-|He]; [left; rewrite map_app; apply in_or_app; right; now left|].
      right. split; [exact He|]. apply Permutation_length in Pm. rewrite !map_length in Pm. cbn in Pm. lia. }
    destruct go_on as (S1 & R & _). destruct (R n) as (m1 & Lm1 & E1).
    destruct (until (fun j => s_polled (x_sched (st j)) = P0) D n eq_refl) with (m := m1) as [Q1|(j & Lj & Dj)]; [|exact Lm1| |apply (Fin j); [lia|exact Dj]].
    { intros j Lj Ej. destruct (Step j Ej) as [(A & _)|A]; auto. }
    destruct (Step m1 Q1) as [(Q2 & _)|Q2]; [|apply (Fin (S m1)); [lia|exact Q2]].
    assert (Room : (length (x_chan (st (S m1))) < 2048)%nat).
    { rewrite xs_S, E1. destruct (st_no_nil m1) as (Al & _). unfold x_step. rewrite Al. pose proof (chan_bound conf (first sch m1)) as Cb. change (x_run (new_auto conf) (first sch m1)) with (st m1) in Cb. destruct (x_chan (st m1)) as [|[src df] rest] eqn:Ec; [rewrite Ec; cbn; lia|cbn [x_chan]; cbn [length] in Cb; lia]. }
    destruct (S1 (S m1)) as (m2 & Lm2 & i & E2 & V).
    destruct (until (fun j => s_polled (x_sched (st j)) = P0 /\ (length (x_chan (st j)) < 2048)%nat) D (S m1) (conj Q2 Room)) with (m := m2) as [(Q3 & Room3)|(j & Lj & Dj)]; [|exact Lm2| |apply (Fin j); [lia|exact Dj]].
    { intros j Lj (Ej & Rj). destruct (Step j Ej) as [(A & B)|A]; [left; split; [exact A|lia]|now right]. }
    destruct (Step m2 Q3) as [(Q4 & _)|Q4]; [|apply (Fin (S m2)); [lia|exact Q4]]. exfalso. cbv zeta in V. change (auto_at conf sch m2) with (st m2) in V. rewrite Q3 in V. destruct V as [V|V]; [contradiction|].
    rewrite xs_S, E2 in Q4. destruct (st_no_nil m2) as (Al & _). unfold x_step in Q4. rewrite Al in Q4. replace (Z.of_nat (length (x_chan (st m2))) <? chan_cap) with true in Q4 by (symmetry; apply Z.ltb_lt; unfold chan_cap; lia).
    rewrite Q3 in Q4. assert (Tk : exists x rest, take i P0 = Some (x, rest)) by (unfold take; destruct (nth_error P0 i) as [x|] eqn:En; [eauto|apply nth_error_None in En; lia]). destruct Tk as ((e1 & r1) & rest & Tk). rewrite Tk in Q4. cbn [x_sched] in Q4.
    rewrite <- Q3 in Tk. rewrite (polled_send _ _ _ _ Tk) in Q4. cbn in Q4. rewrite Q3 in Tk. apply take_perm, Permutation_length in Tk. rewrite Q4 in Tk. cbn in Tk. lia.
  Qed.
  Lemma function_later n m e : (n <= m)%nat -> has_function (st n) e -> has_function (st m) e.
  Proof. intros L H. induction L as [|m L IH]; [exact H|]. rewrite xs_S. now apply function_kept. Qed.
  Lemma funcs_later n m d x : (n <= m)%nat -> nth_error (x_funcs (st n)) d = Some x -> nth_error (x_funcs (st m)) d = Some x.
  Proof. intros L H. induction L as [|m L IH]; [exact H|]. rewrite xs_S. now apply funcs_kept. Qed.
  Lemma timer_fair n e : In e (taken (x_sched (st n)) ++ due_out (st n)) -> has_function (st n) e -> exists m, (n <= m)%nat /\ called (st m) e.
  Proof.
    intros He Hf. assert (H1 : exists m, (n <= m)%nat /\ In e (due_out (st m))) by (apply in_app_or in He; destruct He as [He|He]; [now apply (taken_sent _ n e eq_refl)|exists n; split; [lia|exact He]]).
    destruct H1 as (m1 & L1 & D1). destruct (all_launched m1) as (m2 & L2 & Q2). destruct (links_run conf (first sch m2)) as (X & _). change (x_run (new_auto conf) (first sch m2)) with (st m2) in X.
    assert (La : In (OfSched (e_obj e)) (launched (st m2))).
    { destruct (later_due m1 m2 L2) as (y & Ey). unfold due_out, handed in X. rewrite Ey, !map_app in X. apply (f_equal (firstn (length (s_sent (x_sched (st m1)))))) in X.
      rewrite (firstn_app _ (map _ (map fst (s_sent (x_sched (st m1)))))), !map_length, Nat.sub_diag, firstn_O, app_nil_r in X. rewrite (firstn_all2 (map _ (map fst (s_sent (x_sched (st m1))))) (n := length (s_sent (x_sched (st m1))))) in X by (rewrite !map_length; lia).
      rewrite firstn_app in X. unfold due_out, handed in Q2. rewrite map_length in Q2. replace (length (s_sent (x_sched (st m1))) - length (launched (st m2)))%nat with 0%nat in X by lia. rewrite firstn_O, app_nil_r in X.
      rewrite <- (firstn_skipn (length (s_sent (x_sched (st m1)))) (launched (st m2))). apply in_or_app. left. rewrite X. apply in_map_iff. exists e. split; [reflexivity|exact D1]. }
    unfold launched in La. apply filter_In in La. destruct La as (La & _). apply in_map_iff in La. destruct La as (g & Eg & Hg). apply In_nth_error in Hg. destruct Hg as (i & Ei).
    destruct (gor_acts m2 i g Ei) as (m3 & g3 & L3 & E3 & S3 & Df3 & A3). exists m3. split; [lia|]. destruct (function_later n m3 e ltac:(lia) Hf) as (d & f & sl & Ed & Ef).
    destruct (aware_run conf (first sch m3)) as (Aw & _). specialize (Aw g3 (e_obj e) (nth_error_In _ _ E3) ltac:(congruence)). change (x_run (new_auto conf) (first sch m3)) with (st m3) in Aw. rewrite Ed in Aw.
    destruct (told_run conf (first sch m3) g3 d f sl (nth_error_In _ _ E3) A3 Aw Ef) as (c & Hc & Ec). exists c. split; [exact Hc|]. rewrite Ec, S3. exact Eg.
  Qed.
  Lemma lone_fair n k d f sl : sets_up (st n) (sch n) (Some d) (Lone k) -> nth_error (x_funcs (st n)) d = Some (DFunc (Some f) sl) -> exists m c, (n <= m)%nat /\ In c (x_begun (st m)) /\ c_src c = Lone k.
  Proof.
    intros U F. pose proof (set_up_tied conf (first sch n) (sch n) (Some d) (Lone k)) as T. cbv zeta in T. change (x_run (new_auto conf) (first sch n)) with (st n) in T. destruct (T U) as ((T1 & _ & T3) & Fs & _). rewrite <- xs_S in *.
    destruct (links_run conf (first sch (S n))) as (_ & Ln). change (x_run (new_auto conf) (first sch (S n))) with (st (S n)) in Ln.
    assert (Hk : In k (flat_map lone_no (map g_src (x_gos (st (S n)))))) by (rewrite Ln; apply in_seq; lia). apply in_flat_map in Hk. destruct Hk as (src & Hs & Hk). apply in_map_iff in Hs. destruct Hs as (g & <- & Hg).
    assert (Eg : g_src g = Lone k) by (destruct (g_src g); cbn in Hk; [destruct Hk|destruct Hk as [->|[]]; reflexivity]). destruct (T1 g Hg Eg) as (Dg & _). apply In_nth_error in Hg. destruct Hg as (i & Ei).
    destruct (gor_acts (S n) i g Ei) as (m & g' & Lm & E' & S' & Df' & A'). exists m. rewrite <- Fs in F. pose proof (funcs_later (S n) m d _ Lm F) as F'.
    destruct (told_run conf (first sch m) g' d f sl (nth_error_In _ _ E') A' ltac:(congruence) F') as (c & Hc & Ec). exists c. split; [lia|]. split; [exact Hc|congruence].
  Qed.
End Timers.

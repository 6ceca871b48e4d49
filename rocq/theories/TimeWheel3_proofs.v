From Coq Require Import ZArith List Bool Lia Permutation ZifyBool.
From Verif Require Import Bytes TimeWheel Spec_TimeWheel TimeWheel_proofs TimeWheel2_proofs TimedWheel Spec_TimedWheel TimedWheel_proofs.
Import ListNotations.
Local Open Scope Z_scope.

Lemma fits_s64 z : fits z -> s64 z = z.
Proof. unfold fits, s64. intros H. rewrite Z.mod_small; lia. Qed.

Lemma snoc_inj {A} (a : list A) x y : a ++ [x] = a ++ [y] -> x = y.
Proof. intros H. apply app_inv_head in H. congruence. Qed.

Lemma makes_due s l e : makes s l e -> fits (requested (call_time l) l) -> e_due e = Z.quot (requested (call_time l) l) 1000000 /\ t_step1 s l = Some (t_step s l) /\ s_cancel s = None /\ In e (stored (t_step s l)).
Proof.
  intros (C & M) F. unfold t_step in *. destruct (t_step1 s l) as [s'|] eqn:E; [|apply (f_equal (@length _)) in M; rewrite app_length in M; cbn in M; lia].
  assert (G : forall due clock, create s due clock = Some s' -> e_due e = due /\ s_cancel s = None /\ In e (stored s')).
  { intros due clock. unfold create. destruct (s_cancel s); [discriminate|]. destruct (add_timer _ _ _) as [ws|] eqn:Ea; [|discriminate]. intros [= <-]. cbn [s_made] in M. apply snoc_inj in M. subst e. cbn [e_due].
    split; [reflexivity|]. split; [reflexivity|]. exact (add_in _ _ _ _ Ea). }
  destruct l; try discriminate C; cbn [t_step1 requested call_time] in *.
  - destruct (G _ _ E) as (A & B & D). auto.
  - rewrite fits_s64 in E by exact F. destruct (G _ _ E) as (A & B & D). auto.
Qed.

Lemma quot_slack ns : ns - 999999 <= Z.quot ns 1000000 * 1000000.
Proof.
  destruct (Z_le_dec 0 ns).
  - rewrite Z.quot_div_nonneg by lia. assert (X := Z.div_mod ns 1000000 ltac:(lia)). assert (Y := Z.mod_pos_bound ns 1000000 ltac:(lia)). lia.
  - rewrite <- (Z.opp_involutive ns) at 2. rewrite Z.quot_opp_l by lia. rewrite Z.quot_div_nonneg by lia. assert (X := Z.mul_div_le (- ns) 1000000 ltac:(lia)). lia.
Qed.
Lemma quot_slack2 ns c : 0 <= c -> Z.quot ns 1000000 * 1000000 <= Z.max ns c.
Proof.
  intros Hc. destruct (Z_le_dec 0 ns).
  - rewrite Z.quot_div_nonneg by lia. assert (X := Z.mul_div_le ns 1000000 ltac:(lia)). lia.
  - rewrite <- (Z.opp_involutive ns). rewrite Z.quot_opp_l by lia. rewrite Z.quot_div_nonneg by lia. assert (X := Z.div_pos (- ns) 1000000 ltac:(lia) ltac:(lia)). lia.
Qed.

Lemma not_early conf ls1 l e ls2 e' now : makes (t_run (new_sched_of conf) ls1) l e -> fits (requested (call_time l) l) ->
  In (e', now) (s_sent (t_run (new_sched_of conf) (ls1 ++ l :: ls2))) -> e_obj e' = e_obj e -> 0 <= now ->
  requested (call_time l) l - now < 100000000.
Proof.
  intros M F H Eo Hn. destruct (makes_due _ _ _ M F) as (D & _). destruct (ripe_run conf (ls1 ++ l :: ls2)) as (_ & R). specialize (R _ H). unfold ripe in R. cbn [fst snd] in R.
  assert (e' = e).
  { destruct (once_run conf (ls1 ++ l :: ls2)) as (MO & _ & I). apply (made_obj_inj _ _ _ MO); [| |exact Eo].
    - apply I. unfold everywhere. apply in_or_app. right. apply in_or_app. right. unfold handed. apply in_map_iff. now exists (e', now).
    - rewrite t_run_app. change (l :: ls2) with ([l] ++ ls2). rewrite t_run_app. apply made_mono. change (t_run (t_run (new_sched_of conf) ls1) [l]) with (t_step (t_run (new_sched_of conf) ls1) l).
      destruct M as (_ & ->). apply in_or_app. right. now left. }
  subst e'. rewrite D in R. unfold unix_milli in R. assert (X := quot_slack (requested (call_time l) l)). rewrite (Z.quot_div_nonneg now) in R by lia. assert (Y := Z.mul_div_le now 1000000 ltac:(lia)). lia.
Qed.

(* The timed run as an untimed one. *)
Lemma tm_erase late gap ls : forall t, exists ls', t_sched (tm_run late gap t ls) = t_run (t_sched t) ls' /\ creations ls' <= tm_creations ls /\ (forall id, In (CancelStart id) ls' -> In (Do (CancelStart id)) ls).
Proof.
  induction ls as [|l ls IH]; intros t; [exists []; repeat split; [unfold creations; cbn; lia|intros ? []]|].
  cbn [tm_run fold_left]. fold (tm_run late gap (tm_step late gap t l) ls). destruct (IH (tm_step late gap t l)) as (ls' & A & B & C).
  destruct l as [d|l].
  - exists ls'. split; [rewrite A; cbn [tm_step]; now destruct (_ && _)|]. split; [exact B|]. intros id H. right. now apply C.
  - exists (stamp (t_now t) (length (s_wheels (t_sched t))) l :: ls'). split; [|split].
    + rewrite A. cbn [tm_step]. change (t_run (t_sched t) (stamp (t_now t) (length (s_wheels (t_sched t))) l :: ls')) with (t_run (t_step (t_sched t) (stamp (t_now t) (length (s_wheels (t_sched t))) l)) ls').
      f_equal. unfold t_step. destruct (t_step1 (t_sched t) _) as [s'|]; reflexivity.
    + unfold tm_creations in *. unfold creations in *. cbn [filter]. replace (is_create (stamp _ _ l)) with (is_create l) by now destruct l. destruct (is_create l); cbn [length]; lia.
    + intros id [H|H]; [left; destruct l; try discriminate H; now rewrite <- H|right; now apply C].
Qed.

Lemma tm_now_mono late gap ls : forall t, t_now t <= t_now (tm_run late gap t ls).
Proof.
  induction ls as [|l ls IH]; intros t; [cbn; lia|]. change (tm_run late gap t (l :: ls)) with (tm_run late gap (tm_step late gap t l) ls). specialize (IH (tm_step late gap t l)). etransitivity; [|exact IH].
  destruct l as [d|l]; cbn [tm_step]; [destruct (_ && _) eqn:E; cbn; lia|]. destruct (t_step1 _ _); cbn; lia.
Qed.

Lemma in_time late gap smax conf now0 due ls1 l e ls2 : 0 <= late -> 0 <= gap -> 0 <= smax -> 0 <= now0 -> Forall (fun c => 1 <= fst c /\ 2 <= snd c <= smax) conf -> first_ticks late conf now0 due ->
  let t1 := tm_run late gap (tm_start conf now0 due) ls1 in
  let t2 := tm_run late gap (tm_start conf now0 due) (ls1 ++ Do l :: ls2) in
  let latest := Z.max (requested (t_now t1) l) (t_now t1) + 999999 + smax * late + gap in
  tm_makes late gap t1 l e -> fits (requested (t_now t1) l) ->
  (In e (stored (t_sched t2) ++ taken (t_sched t2)) -> t_now t2 <= latest) /\ (forall r, In (e, r) (s_sent (t_sched t2)) -> r <= latest).
Proof.
  intros Hl Hg Hx0 H0 Hc Hf t1 t2 latest (C & M) F.
  assert (T0 := start_ok0 late smax gap Hg conf now0 due H0 Hc Hf). destruct (tm_run_ok late smax Hl gap Hg ls1 _ T0 (once_new conf)) as (T1 & O1). fold t1 in T1, O1.
  assert (T2 := tm_step_ok late smax Hl gap Hg t1 (Do l) T1). assert (O2 := tm_once late gap t1 (Do l) O1).
  assert (E2 : t2 = tm_run late gap (tm_step late gap t1 (Do l)) ls2) by (unfold t2, t1, tm_run; now rewrite fold_left_app).
  set (l' := stamp (t_now t1) (length (s_wheels (t_sched t1))) l).
  assert (M' : makes (t_sched t1) l' e).
  { split; [unfold l'; now destruct l|]. rewrite <- M. unfold t_step, l'. cbn [tm_step]. now destruct (t_step1 _ _). }
  assert (Rq : requested (call_time l') l' = requested (t_now t1) l) by (unfold l'; destruct l; try discriminate C; reflexivity).
  destruct (makes_due _ _ _ M') as (D & St & Sc & Is); [now rewrite Rq|]. rewrite Rq in D.
  assert (Q : t_sched (tm_step late gap t1 (Do l)) = t_step (t_sched t1) l' /\ t_now (tm_step late gap t1 (Do l)) = t_now t1 /\ t_last (tm_step late gap t1 (Do l)) = t_last t1).
  { cbn [tm_step]. fold l'. rewrite St. destruct l; try discriminate C; auto. }
  destruct Q as (Q1 & Q2 & Q3).
  assert (Hm : In e (s_made (t_sched (tm_step late gap t1 (Do l))))) by (rewrite M; apply in_or_app; right; now left).
  assert (N2 : forall x, In x (taken (t_sched t1)) \/ In x (handed (t_sched t1)) -> x <> e).
  { intros x Hx ->. assert (Hmm : In e (s_made (t_sched t1))).
    { destruct O1 as (_ & _ & I). apply I. unfold everywhere. apply in_or_app. right. apply in_or_app. exact Hx. }
    destruct O2 as ((_ & MO) & _). rewrite M in MO. apply In_nth_error in Hmm. destruct Hmm as (i & Hi). assert (L : (i < length (s_made (t_sched t1)))%nat) by (apply nth_error_Some; congruence).
    assert (X := MO i e). rewrite nth_error_app1 in X by exact L. specialize (X Hi). assert (Y := MO (length (s_made (t_sched t1))) e). rewrite nth_error_app2, Nat.sub_diag in Y by lia. specialize (Y eq_refl). lia. }
  assert (Same : s_polled (t_step (t_sched t1) l') = s_polled (t_sched t1) /\ s_sent (t_step (t_sched t1) l') = s_sent (t_sched t1)).
  { revert St. generalize (t_step (t_sched t1) l'). unfold l'. destruct l; try discriminate C; cbn [stamp t_step1]; unfold create; rewrite Sc; intros s' X; (destruct (add_timer _ _ _); [|discriminate]); injection X as <-; auto. }
  destruct Same as (Sp & Ss).
  assert (P : prompt late smax gap e (t_now t1) (tm_step late gap t1 (Do l))).
  { destruct T1 as (Hn1 & _ & G1). assert (0 <= smax * late) by nia.
    unfold prompt, limit. rewrite Q1, Q2, Q3. unfold taken. rewrite Sp, Ss. split; [intros _; lia|]. split; [|split].
    - intros X. exfalso. now apply (N2 e (or_introl X)).
    - intros r X. exfalso. apply (N2 e); [left|reflexivity]. unfold taken. apply in_map_iff. now exists (e, r).
    - intros r X. exfalso. apply (N2 e); [right|reflexivity]. unfold handed. apply in_map_iff. now exists (e, r). }
  assert (PR := prompt_run late smax Hl gap Hg e (t_now t1) ls2 _ T2 O2 Hm P). rewrite <- E2 in PR. destruct PR as (P1 & P2 & _ & P4).
  destruct (tm_run_ok late smax Hl gap Hg ls2 _ T2 O2) as ((_ & _ & G2) & _). rewrite <- E2 in G2.
  assert (Lim : limit late smax e (t_now t1) + gap <= latest).
  { unfold limit, latest, due_ns. rewrite D. assert (X := quot_slack2 (requested (t_now t1) l) (t_now t1) ltac:(destruct T1; lia)). lia. }
  split; [|intros r Hr; specialize (P4 r Hr); lia]. intros X. apply in_app_or in X. destruct X as [X|X]; [specialize (P1 X); lia|specialize (P2 X); lia].
Qed.

Lemma in_time_handed late gap smax conf now0 due ls1 l e ls2 : 0 <= late -> 0 <= gap -> 0 <= smax -> 0 <= now0 -> Forall (fun c => 1 <= fst c /\ 2 <= snd c <= smax) conf -> first_ticks late conf now0 due ->
  tm_creations (ls1 ++ Do l :: ls2) <= 2 ^ 32 ->
  let t1 := tm_run late gap (tm_start conf now0 due) ls1 in
  let t2 := tm_run late gap (tm_start conf now0 due) (ls1 ++ Do l :: ls2) in
  let latest := Z.max (requested (t_now t1) l) (t_now t1) + 999999 + smax * late + gap in
  tm_makes late gap t1 l e -> fits (requested (t_now t1) l) -> ~ In (Do (CancelStart (e_id e))) ls2 ->
  latest < t_now t2 -> exists r, In (e, r) (s_sent (t_sched t2)) /\ r <= latest.
Proof.
  intros Hl Hg Hx0 H0 Hc Hf Cr t1 t2 latest M F Hn Lt. destruct (in_time late gap smax conf now0 due ls1 l e ls2 Hl Hg Hx0 H0 Hc Hf M F) as (A & B). fold t1 t2 in A, B. fold latest in A, B.
  destruct (tm_erase late gap ls1 (tm_start conf now0 due)) as (u1 & U1 & V1 & _). fold t1 in U1. cbn [t_sched tm_start] in U1.
  destruct (tm_erase late gap ls2 (tm_step late gap t1 (Do l))) as (u2 & U2 & V2 & W2).
  assert (E2 : t2 = tm_run late gap (tm_step late gap t1 (Do l)) ls2) by (unfold t2, t1, tm_run; now rewrite fold_left_app). rewrite <- E2 in U2.
  destruct M as (C & M). set (s1 := t_sched (tm_step late gap t1 (Do l))) in *.
  assert (O1 : once s1) by (apply tm_once; rewrite U1; apply once_run).
  assert (M1 : In e (s_made s1)) by (rewrite M; apply in_or_app; right; now left).
  assert (K : In e (everywhere (t_sched t2))).
  { rewrite U2. assert (St : t_step1 (t_sched t1) (stamp (t_now t1) (length (s_wheels (t_sched t1))) l) = Some s1).
    { unfold s1 in *. cbn [tm_step] in *. destruct (t_step1 _ _) as [s'|]; [reflexivity|]. apply (f_equal (@length _)) in M. rewrite app_length in M. cbn in M. lia. }
    assert (Nc : s_cancel s1 = None).
    { destruct l; try discriminate C; cbn [stamp t_step1] in St; unfold create in St; (destruct (s_cancel (t_sched t1)); [discriminate|]); (destruct (add_timer _ _ _); [|discriminate]); injection St as <-; reflexivity. }
    assert (In0 : In e (stored s1)).
    { destruct l; try discriminate C; cbn [stamp t_step1] in St; unfold create in St; (destruct (s_cancel (t_sched t1)); [discriminate|]); (destruct (add_timer _ _ _) as [ws|] eqn:Ea; [|discriminate]); injection St as St;
        rewrite <- St in M |- *; cbn [s_made] in M; apply snoc_inj in M; rewrite <- M; exact (add_in _ _ _ _ Ea). }
    apply kept_run; [exact O1| | | |].
    - assert (X := made_bound u1 (new_sched_of conf)). rewrite <- U1 in X. cbn [s_made new_sched_of length] in X.
      rewrite M, app_length. cbn [length]. unfold tm_creations in *. rewrite filter_app, app_length in Cr. cbn [filter] in Cr. rewrite C in Cr. cbn [length] in Cr. lia.
    - intros _. split; [unfold everywhere; apply in_or_app; now left|]. intros k. rewrite Nc. discriminate.
    - intros X. apply Hn. now apply W2.
    - now apply made_mono. }
  unfold everywhere in K. apply in_app_or in K. destruct K as [K|K].
  - exfalso. specialize (A ltac:(apply in_or_app; now left)). lia.
  - apply in_app_or in K. destruct K as [K|K]; [exfalso; specialize (A ltac:(apply in_or_app; now right)); lia|]. unfold handed in K. apply in_map_iff in K. destruct K as ((y & r) & Ey & K). cbn in Ey. subst y. exists r. split; [exact K|now apply B].
Qed.

(* The ID wraps around. *)
Lemma wrap_lost : forall due clock, let l := CreateAt due (repeat clock 3) in unix_milli clock + 3600000 <= Z.quot due 1000000 ->
  forall n, let s := t_run new_sched (repeat l n) in
    exists q, s_wheels s = [Wheel 3600000 12 0 q Idle; new_wheel 60000 60; new_wheel 1000 60] /\ s_cancel s = None /\ s_polled s = [] /\ s_sent s = [] /\ length (s_made s) = n /\
    (forall x, In x q -> fst x = (0 + Z.quot (Z.quot due 1000000 - unix_milli clock) 3600000) mod 12).
Proof.
  intros due clock l H n. induction n as [|n IH]; [exists []; repeat split; intros x []|]. cbn zeta in *. change (repeat l (S n)) with (l :: repeat l n). rewrite repeat_cons. rewrite t_run_snoc. destruct IH as (q & W & C & P & S & L & Q).
  unfold t_step. set (s := t_run new_sched (repeat l n)) in *. cbn [t_step1 l]. unfold create. rewrite C, W. cbn [add_timer idle w_phase repeat hd w_interval e_due w_cur w_scales].
  destruct (Z.leb_spec 3600000 (Z.quot due 1000000 - unix_milli clock)) as [Le|Gt]; [|lia]. unfold put. cbn [w_interval w_scales w_cur w_queue w_phase s_wheels s_cancel s_polled s_sent s_made].
  eexists. split; [reflexivity|]. repeat (split; [assumption || reflexivity|]). split; [rewrite app_length; cbn; lia|].
  intros x Hx. apply in_app_or in Hx. destruct Hx as [Hx|[<-|[]]]; [apply filter_In in Hx; now apply Q|reflexivity].
Qed.

Lemma id_wrap : exists ls e, (forall id, ~ In (CancelStart id) ls) /\ creations ls = 2 ^ 32 + 1 /\ In e (s_made (t_run new_sched ls)) /\
  ~ In e (stored (t_run new_sched ls) ++ taken (t_run new_sched ls) ++ handed (t_run new_sched ls)).
Proof.
  set (l := CreateAt 3600000000000 (repeat 0 3)). assert (Hx : exists n, Z.of_nat n = 2 ^ 32) by (exists (Z.to_nat (2 ^ 32)); apply Z2Nat.id; lia). destruct Hx as (n & Hn).
  assert (W := wrap_lost 3600000000000 0 ltac:(now vm_compute) n). cbn zeta in W. fold l in W. destruct W as (q & W & C & P & S & L & Q).
  assert (M := made_run hms (repeat l n)). change (new_sched_of hms) with new_sched in M. set (s := t_run new_sched (repeat l n)) in *. destruct M as (M1 & M2).
  destruct (nth_error (s_made s) 0) as [e|] eqn:E0; [|apply nth_error_None in E0; rewrite L in E0; lia].
  exists (repeat l n ++ [l]), e. split; [|split; [|split]].
  - intros id H. apply in_app_or in H. destruct H as [H|[H|[]]]; [apply repeat_spec in H|]; discriminate H.
  - unfold creations. assert (F : forall k, length (filter is_create (repeat l k)) = k) by (induction k as [|k IH]; [reflexivity|cbn; now rewrite IH]).
    rewrite filter_app, app_length, F. cbn [filter is_create l length]. lia.
  - rewrite t_run_app. apply made_mono. fold s. now apply nth_error_In in E0.
  - rewrite t_run_snoc. fold s. destruct (M2 _ _ E0) as (Eo & Ei). unfold t_step. cbn [t_step1 l]. unfold create. rewrite C, W. cbn [add_timer idle w_phase repeat hd w_interval e_due w_cur w_scales].
    destruct (Z.leb_spec 3600000 (Z.quot 3600000000000 1000000 - unix_milli 0)) as [Le|Gt]; [|exfalso; revert Gt; vm_compute; congruence].
    unfold stored, taken, handed. cbn [s_wheels s_polled s_sent]. rewrite P, S. cbn [map]. rewrite !app_nil_r. cbn [flat_map]. unfold wheel_timers, put, new_wheel, pending. cbn [w_queue w_phase map]. rewrite !app_nil_r.
    rewrite map_app. intros X. apply in_app_or in X. destruct X as [X|[X|[]]].
    + apply in_map_iff in X. destruct X as (y & Ey & X). apply filter_In in X. destruct X as (X & Y). apply Q in X. rewrite X, Z.eqb_refl in Y. cbn [andb e_id] in Y.
      rewrite M1, L, Hn, Ey, Ei in Y. revert Y. vm_compute. discriminate.
    + rewrite <- X in Eo. cbn [e_obj] in Eo. rewrite L, Hn in Eo. cbv in Eo. discriminate Eo.
Qed.

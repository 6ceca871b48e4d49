(* C24 on infinite executions: what is there at some moment is marked, and the marks go. *)
From Coq Require Import ZArith List Bool Arith Lia Permutation.
From Verif Require Import Bytes Pack Request GoSlice Router Router_proofs Dispatch Dispatch_proofs Workers Spec_Workers Workers_proofs Workers2_proofs EndToEnd2_proofs Spec_Fair.
Import ListNotations.

Lemma first_S {L} (sch : nat -> L) n : first sch (S n) = first sch n ++ [sch n].
Proof. unfold first. rewrite seq_S, map_app. reflexivity. Qed.

(* ---- what a step does to channels and workers ---- *)
Inductive eff (s s' : wst) (e : list wev) (l : wlabel) : Prop :=
| E_same : ws_chans s' = ws_chans s -> ws_workers s' = ws_workers s -> all_ended e = [] -> eff s s' e l
| E_chan i ch t cl : nth_error (ws_chans s) i = Some ch -> ws_chans s' = set_nth i (Chan (ch_buf ch ++ t) cl) (ws_chans s) -> ws_workers s' = ws_workers s -> all_ended e = [] -> eff s s' e l
| E_spawn ch : ws_chans s' = ws_chans s ++ [ch] -> ws_workers s' = ws_workers s ++ [Worker (length (ws_chans s)) None true] -> all_ended e = [] -> eff s s' e l
| E_die w k ch : l = LTake w -> nth_error (ws_workers s) w = Some k -> wk_cur k = None -> nth_error (ws_chans s) (wk_chan k) = Some ch -> ch_buf ch = [] ->
    ws_chans s' = ws_chans s -> ws_workers s' = set_nth w (Worker (wk_chan k) None false) (ws_workers s) -> all_ended e = [] -> eff s s' e l
| E_take w k ch x rest : l = LTake w -> nth_error (ws_workers s) w = Some k -> wk_cur k = None -> nth_error (ws_chans s) (wk_chan k) = Some ch -> ch_buf ch = x :: rest ->
    ws_chans s' = set_nth (wk_chan k) (Chan rest (ch_closed ch)) (ws_chans s) -> ws_workers s' = set_nth w (Worker (wk_chan k) (Some x) true) (ws_workers s) -> all_ended e = [] -> eff s s' e l
| E_fin w k x f : l = LFinish w f -> nth_error (ws_workers s) w = Some k -> wk_cur k = Some x ->
    ws_chans s' = ws_chans s -> ws_workers s' = set_nth w (Worker (wk_chan k) None (wk_alive k)) (ws_workers s) -> all_ended e = [x] -> eff s s' e l.

Lemma wstep_eff cf s l s' e : wstep cf s l = (s', e) -> eff s s' e l.
Proof.
  unfold wstep. destruct (ws_crashed s). { intros [= <- <-]. now apply E_same. }
  destruct l as [|c pick|c j|w|w f|c|c].
  - destruct (in_manager s <? cf_max cf); intros [= <- <-]; now apply E_same.
  - destruct (nth_error (ws_conns s) c) as [k|]; [|intros [= <- <-]; now apply E_same]. destruct (co_worker k); [intros [= <- <-]; now apply E_same|].
    unfold use_worker. destruct (cf_mode cf); [|destruct (pick_one (ws_free s) pick)|destruct (pick_one (ws_free s) pick); [|destruct (pick_one (ws_extra s) pick)]]; cbn; intros [= <- <-]; try now apply E_same.
    eapply E_spawn; reflexivity.
  - destruct (nth_error (ws_conns s) c) as [k|]; [|intros [= <- <-]; now apply E_same]. destruct (co_worker k) as [wid|]; [|intros [= <- <-]; now apply E_same].
    unfold send_task. destruct (pool_size cf =? 0); [cbn; intros [= <- <-]; eapply E_spawn; reflexivity|]. destruct (nth_error (ws_tq s) wid) as [[i|]|]; try (intros [= <- <-]; now apply E_same).
    destruct (nth_error (ws_chans s) i) as [ch|] eqn:E; [|intros [= <- <-]; now apply E_same]. destruct (ch_closed ch); intros [= <- <-]; [now apply E_same|]. eapply E_chan; [exact E|reflexivity..].
  - destruct (nth_error (ws_workers s) w) as [k|] eqn:Ek; [|intros [= <- <-]; now apply E_same]. destruct (wk_alive k); [|intros [= <- <-]; now apply E_same]. destruct (wk_cur k) eqn:Ec; [intros [= <- <-]; now apply E_same|].
    destruct (nth_error (ws_chans s) (wk_chan k)) as [ch|] eqn:Eh; [|intros [= <- <-]; now apply E_same]. destruct (ch_buf ch) as [|x rest] eqn:Eb.
    + destruct (ch_closed ch); intros [= <- <-]; [|now apply E_same]. eapply E_die; eauto; reflexivity.
    + intros [= <- <-]. eapply E_take; eauto; reflexivity.
  - destruct (nth_error (ws_workers s) w) as [k|] eqn:Ek; [|intros [= <- <-]; now apply E_same]. destruct (wk_cur k) as [[c j]|] eqn:Ec; [|intros [= <- <-]; now apply E_same].
    pose proof (handle_no_panic f (cf_routes cf) j) as N. destruct (handle f (cf_routes cf) j) as [es r]. destruct r; [|cbn in N; congruence|]; intros [= <- <-]; [|now apply E_same]. eapply E_fin; eauto; reflexivity.
  - destruct (nth_error (ws_conns s) c) as [k|]; [|intros [= <- <-]; now apply E_same]. destruct (co_worker k); intros [= <- <-]; now apply E_same.
  - destruct (nth_error (ws_conns s) c) as [k|]; [|intros [= <- <-]; now apply E_same]. destruct (co_worker k) as [wid|]; [|intros [= <- <-]; now apply E_same]. destruct (co_mgr k); [intros [= <- <-]; now apply E_same|]. destruct (co_freed k); [intros [= <- <-]; now apply E_same|].
    unfold free_worker. destruct (cf_mode cf); [intros [= <- <-]; now apply E_same|intros [= <- <-]; now apply E_same|]. destruct (wid <? pool_size cf); [intros [= <- <-]; now apply E_same|].
    destruct (nth_error (ws_tq s) wid) as [[i|]|]; try (intros [= <- <-]; now apply E_same). destruct (nth_error (ws_chans s) i) as [ch|] eqn:E; [|intros [= <- <-]; now apply E_same]. destruct (ch_closed ch); intros [= <- <-]; [now apply E_same|]. apply (E_chan _ _ _ _ i ch [] true); [exact E|cbn; now rewrite app_nil_r|reflexivity..].
Qed.

(* ---- marking what is there at some moment ---- *)
Definition oldw (p : nat * chan) : list work := firstn (fst p) (ch_buf (snd p)).
Definition oldf (p : bool * worker) : list work := if fst p then match wk_cur (snd p) with Some x => [x] | None => [] end else [].
Fixpoint marks (mc : list (nat * chan)) : nat := match mc with [] => 0 | p :: mc' => fst p + marks mc' end.
Fixpoint flags (mw : list (bool * worker)) : nat := match mw with [] => 0 | p :: mw' => (if fst p then 1 else 0) + flags mw' end.
Definition weight mc mw := 2 * marks mc + flags mw.

Record marked (A : list work) (s : wst) (tr : list wev) (mc : list (nat * chan)) (mw : list (bool * worker)) : Prop := {
  k_chans : map snd mc = ws_chans s;
  k_works : map snd mw = ws_workers s;
  k_le : Forall (fun p => fst p <= length (ch_buf (snd p))) mc;
  k_busy : Forall (fun p => fst p = true -> wk_cur (snd p) <> None) mw;
  k_perm : exists E N, Permutation A (E ++ flat_map oldf mw ++ flat_map oldw mc) /\ Permutation (all_ended tr) (E ++ N)
}.

Lemma map_set_nth {A B} (f : A -> B) x : forall l i, map f (set_nth i x l) = set_nth i (f x) (map f l).
Proof. induction l as [|y l IH]; intros [|i]; cbn; [reflexivity..|now rewrite IH]. Qed.
Lemma nth_snd {A B} (l : list (A * B)) m i x : map snd l = m -> nth_error m i = Some x -> exists a, nth_error l i = Some (a, x).
Proof. intros <- E. rewrite nth_error_map in E. destruct (nth_error l i) as [[a b]|]; [|discriminate]. injection E as ->. eauto. Qed.
Lemma Forall_set_nth {A} (P : A -> Prop) x l : Forall P l -> P x -> forall i, Forall P (set_nth i x l).
Proof. induction 1; intros Hx [|i]; cbn; try constructor; auto. Qed.
Lemma marks_set mc i p q : nth_error mc i = Some p -> marks (set_nth i q mc) + fst p = marks mc + fst q.
Proof. revert i. induction mc as [|r mc IH]; intros [|i] E; cbn in E; try discriminate. { injection E as ->. cbn. lia. } cbn. specialize (IH i E). lia. Qed.
Lemma flags_set mw i p q : nth_error mw i = Some p -> flags (set_nth i q mw) + (if fst p then 1 else 0) = flags mw + (if fst q then 1 else 0).
Proof. revert i. induction mw as [|r mw IH]; intros [|i] E; cbn in E; try discriminate. { injection E as ->. cbn. destruct (fst p), (fst q); lia. } cbn. specialize (IH i E). destruct (fst r), (fst p), (fst q); lia. Qed.
Lemma marks_app a b : marks (a ++ b) = marks a + marks b.
Proof. induction a; cbn; [reflexivity|]. rewrite IHa. lia. Qed.
Lemma flags_app a b : flags (a ++ b) = flags a + flags b.
Proof. induction a as [|p a IH]; cbn; [reflexivity|]. rewrite IH. destruct (fst p); lia. Qed.
Lemma flat_map_same {A B} (f : A -> list B) l i x y : nth_error l i = Some y -> f x = f y -> flat_map f (set_nth i x l) = flat_map f l.
Proof. revert i. induction l as [|z l IH]; intros [|i] E H; cbn in *; try discriminate. { injection E as ->. now rewrite H. } now rewrite IH. Qed.
Lemma firstn_more {A} k (l t : list A) : k <= length l -> firstn k (l ++ t) = firstn k l.
Proof. intros H. rewrite firstn_app. replace (k - length l) with 0 by lia. cbn. apply app_nil_r. Qed.

(* What one step does to the marks. *)
Definition kept (l : wlabel) (mc mc' : list (nat * chan)) (mw mw' : list (bool * worker)) : Prop :=
  (forall i q ch, nth_error mc i = Some (q, ch) -> exists ch', nth_error mc' i = Some (q, ch')) /\
  (forall w b k, nth_error mw w = Some (b, k) -> nth_error mw' w = Some (b, k) \/
     (wk_cur k = None /\ l = LTake w /\ forall q ch, nth_error mc (wk_chan k) = Some (q, ch) -> q = 0) \/ (b = false /\ wk_cur k <> None /\ exists f, l = LFinish w f /\ nth_error mw' w = Some (false, Worker (wk_chan k) None (wk_alive k)))).
Lemma mark_step A s tr mc mw l s' e : marked A s tr mc mw -> eff s s' e l ->
  exists mc' mw', marked A s' (tr ++ e) mc' mw' /\
    (weight mc' mw' < weight mc mw \/ (weight mc' mw' = weight mc mw /\ kept l mc mc' mw mw')).
Proof.
  intros [C W L B (E & N & P1 & P2)] F. assert (AE : all_ended (tr ++ e) = all_ended tr ++ all_ended e) by apply flat_map_app.
  destruct F as [Hc Hw He|i ch t cl Ei Hc Hw He|ch Hc Hw He|w k ch El Ek Ec Eh Eb Hc Hw He|w k ch x rest El Ek Ec Eh Eb Hc Hw He|w k x f El Ek Ec Hc Hw He].
  - exists mc, mw. split; [constructor; try congruence; auto; exists E, N; rewrite AE, He, app_nil_r; auto|]. right. split; [reflexivity|]. split; eauto.
  - destruct (nth_snd _ _ _ _ C Ei) as (q & Eq). exists (set_nth i (q, Chan (ch_buf ch ++ t) cl) mc), mw.
    assert (Lq : q <= length (ch_buf ch)) by (rewrite Forall_forall in L; apply (L (q, ch)); eapply nth_error_In; eauto).
    pose proof (marks_set mc i (q, ch) (q, Chan (ch_buf ch ++ t) cl) Eq) as M. cbn [fst] in M.
    split; [constructor|].
    + rewrite map_set_nth, C. cbn. congruence.
    + congruence.
    + apply Forall_set_nth; [exact L|]. cbn. rewrite app_length. lia.
    + exact B.
    + exists E, N. rewrite AE, He, app_nil_r. split; [|exact P2]. rewrite (flat_map_same oldw mc i _ _ Eq); [exact P1|]. unfold oldw. cbn. now apply firstn_more.
    + right. unfold weight. split; [lia|]. split; [|eauto]. intros i' q' ch' E'. destruct (Nat.eq_dec i i') as [<-|Ne].
      * rewrite nth_error_set_nth_same by (eapply nth_error_lt; eauto). assert (q' = q) by congruence. subst. eauto.
      * rewrite nth_error_set_nth_other by exact Ne. eauto.
  - exists (mc ++ [(0, ch)]), (mw ++ [(false, Worker (length (ws_chans s)) None true)]). split; [constructor|].
    + rewrite map_app, C. cbn. congruence.
    + rewrite map_app, W. cbn. congruence.
    + apply Forall_app. split; [exact L|]. constructor; [cbn; lia|constructor].
    + apply Forall_app. split; [exact B|]. constructor; [discriminate|constructor].
    + exists E, N. rewrite AE, He, app_nil_r, !flat_map_app. cbn. rewrite !app_nil_r. auto.
    + right. unfold weight. rewrite marks_app, flags_app. cbn. split; [lia|]. split.
      * intros i q ch' E'. exists ch'. rewrite nth_error_app1 by (eapply nth_error_lt; eauto). exact E'.
      * intros w b k E'. left. rewrite nth_error_app1 by (eapply nth_error_lt; eauto). exact E'.
  - destruct (nth_snd _ _ _ _ W Ek) as (b & Ew). assert (b = false) as ->.
    { destruct b; [|reflexivity]. rewrite Forall_forall in B. elim (B (true, k) (nth_error_In _ _ Ew) eq_refl). exact Ec. }
    exists mc, (set_nth w (false, Worker (wk_chan k) None false) mw). pose proof (flags_set mw w _ (false, Worker (wk_chan k) None false) Ew) as M. cbn [fst] in M. split; [constructor|].
    + congruence.
    + rewrite map_set_nth, W. cbn. congruence.
    + exact L.
    + apply Forall_set_nth; [exact B|discriminate].
    + exists E, N. rewrite AE, He, app_nil_r. split; [|exact P2]. now rewrite (flat_map_same oldf mw w _ _ Ew).
    + right. unfold weight. split; [lia|]. split; [eauto|]. intros w' b' k' E'. destruct (Nat.eq_dec w w') as [<-|Ne].
      * right. left. assert (k' = k) by congruence. subst. split; [exact Ec|]. split; [reflexivity|]. intros q ch' E2. rewrite <- C, nth_error_map, E2 in Eh. injection Eh as ->. rewrite Forall_forall in L. specialize (L _ (nth_error_In _ _ E2)). cbn in L. rewrite Eb in L. cbn in L. lia.
      * left. now rewrite nth_error_set_nth_other.
  - destruct (nth_snd _ _ _ _ W Ek) as (b & Ew). assert (b = false) as ->.
    { destruct b; [|reflexivity]. rewrite Forall_forall in B. elim (B (true, k) (nth_error_In _ _ Ew) eq_refl). exact Ec. }
    destruct (nth_snd _ _ _ _ C Eh) as (q & Eq).
    assert (Lq : q <= length (ch_buf ch)) by (rewrite Forall_forall in L; apply (L (q, ch)); eapply nth_error_In; eauto). rewrite Eb in Lq. cbn [length] in Lq.
    set (b := match q with 0 => false | _ => true end).
    exists (set_nth (wk_chan k) (q - 1, Chan rest (ch_closed ch)) mc), (set_nth w (b, Worker (wk_chan k) (Some x) true) mw).
    pose proof (flags_set mw w _ (b, Worker (wk_chan k) (Some x) true) Ew) as M1. pose proof (marks_set mc _ _ (q - 1, Chan rest (ch_closed ch)) Eq) as M2. cbn [fst] in M1, M2.
    split; [constructor|].
    + rewrite map_set_nth, C. cbn. congruence.
    + rewrite map_set_nth, W. cbn. congruence.
    + apply Forall_set_nth; [exact L|]. cbn. lia.
    + apply Forall_set_nth; [exact B|]. cbn. discriminate.
    + exists E, N. rewrite AE, He, app_nil_r. split; [|exact P2]. rewrite P1. apply Permutation_app_head.
      pose proof (flat_map_set_nth oldf mw w (b, Worker (wk_chan k) (Some x) true) _ Ew) as Q1. pose proof (flat_map_set_nth oldw mc _ (q - 1, Chan rest (ch_closed ch)) _ Eq) as Q2.
      change (oldf (false, k)) with (@nil work) in Q1. cbn [app] in Q1. rewrite Q1. unfold oldw at 1 3 in Q2. cbn [fst snd] in Q2. rewrite Eb in Q2. cbn [ch_buf] in Q2.
      unfold b in *. destruct q as [|q]; cbn [firstn Nat.sub] in Q2; unfold oldf at 2; cbn [fst snd wk_cur app] in *.
      * rewrite Q2. reflexivity.
      * rewrite Nat.sub_0_r in *. replace (S q - 1) with q by lia.
        assert (Q3 : Permutation (flat_map oldw mc) (x :: flat_map oldw (set_nth (wk_chan k) (q, Chan rest (ch_closed ch)) mc))).
        { apply (Permutation_app_inv_l (firstn q rest)). rewrite <- Q2. apply Permutation_middle. }
        rewrite Q3. symmetry. cbn [app]. apply Permutation_middle.
    + unfold weight, b in *. destruct q as [|q].
      * right. split; [lia|]. split.
        -- intros i' q' ch' E'. destruct (Nat.eq_dec (wk_chan k) i') as [<-|Ne].
           ++ rewrite nth_error_set_nth_same by (eapply nth_error_lt; eauto). assert (q' = 0) by congruence. subst. eauto.
           ++ rewrite nth_error_set_nth_other by exact Ne. eauto.
        -- intros w' b' k' E'. destruct (Nat.eq_dec w w') as [<-|Ne].
           ++ right. left. assert (k' = k) by congruence. subst. split; [exact Ec|]. split; [reflexivity|]. intros q ch' E2. congruence.
           ++ left. now rewrite nth_error_set_nth_other.
      * left. lia.
  - destruct (nth_snd _ _ _ _ W Ek) as (b & Ew). exists mc, (set_nth w (false, Worker (wk_chan k) None (wk_alive k)) mw). pose proof (flags_set mw w _ (false, Worker (wk_chan k) None (wk_alive k)) Ew) as M. cbn [fst] in M.
    pose proof (flat_map_set_nth oldf mw w (false, Worker (wk_chan k) None (wk_alive k)) _ Ew) as Q1. change (oldf (false, Worker (wk_chan k) None (wk_alive k))) with (@nil work) in Q1. cbn [app] in Q1. unfold oldf at 1 in Q1. cbn [fst snd] in Q1. rewrite Ec in Q1.
    split; [constructor|].
    + congruence.
    + rewrite map_set_nth, W. cbn. congruence.
    + exact L.
    + apply Forall_set_nth; [exact B|discriminate].
    + destruct b; cbn [app] in Q1.
      * exists (x :: E), N. rewrite AE, He. split.
        -- rewrite P1, <- Q1. cbn [app]. symmetry. apply Permutation_middle.
        -- rewrite P2. cbn [app]. symmetry. apply (Permutation_cons_append (E ++ N) x).
      * exists E, (N ++ [x]). rewrite AE, He. split; [now rewrite P1, Q1|]. rewrite P2. now rewrite app_assoc.
    + unfold weight. destruct b; [left; lia|]. right. split; [lia|]. split; [eauto|]. intros w' b' k' E'. destruct (Nat.eq_dec w w') as [<-|Ne].
      * right. right. assert (k' = k) by congruence. assert (b' = false) by congruence. subst. split; [reflexivity|]. split; [congruence|]. exists f. split; [reflexivity|]. now rewrite nth_error_set_nth_same by (eapply nth_error_lt; eauto).
      * left. now rewrite nth_error_set_nth_other.
Qed.
Lemma mark_now s tr : Permutation (all_sent tr) (all_ended tr ++ in_flight s ++ waiting s) ->
  marked (all_sent tr) s tr (map (fun ch => (length (ch_buf ch), ch)) (ws_chans s)) (map (fun k => (match wk_cur k with Some _ => true | None => false end, k)) (ws_workers s)).
Proof.
  intros P. constructor.
  - rewrite map_map. cbn. apply map_id.
  - rewrite map_map. cbn. apply map_id.
  - apply Forall_forall. intros p H. apply in_map_iff in H as (ch & <- & _). cbn. lia.
  - apply Forall_forall. intros p H. apply in_map_iff in H as (k & <- & _). cbn. destruct (wk_cur k); discriminate.
  - exists (all_ended tr), []. rewrite app_nil_r. split; [|reflexivity]. rewrite P. apply Permutation_app_head. apply Permutation_app; apply Permutation_refl'; [unfold in_flight; induction (ws_workers s) as [|k l IH]|unfold waiting; induction (ws_chans s) as [|ch l IH]]; cbn [map flat_map]; [reflexivity| |reflexivity|].
    + rewrite IH. unfold oldf at 2. cbn. destruct (wk_cur k); reflexivity.
    + rewrite IH. unfold oldw at 2. cbn. now rewrite firstn_all.
Qed.

Section Fair.
  Variable cf : wcfg.
  Variable sch : nat -> wlabel.
  Variable A : list work.
  Definition at_ n s tr := server_run cf (first sch n) = Some (s, tr).
  Lemma at_S n s tr s' e : at_ n s tr -> wstep cf s (sch n) = (s', e) -> at_ (S n) s' (tr ++ e).
  Proof. unfold at_. rewrite first_S. apply server_step. Qed.

  Lemma busy_wait w b k x f : wk_cur k = Some x -> snd (handle f (cf_routes cf) (snd x)) = GoRet -> forall d n s tr mc mw, at_ n s tr -> marked A s tr mc mw -> nth_error mw w = Some (b, k) -> sch (n + d) = LFinish w f ->
    exists n' s' tr' mc' mw', n <= n' /\ at_ n' s' tr' /\ marked A s' tr' mc' mw' /\
      (weight mc' mw' < weight mc mw \/ (b = false /\ weight mc' mw' = weight mc mw /\ (forall i q ch, nth_error mc i = Some (q, ch) -> exists ch', nth_error mc' i = Some (q, ch')) /\ nth_error mw' w = Some (false, Worker (wk_chan k) None (wk_alive k)))).
  Proof.
    intros Ec Eh. induction d as [|d IH]; intros n s tr mc mw At M Ew El.
    - rewrite Nat.add_0_r in El. destruct (wstep cf s (sch n)) as [s' e] eqn:Es. destruct (mark_step _ _ _ _ _ _ _ _ M (wstep_eff _ _ _ _ _ Es)) as (mc' & mw' & M' & D).
      exists (S n), s', (tr ++ e), mc', mw'. split; [lia|]. split; [eapply at_S; eauto|]. split; [exact M'|]. destruct D as [D|(D & K1 & K2)]; [now left|right]. destruct (K2 _ _ _ Ew) as [H|[(H & _)|(Hb & _ & f' & _ & H)]]; [|congruence|auto].
      exfalso. pose proof (k_works _ _ _ _ _ M) as W. pose proof (k_works _ _ _ _ _ M') as W'.
      assert (E1 : nth_error (ws_workers s) w = Some k) by (rewrite <- W, nth_error_map, Ew; reflexivity).
      assert (E2 : nth_error (ws_workers s') w = Some k) by (rewrite <- W', nth_error_map, H; reflexivity).
      rewrite El in Es. unfold wstep in Es. rewrite (u_crash _ _ _ (server_uinv _ _ _ _ At)), E1, Ec in Es. destruct x as [c j]. cbn [snd] in Eh. destruct (handle f (cf_routes cf) j) as [es r]. cbn [snd] in Eh. subst r. injection Es as <- <-. cbn [with_worker ws_workers] in E2. rewrite nth_error_set_nth_same in E2 by (eapply nth_error_lt; eauto). injection E2 as E2. rewrite <- E2 in Ec. discriminate.
    - destruct (wstep cf s (sch n)) as [s' e] eqn:Es. destruct (mark_step _ _ _ _ _ _ _ _ M (wstep_eff _ _ _ _ _ Es)) as (mc' & mw' & M' & D). pose proof (at_S _ _ _ _ _ At Es) as At'.
      destruct D as [D|(D & K1 & K2)]; [exists (S n), s', (tr ++ e), mc', mw'; split; [lia|auto]|]. destruct (K2 _ _ _ Ew) as [H|[(H & _)|(Hb & _ & f' & _ & H)]]; [|congruence|].
      + destruct (IH (S n) s' (tr ++ e) mc' mw' At' M' H) as (n' & s2 & tr2 & mc2 & mw2 & Ln & At2 & M2 & D2); [rewrite <- El; f_equal; lia|]. exists n', s2, tr2, mc2, mw2. split; [lia|]. split; [exact At2|]. split; [exact M2|]. rewrite <- D. destruct D2 as [D2|(Hb & D2 & K & H2)]; [now left|right]. split; [exact Hb|]. split; [exact D2|]. split; [|exact H2]. intros i q ch Ei. destruct (K1 _ _ _ Ei) as (ch' & Ei'). eauto.
      + exists (S n), s', (tr ++ e), mc', mw'. split; [lia|]. split; [exact At'|]. split; [exact M'|]. right. auto.
  Qed.
  Lemma idle_wait w b k q : wk_cur k = None -> forall d n s tr mc mw ch, at_ n s tr -> marked A s tr mc mw -> nth_error mw w = Some (b, k) -> nth_error mc (wk_chan k) = Some (S q, ch) -> sch (n + d) = LTake w ->
    exists n' s' tr' mc' mw', n <= n' /\ at_ n' s' tr' /\ marked A s' tr' mc' mw' /\ weight mc' mw' < weight mc mw.
  Proof.
    intros Ec. induction d as [|d IH]; intros n s tr mc mw ch At M Ew Ei El.
    - rewrite Nat.add_0_r in El. destruct (wstep cf s (sch n)) as [s' e] eqn:Es. destruct (mark_step _ _ _ _ _ _ _ _ M (wstep_eff _ _ _ _ _ Es)) as (mc' & mw' & M' & D).
      exists (S n), s', (tr ++ e), mc', mw'. split; [lia|]. split; [eapply at_S; eauto|]. split; [exact M'|]. destruct D as [D|(D & K1 & K2)]; [exact D|exfalso]. destruct (K2 _ _ _ Ew) as [H|[(_ & _ & H)|(_ & H & _)]]; [|specialize (H _ _ Ei); discriminate|congruence].
      pose proof (k_works _ _ _ _ _ M) as W. pose proof (k_works _ _ _ _ _ M') as W'. pose proof (k_chans _ _ _ _ _ M) as C.
      assert (E1 : nth_error (ws_workers s) w = Some k) by (rewrite <- W, nth_error_map, Ew; reflexivity).
      assert (E2 : nth_error (ws_workers s') w = Some k) by (rewrite <- W', nth_error_map, H; reflexivity).
      assert (E3 : nth_error (ws_chans s) (wk_chan k) = Some ch) by (rewrite <- C, nth_error_map, Ei; reflexivity).
      pose proof (k_le _ _ _ _ _ M) as L. rewrite Forall_forall in L. specialize (L _ (nth_error_In _ _ Ei)). cbn in L.
      pose proof (server_uinv _ _ _ _ At) as U. destruct (u_worker _ _ _ U _ _ E1) as (ch' & E4 & Dead). assert (ch' = ch) by congruence. subst ch'.
      rewrite El in Es. unfold wstep in Es. rewrite (u_crash _ _ _ U), E1, Ec, E3 in Es. destruct (wk_alive k) eqn:Al; [|destruct (Dead eq_refl) as (_ & _ & Hb); rewrite Hb in L; cbn in L; lia]. destruct (ch_buf ch) as [|y rest]; [cbn in L; lia|]. injection Es as <- <-. cbn [with_worker with_chan ws_workers] in E2. rewrite nth_error_set_nth_same in E2 by (eapply nth_error_lt; eauto). injection E2 as E2. rewrite <- E2 in Ec. discriminate.
    - destruct (wstep cf s (sch n)) as [s' e] eqn:Es. destruct (mark_step _ _ _ _ _ _ _ _ M (wstep_eff _ _ _ _ _ Es)) as (mc' & mw' & M' & D). pose proof (at_S _ _ _ _ _ At Es) as At'.
      destruct D as [D|(D & K1 & K2)]; [exists (S n), s', (tr ++ e), mc', mw'; split; [lia|auto]|]. destruct (K2 _ _ _ Ew) as [H|[(_ & _ & H)|(_ & H & _)]]; [|specialize (H _ _ Ei); discriminate|congruence].
      destruct (K1 _ _ _ Ei) as (ch' & Ei'). destruct (IH (S n) s' (tr ++ e) mc' mw' ch' At' M' H Ei') as (n' & s2 & tr2 & mc2 & mw2 & Ln & At2 & M2 & D2); [rewrite <- El; f_equal; lia|]. exists n', s2, tr2, mc2, mw2. split; [lia|]. split; [exact At2|]. split; [exact M2|]. lia.
  Qed.

  Lemma flagged mw : flags mw > 0 -> exists w k, nth_error mw w = Some (true, k).
  Proof. induction mw as [|[b k] mw IH]; cbn; [lia|]. destruct b; [exists 0, k; reflexivity|]. intros H. destruct (IH H) as (w & k' & E). exists (S w), k'. exact E. Qed.
  Lemma with_mark mc : marks mc > 0 -> exists i q ch, nth_error mc i = Some (S q, ch).
  Proof. induction mc as [|[q ch] mc IH]; cbn; [lia|]. destruct q as [|q]; [|exists 0, q, ch; reflexivity]. intros H. destruct (IH H) as (i & q' & ch' & E). exists (S i), q', ch'. exact E. Qed.

  Hypothesis Fair : workers_run sch.
  Hypothesis Ret : forall j, returns (cf_routes cf) j.
  Lemma finish_at w (x : work) n : exists d f, sch (n + d) = LFinish w f /\ snd (handle f (cf_routes cf) (snd x)) = GoRet.
  Proof.
    destruct (Ret (snd x)) as (f0 & H0). pose proof (handle_no_panic f0 (cf_routes cf) (snd x)) as Np. destruct (handle f0 (cf_routes cf) (snd x)) as [es r] eqn:E. cbn [snd] in *. assert (r = GoRet) by (destruct r; congruence). subst r.
    destruct (proj2 (Fair w) f0 n) as (m & Lm & f & Lf & El). exists (m - n), f. replace (n + (m - n)) with m by lia. split; [exact El|]. now rewrite (handle_mono _ _ _ _ E f Lf).
  Qed.
  Lemma down : forall W n s tr mc mw, weight mc mw <= W -> at_ n s tr -> marked A s tr mc mw ->
    exists n' s' tr' mc' mw', n <= n' /\ at_ n' s' tr' /\ marked A s' tr' mc' mw' /\ weight mc' mw' = 0.
  Proof.
    induction W as [|W IH]; intros n s tr mc mw L At M. { exists n, s, tr, mc, mw. split; [lia|]. split; [exact At|]. split; [exact M|lia]. }
    assert (Less : forall n' s' tr' mc' mw', n <= n' -> at_ n' s' tr' -> marked A s' tr' mc' mw' -> weight mc' mw' < weight mc mw -> exists n' s' tr' mc' mw', n <= n' /\ at_ n' s' tr' /\ marked A s' tr' mc' mw' /\ weight mc' mw' = 0).
    { intros n' s' tr' mc' mw' Ln At' M' D. destruct (IH n' s' tr' mc' mw' ltac:(lia) At' M') as (n2 & s2 & tr2 & mc2 & mw2 & H & R). exists n2, s2, tr2, mc2, mw2. split; [lia|exact R]. }
    destruct (Nat.eq_dec (flags mw) 0) as [F0|F0].
    - destruct (Nat.eq_dec (marks mc) 0) as [M0|M0]. { exists n, s, tr, mc, mw. split; [lia|]. split; [exact At|]. split; [exact M|]. unfold weight. lia. }
      destruct (with_mark mc ltac:(lia)) as (i & q & ch & Ei). pose proof (server_uinv _ _ _ _ At) as U.
      destruct (u_cover _ _ _ U i) as (w & k & Ek & Ki). { rewrite <- (k_chans _ _ _ _ _ M), map_length. eapply nth_error_lt; eauto. }
      destruct (nth_snd _ _ _ _ (k_works _ _ _ _ _ M) Ek) as (b & Ew). destruct (wk_cur k) as [x|] eqn:Ec.
      + destruct (finish_at w x n) as (d & f & El & Eh). destruct (busy_wait w b k x f Ec Eh d n s tr mc mw At M Ew El) as (n' & s' & tr' & mc' & mw' & Ln & At' & M' & [D|(_ & D & K1 & H)]); [eapply Less; eauto|].
        rewrite <- Ki in Ei. destruct (K1 _ _ _ Ei) as (ch' & Ei'). destruct (proj1 (Fair w) n') as (m & Lm & El').
        destruct (idle_wait w false (Worker (wk_chan k) None (wk_alive k)) q eq_refl (m - n') n' s' tr' mc' mw' ch' At' M' H Ei') as (n2 & s2 & tr2 & mc2 & mw2 & Ln2 & At2 & M2 & D2); [rewrite <- El'; f_equal; lia|]. eapply (Less n2); eauto; lia.
      + rewrite <- Ki in Ei. destruct (proj1 (Fair w) n) as (m & Lm & El'). destruct (idle_wait w b k q Ec (m - n) n s tr mc mw ch At M Ew Ei) as (n2 & s2 & tr2 & mc2 & mw2 & Ln2 & At2 & M2 & D2); [rewrite <- El'; f_equal; lia|]. eapply Less; eauto.
    - destruct (flagged mw ltac:(lia)) as (w & k & Ew). destruct (wk_cur k) as [x|] eqn:Ec; [|pose proof (k_busy _ _ _ _ _ M) as B; rewrite Forall_forall in B; elim (B _ (nth_error_In _ _ Ew) eq_refl); exact Ec].
      destruct (finish_at w x n) as (d & f & El & Eh). destruct (busy_wait w true k x f Ec Eh d n s tr mc mw At M Ew El) as (n' & s' & tr' & mc' & mw' & Ln & At' & M' & [D|(H & _)]); [eapply Less; eauto|discriminate].
  Qed.
End Fair.

Lemma fair_done cf sch n s tr : workers_run sch -> (forall j, returns (cf_routes cf) j) -> server_run cf (first sch n) = Some (s, tr) ->
  exists m s' tr' more, n <= m /\ server_run cf (first sch m) = Some (s', tr') /\ Permutation (all_ended tr') (all_sent tr ++ more).
Proof.
  intros F R At. pose proof (server_uinv _ _ _ _ At) as U. destruct (down cf sch (all_sent tr) F R _ n s tr _ _ (le_n _) At (mark_now s tr (u_perm _ _ _ U))) as (m & s' & tr' & mc & mw & Ln & At' & M & W0).
  exists m, s', tr'. destruct (k_perm _ _ _ _ _ M) as (E & N & P1 & P2). exists N. split; [exact Ln|]. split; [exact At'|]. rewrite P2, P1. apply Permutation_app_tail.
  assert (Q1 : flat_map oldf mw = []). { assert (H : flags mw = 0) by (unfold weight in W0; lia). clear - H. induction mw as [|[b k] mw IH]; [reflexivity|]. cbn in *. destruct b; [lia|]. unfold oldf at 1. cbn. now apply IH. }
  assert (Q2 : flat_map oldw mc = []). { assert (H : marks mc = 0) by (unfold weight in W0; lia). clear - H. induction mc as [|[q ch] mc IH]; [reflexivity|]. cbn in *. assert (q = 0) by lia. subst. unfold oldw at 1. cbn. apply IH. lia. }
  rewrite Q1, Q2, !app_nil_r. reflexivity.
Qed.

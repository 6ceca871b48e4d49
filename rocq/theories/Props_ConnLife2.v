(* C28: on websocket and Kcp connections the wait of the closing goroutine and the heartbeat
   goroutine for each other is the only thing that keeps a stopped connection from closing. *)
From Coq Require Import List Bool Arith Lia.
From Verif Require Import ConnLife Spec_ConnLife ConnLife_proofs.
Import ListNotations.

Definition hooks_return (c : lcfg) : Prop := lc_start_panics c = false /\ lc_stop_panics c = false.
Record hinv (c : lcfg) (s : life) (n : nat) : Prop := {
  hi_n : n <= length (prog c);
  hi_todo : lf_todo s = skipn n (prog c);
  hi_ctx : lf_ctx s = (2 <=? n);
  hi_dead : lf_dead s = false;
  hi_canc : 7 <= n -> lf_cancelled s = true;
  hi_closed : lf_closed s = closed_at c n;
  hi_hb0 : lc_hc c = false -> lf_hb s = HbNone;
  hi_hb1 : lc_hc c = true -> match lf_hb s with
    | HbNone => n <= 3 | HbSelect | HbLock => 4 <= n <= 10 | HbWrite => 4 <= n <= 10 /\ lock_at c n = false | HbGone => 11 <= n end;
  hi_lock : lf_lock s = match lf_hb s with HbWrite => true | _ => lock_at c n end
}.
Lemma hinv_new c : hinv c (life_new c) 0.
Proof. constructor; cbn; auto; try lia; destruct c as [[] ? ? ?]; auto. Qed.
Lemma hinv_main c s n : hooks_return c -> lc_kind c <> KTcp -> hinv c s n ->
  (fst (main_step c s) = s /\ snd (main_step c s) = []) \/
  (n < length (prog c) /\ hinv c (fst (main_step c s)) (S n) /\
   forall e i, emits e i -> times e (snd (main_step c s)) + left i (fst (main_step c s)) = left i s).
Proof.
  intros (P1 & P2) K H. destruct H as [H1 H2 H3 H4 H5 H7 H8 H9 H6].
  destruct (Nat.eq_dec n (length (prog c))) as [->|Hne].
  { left. rewrite skipn_all in H2. unfold main_step. rewrite H2. auto. }
  assert (Hlt : n < length (prog c)) by lia. clear H1 Hne.
  destruct s as [todo ctx canc closed lock hb rd dead]. cbn [lf_todo lf_ctx lf_dead lf_cancelled lf_closed lf_lock lf_hb lf_reader] in *.
  destruct c as [k hc p1 p2]. cbn [lc_kind lc_hc lc_start_panics lc_stop_panics] in *. subst p1 p2 dead todo lock closed ctx.
  unfold prog in *. cbn [lc_kind] in *.
  destruct k; [now destruct K| |]; cbn in Hlt; each n; clear Hlt.
  all: unfold main_step, left; cbn -[Nat.leb count_occ].
  all: try (assert (canc = true) as -> by (apply H5; lia)).
  all: try (destruct canc eqn:?); try (left; split; reflexivity).
  all: try (destruct hc eqn:?; [specialize (H9 eq_refl); destruct hb eqn:?; try lia; try (destruct H9 as (H9 & H9'); try discriminate H9'; try lia)|specialize (H8 eq_refl); subst hb]).
  all: try (left; split; reflexivity).
  all: right; split; [cbn; lia|split; [|intros e i []; reflexivity]].
  all: constructor; cbn; auto; try lia; try discriminate; try (intros; split; [lia|reflexivity]).
Qed.
Lemma hinv_step c s n l : hooks_return c -> lc_kind c <> KTcp -> hinv c s n ->
  exists n', hinv c (fst (life_step c s l)) n' /\
  forall e i, emits e i -> times e (snd (life_step c s l)) + left i (fst (life_step c s l)) = left i s.
Proof.
  intros C K H. unfold life_step. rewrite (hi_dead _ _ _ H).
  assert (St : exists n', hinv c (fst (stop_call s)) n' /\
    forall e i, emits e i -> times e (snd (stop_call s)) + left i (fst (stop_call s)) = left i s).
  { exists n. unfold stop_call. destruct H. destruct (lf_ctx s) eqn:Ec; cbn [fst snd].
    - split; [constructor; cbn -[Nat.leb]; auto; congruence|]. intros e i E. destruct E; reflexivity.
    - split; [constructor; auto; congruence|]. intros e i E. destruct E; reflexivity. }
  assert (Same : exists n', hinv c s n' /\ forall e i, emits e i -> times e [] + left i s = left i s) by (exists n; split; [exact H|reflexivity]).
  destruct l.
  - destruct (hinv_main c s n C K H) as [[E1 E2]|(_ & Hi & E)].
    + exists n. rewrite E1, E2. split; [exact H|]. reflexivity.
    + eexists. split; [exact Hi|exact E].
  - exact St.
  - exists n. destruct (lf_reader s); cbn [fst snd]; (split; [|intros e i E; destruct E; reflexivity]); [|exact H].
    destruct H; constructor; cbn -[Nat.leb]; auto.
  - destruct (lf_hb s) eqn:Eh; try exact Same.
    destruct (fresh && negb (is_closed c s)); [|exact St].
    exists n. cbn [fst snd]. split; [|intros e i E; destruct E; reflexivity].
    destruct (lc_kind c) eqn:Ek; [now destruct K| |]; destruct H; rewrite Eh in *; constructor; cbn -[Nat.leb]; auto; intros Q; specialize (hi_hb2 Q); congruence.
  - destruct (lf_hb s) eqn:Eh; try exact Same.
    + destruct (lf_lock s) eqn:L; [exact Same|]. exists n. cbn [fst snd]. split; [|intros e i E; destruct E; reflexivity].
      destruct H; rewrite Eh in *; constructor; cbn -[Nat.leb]; auto; [intros Q; specialize (hi_hb2 Q); congruence|]. intros Q. split; [auto|congruence].
    + exists n. cbn [fst snd]. split; [|intros e i E; destruct E; reflexivity].
      destruct H; rewrite Eh in *. assert (Q : lc_hc c = true) by (destruct (lc_hc c); [reflexivity|now specialize (hi_hb2 eq_refl)]). destruct (hi_hb3 Q) as (A & B).
      constructor; cbn -[Nat.leb]; auto; [congruence|]. rewrite B. destruct (lc_kind c); [now destruct K|reflexivity..].
Qed.
Lemma hinv_run c : hooks_return c -> lc_kind c <> KTcp -> forall ls s n, hinv c s n ->
  exists n', hinv c (fst (life_run c s ls)) n' /\
  forall e i, emits e i -> times e (snd (life_run c s ls)) + left i (fst (life_run c s ls)) = left i s.
Proof.
  intros C K. induction ls as [|l ls IH]; intros s n H; cbn [life_run].
  - exists n. split; [exact H|]. reflexivity.
  - destruct (hinv_step c s n l C K H) as (n1 & H1 & E1). destruct (life_step c s l) as [s1 e1]. cbn [fst snd] in *.
    destruct (IH s1 n1 H1) as (n2 & H2 & E2). destruct (life_run c s1 ls) as [s2 es]. cbn [fst snd] in *.
    exists n2. split; [exact H2|]. intros e i E. rewrite times_app. specialize (E1 e i E). specialize (E2 e i E). lia.
Qed.
(* Once the heartbeat goroutine is not in the middle of a send, the closing goroutine goes through. *)
Lemma hinv_goes c s n : hooks_return c -> lc_kind c <> KTcp -> hinv c s n -> n < length (prog c) -> lf_cancelled s = true -> lf_hb s <> HbWrite -> lf_hb s <> HbLock ->
  length (lf_todo (fst (main_step c s))) < length (lf_todo s) /\ lf_hb (fst (main_step c s)) <> HbWrite /\ lf_hb (fst (main_step c s)) <> HbLock.
Proof.
  intros (P1 & P2) K H Hlt Hc Hw Hl. destruct H as [H1 H2 H3 H4 H5 H7 H8 H9 H6]. clear H1.
  destruct s as [todo ctx canc closed lock hb rd dead]. cbn [lf_todo lf_ctx lf_dead lf_cancelled lf_closed lf_lock lf_hb lf_reader] in *.
  destruct c as [k hc p1 p2]. cbn [lc_kind lc_hc lc_start_panics lc_stop_panics] in *.
  assert (L : lock = lock_at (Lcfg k hc p1 p2) n) by (destruct hb; [assumption|assumption|assumption|now destruct Hw|assumption]). clear H6. subst p1 p2 dead todo lock closed ctx canc.
  unfold prog in *. cbn [lc_kind] in *. clear H5.
  destruct k; [now destruct K| |]; cbn in Hlt; each n; clear Hlt.
  all: unfold main_step; cbn -[Nat.leb].
  all: try (destruct hc eqn:?; [specialize (H9 eq_refl); destruct hb eqn:?; try lia; try contradiction; try congruence|specialize (H8 eq_refl); subst hb]).
  all: cbn; repeat split; try lia; try discriminate; auto.
Qed.
Lemma hinv_finish c : hooks_return c -> lc_kind c <> KTcp -> forall k s n, hinv c s n -> length (lf_todo s) = k -> lf_cancelled s = true -> lf_hb s <> HbWrite -> lf_hb s <> HbLock ->
  exists ls, Forall own_step ls /\ lf_todo (fst (life_run c s ls)) = [].
Proof.
  intros C K. induction k as [k IH] using lt_wf_ind. intros s n H Hk Hc Hw Hl.
  destruct (lf_todo s) as [|j t] eqn:T; [exists []; split; [constructor|exact T]|].
  assert (Hlt : n < length (prog c)).
  { destruct (Nat.lt_ge_cases n (length (prog c))); [assumption|]. rewrite (hi_todo _ _ _ H), skipn_all2 in T by assumption. discriminate. }
  destruct (hinv_goes c s n C K H Hlt Hc Hw Hl) as (G1 & G2 & G3).
  destruct (hinv_main c s n C K H) as [[E1 E2]|(_ & Hi & _)]; [rewrite E1 in G1; lia|].
  assert (Ec : lf_cancelled (fst (life_step c s LMain)) = true) by now apply cancelled_step. unfold life_step in Ec. rewrite (hi_dead _ _ _ H) in Ec.
  destruct (IH (length (lf_todo (fst (main_step c s)))) ltac:(rewrite T in G1; cbn in G1, Hk; lia) _ _ Hi eq_refl Ec G2 G3) as (ls & Ho & E).
  exists (LMain :: ls). split; [constructor; [now left|exact Ho]|]. cbn [life_run]. unfold life_step. rewrite (hi_dead _ _ _ H).
  destruct (main_step c s) as [s2 e2]. cbn [fst] in *. now destruct (life_run c s2 ls).
Qed.
Lemma hinv_settle c s n : hooks_return c -> lc_kind c <> KTcp -> hinv c s n -> lf_cancelled s = true -> ~ (lf_hb s = HbLock /\ lf_lock s = true) ->
  exists ls, Forall own_step ls /\ lf_todo (fst (life_run c s ls)) = [].
Proof.
  intros C K H Hc Hn.
  assert (W : forall s n, hinv c s n -> lf_cancelled s = true -> lf_hb s = HbWrite -> exists ls, Forall own_step ls /\ lf_todo (fst (life_run c s ls)) = []).
  { clear s n H Hc Hn. intros s n H Hc Hw. destruct (hinv_step c s n LBeat C K H) as (n1 & H1 & _). pose proof (cancelled_step c s LBeat Hc) as Hc1.
    assert (Hb : lf_hb (fst (life_step c s LBeat)) = HbSelect) by (unfold life_step; rewrite (hi_dead _ _ _ H), Hw; reflexivity).
    destruct (hinv_finish c C K _ _ n1 H1 eq_refl Hc1 ltac:(congruence) ltac:(congruence)) as (ls & Ho & E).
    exists (LBeat :: ls). split; [constructor; [now right|exact Ho]|]. cbn [life_run]. destruct (life_step c s LBeat) as [s2 e2]. cbn [fst] in *. now destruct (life_run c s2 ls). }
  destruct (lf_hb s) eqn:Eh; try (apply (hinv_finish c C K _ s n H eq_refl Hc); congruence).
  - destruct (lf_lock s) eqn:L; [now destruct Hn|]. destruct (hinv_step c s n LBeat C K H) as (n1 & H1 & _). pose proof (cancelled_step c s LBeat Hc) as Hc1.
    assert (Hb : lf_hb (fst (life_step c s LBeat)) = HbWrite) by (unfold life_step; rewrite (hi_dead _ _ _ H), Eh, L; reflexivity).
    destruct (W _ n1 H1 Hc1 Hb) as (ls & Ho & E).
    exists (LBeat :: ls). split; [constructor; [now right|exact Ho]|]. cbn [life_run]. destruct (life_step c s LBeat) as [s2 e2]. cbn [fst] in *. now destruct (life_run c s2 ls).
  - now apply (W s n).
Qed.
Lemma asked_cancels_h c ls : hooks_return c -> lc_kind c <> KTcp -> stop_asked c ls -> lf_cancelled (fst (life_run c (life_new c) ls)) = true.
Proof.
  intros C K (b & l & a & -> & H). cbv zeta in H. destruct (hinv_run c C K b _ 0 (hinv_new c)) as (n & I & _).
  pose proof (hi_dead _ _ _ I) as D.
  assert (B0 : before_ctx c (life_new c)) by (intros _; left; reflexivity). destruct (ctx_run c b _ B0) as (_ & X).
  rewrite run_app. cbn [fst]. set (s := fst (life_run c (life_new c) b)) in *.
  assert (Q : lf_cancelled (fst (life_step c s l)) = true).
  { unfold life_step. rewrite D. destruct H as [(-> & H)|[(-> & H)|(-> & H)]].
    - specialize (X H). unfold stop_call. now rewrite X.
    - rewrite H. reflexivity.
    - rewrite H. cbn [andb]. unfold stop_call. destruct (lf_ctx s) eqn:Ec; [reflexivity|]. exfalso.
      destruct (lc_hc c) eqn:Eh; [|pose proof (hi_hb0 _ _ _ I Eh); congruence]. pose proof (hi_hb1 _ _ _ I Eh) as L. rewrite H in L.
      rewrite (hi_ctx _ _ _ I) in Ec. apply Nat.leb_gt in Ec. lia. }
  cbn [life_run]. destruct (life_step c s l) as [s1 e1]. pose proof (cancelled_run c a s1 Q). now destruct (life_run c s1 a).
Qed.

(* A websocket or Kcp connection whose hooks do not panic, with or without heartbeat: after a stop
   has been asked for, the connection is either in the wait described by C28_heartbeat_refuted -
   its heartbeat goroutine waits for the message lock, which is held - or its own steps lead to the
   stop hook, the socket close and the removal having happened exactly once, whatever follows.
   Missing: in that wait they do not happen, and nothing prevents the wait. *)
Theorem C28_heartbeat_partial c ls : lc_start_panics c = false -> lc_stop_panics c = false -> lc_kind c <> KTcp -> stop_asked c ls ->
  let s := fst (life_run c (life_new c) ls) in ~ (lf_hb s = HbLock /\ lf_lock s = true) ->
  exists ls', Forall own_step ls' /\ forall more e, closing_event e -> times e (snd (life_run c (life_new c) (ls ++ ls' ++ more))) = 1.
Proof.
  intros P1 P2 K A s Hn. assert (C : hooks_return c) by (split; assumption). pose proof (asked_cancels_h c ls C K A) as Hc.
  destruct (hinv_run c C K ls _ 0 (hinv_new c)) as (n & H & E). fold s in H, Hc.
  destruct (hinv_settle c s n C K H Hc Hn) as (ls' & Ho & T). exists ls'. split; [exact Ho|]. intros more e He.
  pose proof (at_most_once c (ls ++ ls' ++ more) e He) as Hle.
  destruct (closing_emits e He) as (i & Em & _ & H1).
  destruct (hinv_run c C K ls' _ n H) as (n' & H' & E'). specialize (E e i Em). specialize (E' e i Em). unfold s in *.
  rewrite app_assoc, run_app, run_app in *. cbn [fst snd] in *. rewrite !times_app in *.
  unfold left at 1 in E'. rewrite T in E'. cbn in E'. rewrite H1 in E. lia.
Qed.
Print Assumptions C28_heartbeat_partial.
(* Stopped while the heartbeat is being written, or waits for a lock nobody holds: it closes. *)
Example C28_heartbeat_case :
  let c := Lcfg KWs true false false in let ls := repeat LMain 6 ++ [LTick true; LBeat; LStop; LMain; LMain] in
  let d := Lcfg KKcp true false false in let ms := repeat LMain 6 ++ [LTick true; LStop; LMain; LMain] in
  stop_asked c ls /\ lf_hb (fst (life_run c (life_new c) ls)) = HbWrite /\
  stop_asked d ms /\ lf_hb (fst (life_run d (life_new d) ms)) = HbLock /\ lf_lock (fst (life_run d (life_new d) ms)) = false.
Proof.
  vm_compute. repeat split.
  - exists (repeat LMain 6 ++ [LTick true; LBeat]), LStop, [LMain; LMain]. vm_compute. auto.
  - exists (repeat LMain 6 ++ [LTick true]), LStop, [LMain; LMain]. vm_compute. auto.
Qed.
(* And the wait itself never ends: no later step of any goroutine closes the connection. *)
Theorem C28_heartbeat_stuck c ls : lc_start_panics c = false -> lc_stop_panics c = false -> lc_kind c <> KTcp ->
  let s := fst (life_run c (life_new c) ls) in lf_hb s = HbLock -> lf_lock s = true ->
  forall more, ~ In EvClose (snd (life_run c (life_new c) (ls ++ more))) /\ ~ In EvRemove (snd (life_run c (life_new c) (ls ++ more))).
Proof.
  intros P1 P2 K s Hb Hl more. assert (C : hooks_return c) by (split; assumption).
  destruct (hinv_run c C K ls _ 0 (hinv_new c)) as (n & H & E). fold s in H.
  assert (Hh : lc_hc c = true) by (destruct (lc_hc c) eqn:Q; [reflexivity|pose proof (hi_hb0 _ _ _ H Q); congruence]).
  assert (N : n <= 10) by (pose proof (hi_hb1 _ _ _ H Hh) as Q; rewrite Hb in Q; lia).
  assert (L : lock_at c n = true) by (pose proof (hi_lock _ _ _ H) as Q; rewrite Hb in Q; congruence).
  pose proof (hi_todo _ _ _ H) as T. pose proof (hi_closed _ _ _ H) as Hd.
  assert (W : forall more s, lf_hb s = HbLock -> lf_lock s = true -> lf_closed s = closed_at c n ->
    (lf_todo s = IHcStop :: skipn 11 (prog c) \/ lc_kind c = KWs /\ lf_closed s = false /\ lf_todo s = IIfClosed :: IHcStop :: skipn 11 (prog c)) ->
    forall e, e = EvClose \/ e = EvRemove -> ~ In e (snd (life_run c s more))).
  { clear - Hh. induction more as [|l more IH]; intros s Hb Hl Hc T e He; [intros []|]. cbn [life_run].
    assert (St : let r := life_step c s l in lf_hb (fst r) = HbLock /\ lf_lock (fst r) = true /\ lf_closed (fst r) = closed_at c n /\
      (lf_todo (fst r) = IHcStop :: skipn 11 (prog c) \/ lc_kind c = KWs /\ lf_closed (fst r) = false /\ lf_todo (fst r) = IIfClosed :: IHcStop :: skipn 11 (prog c)) /\ ~ In e (snd r)).
    { cbv zeta. unfold life_step, main_step, stop_call. destruct (lf_dead s); [cbn; tauto|].
      destruct l; rewrite ?Hb, ?Hl; [destruct T as [T1|(T1 & T2 & T3)]; [rewrite T1, Hh|rewrite T3, T2]| | | |]; lcase; cbn; (split; [congruence|split; [congruence|split; [congruence|]]]); (split; [intuition congruence|destruct He as [->| ->]; intuition discriminate]). }
    cbv zeta in St. destruct (life_step c s l) as [s1 e1]. cbn [fst snd] in St. destruct St as (S1 & S2 & S3 & S4 & S5).
    specialize (IH s1 S1 S2 S3 S4 e He). destruct (life_run c s1 more) as [s2 es]. cbn [snd] in *. rewrite in_app_iff. tauto. }
  assert (T' : lf_todo s = IHcStop :: skipn 11 (prog c) \/ lc_kind c = KWs /\ lf_closed s = false /\ lf_todo s = IIfClosed :: IHcStop :: skipn 11 (prog c)).
  { rewrite T, Hd. clear - K L N. destruct c as [[] hc p1 p2]; cbn [lc_kind] in *; [now destruct K| |]; unfold lock_at in L; cbn [lc_kind] in L; apply andb_true_iff in L; destruct L as (L1 & _); apply Nat.leb_le in L1.
    - assert (n = 9 \/ n = 10) as [-> | ->] by lia; cbn; auto.
    - assert (n = 10) as -> by lia. cbn. auto. }
  assert (Z : forall e i, emits e i -> left i (life_new c) = left i s -> ~ In e (snd (life_run c (life_new c) ls))).
  { intros e i Em Q. specialize (E e i Em). fold s in E. unfold times in E. rewrite (count_occ_In lev_eq_dec). lia. }
  assert (Y : left IClose (life_new c) = left IClose s /\ left IRemove (life_new c) = left IRemove s).
  { unfold left, life_new. cbn [lf_todo]. rewrite T. clear - K N. destruct c as [[] hc p1 p2]; cbn [lc_kind] in *; [now destruct K| |]; each n; vm_compute; auto. }
  rewrite run_app. cbn [snd]. rewrite !in_app_iff. fold s. destruct Y as (Y1 & Y2).
  split; intros [Q|Q]; [now apply (Z _ _ EmClose Y1)|exact (W more s Hb Hl Hd T' EvClose (or_introl eq_refl) Q)|now apply (Z _ _ EmRemove Y2)|exact (W more s Hb Hl Hd T' EvRemove (or_intror eq_refl) Q)].
Qed.
Print Assumptions C28_heartbeat_stuck.
Example C28_heartbeat_stuck_case : let c := Lcfg KWs true false false in let ls := repeat LMain 6 ++ [LTick true; LStop; LMain; LMain; LMain] in
  lf_hb (fst (life_run c (life_new c) ls)) = HbLock /\ lf_lock (fst (life_run c (life_new c) ls)) = true.
Proof. vm_compute. auto. Qed.

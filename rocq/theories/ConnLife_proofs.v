(* Proofs about ConnLife.v. *)
From Coq Require Import List Bool Arith Lia.
From Verif Require Import ConnLife Spec_ConnLife.
Import ListNotations.

Definition instr_eq_dec (a b : instr) : {a = b} + {a <> b}.
Proof. decide equality. Defined.
Definition left (i : instr) (s : life) : nat := count_occ instr_eq_dec (lf_todo s) i.
Inductive emits : lev -> instr -> Prop :=
| EmStop : emits EvStopHook IStopHook | EmClose : emits EvClose IClose | EmRemove : emits EvRemove IRemove
| EmCallbacks : emits EvCallbacks IGoCallbacks | EmFree : emits EvFree IFree | EmChan : emits EvChanClosed ICloseChan.

Lemma times_app e a b : times e (a ++ b) = times e a + times e b.
Proof. apply count_occ_app. Qed.

Ltac lcase := repeat match goal with
  | |- context [if ?b then _ else _] => destruct b eqn:?
  | |- context [match lf_hb ?s with _ => _ end] => destruct (lf_hb s) eqn:?
  | |- context [match lc_kind ?s with _ => _ end] => destruct (lc_kind s) eqn:?
  end.

Lemma main_left c s e i : emits e i -> e <> EvFree ->
  times e (snd (main_step c s)) + left i (fst (main_step c s)) <= left i s.
Proof.
  intros E Hf. unfold main_step, left. destruct (lf_todo s) as [|j rest] eqn:T; [cbn; rewrite T; cbn; lia|].
  destruct j; unfold hook_panic; lcase; cbn; rewrite ?T; destruct E; try congruence; cbn; try lia.
Qed.
Lemma step_left c s l e i : emits e i -> e <> EvFree ->
  times e (snd (life_step c s l)) + left i (fst (life_step c s l)) <= left i s.
Proof.
  intros E Hf. unfold life_step. destruct (lf_dead s); [cbn; lia|].
  destruct l; [now apply main_left|..]; unfold stop_call; lcase; destruct E; cbn; try congruence; unfold left; cbn; lia.
Qed.
Lemma run_app c : forall ls s ls', life_run c s (ls ++ ls') =
  (fst (life_run c (fst (life_run c s ls)) ls'), snd (life_run c s ls) ++ snd (life_run c (fst (life_run c s ls)) ls')).
Proof.
  induction ls as [|l ls IH]; intros s ls'; cbn [app life_run].
  - cbn. now destruct (life_run c s ls').
  - destruct (life_step c s l) as [s1 e]. rewrite IH. destruct (life_run c s1 ls) as [s2 es]. cbn. now rewrite app_assoc.
Qed.
Lemma run_left c e i : emits e i -> e <> EvFree -> forall ls s,
  times e (snd (life_run c s ls)) + left i (fst (life_run c s ls)) <= left i s.
Proof.
  intros E Hf. induction ls as [|l ls IH]; intros s; cbn [life_run]; [cbn; lia|].
  pose proof (step_left c s l e i E Hf). destruct (life_step c s l) as [s1 e1]. specialize (IH s1).
  destruct (life_run c s1 ls) as [s2 es]. cbn [fst snd] in *. rewrite times_app. lia.
Qed.
Lemma closing_emits e : closing_event e -> exists i, emits e i /\ e <> EvFree /\ forall c, left i (life_new c) = 1.
Proof.
  intros [->|[->| ->]]; eexists; (split; [constructor|split; [discriminate|intros [[] ? ? ?]; reflexivity]]).
Qed.
Lemma at_most_once c ls e : closing_event e -> times e (snd (life_run c (life_new c) ls)) <= 1.
Proof.
  intros H. destruct (closing_emits e H) as (i & E & Hf & H1).
  pose proof (run_left c e i E Hf ls (life_new c)). rewrite H1 in H0. lia.
Qed.

(* Nothing panics and no goroutine waits for another: counts are exact. *)
Definition prog (c : lcfg) : list instr := start_prog ++ final_prog (lc_kind c).
Definition calm (c : lcfg) : Prop :=
  lc_start_panics c = false /\ lc_stop_panics c = false /\ (lc_kind c = KTcp \/ lc_hc c = false).
Definition lock_at (c : lcfg) (n : nat) : bool :=
  match lc_kind c with
  | KTcp => false
  | KWs => (9 <=? n) && (n <=? 16)
  | KKcp => (10 <=? n) && (n <=? 15)
  end.
Definition closed_at (c : lcfg) (n : nat) : bool :=
  match lc_kind c with KTcp => false | KWs => 15 <=? n | KKcp => 8 <=? n end.
Record linv (c : lcfg) (s : life) (n : nat) : Prop := {
  li_n : n <= length (prog c);
  li_todo : lf_todo s = skipn n (prog c);
  li_ctx : lf_ctx s = (2 <=? n);
  li_dead : lf_dead s = false;
  li_canc : 7 <= n -> lf_cancelled s = true;
  li_lock : lf_lock s = lock_at c n;
  li_closed : lf_closed s = closed_at c n;
  li_hb0 : lc_hc c = false -> lf_hb s = HbNone;
  li_hb1 : lc_hc c = true -> match lf_hb s with
    | HbNone => n <= 3 | HbSelect | HbWrite => 4 <= n <= 8 | HbLock => False | HbGone => 9 <= n end
}.
Lemma linv_new c : linv c (life_new c) 0.
Proof. constructor; cbn; auto; try lia; destruct c as [[] ? ? ?]; auto. Qed.

(* Split on n, whose bound is a numeral. *)
Ltac each n := destruct n as [|n]; [|tryif (exfalso; lia) then idtac else each n].
Lemma linv_main c s n : calm c -> linv c s n ->
  (fst (main_step c s) = s /\ snd (main_step c s) = []) \/
  (n < length (prog c) /\ linv c (fst (main_step c s)) (S n) /\
   forall e i, emits e i -> times e (snd (main_step c s)) + left i (fst (main_step c s)) = left i s).
Proof.
  intros (P1 & P2 & P3) H. destruct H as [H1 H2 H3 H4 H5 H6 H7 H8 H9].
  destruct (Nat.eq_dec n (length (prog c))) as [->|Hne].
  { left. rewrite skipn_all in H2. unfold main_step. rewrite H2. auto. }
  assert (Hlt : n < length (prog c)) by lia. clear H1 Hne.
  destruct s as [todo ctx canc closed lock hb rd dead]. cbn [lf_todo lf_ctx lf_dead lf_cancelled lf_closed lf_lock lf_hb lf_reader] in *.
  destruct c as [k hc p1 p2]. cbn [lc_kind lc_hc lc_start_panics lc_stop_panics] in *. subst p1 p2 dead todo lock closed ctx.
  unfold prog in *. cbn [lc_kind] in *.
  destruct k; cbn in Hlt; each n; clear Hlt.
  all: unfold main_step, left; cbn -[Nat.leb count_occ].
  all: try (destruct P3 as [P3| ->]; [try discriminate P3|]).
  all: try (assert (canc = true) as -> by (apply H5; lia)).
  all: try (destruct canc eqn:?); try (left; split; reflexivity).
  all: try (destruct hc eqn:?; [specialize (H9 eq_refl); destruct hb eqn:?; try lia; try contradiction|specialize (H8 eq_refl)]).
  all: try (left; split; reflexivity).
  all: right; split; [cbn; lia|split; [|intros e i []; reflexivity]].
  all: constructor; cbn; auto; try lia; try discriminate.
Qed.
Lemma linv_goes c s n : calm c -> linv c s n -> n < length (prog c) -> lf_cancelled s = true -> lf_hb s <> HbWrite ->
  length (lf_todo (fst (main_step c s))) < length (lf_todo s).
Proof.
  intros (P1 & P2 & P3) H Hlt Hc Hw. destruct H as [H1 H2 H3 H4 H5 H6 H7 H8 H9]. clear H1.
  destruct s as [todo ctx canc closed lock hb rd dead]. cbn [lf_todo lf_ctx lf_dead lf_cancelled lf_closed lf_lock lf_hb lf_reader] in *.
  destruct c as [k hc p1 p2]. cbn [lc_kind lc_hc lc_start_panics lc_stop_panics] in *. subst p1 p2 dead todo lock closed ctx canc.
  unfold prog in *. cbn [lc_kind] in *. clear H5.
  destruct k; cbn in Hlt; each n; clear Hlt.
  all: unfold main_step; cbn -[Nat.leb].
  all: try (destruct P3 as [P3| ->]; [try discriminate P3|]).
  all: try (destruct hc eqn:?; [specialize (H9 eq_refl); destruct hb eqn:?; try lia; try contradiction; try congruence|specialize (H8 eq_refl)]).
  all: cbn; lia.
Qed.
Lemma linv_step c s n l : calm c -> linv c s n ->
  exists n', linv c (fst (life_step c s l)) n' /\
  forall e i, emits e i -> times e (snd (life_step c s l)) + left i (fst (life_step c s l)) = left i s.
Proof.
  intros C H. unfold life_step. rewrite (li_dead _ _ _ H).
  assert (St : exists n', linv c (fst (stop_call s)) n' /\
    forall e i, emits e i -> times e (snd (stop_call s)) + left i (fst (stop_call s)) = left i s).
  { exists n. unfold stop_call. destruct H. destruct (lf_ctx s) eqn:Ec; cbn [fst snd].
    - split; [constructor; cbn -[Nat.leb]; auto; congruence|]. intros e i E. destruct E; reflexivity.
    - split; [constructor; auto; congruence|]. intros e i E. destruct E; reflexivity. }
  destruct l.
  - destruct (linv_main c s n C H) as [[E1 E2]|(_ & Hi & E)].
    + exists n. rewrite E1, E2. split; [exact H|]. reflexivity.
    + eexists. split; [exact Hi|exact E].
  - exact St.
  - exists n. destruct (lf_reader s); cbn [fst snd]; (split; [|intros e i E; destruct E; reflexivity]); [|exact H].
    destruct H; constructor; cbn -[Nat.leb]; auto.
  - destruct (lf_hb s) eqn:Eh; try (exists n; cbn; split; [exact H|]; reflexivity).
    destruct (fresh && negb (is_closed c s)); [|exact St].
    destruct C as (_ & _ & [C|C]); [|pose proof (li_hb0 _ _ _ H C); congruence].
    exists n. rewrite C. cbn [fst snd]. split; [|intros e i E; destruct E; reflexivity].
    destruct H. constructor; cbn -[Nat.leb]; auto. { intros Q. specialize (li_hb2 Q). congruence. }
    intros Q. specialize (li_hb3 Q). rewrite Eh in *. lia.
  - destruct (lf_hb s) eqn:Eh; try (exists n; cbn; split; [exact H|]; reflexivity);
      (destruct (lc_hc c) eqn:Eq; [|pose proof (li_hb0 _ _ _ H Eq); congruence]);
      pose proof (li_hb1 _ _ _ H Eq) as Hh; rewrite Eh in Hh; [contradiction|].
    destruct C as (_ & _ & [C|C]); [|congruence].
    exists n. rewrite C. cbn [fst snd]. split; [|intros e i E; destruct E; reflexivity].
    destruct H. constructor; cbn -[Nat.leb]; auto; congruence.
Qed.
Lemma linv_run c : calm c -> forall ls s n, linv c s n ->
  exists n', linv c (fst (life_run c s ls)) n' /\
  forall e i, emits e i -> times e (snd (life_run c s ls)) + left i (fst (life_run c s ls)) = left i s.
Proof.
  intros C. induction ls as [|l ls IH]; intros s n H; cbn [life_run].
  - exists n. split; [exact H|]. reflexivity.
  - destruct (linv_step c s n l C H) as (n1 & H1 & E1). destruct (life_step c s l) as [s1 e1]. cbn [fst snd] in *.
    destruct (IH s1 n1 H1) as (n2 & H2 & E2). destruct (life_run c s1 ls) as [s2 es]. cbn [fst snd] in *.
    exists n2. split; [exact H2|]. intros e i E. rewrite times_app. specialize (E1 e i E). specialize (E2 e i E). lia.
Qed.
Lemma linv_finish c : calm c -> forall k s n, linv c s n -> length (lf_todo s) = k -> lf_cancelled s = true ->
  exists ls, Forall own_step ls /\ lf_todo (fst (life_run c s ls)) = [].
Proof.
  intros C. induction k as [k IH] using lt_wf_ind. intros s n H Hk Hc.
  destruct (lf_todo s) as [|j t] eqn:T; [exists []; split; [constructor|exact T]|].
  assert (Hlt : n < length (prog c)).
  { destruct (Nat.lt_ge_cases n (length (prog c))); [assumption|]. rewrite (li_todo _ _ _ H), skipn_all2 in T by assumption. discriminate. }
  assert (Go : forall s1 n1, linv c s1 n1 -> lf_todo s1 = j :: t -> lf_cancelled s1 = true -> lf_hb s1 <> HbWrite ->
    exists ls, Forall own_step ls /\ lf_todo (fst (life_run c s1 ls)) = []).
  { intros s1 n1 H1 T1 Hc1 Hw.
    assert (Hlt1 : n1 < length (prog c)).
    { destruct (Nat.lt_ge_cases n1 (length (prog c))); [assumption|]. rewrite (li_todo _ _ _ H1), skipn_all2 in T1 by assumption. discriminate. }
    pose proof (linv_goes c s1 n1 C H1 Hlt1 Hc1 Hw) as Hl.
    destruct (linv_main c s1 n1 C H1) as [[E1 E2]|(_ & Hi & _)]; [rewrite E1 in Hl; lia|].
    destruct (IH (length (lf_todo (fst (main_step c s1)))) ltac:(rewrite T1 in Hl; cbn in Hl, Hk; lia) _ _ Hi eq_refl) as (ls & Ho & E).
    { clear -Hc1 H1. unfold main_step. destruct (lf_todo s1) as [|i r]; [exact Hc1|].
      destruct i; unfold hook_panic; lcase; cbn; auto; congruence. }
    exists (LMain :: ls). split; [constructor; [now left|exact Ho]|]. cbn [life_run]. unfold life_step.
    rewrite (li_dead _ _ _ H1). destruct (main_step c s1) as [s2 e2]. cbn [fst] in *. now destruct (life_run c s2 ls). }
  destruct (lf_hb s) eqn:Eh; try (apply (Go s n); auto; congruence).
  destruct (linv_step c s n LBeat C H) as (n1 & H1 & _).
  assert (Es : lf_todo (fst (life_step c s LBeat)) = j :: t /\ lf_cancelled (fst (life_step c s LBeat)) = true /\
               lf_hb (fst (life_step c s LBeat)) <> HbWrite).
  { unfold life_step. rewrite (li_dead _ _ _ H), Eh. cbn. rewrite T. repeat split; auto. discriminate. }
  destruct Es as (E1 & E2 & E3). destruct (Go _ n1 H1 E1 E2 E3) as (ls & Ho & E).
  exists (LBeat :: ls). split; [constructor; [now right|exact Ho]|]. cbn [life_run].
  destruct (life_step c s LBeat) as [s2 e2]. cbn [fst] in *. now destruct (life_run c s2 ls).
Qed.
Lemma exactly_once c ls : calm c -> lf_cancelled (fst (life_run c (life_new c) ls)) = true ->
  exists ls', Forall own_step ls' /\ forall more e, closing_event e ->
    times e (snd (life_run c (life_new c) (ls ++ ls' ++ more))) = 1.
Proof.
  intros C Hc. destruct (linv_run c C ls _ 0 (linv_new c)) as (n & H & E).
  destruct (linv_finish c C _ _ n H eq_refl Hc) as (ls' & Ho & T). exists ls'. split; [exact Ho|]. intros more e He.
  pose proof (at_most_once c (ls ++ ls' ++ more) e He) as Hle.
  destruct (closing_emits e He) as (i & Em & _ & H1).
  destruct (linv_run c C ls' _ n H) as (n' & H' & E'). specialize (E e i Em). specialize (E' e i Em).
  rewrite app_assoc, run_app, run_app in *. cbn [fst snd] in *. rewrite !times_app in *.
  unfold left at 1 in E'. rewrite T in E'. cbn in E'. rewrite H1 in E. lia.
Qed.

(* Asking the connection to stop cancels it for good. *)
Lemma cancelled_step c s l : lf_cancelled s = true -> lf_cancelled (fst (life_step c s l)) = true.
Proof.
  intros H. unfold life_step. destruct (lf_dead s); [exact H|]. destruct l; unfold stop_call; lcase; cbn; auto.
  unfold main_step. destruct (lf_todo s) as [|i r]; [exact H|]. destruct i; unfold hook_panic; lcase; cbn; auto; congruence.
Qed.
Lemma cancelled_run c : forall ls s, lf_cancelled s = true -> lf_cancelled (fst (life_run c s ls)) = true.
Proof.
  induction ls as [|l ls IH]; intros s H; [exact H|]. cbn [life_run]. pose proof (cancelled_step c s l H) as H1.
  destruct (life_step c s l) as [s1 e1]. specialize (IH s1 H1). destruct (life_run c s1 ls). exact IH.
Qed.
Lemma ctx_keep c s l : lf_ctx s = true -> lf_ctx (fst (life_step c s l)) = true.
Proof.
  intros H. unfold life_step. destruct (lf_dead s); [exact H|]. destruct l; unfold stop_call; lcase; cbn; auto; try congruence.
  unfold main_step. destruct (lf_todo s) as [|i r]; [exact H|]. destruct i; unfold hook_panic; lcase; cbn; auto; try congruence. all: congruence.
Qed.
Definition before_ctx (c : lcfg) (s : life) : Prop := lf_ctx s = false -> lf_todo s = prog c \/ lf_todo s = skipn 1 (prog c).
Lemma ctx_step c s l : before_ctx c s -> before_ctx c (fst (life_step c s l)) /\ (lf_ctx s = true -> lf_ctx (fst (life_step c s l)) = true) /\
  (In EvStartHook (snd (life_step c s l)) -> lf_ctx s = true).
Proof.
  unfold before_ctx, prog. intros H. pose proof (ctx_keep c s l) as K. revert K. unfold life_step. destruct (lf_dead s); [cbn; tauto|]. destruct (lf_ctx s) eqn:Ec; intros K.
  - specialize (K eq_refl). repeat split; auto. congruence.
  - specialize (H eq_refl). destruct l; [|unfold stop_call; lcase; cbn; repeat split; auto; intuition discriminate..].
    unfold main_step. destruct H as [-> | ->]; cbn; repeat split; auto; try discriminate; intuition.
Qed.
Lemma ctx_run c : forall ls s, before_ctx c s -> (lf_ctx s = true -> lf_ctx (fst (life_run c s ls)) = true) /\
  (In EvStartHook (snd (life_run c s ls)) -> lf_ctx (fst (life_run c s ls)) = true).
Proof.
  induction ls as [|l ls IH]; intros s H; cbn [life_run]; [cbn; tauto|].
  destruct (ctx_step c s l H) as (A & B & C). destruct (life_step c s l) as [s1 e1]. destruct (IH s1 A) as (D & E). destruct (life_run c s1 ls) as [s2 es]. cbn [fst snd] in *.
  split; [tauto|]. rewrite in_app_iff. tauto.
Qed.
Lemma dead_only c : calm c -> forall ls, lf_dead (fst (life_run c (life_new c) ls)) = false.
Proof. intros C ls. destruct (linv_run c C ls _ 0 (linv_new c)) as (n & H & _). exact (li_dead _ _ _ H). Qed.
Lemma asked_cancels c ls : calm c -> stop_asked c ls -> lf_cancelled (fst (life_run c (life_new c) ls)) = true.
Proof.
  intros C (b & l & a & -> & H). cbv zeta in H. pose proof (dead_only c C b) as D.
  destruct (linv_run c C b _ 0 (linv_new c)) as (n & I & _).
  assert (B0 : before_ctx c (life_new c)) by (intros _; left; reflexivity). destruct (ctx_run c b _ B0) as (_ & X).
  rewrite run_app. cbn [fst]. set (s := fst (life_run c (life_new c) b)) in *.
  assert (K : lf_cancelled (fst (life_step c s l)) = true).
  { unfold life_step. rewrite D. destruct H as [(-> & H)|[(-> & H)|(-> & H)]].
    - specialize (X H). unfold stop_call. now rewrite X.
    - rewrite H. reflexivity.
    - rewrite H. cbn [andb]. unfold stop_call. destruct (lf_ctx s) eqn:Ec; [reflexivity|]. exfalso.
      destruct (lc_hc c) eqn:Eh; [|pose proof (li_hb0 _ _ _ I Eh); congruence]. pose proof (li_hb1 _ _ _ I Eh) as L. rewrite H in L.
      rewrite (li_ctx _ _ _ I) in Ec. apply Nat.leb_gt in Ec. lia. }
  cbn [life_run]. destruct (life_step c s l) as [s1 e1]. pose proof (cancelled_run c a s1 K). now destruct (life_run c s1 a).
Qed.

(* The deadlock of the Ws and Kcp finalizer with the heartbeat goroutine. *)
Definition stuck (s : life) : Prop :=
  lf_hb s = HbLock /\ lf_lock s = true /\ exists r, lf_todo s = IHcStop :: r.
Lemma stuck_step c s l : lc_hc c = true -> stuck s ->
  stuck (fst (life_step c s l)) /\ snd (life_step c s l) = [] \/
  stuck (fst (life_step c s l)) /\ snd (life_step c s l) = [EvStopPanic].
Proof.
  intros Hc (H1 & H2 & r & H3). unfold life_step, main_step, stop_call. destruct (lf_dead s); [left; repeat split; eauto|].
  destruct l; rewrite ?H1, ?H2, ?H3, ?Hc; lcase; cbn; unfold stuck; cbn; eauto 10.
Qed.
Lemma stuck_run c : lc_hc c = true -> forall ls s, stuck s -> forall e, closing_event e -> times e (snd (life_run c s ls)) = 0.
Proof.
  intros Hc. induction ls as [|l ls IH]; intros s H e He; cbn [life_run]; [reflexivity|].
  destruct (stuck_step c s l Hc H) as [[H1 E]|[H1 E]]; destruct (life_step c s l) as [s1 e1]; cbn [fst snd] in *; subst e1;
    specialize (IH s1 H1 e He); destruct (life_run c s1 ls) as [s2 es]; cbn [snd] in *; rewrite times_app, IH;
    destruct He as [->|[->| ->]]; reflexivity.
Qed.

(* After a panicking stop hook nothing more is done. *)
Lemma panic_left c ls : lc_stop_panics c = true -> forall s,
  (exists a, lf_todo s = a ++ IStopHook :: match lc_kind c with KTcp => skipn 1 (final_prog KTcp) | KWs => skipn 1 (final_prog KWs) | KKcp => skipn 2 (final_prog KKcp) end
     /\ ~ In IClose a /\ ~ In IRemove a) \/ (left IClose s = 0 /\ left IRemove s = 0) ->
  times EvClose (snd (life_run c s ls)) = 0 /\ times EvRemove (snd (life_run c s ls)) = 0.
Proof.
  intros P. induction ls as [|l ls IH]; intros s H; cbn [life_run]; [auto|].
  assert (Z : (left IClose s = 0 /\ left IRemove s = 0) ->
    times EvClose (snd (life_run c s (l :: ls))) = 0 /\ times EvRemove (snd (life_run c s (l :: ls))) = 0).
  { intros [Z1 Z2]. pose proof (run_left c _ _ EmClose ltac:(discriminate) (l :: ls) s).
    pose proof (run_left c _ _ EmRemove ltac:(discriminate) (l :: ls) s). lia. }
  destruct H as [(a & T & N1 & N2)|H]; [|apply Z, H]. clear Z.
  assert (K : forall s1 e1, life_step c s l = (s1, e1) -> times EvClose e1 = 0 /\ times EvRemove e1 = 0 /\
    ((exists a, lf_todo s1 = a ++ IStopHook :: match lc_kind c with KTcp => skipn 1 (final_prog KTcp) | KWs => skipn 1 (final_prog KWs) | KKcp => skipn 2 (final_prog KKcp) end
     /\ ~ In IClose a /\ ~ In IRemove a) \/ (left IClose s1 = 0 /\ left IRemove s1 = 0))).
  { intros s1 e1. unfold life_step. destruct (lf_dead s).
    { intros [= <- <-]. repeat split; eauto. }
    destruct l; unfold stop_call; [|lcase; intros [= <- <-]; repeat split; left; exists a; cbn; auto..].
    unfold main_step. rewrite T. destruct a as [|i a]; cbn [app].
    - rewrite P. unfold hook_panic. lcase; intros [= <- <-]; repeat split; right; split; reflexivity.
    - assert (M1 : ~ In IClose a) by (intros Q; apply N1; now right). assert (M2 : ~ In IRemove a) by (intros Q; apply N2; now right).
      destruct i; unfold hook_panic; lcase; intros [= <- <-]; cbn [times count_occ];
      try (exfalso; apply N1; now left); try (exfalso; apply N2; now left);
      repeat split; try (right; split; reflexivity); left; try (exists a; now repeat split);
      (eexists (_ :: a); split; [exact T|split; assumption]). }
  destruct (life_step c s l) as [s1 e1]. destruct (K s1 e1 eq_refl) as (K1 & K2 & K3). specialize (IH s1 K3).
  destruct (life_run c s1 ls) as [s2 es]. cbn [snd] in *. rewrite !times_app. lia.
Qed.

(* C28: the start hook. *)
From Coq Require Import List Bool Arith Lia.
From Verif Require Import ConnLife Spec_ConnLife ConnLife_proofs.
Import ListNotations.

(* Before the hook only a Stop may have panicked; after it IStartHook is not there any more. *)
Definition unhooked (c : lcfg) (s : life) (tr : list lev) : Prop :=
  (forall e, In e tr -> e = EvStopPanic) /\ (lf_todo s = prog c \/ lf_todo s = skipn 1 (prog c) \/ lf_todo s = skipn 2 (prog c)).
Definition after_hook (tr : list lev) : Prop :=
  times EvStartHook tr = 1 /\ forall before e after, tr = before ++ e :: after -> e <> EvStartHook -> e <> EvStopPanic -> In EvStartHook before.
Definition hook_done (s : life) (tr : list lev) : Prop := after_hook tr /\ ~ In IStartHook (lf_todo s).

Lemma first_hook tr more : (forall e, In e tr -> e = EvStopPanic) -> times EvStartHook more = 0 -> after_hook (tr ++ EvStartHook :: more).
Proof.
  intros H M. split.
  - rewrite times_app. unfold times in *. cbn. destruct (lev_eq_dec EvStartHook EvStartHook) as [_|n]; [|now destruct n]. rewrite M.
    rewrite (proj1 (count_occ_not_In lev_eq_dec tr EvStartHook)); [reflexivity|]. intros I. now specialize (H _ I).
  - intros b e a E N1 N2. revert b E. induction tr as [|x tr IH]; intros b E.
    + destruct b as [|y b]; cbn in E; [injection E as <- E; contradiction|injection E as <- E; now left].
    + destruct b as [|y b]; cbn in E; injection E as -> E.
      * specialize (H e (or_introl eq_refl)). now destruct N2.
      * right. apply (IH (fun e I => H e (or_intror I)) b E).
Qed.
Lemma later_hook tr more : after_hook tr -> times EvStartHook more = 0 -> after_hook (tr ++ more).
Proof.
  intros (A & B) M. split; [rewrite times_app; lia|]. intros b e a E N1 N2.
  assert (I : In EvStartHook tr) by (apply (count_occ_In lev_eq_dec); unfold times in A; lia).
  destruct (Nat.lt_ge_cases (length b) (length tr)) as [L|L].
  - apply (B b e (firstn (length tr - S (length b)) a)); [|assumption..].
    assert (Q : firstn (length tr) (tr ++ more) = firstn (length tr) (b ++ e :: a)) by congruence.
    rewrite firstn_app, Nat.sub_diag, firstn_all, firstn_O, app_nil_r in Q. rewrite firstn_app, firstn_all2 in Q by lia.
    replace (length tr - length b) with (S (length tr - S (length b))) in Q by lia. exact Q.
  - assert (Q : firstn (length tr) (tr ++ more) = firstn (length tr) (b ++ e :: a)) by congruence.
    rewrite firstn_app, Nat.sub_diag, firstn_all, firstn_O, app_nil_r in Q. rewrite firstn_app in Q.
    replace (length tr - length b) with 0 in Q by lia. rewrite firstn_O, app_nil_r in Q. rewrite Q in I.
    rewrite <- (firstn_skipn (length tr) b). apply in_or_app. now left.
Qed.

Lemma hook_step c s tr l : unhooked c s tr \/ hook_done s tr ->
  unhooked c (fst (life_step c s l)) (tr ++ snd (life_step c s l)) \/ hook_done (fst (life_step c s l)) (tr ++ snd (life_step c s l)).
Proof.
  intros [(A & T)|(A & T)].
  - assert (St : forall e s', lf_todo s' = lf_todo s -> (forall x, In x e -> x = EvStopPanic) -> unhooked c s' (tr ++ e)).
    { intros e s' E X. split; [intros x I; apply in_app_or in I as [I|I]; auto|]. now rewrite E. }
    unfold life_step. destruct (lf_dead s); [left; cbn; apply St; [reflexivity|intros x []]|].
    destruct l; [|left; unfold stop_call; lcase; cbn; apply St; cbn; try reflexivity; intros x X; intuition..].
    unfold main_step. destruct T as [->|[->| ->]]; cbn -[times].
    + left. split; [intros x I; rewrite app_nil_r in I; auto|]. cbn. auto.
    + left. split; [intros x I; rewrite app_nil_r in I; auto|]. cbn. auto.
    + right. destruct (lc_start_panics c).
      * unfold hook_panic. destruct (lc_kind c); cbn; (split; [apply first_hook; [exact A|reflexivity]|intros []]).
      * cbn. split; [apply first_hook; [exact A|reflexivity]|]. destruct (lc_kind c); cbn; intuition discriminate.
  - right. assert (St : forall e s', lf_todo s' = lf_todo s -> times EvStartHook e = 0 -> hook_done s' (tr ++ e)).
    { intros e s' E X. split; [now apply later_hook|]. now rewrite E. }
    unfold life_step. destruct (lf_dead s); [cbn; now apply St|].
    destruct l; [|unfold stop_call; lcase; cbn; now apply St..].
    unfold main_step. destruct (lf_todo s) as [|i rest] eqn:E; [cbn; apply St; [exact E|reflexivity]|].
    assert (T' : ~ In IStartHook rest) by (intros I; apply T; now right).
    destruct i; unfold hook_panic; try (exfalso; apply T; now left); lcase; cbn;
    (split; [apply later_hook; [exact A|reflexivity]|]); cbn; rewrite ?E; cbn; intuition discriminate.
Qed.
Lemma hook_run c : forall ls s tr, unhooked c s tr \/ hook_done s tr ->
  unhooked c (fst (life_run c s ls)) (tr ++ snd (life_run c s ls)) \/ hook_done (fst (life_run c s ls)) (tr ++ snd (life_run c s ls)).
Proof.
  induction ls as [|l ls IH]; intros s tr H; cbn [life_run]; [cbn; now rewrite app_nil_r|].
  pose proof (hook_step c s tr l H) as H1. destruct (life_step c s l) as [s1 e1]. cbn [fst snd] in H1.
  specialize (IH s1 _ H1). destruct (life_run c s1 ls) as [s2 es]. cbn [fst snd] in *. now rewrite app_assoc.
Qed.

(* In every run of a connection the start hook is called at most once, and nothing else - the stop
   hook, the close, the removal, the close callbacks, a panic of a hook - happens before it has
   been called, except that a call to Stop may panic (C31). *)
Theorem C28_start_hook c ls : let tr := snd (life_run c (life_new c) ls) in
  times EvStartHook tr <= 1 /\
  forall before e after, tr = before ++ e :: after -> e <> EvStartHook -> e <> EvStopPanic -> In EvStartHook before.
Proof.
  cbv zeta. destruct (hook_run c ls (life_new c) []) as [(A & _)|((A & B) & _)].
  - left. split; [intros e []|]. left. reflexivity.
  - cbn [app] in A. split.
    + unfold times. rewrite (proj1 (count_occ_not_In lev_eq_dec _ EvStartHook)); [lia|]. intros I. now specialize (A _ I).
    + intros b e a E N1 N2. destruct N2. apply A. rewrite E. apply in_or_app. right. now left.
  - cbn [app] in A, B. split; [lia|exact B].
Qed.
Print Assumptions C28_start_hook.
(* Finding: if the start hook panics, the connection stays in the manager, open, without a reader;
   for a websocket connection the process ends. *)
Theorem C28_start_panic_refuted c ls : lc_start_panics c = true -> let tr := snd (life_run c (life_new c) ls) in
  forall e, In e tr -> e = EvStopPanic \/ e = EvStartHook \/ e = (match lc_kind c with KWs => EvCrash | _ => EvRecovered end).
Proof.
  intros P. cbv zeta.
  assert (G : forall ls s, (lf_todo s = prog c \/ lf_todo s = skipn 1 (prog c) \/ lf_todo s = skipn 2 (prog c) \/ lf_todo s = []) ->
    forall e, In e (snd (life_run c s ls)) -> e = EvStopPanic \/ e = EvStartHook \/ e = (match lc_kind c with KWs => EvCrash | _ => EvRecovered end)).
  { clear ls. induction ls as [|l ls IH]; intros s T e I; [destruct I|]. cbn [life_run] in I.
    assert (St : (lf_todo (fst (life_step c s l)) = prog c \/ lf_todo (fst (life_step c s l)) = skipn 1 (prog c) \/ lf_todo (fst (life_step c s l)) = skipn 2 (prog c) \/ lf_todo (fst (life_step c s l)) = []) /\
      forall e, In e (snd (life_step c s l)) -> e = EvStopPanic \/ e = EvStartHook \/ e = (match lc_kind c with KWs => EvCrash | _ => EvRecovered end)).
    { unfold life_step. destruct (lf_dead s); [cbn; tauto|].
      destruct l; [|unfold stop_call; lcase; cbn; (split; [exact T|intuition])..].
      unfold main_step. destruct T as [T|[T|[T|T]]]; rewrite T; cbn; rewrite ?P; unfold hook_panic; try (destruct (lc_kind c)); cbn; rewrite ?T; intuition. }
    destruct (life_step c s l) as [s1 e1]. cbn [fst snd] in St. destruct St as (S1 & S2).
    specialize (IH s1 S1). destruct (life_run c s1 ls) as [s2 es]. cbn [fst snd] in *. apply in_app_or in I as [I|I]; auto. }
  apply G. left. reflexivity.
Qed.
Print Assumptions C28_start_panic_refuted.
Example C28_start_case :
  snd (life_run (Lcfg KTcp true true false) (life_new (Lcfg KTcp true true false)) [LStop; LMain; LMain; LMain; LStop; LMain; LTick true]) = [EvStopPanic; EvStartHook; EvRecovered] /\
  snd (life_run (Lcfg KWs true true false) (life_new (Lcfg KWs true true false)) [LMain; LMain; LMain; LStop; LMain; LTick true]) = [EvStartHook; EvCrash] /\
  snd (life_run (Lcfg KKcp false false false) (life_new (Lcfg KKcp false false false)) (repeat LMain 4 ++ [LStop] ++ repeat LMain 5)) = [EvStartHook; EvStopHook].
Proof. repeat split. Qed.

(* What Start recovers from, and what ends the process, is a panic of one of the two hooks. *)
Theorem C28_panics_are_hooks c ls before e after : snd (life_run c (life_new c) ls) = before ++ e :: after -> e = EvRecovered \/ e = EvCrash ->
  exists b h, before = b ++ [h] /\ (h = EvStartHook /\ lc_start_panics c = true \/ h = EvStopHook /\ lc_stop_panics c = true).
Proof.
  assert (App : forall (P : lev -> lev -> Prop) (xs ys : list lev),
    (forall b e a, xs = b ++ e :: a -> e = EvRecovered \/ e = EvCrash -> exists b' h, b = b' ++ [h] /\ P h e) ->
    (forall b e a, ys = b ++ e :: a -> e = EvRecovered \/ e = EvCrash -> exists b' h, b = b' ++ [h] /\ P h e) ->
    forall b e a, xs ++ ys = b ++ e :: a -> e = EvRecovered \/ e = EvCrash -> exists b' h, b = b' ++ [h] /\ P h e).
  { intros P xs. induction xs as [|x xs IH]; intros ys X Y b z a E Z; [exact (Y b z a E Z)|].
    destruct b as [|y b]; cbn in E; injection E as <- E.
    - apply (X [] x xs eq_refl Z).
    - destruct b as [|y b].
      + destruct xs as [|x' xs]; cbn in E.
        * destruct (Y [] z a E Z) as (b' & h & B & _). destruct b'; discriminate B.
        * injection E as -> _. exact (X [x] z xs eq_refl Z).
      + assert (X' : forall b e a, xs = b ++ e :: a -> e = EvRecovered \/ e = EvCrash -> b <> [] -> exists b' h, b = b' ++ [h] /\ P h e).
        { intros b0 e0 a0 E0 Z0 N0. destruct (X (x :: b0) e0 a0 (f_equal (cons x) E0) Z0) as (b' & h & B & Ph). destruct b' as [|u b']; cbn in B; [injection B as _ B; contradiction|].
          injection B as _ B. eauto. }
        destruct (Nat.lt_ge_cases (length (y :: b)) (length xs)) as [L|L].
        * destruct (X' (y :: b) z (firstn (length xs - S (length (y :: b))) a)) as (b' & h & B & Ph); [|exact Z|discriminate|exists (x :: b'), h; rewrite B; auto].
          assert (Q : firstn (length xs) (xs ++ ys) = firstn (length xs) ((y :: b) ++ z :: a)) by congruence.
          rewrite firstn_app, Nat.sub_diag, firstn_all, firstn_O, app_nil_r in Q. rewrite firstn_app, firstn_all2 in Q by lia.
          replace (length xs - length (y :: b)) with (S (length xs - S (length (y :: b)))) in Q by lia. exact Q.
        * assert (Q : skipn (length xs) (xs ++ ys) = skipn (length xs) ((y :: b) ++ z :: a)) by congruence.
          rewrite skipn_app, Nat.sub_diag, skipn_all, skipn_O in Q. rewrite skipn_app in Q. replace (length xs - length (y :: b)) with 0 in Q by lia. rewrite skipn_O in Q. cbn [app] in Q.
          destruct (Y _ z a Q Z) as (b' & h & B & Ph). exists (x :: firstn (length xs) (y :: b) ++ b'), h. split; [|exact Ph].
          rewrite <- (firstn_skipn (length xs) (y :: b)) at 1. rewrite B. cbn. now rewrite <- app_assoc. }
  set (P := fun h (_ : lev) => h = EvStartHook /\ lc_start_panics c = true \/ h = EvStopHook /\ lc_stop_panics c = true).
  assert (One : forall xs, (forall e, In e xs -> e <> EvRecovered /\ e <> EvCrash) -> forall b e a, xs = b ++ e :: a -> e = EvRecovered \/ e = EvCrash -> exists b' h, b = b' ++ [h] /\ P h e).
  { intros xs N b z a -> Z. destruct (N z) as (N1 & N2); [apply in_or_app; right; now left|]. now destruct Z. }
  assert (Two : forall h x, (h = EvStartHook /\ lc_start_panics c = true \/ h = EvStopHook /\ lc_stop_panics c = true) -> forall b e a, [h; x] = b ++ e :: a -> e = EvRecovered \/ e = EvCrash -> exists b' h, b = b' ++ [h] /\ P h e).
  { intros h x H b z a E Z. destruct b as [|y b]; cbn in E; injection E as -> E.
    - exfalso. destruct Z as [-> | ->]; destruct H as [(H & _)|(H & _)]; discriminate H.
    - destruct b as [|y' b]; cbn in E; [exists [], y; auto|]. injection E as _ E. destruct b; discriminate E. }
  assert (G : forall ls s b z a, snd (life_run c s ls) = b ++ z :: a -> z = EvRecovered \/ z = EvCrash -> exists b' h, b = b' ++ [h] /\ P h z).
  { clear ls before e after. induction ls as [|l ls IH]; intros s b z a E Z; [destruct b; discriminate E|]. cbn [life_run] in E.
    assert (St : forall b e a, snd (life_step c s l) = b ++ e :: a -> e = EvRecovered \/ e = EvCrash -> exists b' h, b = b' ++ [h] /\ P h e).
    { unfold life_step. destruct (lf_dead s); [apply One; intros ? []|].
      destruct l; [|unfold stop_call; lcase; apply One; cbn; intros e0 I; split; intuition congruence..].
      unfold main_step. destruct (lf_todo s) as [|i rest]; [apply One; intros ? []|].
      destruct i; unfold hook_panic; lcase; cbn [snd]; try (apply Two; auto; fail); apply One; cbn; intros e0 I; split; intuition congruence. }
    destruct (life_step c s l) as [s1 e1]. specialize (IH s1). destruct (life_run c s1 ls) as [s2 es]. cbn [snd] in *.
    exact (App P e1 es St IH b z a E Z). }
  intros E Z. exact (G ls _ before e after E Z).
Qed.
Print Assumptions C28_panics_are_hooks.
Example C28_panics_case :
  snd (life_run (Lcfg KKcp false false true) (life_new (Lcfg KKcp false false true)) (repeat LMain 6 ++ [LStop] ++ repeat LMain 5)) = [EvStartHook; EvStopHook; EvRecovered].
Proof. reflexivity. Qed.

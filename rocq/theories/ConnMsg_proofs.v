From Coq Require Import List Bool Arith Lia Permutation.
From Verif Require Import GoSlice ConnLife ConnMsg Spec_ConnMsg.
Import ListNotations.

Section P.
Context {M : Type}.
Notation cm := (cm M).

Lemma cm_run_app c (s : cm) a b :
  cm_run c s (a ++ b) = (fst (cm_run c (fst (cm_run c s a)) b), snd (cm_run c s a) ++ snd (cm_run c (fst (cm_run c s a)) b)).
Proof.
  revert s; induction a as [|l a IH]; intros s; cbn [app cm_run fst snd]; [now destruct (cm_run c s b)|].
  destruct (cm_step c s l) as [s1 e1]. rewrite IH. destruct (cm_run c s1 a) as [s2 e2]. cbn [fst snd]. now rewrite app_assoc.
Qed.
Lemma cm_run_one c (s : cm) l ls :
  cm_run c s (l :: ls) = (fst (cm_run c (fst (cm_step c s l)) ls), snd (cm_step c s l) ++ snd (cm_run c (fst (cm_step c s l)) ls)).
Proof. cbn [cm_run]. destruct (cm_step c s l) as [s1 e1]. cbn. now destruct (cm_run c s1 ls). Qed.
Lemma split_run c ls : forall (s : cm) pre e post, snd (cm_run c s ls) = pre ++ e :: post ->
  exists l1 l l2 p q, ls = l1 ++ l :: l2 /\ let s1 := fst (cm_run c s l1) in
    snd (cm_step c s1 l) = p ++ e :: q /\ pre = snd (cm_run c s l1) ++ p /\ post = q ++ snd (cm_run c (fst (cm_step c s1 l)) l2).
Proof.
  induction ls as [|l ls IH]; intros s pre e post H; [destruct pre; discriminate|]. rewrite cm_run_one in H. cbn [snd] in H.
  destruct (in_dec Nat.eq_dec (length pre) (seq 0 (length (snd (cm_step c s l))))) as [Hin|Hout].
  - apply in_seq in Hin. exists [], l, ls. assert (E : exists q, snd (cm_step c s l) = pre ++ e :: q /\ post = q ++ snd (cm_run c (fst (cm_step c s l)) ls)).
    { remember (snd (cm_step c s l)) as a. remember (snd (cm_run c (fst (cm_step c s l)) ls)) as b. clear - H Hin.
      revert pre H Hin; induction a as [|x a IHa]; intros pre H Hin; [cbn in Hin; lia|]. destruct pre as [|y pre]; cbn in H; injection H as <- H.
      - exists a. auto.
      - destruct (IHa pre H) as [q [E1 E2]]; [cbn in Hin; lia|]. exists q. cbn. rewrite E1. auto. }
    destruct E as [q [E1 E2]]. exists pre, q. cbn. auto.
  - assert (Hlen : length (snd (cm_step c s l)) <= length pre) by (destruct (Nat.le_gt_cases (length (snd (cm_step c s l))) (length pre)); [assumption|exfalso; apply Hout; apply in_seq; lia]).
    assert (E : exists pre', pre = snd (cm_step c s l) ++ pre' /\ snd (cm_run c (fst (cm_step c s l)) ls) = pre' ++ e :: post).
    { remember (snd (cm_step c s l)) as a. remember (snd (cm_run c (fst (cm_step c s l)) ls)) as b. clear - H Hlen.
      revert pre H Hlen; induction a as [|x a IHa]; intros pre H Hlen; [exists pre; auto|]. destruct pre as [|y pre]; [cbn in Hlen; lia|].
      cbn in H. injection H as <- H. destruct (IHa pre H) as [p [E1 E2]]; [cbn in Hlen; lia|]. exists p. subst. auto. }
    destruct E as [pre' [-> E]]. destruct (IH _ _ _ _ E) as (l1 & x & l2 & p & q & -> & H1 & -> & H3).
    exists (l :: l1), x, l2, p, q. split; [reflexivity|]. cbv zeta in *. rewrite cm_run_one. cbn [fst snd]. rewrite <- app_assoc. auto.
Qed.

Lemma run_inv (c : lcfg) (P : list (mev M) -> cm -> Prop) :
  (forall tr s l, P tr s -> P (tr ++ snd (cm_step c s l)) (fst (cm_step c s l))) ->
  forall ls tr s, P tr s -> P (tr ++ snd (cm_run c s ls)) (fst (cm_run c s ls)).
Proof.
  intros H. induction ls as [|l ls IH]; intros tr s Hs; [now rewrite app_nil_r|]. rewrite cm_run_one. cbn [fst snd]. rewrite app_assoc. apply IH. now apply H.
Qed.

(* Nothing happens before the start hook. *)
Definition hooked (c : lcfg) (tr : list (mev M)) : Prop := In (MvLife EvStartHook) tr /\ lc_start_panics c = false.
Definition todo_suffix (c : lcfg) (s : life) : Prop := exists pre, start_prog ++ final_prog (lc_kind c) = pre ++ lf_todo s.
Definition short (s : life) : Prop := ~ In IGoReader (lf_todo s) /\ ~ In IStartHook (lf_todo s).

Lemma life_todo c s l : todo_suffix c s \/ short s ->
  todo_suffix c (fst (life_step c s l)) \/ short (fst (life_step c s l)).
Proof.
  intros H. unfold life_step. destruct (lf_dead s); [exact H|]. destruct l as [| | |fresh|]; cbn [fst].
  - unfold main_step. destruct (lf_todo s) as [|i rest] eqn:Et; [exact H|].
    assert (R : todo_suffix c (set_todo s rest) \/ short (set_todo s rest)).
    { destruct H as [[pre H]|[H1 H2]]; [left; exists (pre ++ [i]); rewrite H, Et, <- app_assoc; reflexivity|right].
      split; cbn; rewrite Et in H1, H2; intros Q; [apply H1|apply H2]; now right. }
    assert (N : short (set_todo s [])) by (split; intros []).
    destruct i; cbn [fst]; try exact R; try exact H.
    + unfold hook_panic. destruct (lc_start_panics c); [|exact R]. destruct (lc_kind c); right; exact N.
    + destruct (lc_hc c); exact R.
    + destruct (lf_cancelled s); [exact R|exact H].
    + destruct (lf_closed s); [|exact R]. right. split; cbn; intros [Q|[]]; discriminate.
    + unfold hook_panic. destruct (lc_stop_panics c); [|exact R]. destruct (lc_kind c); right; exact N.
    + destruct (lf_lock s); [exact H|exact R].
    + destruct (lf_closed s); [|exact R]. right. split; cbn; intros [Q|[Q|[]]]; discriminate.
    + destruct (lc_hc c); [destruct (lf_hb s); try exact H|]; exact R.
  - unfold stop_call. destruct (lf_ctx s); exact H.
  - destruct (lf_reader s); exact H.
  - destruct (lf_hb s); try exact H. destruct (fresh && _); [destruct (lc_kind c); exact H|]. unfold stop_call. destruct (lf_ctx s); exact H.
  - destruct (lf_hb s); try exact H. destruct (lf_lock s); exact H.
Qed.

Record ninv (c : lcfg) (tr : list (mev M)) (s : cm) : Prop := {
  n_todo : todo_suffix c (cm_life s) \/ short (cm_life s);
  n_hook : In IGoReader (lf_todo (cm_life s)) -> ~ In IStartHook (lf_todo (cm_life s)) -> hooked c tr;
  n_msgs : cm_rd s <> RNone \/ cm_wait s <> [] -> hooked c tr
}.
Lemma hooked_more c tr e : hooked c tr -> hooked c (tr ++ e).
Proof. intros [H P]. split; [apply in_or_app; now left|exact P]. Qed.

(* What one step of the life does to the hook. *)
Lemma life_hook c s l : In IGoReader (lf_todo (fst (life_step c s l))) -> ~ In IStartHook (lf_todo (fst (life_step c s l))) ->
  (In IGoReader (lf_todo s) /\ ~ In IStartHook (lf_todo s)) \/ (In EvStartHook (snd (life_step c s l)) /\ lc_start_panics c = false).
Proof.
  unfold life_step. destruct (lf_dead s); [now left|]. destruct l as [| | |fresh|].
  - unfold main_step. destruct (lf_todo s) as [|i rest] eqn:Et; cbn [fst snd]; [rewrite Et; now left|]. intros H1 H2.
    assert (R : i <> IStartHook -> In IGoReader rest -> ~ In IStartHook rest -> In IGoReader (i :: rest) /\ ~ In IStartHook (i :: rest)).
    { intros N Q1 Q2. split; [now right|]. intros [Q|Q]; [congruence|auto]. }
    destruct i; cbn [fst snd set_todo set_hb set_lock set_closed lf_todo] in *; try (left; apply R; [discriminate|exact H1|exact H2]).
    + unfold hook_panic in *. destruct (lc_start_panics c) in *; [destruct (lc_kind c) in *; cbn in H1; destruct H1|]. right. cbn. auto.
    + left. destruct (lc_hc c) in *; apply R; try discriminate; assumption.
    + left. destruct (lf_cancelled s) in *; [apply R; [discriminate|..]; assumption|]. rewrite <- Et. split; assumption.
    + left. destruct (lf_closed s) in *; [cbn in H1; destruct H1 as [Q|[]]; discriminate|]. apply R; try discriminate; assumption.
    + unfold hook_panic in *. destruct (lc_stop_panics c) in *; [destruct (lc_kind c) in *; cbn in H1; destruct H1|]. left. apply R; try discriminate; assumption.
    + left. destruct (lf_lock s) in *; [rewrite <- Et; split; assumption|]. apply R; try discriminate; assumption.
    + left. destruct (lf_closed s) in *; [cbn in H1; destruct H1 as [Q|[Q|[]]]; discriminate|]. apply R; try discriminate; assumption.
    + left. destruct (lc_hc c) in *; [destruct (lf_hb s) in *|]; cbn [fst lf_todo set_hb set_todo] in *; try (rewrite <- Et; split; assumption); apply R; try discriminate; assumption.
  - unfold stop_call. destruct (lf_ctx s); now left.
  - destruct (lf_reader s); now left.
  - destruct (lf_hb s); try (now left). destruct (fresh && _); [destruct (lc_kind c); now left|]. unfold stop_call. destruct (lf_ctx s); now left.
  - destruct (lf_hb s); try (now left). destruct (lf_lock s); now left.
Qed.
Lemma at_reader c s rest : todo_suffix c s \/ short s -> lf_todo s = IGoReader :: rest -> ~ In IStartHook (lf_todo s).
Proof.
  intros H E. destruct H as [[pre H]|[_ H]]; [|exact H]. rewrite E in *. intros Q.
  assert (X : forall pre, start_prog ++ final_prog (lc_kind c) = pre ++ IGoReader :: rest -> rest = IWait :: final_prog (lc_kind c)).
  { clear. intros pre H. unfold start_prog in H. do 5 (destruct pre as [|x pre]; cbn in H; [discriminate H|injection H as <- H]).
    destruct pre as [|x pre]; cbn in H; [now injection H as <-|injection H as <- H].
    exfalso. assert (Q : In IGoReader (IWait :: final_prog (lc_kind c))) by (rewrite H; apply in_or_app; right; now left).
    destruct (lc_kind c); cbn in Q; intuition discriminate. }
  rewrite (X _ H) in Q. destruct (lc_kind c); cbn in Q; intuition discriminate.
Qed.

Lemma ninv_step c tr s l : ninv c tr s -> ninv c (tr ++ snd (cm_step c s l)) (fst (cm_step c s l)).
Proof.
  intros I. unfold cm_step. destruct (lf_dead (cm_life s)); [now rewrite app_nil_r|].
  assert (Same : ninv c (tr ++ []) s) by now rewrite app_nil_r.
  assert (Quiet : forall r w b e, hooked c tr -> ninv c (tr ++ e) (Cm (cm_life s) r w b)).
  { intros r w b e H. split; cbn; [apply (n_todo _ _ _ I)|intros; now apply hooked_more|intros; now apply hooked_more]. }
  assert (End : forall e, hooked c tr -> ninv c (tr ++ e) (reader_end c s)).
  { intros e H. unfold reader_end. split; cbn; [apply life_todo; apply (n_todo _ _ _ I)|intros; now apply hooked_more|intros; now apply hooked_more]. }
  destruct l as [x| |r|p|n|n].
  - destruct x as [| | |fresh|]; try exact Same; match goal with |- context [life_step c (cm_life s) ?x] => 
      pose proof (life_todo c (cm_life s) x (n_todo _ _ _ I)) as T; pose proof (life_hook c (cm_life s) x) as K; destruct (life_step c (cm_life s) x) as [lf e] end;
      cbn [fst snd] in *;
      (assert (N : In IGoReader (lf_todo lf) -> ~ In IStartHook (lf_todo lf) -> forall e', hooked c (tr ++ map MvLife e ++ e'));
       [intros Q1 Q2 e'; destruct (K Q1 Q2) as [[K1 K2]|[K1 K2]];
        [apply hooked_more; now apply (n_hook _ _ _ I)|split; [apply in_or_app; right; apply in_or_app; left; now apply in_map|exact K2]]|]);
      split; cbn [cm_life cm_rd cm_wait]; try exact T; try (intros Q1 Q2; now apply N);
      try (intros Q; apply hooked_more; now apply (n_msgs _ _ _ I)).
    intros Q. apply hooked_more. unfold starts_reader in Q. destruct (lf_todo (cm_life s)) as [|i rest] eqn:Et; [now apply (n_msgs _ _ _ I)|].
    destruct i; try (now apply (n_msgs _ _ _ I)). apply (n_hook _ _ _ I); [rewrite Et; now left|].
    exact (at_reader c (cm_life s) rest (n_todo _ _ _ I) Et).
  - destruct (cm_rd s) eqn:Er; try exact Same. assert (H : hooked c tr) by (apply (n_msgs _ _ _ I); left; congruence).
    destruct (lf_cancelled (cm_life s)); [now apply End|now apply Quiet].
  - destruct (cm_rd s) eqn:Er; try exact Same. assert (H : hooked c tr) by (apply (n_msgs _ _ _ I); left; congruence).
    destruct r; [now apply Quiet|now apply End].
  - destruct (cm_rd s) as [| | |ms|] eqn:Er; try exact Same. assert (H : hooked c tr) by (apply (n_msgs _ _ _ I); left; congruence).
    destruct p.
    + destruct (lc_kind c); try (now apply End). split; cbn; [|intros; now apply hooked_more|intros; now apply hooked_more].
      destruct (n_todo _ _ _ I) as [T|T]; [left; exact T|right; exact T].
    + destruct ms; now apply Quiet.
  - destruct (nth_error (cm_wait s) n) eqn:En; [|exact Same]. apply Quiet. apply (n_msgs _ _ _ I). right. intros E. rewrite E in En. destruct n; discriminate.
  - destruct (nth_error (cm_busy s) n); [|exact Same]. split; cbn; [apply (n_todo _ _ _ I)|intros; apply hooked_more; now apply (n_hook _ _ _ I)|intros; apply hooked_more; now apply (n_msgs _ _ _ I)].
Qed.
Lemma ninv_run c ls : ninv c (snd (cm_run c (cm_new c) ls)) (fst (cm_run c (cm_new c) ls)).
Proof.
  apply (run_inv c (ninv c) (ninv_step c) ls []). split; cbn.
  - left. exists []. reflexivity.
  - intros _ Q. exfalso. apply Q. tauto.
  - intros [H|H]; congruence.
Qed.
Lemma step_begin c (s : cm) l p m q : snd (cm_step c s l) = p ++ MvBegin m :: q -> p = [] /\ q = [] /\ cm_wait s <> [].
Proof.
  unfold cm_step. destruct (lf_dead (cm_life s)); [destruct p; discriminate|].
  assert (one : forall e : mev M, e <> MvBegin m -> [e] = p ++ MvBegin m :: q -> False).
  { intros e N H. destruct p as [|y p]; [injection H as -> _; congruence|]. destruct p; discriminate. }
  destruct l as [x| |r|b|n|n]; cbn [snd].
  - intros H. exfalso.
    assert (Hin : exists e st, In (MvBegin m) (map MvLife e ++ (if st : bool then [MvStop] else []))).
    { destruct x; [|..]; try (destruct p; discriminate); destruct (life_step c (cm_life s) _) as [lf e]; cbn [snd] in H;
        (match type of H with _ ++ (if ?b then _ else _) = _ => exists e, b | _ => exists e, false end); rewrite H; apply in_or_app; right; now left. }
    destruct Hin as [e [st Hin]]. apply in_app_or in Hin as [Hin|Hin]; [apply in_map_iff in Hin as [? [? _]]; discriminate|]. destruct st; [destruct Hin as [?|[]]; discriminate|destruct Hin].
  - destruct (cm_rd s); try (destruct p; discriminate). destruct (lf_cancelled _); destruct p; discriminate.
  - destruct (cm_rd s); try (destruct p; discriminate). destruct r; [|destruct p; discriminate]. intros H. exfalso. revert H. now apply one.
  - destruct (cm_rd s) as [| | |ms|]; try (destruct p; discriminate). destruct b; [destruct (lc_kind c); intros H; exfalso; revert H; now apply one|]. destruct ms; destruct p; discriminate.
  - destruct (nth_error (cm_wait s) n) eqn:En; [|destruct p; discriminate]. destruct p as [|y p]; [|destruct p; discriminate]. intros [= _ <-]. split; [reflexivity|]. split; [reflexivity|].
    intros E. rewrite E in En. destruct n; discriminate.
  - destruct (nth_error (cm_busy s) n) eqn:En; [|destruct p; discriminate]. intros H. exfalso. revert H. now apply one.
Qed.

(* After Stop. *)
Lemma cancelled_stays c s l : lf_cancelled s = true -> lf_cancelled (fst (life_step c s l)) = true.
Proof.
  intros H. unfold life_step. destruct (lf_dead s); [exact H|]. destruct l as [| | |fresh|]; cbn [fst].
  - unfold main_step. destruct (lf_todo s) as [|i rest]; [exact H|]. destruct i; cbn [fst]; try exact H.
    + unfold hook_panic. destruct (lc_start_panics c); [destruct (lc_kind c)|]; exact H.
    + destruct (lc_hc c); exact H.
    + rewrite H; exact H.
    + destruct (lf_closed s); exact H.
    + unfold hook_panic. destruct (lc_stop_panics c); [destruct (lc_kind c)|]; exact H.
    + destruct (lf_lock s); exact H.
    + destruct (lf_closed s); exact H.
    + destruct (lc_hc c); [destruct (lf_hb s)|]; exact H.
  - unfold stop_call. destruct (lf_ctx s); [reflexivity|exact H].
  - destruct (lf_reader s); [reflexivity|exact H].
  - destruct (lf_hb s); try exact H. destruct (fresh && _); [destruct (lc_kind c); exact H|]. unfold stop_call. destruct (lf_ctx s); [reflexivity|exact H].
  - destruct (lf_hb s); try exact H. destruct (lf_lock s); exact H.
Qed.
Lemma reads_app (a b : list (mev M)) : reads (a ++ b) = reads a + reads b.
Proof. unfold reads. now rewrite filter_app, app_length. Qed.
Lemma reads_life e (b : bool) : reads (M:=M) (map MvLife e ++ (if b then [MvStop] else [])) = 0.
Proof. rewrite reads_app. induction e as [|x e IH]; [destruct b; reflexivity|exact IH]. Qed.
Lemma reads_life0 e : reads (M:=M) (map MvLife e ++ []) = 0.
Proof. apply (reads_life e false). Qed.
Definition may_read (s : cm) : nat := match cm_rd s with RRead => 1 | _ => 0 end.
Lemma after_step c (s : cm) l : lf_cancelled (cm_life s) = true ->
  lf_cancelled (cm_life (fst (cm_step c s l))) = true /\ reads (snd (cm_step c s l)) + may_read (fst (cm_step c s l)) <= may_read s.
Proof.
  intros H. unfold cm_step. destruct (lf_dead (cm_life s)); [cbn; auto|].
  assert (Same : lf_cancelled (cm_life s) = true /\ 0 + may_read s <= may_read s) by auto.
  assert (End : lf_cancelled (cm_life (reader_end c s)) = true) by now apply cancelled_stays.
  destruct l as [x| |r|p|n|n].
  - destruct x as [| | |fresh|]; try exact Same; match goal with |- context [life_step c (cm_life s) ?x] =>
      pose proof (cancelled_stays c (cm_life s) x H) as C; destruct (life_step c (cm_life s) x) as [lf e] end; cbn [fst snd] in *;
      (split; [exact C|]); first [rewrite reads_life|rewrite reads_life0]; unfold may_read; cbn [cm_rd]; try lia.
    destruct (starts_reader (cm_life s)); lia.
  - destruct (cm_rd s) eqn:Er; try exact Same. rewrite H. cbn [fst snd]. split; [exact End|]. unfold may_read. cbn. lia.
  - destruct (cm_rd s) eqn:Er; try exact Same. destruct r; cbn [fst snd]; (split; [first [exact H|exact End]|]); unfold may_read; cbn; rewrite Er; lia.
  - destruct (cm_rd s) as [| | |ms|] eqn:Er; try exact Same. destruct p.
    + destruct (lc_kind c); cbn [fst snd]; (split; [first [exact End|exact H]|]); unfold may_read; cbn; lia.
    + destruct ms; cbn [fst snd]; (split; [exact H|]); unfold may_read; cbn; lia.
  - destruct (nth_error (cm_wait s) n); [|exact Same]. cbn. split; [exact H|]. unfold may_read. cbn. lia.
  - destruct (nth_error (cm_busy s) n); [|exact Same]. cbn. split; [exact H|]. unfold may_read. cbn. lia.
Qed.
Lemma after_run c ls : forall (s : cm), lf_cancelled (cm_life s) = true -> reads (snd (cm_run c s ls)) <= may_read s.
Proof.
  induction ls as [|l ls IH]; intros s H; [cbn; lia|]. rewrite cm_run_one. cbn [snd]. rewrite reads_app. destruct (after_step c s l H) as [H1 H2].
  specialize (IH _ H1). lia.
Qed.
Lemma step_stop c (s : cm) l p q : snd (cm_step c s l) = p ++ MvStop :: q -> q = [] /\ lf_cancelled (cm_life (fst (cm_step c s l))) = true.
Proof.
  unfold cm_step. destruct (lf_dead (cm_life s)) eqn:Ed; [destruct p; discriminate|].
  assert (one : forall e : mev M, e <> MvStop -> [e] = p ++ MvStop :: q -> False).
  { intros e N H. destruct p as [|y p]; [injection H as -> _; congruence|]. destruct p; discriminate. }
  assert (lev : forall e, map (@MvLife M) e = p ++ MvStop :: q -> False).
  { intros e H. assert (Q : In MvStop (map (@MvLife M) e)) by (rewrite H; apply in_or_app; right; now left). apply in_map_iff in Q as [? [? _]]; discriminate. }
  destruct l as [x| |r|b|n|n].
  - destruct x as [| | |fresh|]; cbn [fst snd]; try (destruct p; discriminate); try (destruct (life_step c (cm_life s) _) as [lf e]; cbn [snd]; rewrite app_nil_r; intros H; exfalso; exact (lev _ H)).
    unfold life_step. rewrite Ed. unfold stop_call. destruct (lf_ctx (cm_life s)); cbn [fst snd map app].
    + destruct p as [|y p]; [intros [= <-]; auto|]. destruct p; discriminate.
    + intros H. exfalso. revert H. now apply one.
  - destruct (cm_rd s); try (destruct p; discriminate). destruct (lf_cancelled _); destruct p; discriminate.
  - destruct (cm_rd s); try (destruct p; discriminate). destruct r; [|destruct p; discriminate]. intros H. exfalso. revert H. now apply one.
  - destruct (cm_rd s) as [| | |ms|]; try (destruct p; discriminate). destruct b; [destruct (lc_kind c); intros H; exfalso; revert H; now apply one|]. destruct ms; destruct p; discriminate.
  - destruct (nth_error (cm_wait s) n) eqn:En; [|destruct p; discriminate]. intros H. exfalso. revert H. now apply one.
  - destruct (nth_error (cm_busy s) n) eqn:En; [|destruct p; discriminate]. intros H. exfalso. revert H. now apply one.
Qed.

(* Every message once. *)
Definition in_hand (s : cm) : list M := match cm_rd s with RFrames ms => ms | _ => [] end.
Definition minv (tr : list (mev M)) (s : cm) : Prop :=
  lf_dead (cm_life s) = false -> Permutation (begun tr ++ lost tr ++ cm_wait s ++ in_hand s) (read_of tr).
Lemma begun_app (a b : list (mev M)) : begun (a ++ b) = begun a ++ begun b. Proof. apply flat_map_app. Qed.
Lemma lost_app (a b : list (mev M)) : lost (a ++ b) = lost a ++ lost b. Proof. apply flat_map_app. Qed.
Lemma read_app (a b : list (mev M)) : read_of (a ++ b) = read_of a ++ read_of b. Proof. apply flat_map_app. Qed.
Lemma life_quiet e (b : bool) : let l := map (@MvLife M) e ++ (if b then [MvStop] else []) in begun l = [] /\ lost l = [] /\ read_of l = [].
Proof. cbv zeta. rewrite begun_app, lost_app, read_app. induction e as [|x e [H1 [H2 H3]]]; [destruct b; auto|]. cbn. auto. Qed.
Lemma dead_stays c s l : lf_dead (fst (life_step c s l)) = false -> lf_dead s = false.
Proof. unfold life_step. destruct (lf_dead s) eqn:E; [intros H; cbn in H; congruence|reflexivity]. Qed.
Lemma del_perm n : forall (l : list M) m, nth_error l n = Some m -> Permutation (m :: del n l) l.
Proof.
  induction n as [|n IH]; intros [|x l] m H; try discriminate; cbn in H; [injection H as <-; reflexivity|].
  unfold del. cbn. rewrite perm_swap. apply perm_skip. now apply IH.
Qed.
(* The reader is started once. *)
Record oinv (c : lcfg) (s : cm) : Prop := { o_todo : todo_suffix c (cm_life s) \/ short (cm_life s); o_once : cm_rd s <> RNone -> ~ In IGoReader (lf_todo (cm_life s)) }.
Lemma life_goreader c s l : In IGoReader (lf_todo (fst (life_step c s l))) -> In IGoReader (lf_todo s).
Proof.
  unfold life_step. destruct (lf_dead s); [auto|]. destruct l as [| | |fresh|].
  - unfold main_step. destruct (lf_todo s) as [|i rest] eqn:Et; cbn [fst snd]; [rewrite Et; auto|]. intros H.
    destruct i; cbn [fst snd set_todo set_hb set_lock set_closed lf_todo] in *; try (now right).
    + unfold hook_panic in *. destruct (lc_start_panics c) in *; [destruct (lc_kind c) in *; cbn in H; destruct H|]. now right.
    + destruct (lc_hc c) in *; now right.
    + destruct (lf_cancelled s) in *; [now right|]. now rewrite <- Et.
    + destruct (lf_closed s) in *; [cbn in H; destruct H as [Q|[]]; discriminate|]. now right.
    + unfold hook_panic in *. destruct (lc_stop_panics c) in *; [destruct (lc_kind c) in *; cbn in H; destruct H|]. now right.
    + destruct (lf_lock s) in *; [now rewrite <- Et|]. now right.
    + destruct (lf_closed s) in *; [cbn in H; destruct H as [Q|[Q|[]]]; discriminate|]. now right.
    + destruct (lc_hc c) in *; [destruct (lf_hb s) in *|]; cbn [fst lf_todo set_hb set_todo] in *; try (now rewrite <- Et); now right.
  - unfold stop_call. destruct (lf_ctx s); auto.
  - destruct (lf_reader s); auto.
  - destruct (lf_hb s); auto. destruct (fresh && _); [destruct (lc_kind c); auto|]. unfold stop_call. destruct (lf_ctx s); auto.
  - destruct (lf_hb s); auto. destruct (lf_lock s); auto.
Qed.
Lemma once_after c s rest : todo_suffix c s \/ short s -> lf_todo s = IGoReader :: rest -> ~ In IGoReader rest.
Proof.
  intros H E. destruct H as [[pre H]|[H _]]; [|intros _; apply H; rewrite E; now left]. rewrite E in H.
  unfold start_prog in H. do 5 (destruct pre as [|x pre]; cbn in H; [discriminate H|injection H as <- H]).
  destruct pre as [|x pre]; cbn in H.
  - injection H as <-. destruct (lc_kind c); cbn; intuition discriminate.
  - injection H as <- H. exfalso. assert (Q : In IGoReader (IWait :: final_prog (lc_kind c))) by (rewrite H; apply in_or_app; right; now left).
    destruct (lc_kind c); cbn in Q; intuition discriminate.
Qed.
Lemma oinv_step c (s : cm) l : oinv c s -> oinv c (fst (cm_step c s l)).
Proof.
  intros I. unfold cm_step. destruct (lf_dead (cm_life s)) eqn:Ed; [exact I|].
  assert (Quiet : forall r w b, cm_rd s <> RNone -> oinv c (Cm (cm_life s) r w b)).
  { intros r w b H. split; cbn; [apply (o_todo _ _ I)|intros _; now apply (o_once _ _ I)]. }
  assert (End : cm_rd s <> RNone -> oinv c (reader_end c s)).
  { intros H. split; cbn; [apply life_todo; apply (o_todo _ _ I)|]. intros _ Q. apply life_goreader in Q. revert Q. now apply (o_once _ _ I). }
  destruct l as [x| |r|p|n|n].
  - destruct x as [| | |fresh|]; try exact I; match goal with |- context [life_step c (cm_life s) ?x] =>
      pose proof (life_todo c (cm_life s) x (o_todo _ _ I)) as T; pose proof (life_goreader c (cm_life s) x) as G; destruct (life_step c (cm_life s) x) as [lf e] eqn:El end;
      cbn [fst snd] in *; split; cbn [cm_life cm_rd]; try exact T; try (intros Q1 Q2; apply G in Q2; revert Q2; now apply (o_once _ _ I)).
    unfold starts_reader. destruct (lf_todo (cm_life s)) as [|i rest] eqn:Et; [intros _ Q; apply G in Q; destruct Q|].
    destruct i; try (intros Q1 Q2; apply G in Q2; rewrite <- Et in Q2; revert Q2; now apply (o_once _ _ I)).
    intros _. unfold life_step in El. rewrite Ed in El. unfold main_step in El. rewrite Et in El. injection El as <- _. cbn [lf_todo].
    exact (once_after c (cm_life s) rest (o_todo _ _ I) Et).
  - destruct (cm_rd s) eqn:Er; try exact I. destruct (lf_cancelled (cm_life s)); [apply End|apply Quiet]; discriminate.
  - destruct (cm_rd s) eqn:Er; try exact I. destruct r; [apply Quiet|apply End]; discriminate.
  - destruct (cm_rd s) as [| | |ms|] eqn:Er; try exact I. destruct p; [|destruct ms; apply Quiet; discriminate].
    destruct (lc_kind c); try (apply End; discriminate). split; cbn.
    + destruct (o_todo _ _ I) as [T|T]; [left; exact T|right; exact T].
    + intros _. apply (o_once _ _ I). congruence.
  - destruct (nth_error (cm_wait s) n) eqn:En; [|exact I]. destruct I. now split.
  - destruct (nth_error (cm_busy s) n); [|exact I]. destruct I. now split.
Qed.
Lemma perm_move (A : Type) (m : A) b l w1 w h : Permutation (m :: w1) w -> Permutation ((b ++ [m]) ++ l ++ w1 ++ h) (b ++ l ++ w ++ h).
Proof.
  intros P. rewrite <- app_assoc. apply Permutation_app_head. cbn. rewrite <- P. cbn. apply Permutation_middle.
Qed.
Lemma minv_step c tr (s : cm) l : oinv c s -> minv tr s -> minv (tr ++ snd (cm_step c s l)) (fst (cm_step c s l)).
Proof.
  intros O I. unfold cm_step. destruct (lf_dead (cm_life s)) eqn:Ed; [now rewrite app_nil_r|].
  assert (Same : minv (tr ++ []) s) by now rewrite app_nil_r. specialize (I Ed).
  destruct l as [x| |r|p|n|n].
  - destruct x as [| | |fresh|]; try exact Same; destruct (life_step c (cm_life s) _) as [lf e] eqn:El; cbn [fst snd] in *; intros _;
      match goal with |- context [map MvLife e ++ ?b] => match b with if ?x then _ else _ => destruct (life_quiet e x) as [H1 [H2 H3]] | _ => destruct (life_quiet e false) as [H1 [H2 H3]] end end;
      rewrite begun_app, lost_app, read_app, H1, H2, H3, !app_nil_r; try exact I.
    unfold in_hand in *; cbn [cm_wait cm_rd]. destruct (starts_reader (cm_life s)) eqn:Es; [|exact I].
    destruct (cm_rd s) as [| | |ms|] eqn:Er; try exact I. exfalso. apply (o_once _ _ O); [congruence|].
    unfold starts_reader in Es. destruct (lf_todo (cm_life s)) as [|i rest]; [discriminate|]. destruct i; try discriminate. now left.
  - destruct (cm_rd s) eqn:Er; try exact Same. unfold in_hand in I. rewrite Er in I.
    destruct (lf_cancelled (cm_life s)); cbn [fst snd]; rewrite app_nil_r; intros _; exact I.
  - destruct (cm_rd s) eqn:Er; try exact Same. unfold in_hand in I. rewrite Er in I. rewrite app_nil_r in I.
    destruct r as [ms|]; cbn [fst snd].
    + intros _. rewrite begun_app, lost_app, read_app. cbn. rewrite !app_nil_r. rewrite !app_assoc. rewrite <- !app_assoc in *. rewrite <- I. now rewrite <- !app_assoc.
    + rewrite app_nil_r. intros _. unfold in_hand, reader_end; cbn. now rewrite app_nil_r.
  - destruct (cm_rd s) as [| | |ms|] eqn:Er; try exact Same. unfold in_hand in I. rewrite Er in I. destruct p.
    + destruct (lc_kind c); cbn [fst snd].
      2: { intros D. cbn in D. discriminate. }
      all: intros _; rewrite begun_app, lost_app, read_app; cbn; rewrite !app_nil_r; rewrite <- I; apply Permutation_app_head; rewrite <- app_assoc; apply Permutation_app_head; apply Permutation_app_comm.
    + destruct ms as [|m ms]; cbn [fst snd]; rewrite app_nil_r; intros _; [exact I|]. unfold in_hand; cbn. rewrite <- I. rewrite <- app_assoc. reflexivity.
  - destruct (nth_error (cm_wait s) n) as [m|] eqn:En; [|exact Same]. cbn [fst snd]. intros _. rewrite begun_app, lost_app, read_app. cbn. rewrite !app_nil_r.
    rewrite <- I. change (in_hand (Cm (cm_life s) (cm_rd s) (del n (cm_wait s)) (m :: cm_busy s))) with (in_hand s). apply perm_move. now apply del_perm.
  - destruct (nth_error (cm_busy s) n); [|exact Same]. cbn [fst snd]. intros _. rewrite begun_app, lost_app, read_app. cbn. rewrite !app_nil_r. exact I.
Qed.
Lemma oinv_new c : oinv c (cm_new c).
Proof. split; cbn; [left; exists []; reflexivity|congruence]. Qed.
Lemma minv_run c ls : minv (snd (cm_run c (cm_new c) ls)) (fst (cm_run c (cm_new c) ls)) /\ oinv c (fst (cm_run c (cm_new c) ls)).
Proof.
  apply (run_inv c (fun tr s => minv tr s /\ oinv c s) (fun tr s l H => conj (minv_step c tr s l (proj2 H) (proj1 H)) (oinv_step c s l (proj2 H))) ls []).
  split; [intros _; reflexivity|apply oinv_new].
Qed.
(* Handing everything over. *)
Lemma begin_all c : forall w (s : cm), lf_dead (cm_life s) = false -> cm_wait s = w ->
  exists more, Forall handing_over more /\ let s' := fst (cm_run c s more) in cm_wait s' = [] /\ cm_rd s' = cm_rd s /\ lf_dead (cm_life s') = false /\
    read_of (snd (cm_run c s more)) = [] /\ lost (snd (cm_run c s more)) = [].
Proof.
  induction w as [|m w IH]; intros s D E; [exists []; split; [constructor|cbn; auto]|].
  assert (S1 : cm_step c s (MBegin 0) = (Cm (cm_life s) (cm_rd s) w (m :: cm_busy s), [MvBegin m])).
  { unfold cm_step. rewrite D, E. reflexivity. }
  destruct (IH (Cm (cm_life s) (cm_rd s) w (m :: cm_busy s)) D eq_refl) as [more [F [H1 [H2 [H3 [H4 H5]]]]]].
  exists (MBegin 0 :: more). split; [constructor; [exact I|exact F]|]. rewrite cm_run_one, S1. cbv zeta in *. cbn [fst snd]. rewrite read_app, lost_app. cbn. auto.
Qed.
Lemma exec_all c : forall ms (s : cm), lf_dead (cm_life s) = false -> cm_rd s = RFrames ms ->
  exists more, Forall handing_over more /\ let s' := fst (cm_run c s more) in cm_rd s' = RFrames [] /\ lf_dead (cm_life s') = false /\
    read_of (snd (cm_run c s more)) = [] /\ lost (snd (cm_run c s more)) = [].
Proof.
  induction ms as [|m ms IH]; intros s D E; [exists []; split; [constructor|cbn; auto]|].
  assert (S1 : cm_step c s (MExec false) = (Cm (cm_life s) (RFrames ms) (cm_wait s ++ [m]) (cm_busy s), [])).
  { unfold cm_step. rewrite D, E. reflexivity. }
  destruct (IH (Cm (cm_life s) (RFrames ms) (cm_wait s ++ [m]) (cm_busy s)) D eq_refl) as [more [F H]].
  exists (MExec false :: more). split; [constructor; [exact I|exact F]|]. rewrite cm_run_one, S1. exact H.
Qed.
Lemma drain_all c (s : cm) : lf_dead (cm_life s) = false ->
  exists more, Forall handing_over more /\ let s' := fst (cm_run c s more) in cm_wait s' = [] /\ in_hand s' = [] /\ lf_dead (cm_life s') = false /\
    read_of (snd (cm_run c s more)) = [] /\ lost (snd (cm_run c s more)) = [].
Proof.
  intros D.
  assert (X : exists more, Forall handing_over more /\ let s' := fst (cm_run c s more) in in_hand s' = [] /\ lf_dead (cm_life s') = false /\
    read_of (snd (cm_run c s more)) = [] /\ lost (snd (cm_run c s more)) = []).
  { destruct (cm_rd s) as [| | |ms|] eqn:Er; try (exists []; split; [constructor|]; unfold in_hand; cbn; rewrite Er; auto; fail).
    destruct (exec_all c ms s D Er) as [more [F [H1 H2]]]. exists more. split; [exact F|]. cbv zeta. unfold in_hand. rewrite H1. auto. }
  destruct X as [m1 [F1 [H1 [D1 [R1 L1]]]]]. destruct (begin_all c _ _ D1 eq_refl) as [m2 [F2 [W2 [E2 [D2 [R2 L2]]]]]].
  exists (m1 ++ m2). split; [apply Forall_app; auto|]. cbv zeta in *. rewrite cm_run_app. cbn [fst snd]. rewrite read_app, lost_app, R1, L1, R2, L2.
  unfold in_hand in *. rewrite E2. auto.
Qed.

(* Panics. *)
Lemma no_lost c ls : forall (s : cm), no_panic ls -> lost (snd (cm_run c s ls)) = [].
Proof.
  induction ls as [|l ls IH]; intros s H; [reflexivity|]. inversion H as [|? ? Hl Hls]; subst. rewrite cm_run_one. cbn [snd]. rewrite lost_app, (IH _ Hls), app_nil_r.
  unfold cm_step. destruct (lf_dead (cm_life s)); [reflexivity|]. destruct l as [x| |r|p|n|n].
  - destruct x; try reflexivity; destruct (life_step c (cm_life s) _) as [lf e]; cbn [snd]; match goal with |- context [map MvLife e ++ ?b] => match b with if ?x then _ else _ => apply (life_quiet e x) | _ => apply (life_quiet e false) end end.
  - destruct (cm_rd s); try reflexivity. destruct (lf_cancelled _); reflexivity.
  - destruct (cm_rd s); try reflexivity. destruct r; reflexivity.
  - destruct (cm_rd s) as [| | |ms|]; try reflexivity. destruct p; [congruence|]. destruct ms; reflexivity.
  - destruct (nth_error _ n); reflexivity.
  - destruct (nth_error _ n); reflexivity.
Qed.
Lemma life_alive c s l : lc_kind c <> KWs -> lf_dead s = false -> lf_dead (fst (life_step c s l)) = false.
Proof.
  intros K H. unfold life_step. rewrite H. destruct l as [| | |fresh|]; cbn [fst].
  - unfold main_step. destruct (lf_todo s) as [|i rest]; [exact H|]. destruct i; cbn [fst]; try exact H.
    + unfold hook_panic. destruct (lc_start_panics c); [destruct (lc_kind c); try congruence|]; exact H.
    + destruct (lc_hc c); exact H.
    + destruct (lf_cancelled s); exact H.
    + destruct (lf_closed s); exact H.
    + unfold hook_panic. destruct (lc_stop_panics c); [destruct (lc_kind c); try congruence|]; exact H.
    + destruct (lf_lock s); exact H.
    + destruct (lf_closed s); exact H.
    + destruct (lc_hc c); [destruct (lf_hb s)|]; exact H.
  - unfold stop_call. destruct (lf_ctx s); exact H.
  - destruct (lf_reader s); first [exact H|reflexivity].
  - destruct (lf_hb s); try exact H. destruct (fresh && _); [destruct (lc_kind c); exact H|]. unfold stop_call. destruct (lf_ctx s); exact H.
  - destruct (lf_hb s); try exact H. destruct (lf_lock s); exact H.
Qed.
Lemma alive c ls : lc_kind c <> KWs -> forall (s : cm), lf_dead (cm_life s) = false -> lf_dead (cm_life (fst (cm_run c s ls))) = false.
Proof.
  intros K. induction ls as [|l ls IH]; intros s H; [exact H|]. rewrite cm_run_one. cbn [fst]. apply IH. clear IH.
  unfold cm_step. rewrite H. destruct l as [x| |r|p|n|n].
  - destruct x as [| | |fresh|]; try exact H; match goal with |- context [life_step c (cm_life s) ?x] => pose proof (life_alive c (cm_life s) x K H) as L; destruct (life_step c (cm_life s) x); exact L end.
  - destruct (cm_rd s); try exact H. destruct (lf_cancelled _); [|exact H]. now apply life_alive.
  - destruct (cm_rd s); try exact H. destruct r; [exact H|]. now apply life_alive.
  - destruct (cm_rd s) as [| | |ms|]; try exact H. destruct p; [|destruct ms; exact H]. destruct (lc_kind c) eqn:Ek; [|congruence|]; (apply (life_alive c); [rewrite Ek; discriminate|exact H]).
  - destruct (nth_error _ n); exact H.
  - destruct (nth_error _ n); exact H.
Qed.
Lemma dead_run c ls : forall (s : cm), lf_dead (cm_life s) = true -> cm_run c s ls = (s, []).
Proof. induction ls as [|l ls IH]; intros s H; [reflexivity|]. cbn [cm_run]. unfold cm_step. rewrite H, IH by exact H. reflexivity. Qed.
End P.

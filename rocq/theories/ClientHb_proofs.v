(* Proofs about the heartbeat of a client that reconnects. *)
From Coq Require Import List Bool Arith Lia.
From Verif Require Import GoSlice ClientHb Spec_ClientHb.
Import ListNotations.

Fixpoint count {A} (f : A -> bool) (l : list A) : nat := match l with [] => 0 | x :: r => (if f x then 1 else 0) + count f r end.
Lemma count_app {A} (f : A -> bool) l r : count f (l ++ r) = count f l + count f r.
Proof. induction l as [|x l IH]; cbn; [reflexivity|]. rewrite IH. lia. Qed.
Lemma count_set {A} (f : A -> bool) x y : forall l i, nth_error l i = Some y ->
  count f (set_nth i x l) + (if f y then 1 else 0) = count f l + (if f x then 1 else 0).
Proof. induction l as [|z l IH]; intros [|i] H; cbn in *; try discriminate; [injection H as ->; lia|]. specialize (IH i H). lia. Qed.
Lemma count_pos {A} (f : A -> bool) : forall l, 0 < count f l -> exists i x, nth_error l i = Some x /\ f x = true.
Proof.
  induction l as [|x l IH]; cbn; [lia|]. destruct (f x) eqn:E; [intros _; exists 0, x; auto|]. intros H. destruct (IH H) as (i & y & A1 & A2). exists (S i), y. auto.
Qed.
Lemma count_in {A} (f : A -> bool) : forall l i x, nth_error l i = Some x -> f x = true -> 0 < count f l.
Proof. induction l as [|y l IH]; intros [|i] x H E; cbn in *; try discriminate; [injection H as ->; rewrite E; lia|]. specialize (IH i x H E). lia. Qed.
Lemma sn_same {A} (x y : A) : forall l i, nth_error l i = Some y -> nth_error (set_nth i x l) i = Some x.
Proof. induction l as [|z l IH]; intros [|i] H; cbn in *; try discriminate; auto. Qed.
Lemma sn_other {A} (x : A) : forall l i j, j <> i -> nth_error (set_nth i x l) j = nth_error l j.
Proof. induction l as [|z l IH]; intros [|i] [|j] H; cbn; auto; try lia. Qed.

Definition live (p : hpc) : bool := match p with GEnded => false | _ => true end.
Definition open (k : hconn) : bool := k_go k && negb (k_quit k).
Record good (k : hconn) (bd g q : Prop) : Prop := {
  gd_bound : k_bound k = true <-> bd;
  gd_go : k_go k = true <-> g;
  gd_quit : k_quit k = true <-> q;
  gd_ctx : k_ctx k = true -> k_bound k = true;
  gd_go_ctx : k_go k = true -> k_ctx k = true;
  gd_act : k_act k = true -> k_go k = true;
  gd_quit_go : k_quit k = true -> k_go k = true
}.
Record inv (s : hst) (tr : list hev) : Prop := {
  in_conn : hs_conn s = newest tr;
  in_some : forall i, newest tr = Some i -> In (VBind i) tr;
  in_all : forall i k, nth_error (hs_conns s) i = Some k -> good k (In (VBind i) tr) (In (VGo i) tr) (In (VQuit i) tr);
  in_have : forall i, In (VBind i) tr \/ In (VGo i) tr \/ In (VQuit i) tr -> i < length (hs_conns s);
  in_count : count live (hs_gos s) = count open (hs_conns s)
}.
Lemma newest_app tr e : newest (tr ++ [e]) = match e with VBind i => Some i | _ => newest tr end.
Proof. unfold newest. rewrite fold_left_app. destruct e; reflexivity. Qed.
Lemma inv_new : inv hs_new [].
Proof.
  constructor; cbn; auto.
  - discriminate.
  - intros [|i] k H; discriminate H.
  - intros i H. tauto.
Qed.

Lemma sn_len {A} (x : A) : forall l i, length (set_nth i x l) = length l.
Proof. induction l as [|y l IH]; intros [|i]; cbn; auto. Qed.

(* A step that leaves the trace alone and connection i as good as before. *)
Lemma inv_put s tr i k k' : inv s tr -> nth_error (hs_conns s) i = Some k ->
  good k' (In (VBind i) tr) (In (VGo i) tr) (In (VQuit i) tr) -> open k' = open k -> inv (put s i k') tr.
Proof.
  intros [A B C D E] H G O. constructor; cbn [put hs_conns hs_gos hs_conn]; auto.
  - intros j k0 Hj. destruct (Nat.eq_dec j i) as [->|N]; [rewrite (sn_same _ _ _ _ H) in Hj; injection Hj as <-; exact G|].
    rewrite sn_other in Hj by exact N. now apply C.
  - intros j Hj. rewrite sn_len. auto.
  - pose proof (count_set open k' k _ _ H). rewrite O in H0. lia.
Qed.
Lemma inv_go s tr g p p' : inv s tr -> nth_error (hs_gos s) g = Some p -> live p = live p' -> inv (go s g p') tr.
Proof.
  intros [A B C D E] H L. constructor; cbn [go hs_conns hs_gos hs_conn]; auto.
  pose proof (count_set live p' p _ _ H). rewrite L in H0. lia.
Qed.
(* Events that do not concern binding, starting and stopping. *)
Definition plain (e : hev) : Prop := match e with VBind _ | VGo _ | VQuit _ => False | _ => True end.
Lemma inv_plain s tr e : inv s tr -> plain e -> inv s (tr ++ [e]).
Proof.
  intros [A B C D E] P.
  assert (Q : forall x, ~ plain x -> In x (tr ++ [e]) <-> In x tr).
  { intros x N. rewrite in_app_iff. cbn. split; [|auto]. intros [H|[->|[]]]; [exact H|contradiction]. }
  constructor; auto.
  - rewrite newest_app. destruct e; auto; contradiction.
  - intros i H. rewrite newest_app in H. apply Q; [cbn; tauto|]. apply B. destruct e; auto; contradiction.
  - intros i k H. destruct (C i k H). constructor; rewrite ?Q by (cbn; tauto); auto.
  - intros i H. rewrite !Q in H by (cbn; tauto). auto.
Qed.

Lemma in_last (x e : hev) tr : In x (tr ++ [e]) <-> In x tr \/ x = e.
Proof. rewrite in_app_iff. cbn. intuition. Qed.

Lemma h_step_inv s tr l : inv s tr ->
  let s' := fst (h_step s l) in let e := snd (h_step s l) in
  inv s' (tr ++ e) /\ (e = [] \/ exists x, e = [x]) /\
  (forall x i, In x e -> about i x -> newest tr = Some i /\ 0 < count live (hs_gos s)) /\
  (In VCrash e -> exists i k, newest tr = Some i /\ nth_error (hs_conns s) i = Some k /\ k_ctx k = false /\ 0 < count live (hs_gos s)) /\
  (forall i, In (VBind i) e -> ~ In (VBind i) tr) /\
  (hs_crash s' = true -> hs_crash s = true \/ In VCrash e).
Proof.
  intros V. cbv zeta. unfold h_step.
  destruct (hs_crash s) eqn:Cr.
  { cbn [fst snd]. rewrite app_nil_r. split; [exact V|]. split; [now left|]. split; [intros ? ? []|]. split; [intros []|]. split; [intros ? []|auto]. }
  assert (Nil : inv s (tr ++ []) /\ (@nil hev = [] \/ exists x, @nil hev = [x]) /\
    (forall x i, In x [] -> about i x -> newest tr = Some i /\ 0 < count live (hs_gos s)) /\
    (In VCrash [] -> exists i k, newest tr = Some i /\ nth_error (hs_conns s) i = Some k /\ k_ctx k = false /\ 0 < count live (hs_gos s)) /\
    (forall i, In (VBind i) [] -> ~ In (VBind i) tr) /\ (hs_crash s = true -> false = true \/ In VCrash [])).
  { rewrite app_nil_r. split; [exact V|]. split; [now left|]. split; [intros ? ? []|]. split; [intros []|]. split; [intros ? []|congruence]. }
  destruct l as [|i|i|i|i|i|i g|g r|g].
  - (* HMade *) cbn [fst snd]. rewrite app_nil_r. split; [|split; [now left|split; [intros ? ? []|split; [intros []|split; [intros ? []|cbn; congruence]]]]].
    destruct V as [A B C D E]. constructor; cbn [hs_conns hs_gos hs_conn]; auto.
    + intros i k H. destruct (Nat.lt_ge_cases i (length (hs_conns s))) as [L|L]; [rewrite nth_error_app1 in H by exact L; now apply C|].
      assert (~ In (VBind i) tr /\ ~ In (VGo i) tr /\ ~ In (VQuit i) tr) as (N1 & N2 & N3) by (repeat split; intros I; assert (i < length (hs_conns s)) by auto; lia).
      rewrite nth_error_app2 in H by exact L. destruct (i - length (hs_conns s)) as [|n]; cbn in H; [injection H as <-|destruct n; discriminate H].
      constructor; cbn; intuition discriminate.
    + intros i H. rewrite app_length. specialize (D i H). lia.
    + rewrite count_app. cbn. lia.
  - (* HBind *) destruct (nth_error (hs_conns s) i) as [k|] eqn:Hk; [|exact Nil]. destruct k as [bd x a b c q]. destruct bd; [exact Nil|]. cbn [fst snd].
    pose proof (in_all _ _ V _ _ Hk) as G. destruct G as [G1 G2 G3 G4 G5 G6 G7]. cbn in *.
    assert (NB : ~ In (VBind i) tr) by (intros I; apply G1 in I; discriminate).
    split; [|split; [right; eauto|split; [|split; [intros [I|[]]; discriminate|split; [intros j [[= <-]|[]]; exact NB|auto]]]]].
    + destruct V as [A B C D E]. constructor; cbn [hs_conns hs_gos hs_conn].
      * now rewrite newest_app.
      * intros j Hj. rewrite newest_app in Hj. injection Hj as <-. apply in_last. now right.
      * intros j k Hj. destruct (Nat.eq_dec j i) as [->|N].
        -- rewrite (sn_same _ _ _ _ Hk) in Hj. injection Hj as <-. constructor; cbn; rewrite ?in_last; auto; try (rewrite <- ?G2, <- ?G3; intuition discriminate).
        -- rewrite sn_other in Hj by exact N. destruct (C j k Hj). constructor; auto; rewrite in_last, ?gd_bound0, ?gd_go0, ?gd_quit0; intuition congruence.
      * intros j Hj. rewrite sn_len. rewrite !in_last in Hj. destruct (Nat.eq_dec j i) as [->|N]; [apply nth_error_Some; congruence|]. apply D. intuition congruence.
      * pose proof (count_set open (Hconn true x a b c q) _ _ _ Hk) as Q. unfold open in Q at 2 4. cbn in Q. lia.
    + intros y j [<-|[]] [(g & z & X)|[X|X]]; discriminate X.
  - (* HCtx *) destruct (nth_error (hs_conns s) i) as [k|] eqn:Hk; [|exact Nil]. destruct k as [bd x a b c q]. destruct bd, x; try exact Nil. cbn [fst snd]. rewrite app_nil_r.
    split; [|split; [now left|split; [intros ? ? []|split; [intros []|split; [intros ? []|cbn; congruence]]]]].
    apply (inv_put s tr i _ _ V Hk); [|reflexivity]. destruct (in_all _ _ V _ _ Hk). constructor; cbn in *; auto.
  - (* HGo *) destruct (nth_error (hs_conns s) i) as [k|] eqn:Hk; [|exact Nil]. destruct k as [bd x a b c q]. destruct x, a; try exact Nil. cbn [fst snd].
    pose proof (in_all _ _ V _ _ Hk) as G. destruct G as [G1 G2 G3 G4 G5 G6 G7]. cbn in *.
    assert (q = false) as -> by (destruct q; [discriminate (G7 eq_refl)|reflexivity]).
    split; [|split; [right; eauto|split; [|split; [intros [I|[]]; discriminate|split; [intros j [I|[]]; discriminate|auto]]]]].
    + destruct V as [A B C D E]. constructor; cbn [hs_conns hs_gos hs_conn].
      * now rewrite newest_app.
      * intros j Hj. rewrite newest_app in Hj. apply in_last. left. auto.
      * intros j k Hj. destruct (Nat.eq_dec j i) as [->|N].
        -- rewrite (sn_same _ _ _ _ Hk) in Hj. injection Hj as <-. constructor; cbn; rewrite ?in_last; auto; rewrite <- ?G1, <- ?G3; intuition discriminate.
        -- rewrite sn_other in Hj by exact N. destruct (C j k Hj). constructor; auto; rewrite in_last, ?gd_bound0, ?gd_go0, ?gd_quit0; intuition congruence.
      * intros j Hj. rewrite sn_len. rewrite !in_last in Hj. destruct (Nat.eq_dec j i) as [->|N]; [apply nth_error_Some; congruence|]. apply D. intuition congruence.
      * rewrite count_app. pose proof (count_set open (Hconn bd true true b c false) _ _ _ Hk) as Q. unfold open in Q at 2 4. cbn in *. lia.
    + intros y j [<-|[]] [(g & z & X)|[X|X]]; discriminate X.
  - (* HActive *) destruct (nth_error (hs_conns s) i) as [k|] eqn:Hk; [|exact Nil]. destruct k as [bd x a b c q]. destruct a, b; try exact Nil. cbn [fst snd]. rewrite app_nil_r.
    split; [|split; [now left|split; [intros ? ? []|split; [intros []|split; [intros ? []|cbn; congruence]]]]].
    apply (inv_put s tr i _ _ V Hk); [|reflexivity]. destruct (in_all _ _ V _ _ Hk). constructor; cbn in *; auto.
  - (* HCancel *) destruct (nth_error (hs_conns s) i) as [k|] eqn:Hk; [|exact Nil]. destruct k as [bd x a b c q]. destruct x; try exact Nil. cbn [fst snd]. rewrite app_nil_r.
    split; [|split; [now left|split; [intros ? ? []|split; [intros []|split; [intros ? []|cbn; congruence]]]]].
    apply (inv_put s tr i _ _ V Hk); [|reflexivity]. destruct (in_all _ _ V _ _ Hk). constructor; cbn in *; auto.
  - (* HQuit *) destruct (nth_error (hs_conns s) i) as [k|] eqn:Hk; [|exact Nil]. destruct k as [bd x a b c q].
    destruct b; [|exact Nil]. destruct c; [|exact Nil]. destruct q; [exact Nil|]. destruct (nth_error (hs_gos s) g) as [[]|] eqn:Hg; try exact Nil. cbn [fst snd].
    pose proof (in_all _ _ V _ _ Hk) as G. destruct G as [G1 G2 G3 G4 G5 G6 G7]. cbn in *.
    assert (a = true) as -> by auto.
    split; [|split; [right; eauto|split; [|split; [intros [I|[]]; discriminate|split; [intros j [I|[]]; discriminate|cbn; congruence]]]]].
    + destruct V as [A B C D E]. constructor; cbn [hs_conns hs_gos hs_conn go put].
      * now rewrite newest_app.
      * intros j Hj. rewrite newest_app in Hj. apply in_last. left. auto.
      * intros j k Hj. destruct (Nat.eq_dec j i) as [->|N].
        -- rewrite (sn_same _ _ _ _ Hk) in Hj. injection Hj as <-. constructor; cbn; rewrite ?in_last; auto; rewrite <- ?G1, <- ?G2; intuition discriminate.
        -- rewrite sn_other in Hj by exact N. destruct (C j k Hj). constructor; auto; rewrite in_last, ?gd_bound0, ?gd_go0, ?gd_quit0; intuition congruence.
      * intros j Hj. rewrite sn_len. rewrite !in_last in Hj. destruct (Nat.eq_dec j i) as [->|N]; [apply nth_error_Some; congruence|]. apply D. intuition congruence.
      * pose proof (count_set open (Hconn bd x true true true true) _ _ _ Hk) as Q. unfold open in Q at 2 4. cbn in Q.
        pose proof (count_set live GEnded _ _ _ Hg) as R. cbn in R. lia.
    + intros y j [<-|[]] [(h & z & X)|[X|X]]; discriminate X.
  - (* HTick *) destruct (nth_error (hs_gos s) g) as [[]|] eqn:Hg; try exact Nil. destruct (hs_conn s) as [i|] eqn:Hc; [|exact Nil].
    destruct (nth_error (hs_conns s) i) as [k|] eqn:Hk; [|exact Nil]. cbn [fst snd].
    split; [|split; [right; eauto|split; [|split; [intros [I|[]]; discriminate|split; [intros j [I|[]]; discriminate|cbn; congruence]]]]].
    + apply inv_plain; [|exact I]. apply (inv_go s tr g GSelect _ V Hg). now destruct (is_alive k r).
    + intros y j [<-|[]] [(h & z & X)|[X|X]]; try discriminate X. injection X as <- -> <-. rewrite <- (in_conn _ _ V). split; [exact Hc|]. exact (count_in live _ _ _ Hg eq_refl).
  - (* HReact *) destruct (nth_error (hs_gos s) g) as [[]|] eqn:Hg; try exact Nil; (destruct (hs_conn s) as [i|] eqn:Hc; [|exact Nil]).
    + cbn [fst snd]. split; [|split; [right; eauto|split; [|split; [intros [I|[]]; discriminate|split; [intros j [I|[]]; discriminate|cbn; congruence]]]]].
      * apply inv_plain; [|exact I]. now apply (inv_go s tr g GAlive).
      * intros y j [<-|[]] [(h & z & X)|[X|X]]; try discriminate X. injection X as <-. rewrite <- (in_conn _ _ V). split; [exact Hc|]. exact (count_in live _ _ _ Hg eq_refl).
    + destruct (nth_error (hs_conns s) i) as [k|] eqn:Hk.
      2: { exfalso. assert (L : i < length (hs_conns s)) by (apply (in_have _ _ V); left; apply (in_some _ _ V); rewrite <- (in_conn _ _ V); exact Hc). apply nth_error_Some in L. congruence. }
      destruct k as [bd x a b c q]. destruct x; cbn [fst snd].
      * split; [|split; [right; eauto|split; [|split; [intros [I|[]]; discriminate|split; [intros j [I|[]]; discriminate|cbn; congruence]]]]].
        -- apply inv_plain; [|exact I]. apply (inv_go (put s i (Hconn bd true a b true q)) tr g GDead); [|exact Hg|reflexivity].
           apply (inv_put s tr i _ _ V Hk); [|reflexivity]. destruct (in_all _ _ V _ _ Hk). constructor; cbn in *; auto.
        -- intros y j [<-|[]] [(h & z & X)|[X|X]]; try discriminate X. injection X as <-. rewrite <- (in_conn _ _ V). split; [exact Hc|]. exact (count_in live _ _ _ Hg eq_refl).
      * split; [|split; [right; eauto|split; [|split; [|split; [intros j [I|[]]; discriminate|cbn; auto]]]]].
        -- apply inv_plain; [|exact I]. destruct V. constructor; cbn; auto. now rewrite Hc in *.
        -- intros y j [<-|[]] [(h & z & X)|[X|X]]; discriminate X.
        -- intros _. exists i. eexists. rewrite <- (in_conn _ _ V). split; [exact Hc|]. split; [exact Hk|]. split; [reflexivity|]. exact (count_in live _ _ _ Hg eq_refl).
Qed.

Lemma h_run_app s ls ms : h_run s (ls ++ ms) = (fst (h_run (fst (h_run s ls)) ms), snd (h_run s ls) ++ snd (h_run (fst (h_run s ls)) ms)).
Proof.
  revert s. induction ls as [|l ls IH]; intros s; cbn [app h_run]; [cbn; now destruct (h_run s ms)|].
  destruct (h_step s l) as [s1 e1]. rewrite IH. destruct (h_run s1 ls) as [s2 e2]. cbn. now rewrite app_assoc.
Qed.
Lemma h_run_inv ls : forall s tr, inv s tr -> inv (fst (h_run s ls)) (tr ++ snd (h_run s ls)).
Proof.
  induction ls as [|l ls IH]; intros s tr V; cbn [h_run]; [cbn; now rewrite app_nil_r|].
  destruct (h_step_inv s tr l V) as (V1 & _). destruct (h_step s l) as [s1 e1]. cbn [fst snd] in V1.
  specialize (IH s1 _ V1). destruct (h_run s1 ls) as [s2 e2]. cbn [fst snd] in *. now rewrite app_assoc.
Qed.
Lemma seen_inv ls : inv (fst (h_run hs_new ls)) (seen ls).
Proof. exact (h_run_inv ls hs_new [] inv_new). Qed.

(* Every event is the event of one step taken in a state that agrees with what came before. *)
Lemma at_event ls : forall s tr before e after, inv s tr -> snd (h_run s ls) = before ++ e :: after ->
  exists s0 l, inv s0 (tr ++ before) /\ snd (h_step s0 l) = [e].
Proof.
  induction ls as [|l ls IH]; intros s tr before e after V E; cbn [h_run] in E; [destruct before; discriminate E|].
  destruct (h_step_inv s tr l V) as (V1 & One & _). destruct (h_step s l) as [s1 e1] eqn:Es. cbn [fst snd] in *.
  destruct (h_run s1 ls) as [s2 e2] eqn:Er. cbn [snd] in E. destruct One as [->|(x & ->)].
  - rewrite app_nil_r in V1. apply (IH s1 tr before e after V1). now rewrite Er.
  - destruct before as [|y before]; cbn in E; injection E as <- E.
    + exists s, l. rewrite app_nil_r, Es. auto.
    + destruct (IH s1 _ before e after V1) as (s0 & l0 & A & B); [now rewrite Er|]. exists s0, l0. rewrite <- app_assoc in A. auto.
Qed.
Lemma seen_event ls before e after : seen ls = before ++ e :: after -> exists s0 l, inv s0 before /\ snd (h_step s0 l) = [e].
Proof. intros E. exact (at_event ls hs_new [] before e after inv_new E). Qed.

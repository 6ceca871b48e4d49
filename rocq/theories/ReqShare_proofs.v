From Coq Require Import ZArith List Bool Lia Permutation.
From Verif Require Import GoSlice Router_proofs ReqShare Spec_ReqShare.
Import ListNotations.
Local Open Scope nat_scope.

Lemma content_app s a b : content s (a ++ b) = fold_left (content_step s) b (content s a).
Proof. apply fold_left_app. Qed.
Lemma handed_app a b : handed (a ++ b) = handed a ++ handed b.
Proof. apply flat_map_app. Qed.
Lemma rs_run_app pooled : forall l1 s l2, rs_run pooled s (l1 ++ l2) = let (s1, e1) := rs_run pooled s l1 in let (s2, e2) := rs_run pooled s1 l2 in (s2, e1 ++ e2).
Proof.
  induction l1 as [|l l1 IH]; intros s l2; cbn [rs_run app]; [now destruct (rs_run pooled s l2)|]. destruct (rs_step pooled s l) as [s1 e1]. rewrite IH. destruct (rs_run pooled s1 l1) as [s2 e2]. destruct (rs_run pooled s2 l2). now rewrite app_assoc.
Qed.
Lemma drop_split {A} (l : list A) i x : nth_error l i = Some x -> exists l1 l2, l = l1 ++ x :: l2 /\ drop_nth i l = l1 ++ l2 /\ length l1 = i /\ forall y, set_nth i y l = l1 ++ y :: l2.
Proof.
  intros H. destruct (nth_error_split _ _ H) as (l1 & l2 & E & L). exists l1, l2. split; [exact E|]. split; [|split; [exact L|]].
  - unfold drop_nth. rewrite E. rewrite firstn_app, <- L, Nat.sub_diag, firstn_all. cbn [firstn]. rewrite app_nil_r. f_equal. rewrite skipn_app, skipn_all2 by lia. replace (S (length l1) - length l1) with 1 by lia. reflexivity.
  - intros y. rewrite E, <- L. clear. induction l1 as [|z l1 IH]; [reflexivity|]. cbn. now rewrite IH.
Qed.

(* ---- without the pool ---- *)
Record uinv (s : rst) (tr : list rsev) : Prop := {
  u_ref : Forall (fun h => h_ref h = h_ser h) (r_hs s);
  u_len : length (r_objs s) = r_next s;
  u_obj : forall n, nth_error (r_objs s) n = content n tr
}.
Lemma u_step s tr l s' e : uinv s tr -> rs_step false s l = (s', e) -> uinv s' (tr ++ e) /\ Forall (true_to tr) e.
Proof.
  intros [R L O]. destruct l as [c m pick|i o|i|i|i|i|i put]; cbn [rs_step].
  - destruct (existsb (in_chain c) (r_hs s)); [intros [= <- <-]; rewrite app_nil_r; split; [now constructor|constructor]|]. cbn [rs_get]. intros [= <- <-]. split; [|repeat constructor]. constructor; cbn [r_hs r_objs r_next].
    + apply Forall_app. split; [exact R|]. constructor; [exact L|constructor].
    + rewrite app_length, L. cbn. lia.
    + intros n. rewrite content_app. cbn [fold_left content_step]. destruct (Nat.eqb_spec (r_next s) n) as [<-|N].
      * rewrite nth_error_app2, L, Nat.sub_diag by lia. reflexivity.
      * rewrite <- O. destruct (Compare_dec.lt_dec n (r_next s)) as [H|H]; [apply nth_error_app1; lia|]. rewrite nth_error_app2 by lia. destruct (n - length (r_objs s)) as [|q] eqn:Q; [lia|]. cbn. rewrite (proj2 (nth_error_None (r_objs s) n)) by lia. destruct q; reflexivity.
  - destruct (nth_error (r_hs s) i) as [h|] eqn:E; [|intros [= <- <-]; rewrite app_nil_r; split; [now constructor|constructor]]. assert (Eh : h_ref h = h_ser h) by (rewrite Forall_forall in R; apply R; eapply nth_error_In; eauto). rewrite Eh.
    destruct (phase_of (h_role h)) as [p|]; [|intros [= <- <-]; rewrite app_nil_r; split; [now constructor|constructor]]. destruct (nth_error (r_objs s) (h_ser h)) as [x|] eqn:X; [|intros [= <- <-]; rewrite app_nil_r; split; [now constructor|constructor]].
    assert (C : content (h_ser h) tr = Some x) by (rewrite <- O; exact X).
    destruct o as [|w|k]; intros [= <- <-].
    + split; [constructor; [exact R|exact L|]; intros n; rewrite content_app; cbn; apply O|]. constructor; [|constructor]. exists (ob_keys x). rewrite C. now destruct x.
    + split; [|repeat constructor]. constructor; cbn [r_hs r_objs r_next]; [exact R|now rewrite set_nth_length|]. intros n. rewrite content_app. cbn [fold_left content_step]. destruct (Nat.eqb_spec (h_ser h) n) as [<-|N].
      * rewrite C. cbn [option_map]. apply nth_error_set_nth_same. apply nth_error_Some. congruence.
      * rewrite nth_error_set_nth_other by exact N. apply O.
    + split; [constructor; [exact R|exact L|]; intros n; rewrite content_app; cbn; apply O|]. constructor; [|constructor]. exists x. auto.
  - destruct (nth_error (r_hs s) i) as [[[c n| | |] r ser]|] eqn:E; try (intros [= <- <-]; rewrite app_nil_r; split; [now constructor|constructor]).
    assert (Eh : r = ser) by (rewrite Forall_forall in R; apply (R (Holder (Chain c n) r ser)); eapply nth_error_In; eauto). destruct (drop_split _ _ _ E) as (l1 & l2 & El & _ & _ & Es). rewrite Es. intros [= <- <-]. split; [|repeat constructor]. rewrite El in R. apply Forall_app in R as (R1 & R2). inversion R2; subst.
    constructor; cbn [r_hs r_objs r_next]; [apply Forall_app; split; [apply Forall_app; split; [exact R1|constructor; [reflexivity|assumption]]|repeat constructor]|exact L|]. intros k. rewrite content_app. cbn. apply O.
  - destruct (nth_error (r_hs s) i) as [[[c n| | |] r ser]|] eqn:E; try (intros [= <- <-]; rewrite app_nil_r; split; [now constructor|constructor]).
    destruct (drop_split _ _ _ E) as (l1 & l2 & El & Ed & _ & _). rewrite Ed. intros [= <- <-]. rewrite app_nil_r. split; [|constructor]. rewrite El in R. apply Forall_app in R as (R1 & R2). inversion R2; subst. constructor; cbn [r_hs r_objs r_next]; [apply Forall_app; auto|exact L|exact O].
  - destruct (nth_error (r_hs s) i) as [[[c n| | |] r ser]|] eqn:E; try (intros [= <- <-]; rewrite app_nil_r; split; [now constructor|constructor]).
    destruct (drop_split _ _ _ E) as (l1 & l2 & El & _ & _ & Es). rewrite Es. intros [= <- <-]. rewrite app_nil_r. split; [|constructor]. rewrite El in R. apply Forall_app in R as (R1 & R2). inversion R2; subst. constructor; cbn [r_hs r_objs r_next]; [apply Forall_app; split; [exact R1|constructor; assumption]|exact L|exact O].
  - destruct (nth_error (r_hs s) i) as [[[c n| | |] r ser]|] eqn:E; try (intros [= <- <-]; rewrite app_nil_r; split; [now constructor|constructor]).
    assert (Eh : r = ser) by (rewrite Forall_forall in R; apply (R (Holder Running r ser)); eapply nth_error_In; eauto). intros [= <- <-]. rewrite app_nil_r. split; [|constructor]. constructor; cbn [r_hs r_objs r_next]; [apply Forall_app; split; [exact R|constructor; [exact Eh|constructor]]|exact L|exact O].
  - destruct (nth_error (r_hs s) i) as [[[c n| | |] r ser]|] eqn:E; try (intros [= <- <-]; rewrite app_nil_r; split; [now constructor|constructor]).
    destruct (drop_split _ _ _ E) as (l1 & l2 & El & Ed & _ & _). rewrite Ed. intros [= <- <-]. rewrite app_nil_r. split; [|constructor]. rewrite El in R. apply Forall_app in R as (R1 & R2). inversion R2; subst. constructor; cbn [r_hs r_objs r_next]; [apply Forall_app; auto|exact L|exact O].
Qed.
Lemma u_run ls : forall s tr, uinv s tr -> forall tr1 e tr2, snd (rs_run false s ls) = tr1 ++ e :: tr2 -> true_to (tr ++ tr1) e.
Proof.
  induction ls as [|l ls IH]; intros s tr U tr1 e tr2; cbn [rs_run]; [destruct tr1; discriminate|]. destruct (rs_step false s l) as [s1 e1] eqn:E. destruct (u_step _ _ _ _ _ U E) as (U1 & T). destruct (rs_run false s1 ls) as [s2 e2] eqn:E2. cbn [snd]. intros H.
  assert (A : e1 = [] \/ exists x, e1 = [x]).
  { clear - E. destruct l; cbn [rs_step] in E; repeat match type of E with context [match ?x with _ => _ end] => destruct x end; injection E as _ <-; eauto. }
  destruct A as [->|(x & ->)].
  - cbn [app] in H. rewrite app_nil_r in U1. apply (IH s1 tr U1 tr1 e tr2). now rewrite E2.
  - cbn [app] in H. destruct tr1 as [|y tr1]; injection H as -> H.
    + rewrite app_nil_r. now inversion T.
    + change (y :: tr1) with ([y] ++ tr1). rewrite app_assoc. apply (IH s1 (tr ++ [y]) U1 tr1 e tr2). now rewrite E2.
Qed.
Lemma u_new : uinv r_new [].
Proof. constructor; [constructor|reflexivity|]. intros [|n]; reflexivity. Qed.

(* ---- with the pool ---- *)
Definition live (h : holder) : bool := match h_role h with Chain _ 0 | Waiting | Running => true | _ => false end.
Definition lives (s : rst) := filter live (r_hs s).
Record pinv (s : rst) (tr : list rsev) : Prop := {
  p_obj : forall h, In h (lives s) -> nth_error (r_objs s) (h_ref h) = content (h_ser h) tr;
  p_nodup : NoDup (map h_ref (lives s) ++ r_pool s);
  p_lt : forall r, In r (map h_ref (lives s) ++ r_pool s) -> r < length (r_objs s);
  p_ser : NoDup (map h_ser (lives s));
  p_next : forall h, In h (r_hs s) -> h_ser h < r_next s;
  p_fresh : forall n, r_next s <= n -> content n tr = None;
  p_sent : forall h c n, In h (r_hs s) -> h_role h = Chain c (S n) -> In (h_ser h) (handed tr)
}.
Lemma filter_mid {A} (f : A -> bool) l1 x l2 : filter f (l1 ++ x :: l2) = filter f l1 ++ (if f x then [x] else []) ++ filter f l2.
Proof. rewrite filter_app. cbn [filter]. destruct (f x); reflexivity. Qed.

Lemma quiet_app a b : quiet (a ++ b) -> quiet a /\ quiet b.
Proof. intros Q. split; intros s w H; apply (Q s w), in_app_iff; auto. Qed.
Lemma ser_other (l1 l2 : list holder) h x : NoDup (map h_ser (l1 ++ h :: l2)) -> In x (l1 ++ l2) -> h_ser x <> h_ser h.
Proof.
  rewrite map_app. cbn [map]. intros N I E. apply NoDup_remove_2 in N. apply N. rewrite <- E, <- map_app. now apply in_map.
Qed.
Lemma ref_other (l1 l2 : list holder) pool h x : NoDup (map h_ref (l1 ++ h :: l2) ++ pool) -> In x (l1 ++ l2) -> h_ref x <> h_ref h.
Proof.
  intros N I E. rewrite map_app in N. cbn [map] in N. rewrite <- app_assoc in N. cbn [app] in N. apply NoDup_remove_2 in N. apply N. rewrite <- E, app_assoc, <- map_app. apply in_app_iff. left. now apply in_map.
Qed.

Lemma p_step s tr l s' e : pinv s tr -> rs_step true s l = (s', e) -> once (tr ++ e) -> quiet (tr ++ e) ->
  pinv s' (tr ++ e) /\ Forall (fun x => in_time x -> true_to tr x) e.
Proof.
  intros P. pose proof P as [O N L S X F T]. unfold once. rewrite handed_app.
  destruct l as [c m pick|i o|i|i|i|i|i put]; cbn [rs_step].
  - destruct (existsb (in_chain c) (r_hs s)); [intros [= <- <-]; rewrite (app_nil_r tr); split; [exact P|constructor]|].
    assert (G : forall objs pool r, rs_get true s c m pick = (objs, pool, r) ->
      nth_error objs r = Some (Ob c m []) /\ length (r_objs s) <= length objs /\ r < length objs /\ (forall x, In x (map h_ref (lives s) ++ pool) -> In x (map h_ref (lives s) ++ r_pool s) /\ x <> r) /\
      (forall x, In x (map h_ref (lives s)) -> nth_error objs x = nth_error (r_objs s) x) /\ NoDup (map h_ref (lives s) ++ pool)).
    { intros objs pool r. unfold rs_get. assert (New : forall objs pool r, (r_objs s ++ [Ob c m []], r_pool s, length (r_objs s)) = (objs, pool, r) ->
        nth_error objs r = Some (Ob c m []) /\ length (r_objs s) <= length objs /\ r < length objs /\ (forall x, In x (map h_ref (lives s) ++ pool) -> In x (map h_ref (lives s) ++ r_pool s) /\ x <> r) /\
        (forall x, In x (map h_ref (lives s)) -> nth_error objs x = nth_error (r_objs s) x) /\ NoDup (map h_ref (lives s) ++ pool)).
      { intros ? ? ? [= <- <- <-]. rewrite nth_error_app2, Nat.sub_diag, app_length by lia. cbn. split; [reflexivity|]. split; [lia|]. split; [lia|]. split; [|split; [|exact N]].
        - intros x I. split; [exact I|]. apply L in I. lia.
        - intros x I. apply nth_error_app1. apply L, in_app_iff. now left. }
      destruct pick as [j|]; [|apply New]. destruct (nth_error (r_pool s) j) as [q|] eqn:Q; [|apply New]. intros [= <- <- <-].
      destruct (drop_split _ _ _ Q) as (p1 & p2 & Ep & Ed & _ & _). rewrite Ed. rewrite Ep in N. assert (Lq : q < length (r_objs s)) by (apply L, in_app_iff; right; rewrite Ep; apply in_app_iff; right; now left).
      rewrite app_assoc in N. pose proof (NoDup_remove_1 _ _ _ N) as N1. pose proof (NoDup_remove_2 _ _ _ N) as N2. rewrite <- app_assoc in N1, N2.
      split; [now apply nth_error_set_nth_same|]. rewrite set_nth_length. split; [lia|]. split; [exact Lq|]. split; [|split; [|exact N1]].
      - intros x I. split; [|intros ->; exact (N2 I)]. rewrite Ep. rewrite !in_app_iff in *. cbn [In]. tauto.
      - intros x I. apply nth_error_set_nth_other. intros <-. apply N2, in_app_iff. now left. }
    destruct (rs_get true s c m pick) as [[objs pool] r] eqn:Eg. destruct (G _ _ _ eq_refl) as (G1 & G2 & G3 & G4 & G5 & G6). intros [= <- <-] _ _. split; [|repeat constructor]. unfold lives in *.
    constructor; cbn [r_hs r_objs r_next r_pool]; unfold lives; cbn [r_hs].
    + intros h I. rewrite filter_app, in_app_iff in I. rewrite content_app. cbn [fold_left content_step]. destruct I as [I|[<-|[]]].
      * rewrite G5 by now apply in_map. rewrite O by exact I. apply filter_In in I as (I & _). pose proof (X _ I). destruct (Nat.eqb_spec (r_next s) (h_ser h)); [lia|reflexivity].
      * cbn [h_ref h_ser]. now rewrite Nat.eqb_refl, G1.
    + rewrite filter_app, map_app, <- app_assoc. cbn. apply NoDup_Add with (a := r) (l := map h_ref (filter live (r_hs s)) ++ pool); [apply Add_app|]. split; [exact G6|]. intros I. destruct (G4 _ I) as (_ & C). now apply C.
    + intros x I. rewrite filter_app, map_app, <- app_assoc in I. cbn in I. rewrite !in_app_iff in I. cbn [In] in I. destruct (Nat.eq_dec x r) as [->|Nr]; [exact G3|]. assert (I2 : In x (map h_ref (filter live (r_hs s)) ++ pool)) by (rewrite in_app_iff; intuition congruence). apply G4 in I2 as (I2 & _). apply L in I2. lia.
    + rewrite filter_app, map_app. cbn. apply NoDup_Add with (a := r_next s) (l := map h_ser (filter live (r_hs s)) ++ []); [apply Add_app|]. rewrite app_nil_r. split; [exact S|]. intros I. apply in_map_iff in I as (h & Eh & I). apply filter_In in I as (I & _). apply X in I. lia.
    + intros h I. rewrite in_app_iff in I. destruct I as [I|[<-|[]]]; [apply X in I; lia|cbn; lia].
    + intros n Hn. rewrite content_app. cbn [fold_left content_step]. destruct (Nat.eqb_spec (r_next s) n); [lia|]. apply F. lia.
    + intros h c' n I E. rewrite handed_app. cbn. rewrite app_nil_r. rewrite in_app_iff in I. destruct I as [I|[<-|[]]]; [eapply T; eauto|discriminate].
  - destruct (nth_error (r_hs s) i) as [h|] eqn:E; [|intros [= <- <-]; rewrite (app_nil_r tr); split; [exact P|constructor]].
    destruct (phase_of (h_role h)) as [p|] eqn:Ep; [|intros [= <- <-]; rewrite (app_nil_r tr); split; [exact P|constructor]].
    destruct (nth_error (r_objs s) (h_ref h)) as [x|] eqn:Ex; [|intros [= <- <-]; rewrite (app_nil_r tr); split; [exact P|constructor]].
    assert (Lv : p <> After -> In h (lives s) /\ content (h_ser h) tr = Some x).
    { intros Np. assert (I : In h (lives s)) by (apply filter_In; split; [eapply nth_error_In; eauto|]; unfold live; destruct (h_role h) as [c [|n]| | |]; cbn in Ep; congruence). split; [exact I|]. rewrite <- O by exact I. exact Ex. }
    destruct o as [|w|k]; intros [= <- <-].
    + intros _ _. split.
      * constructor; auto; intros; rewrite ?content_app, ?handed_app; cbn; rewrite ?app_nil_r; eauto.
      * constructor; [|constructor]. cbn [in_time true_to]. intros Np. destruct (Lv ltac:(destruct p; congruence)) as (_ & C). exists (ob_keys x). rewrite C. now destruct x.
    + intros _ Q. assert (Np : p <> After) by (intros ->; apply (Q (h_ser h) w), in_app_iff; right; now left). destruct (Lv Np) as (I & C). split; [|repeat constructor].
      unfold lives in *. destruct (in_split _ _ I) as (l1 & l2 & El).
      assert (Lx : h_ref h < length (r_objs s)) by (apply nth_error_Some; congruence).
      constructor; cbn [r_hs r_objs r_next r_pool]; unfold lives; cbn [r_hs]; rewrite ?set_nth_length; auto.
      * intros h' I'. rewrite content_app. cbn [fold_left content_step]. assert (D : h' = h \/ In h' (l1 ++ l2)) by (rewrite El in I'; rewrite in_app_iff in *; cbn [In] in I'; intuition).
        destruct D as [->|D].
        -- rewrite Nat.eqb_refl, C. cbn [option_map]. now apply nth_error_set_nth_same.
        -- rewrite El in N, S. pose proof (ser_other _ _ _ _ S D) as Ns. pose proof (ref_other _ _ _ _ _ N D) as Nr. destruct (Nat.eqb_spec (h_ser h) (h_ser h')); [congruence|]. rewrite nth_error_set_nth_other by congruence. now apply O.
      * intros n Hn. rewrite content_app. cbn [fold_left content_step]. rewrite F by exact Hn. now destruct (Nat.eqb (h_ser h) n).
      * intros h' c' n I' E'. rewrite handed_app. cbn. rewrite app_nil_r. eauto.
    + intros _ _. split.
      * constructor; auto; intros; rewrite ?content_app, ?handed_app; cbn; rewrite ?app_nil_r; eauto.
      * constructor; [|constructor]. cbn [in_time true_to]. intros Np. destruct (Lv ltac:(destruct p; congruence)) as (_ & C). exists x. auto.
  - destruct (nth_error (r_hs s) i) as [[[c n| | |] r ser]|] eqn:E; try (intros [= <- <-]; rewrite (app_nil_r tr); split; [exact P|constructor]).
    destruct (drop_split _ _ _ E) as (l1 & l2 & El & _ & _ & Es). rewrite Es. intros [= <- <-]. cbn [handed flat_map app]. intros Q _. split; [|repeat constructor].
    assert (n = 0).
    { destruct n as [|n]; [reflexivity|exfalso]. apply NoDup_remove_2 in Q. apply Q. rewrite app_nil_r. apply (T (Holder (Chain c (Datatypes.S n)) r ser) c n); [eapply nth_error_In; eauto|reflexivity]. }
    subst n. unfold lives in *. rewrite El in *. rewrite filter_mid in *. cbn [live h_role] in *.
    assert (El2 : filter live ((l1 ++ Holder (Chain c 1) r ser :: l2) ++ [Holder Waiting r ser]) = filter live l1 ++ filter live l2 ++ [Holder Waiting r ser]) by (rewrite filter_app, filter_mid; cbn; now rewrite <- app_assoc).
    cbn [app] in *. constructor; cbn [r_hs r_objs r_next r_pool]; unfold lives; cbn [r_hs]; rewrite ?El2.
    + intros h I. rewrite content_app. cbn [fold_left content_step]. rewrite !in_app_iff in I. cbn [In] in I. destruct I as [I|[I|[<-|[]]]].
      * apply O. rewrite in_app_iff. now left.
      * apply O. rewrite in_app_iff. right. now right.
      * cbn [h_ref h_ser]. apply (O (Holder (Chain c 0) r ser)). rewrite in_app_iff. right. now left.
    + eapply Permutation_NoDup; [|exact N]. apply Permutation_app_tail. rewrite !map_app. apply Permutation_app_head. cbn [map h_ref]. apply Permutation_cons_append.
    + intros x I. apply L. rewrite !map_app, !in_app_iff in *. cbn [map In h_ref] in *. intuition.
    + eapply Permutation_NoDup; [|exact S]. rewrite !map_app. apply Permutation_app_head. cbn [map h_ser]. apply Permutation_cons_append.
    + intros h I. rewrite !in_app_iff in I. cbn [In] in I. specialize (X (Holder (Chain c 0) r ser)) as X0. cbn in X0. rewrite in_app_iff in X0. cbn [In] in X0.
      destruct I as [[I|[<-|I]]|[<-|[]]]; cbn [h_ser]; try (apply X0; right; now left); apply X; rewrite in_app_iff; cbn [In]; auto.
    + intros n Hn. rewrite content_app. cbn. now apply F.
    + intros h c' n I E'. rewrite handed_app, in_app_iff. cbn [handed flat_map app In]. rewrite !in_app_iff in I. cbn [In] in I.
      destruct I as [[I|[<-|I]]|[<-|[]]]; cbn [h_ser]; auto; left; eapply T; eauto; rewrite in_app_iff; cbn [In]; auto.
  - destruct (nth_error (r_hs s) i) as [[[c n| | |] r ser]|] eqn:E; try (intros [= <- <-]; rewrite (app_nil_r tr); split; [exact P|constructor]).
    destruct (drop_split _ _ _ E) as (l1 & l2 & El & Ed & _ & _). rewrite Ed. intros [= <- <-] _ _. rewrite app_nil_r. split; [|constructor].
    unfold lives in *. rewrite El in *. rewrite filter_mid in *.
    assert (Sub : forall x, In x (filter live l1 ++ filter live l2) -> In x (filter live l1 ++ (if live (Holder (Chain c n) r ser) then [Holder (Chain c n) r ser] else []) ++ filter live l2)) by (intros x; rewrite !in_app_iff; tauto).
    constructor; cbn [r_hs r_objs r_next r_pool]; unfold lives; cbn [r_hs]; rewrite ?filter_app; auto.
    + destruct (live (Holder (Chain c n) r ser)); [|exact N]. rewrite map_app, <- app_assoc in N. cbn [map app] in N. apply NoDup_remove_1 in N. now rewrite map_app, <- app_assoc.
    + intros x I. apply L. rewrite !in_app_iff, !map_app, !in_app_iff in *. tauto.
    + destruct (live (Holder (Chain c n) r ser)); [|exact S]. rewrite map_app in S. cbn [map app] in S. apply NoDup_remove_1 in S. now rewrite map_app.
    + intros h I. apply X. rewrite in_app_iff in *. cbn [In]. tauto.
    + intros h c' k I. apply T. rewrite in_app_iff in *. cbn [In]. tauto.
  - destruct (nth_error (r_hs s) i) as [[[c n| | |] r ser]|] eqn:E; try (intros [= <- <-]; rewrite (app_nil_r tr); split; [exact P|constructor]).
    destruct (drop_split _ _ _ E) as (l1 & l2 & El & _ & _ & Es). rewrite Es. intros [= <- <-] _ _. rewrite app_nil_r. split; [|constructor].
    unfold lives in *. rewrite El in *. rewrite filter_mid in *. cbn [live h_role app] in *.
    constructor; cbn [r_hs r_objs r_next r_pool]; unfold lives; cbn [r_hs]; rewrite ?filter_mid; cbn [live h_role app]; rewrite ?map_app in *; cbn [map h_ref h_ser] in *; auto.
    + intros h I. rewrite in_app_iff in I. cbn [In] in I. destruct I as [I|[<-|I]]; [apply O, in_app_iff; now left| |apply O, in_app_iff; right; now right]. apply (O (Holder Waiting r ser)), in_app_iff. right. now left.
    + intros h I. rewrite in_app_iff in I. cbn [In] in I. destruct I as [I|[<-|I]]; [apply X, in_app_iff; now left| |apply X, in_app_iff; right; now right]. apply (X (Holder Waiting r ser)), in_app_iff. right. now left.
    + intros h c' k I E'. rewrite in_app_iff in I. cbn [In] in I. destruct I as [I|[<-|I]]; [|discriminate|]; eapply T; eauto; apply in_app_iff; cbn [In]; auto.
  - destruct (nth_error (r_hs s) i) as [[[c n| | |] r ser]|] eqn:E; try (intros [= <- <-]; rewrite (app_nil_r tr); split; [exact P|constructor]).
    intros [= <- <-] _ _. rewrite app_nil_r. split; [|constructor].
    assert (El : filter live (r_hs s ++ [Holder Kept r ser]) = lives s) by (rewrite filter_app; cbn; apply app_nil_r).
    constructor; cbn [r_hs r_objs r_next r_pool]; auto; try (unfold lives; cbn [r_hs]; rewrite El; assumption).
    + intros h I. rewrite in_app_iff in I. destruct I as [I|[<-|[]]]; [now apply X|]. apply (X (Holder Running r ser)). eapply nth_error_In; eauto.
    + intros h c' k I E'. rewrite in_app_iff in I. destruct I as [I|[<-|[]]]; [eauto|discriminate].
  - destruct (nth_error (r_hs s) i) as [[[c n| | |] r ser]|] eqn:E; try (intros [= <- <-]; rewrite (app_nil_r tr); split; [exact P|constructor]).
    destruct (drop_split _ _ _ E) as (l1 & l2 & El & Ed & _ & _). rewrite Ed. intros [= <- <-] _ _. rewrite app_nil_r. split; [|constructor].
    unfold lives in *. rewrite El in *. rewrite filter_mid in *. cbn [live h_role app] in *.
    constructor; cbn [r_hs r_objs r_next r_pool]; unfold lives; cbn [r_hs]; rewrite ?filter_app; rewrite ?map_app in *; cbn [map h_ref h_ser] in *; auto.
    + intros h I. apply O. rewrite in_app_iff in *. cbn [In]. tauto.
    + rewrite <- app_assoc in N. cbn [app] in N. cbn [andb]. destruct put.
      * rewrite <- app_assoc. eapply Permutation_NoDup; [|exact N]. apply Permutation_app_head. apply Permutation_middle.
      * apply NoDup_remove_1 in N. now rewrite <- app_assoc.
    + intros x I. apply L. cbn [andb] in I. destruct put; rewrite !in_app_iff in *; cbn [In] in *; intuition.
    + apply NoDup_remove_1 in S. exact S.
    + intros h I. apply X. rewrite in_app_iff in *. cbn [In]. tauto.
    + intros h c' k I. apply T. rewrite in_app_iff in *. cbn [In]. tauto.
Qed.
Lemma p_new : pinv r_new [].
Proof. constructor; try constructor; cbn; try tauto; intros; tauto. Qed.
Lemma step_events pooled s l s' e : rs_step pooled s l = (s', e) -> e = [] \/ exists x, e = [x].
Proof.
  intros E. destruct l; cbn [rs_step] in E; repeat match type of E with context [match ?x with _ => _ end] => destruct x end; injection E as _ <-; eauto.
Qed.
Lemma p_run ls : forall s tr, pinv s tr -> once (tr ++ snd (rs_run true s ls)) -> quiet (tr ++ snd (rs_run true s ls)) ->
  forall tr1 e tr2, snd (rs_run true s ls) = tr1 ++ e :: tr2 -> in_time e -> true_to (tr ++ tr1) e.
Proof.
  induction ls as [|l ls IH]; intros s tr U; cbn [rs_run]; [intros _ _ tr1 e tr2; destruct tr1; discriminate|].
  destruct (rs_step true s l) as [s1 e1] eqn:E. destruct (rs_run true s1 ls) as [s2 e2] eqn:E2. cbn [snd]. rewrite app_assoc. intros O Q tr1 e tr2 H It.
  assert (O1 : once (tr ++ e1)).
  { unfold once in *. rewrite handed_app in O. clear - O. induction (handed (tr ++ e1)); [constructor|]. cbn in O. inversion O; subst. constructor; [|auto]. intros I. apply H1, in_app_iff. now left. }
  destruct (p_step _ _ _ _ _ U E O1 (proj1 (quiet_app _ _ Q))) as (U1 & T).
  specialize (IH s1 (tr ++ e1) U1). rewrite E2 in IH. cbn [snd] in IH. specialize (IH O Q).
  destruct (step_events _ _ _ _ _ E) as [->|(x & ->)].
  - cbn [app] in H. rewrite app_nil_r in IH. now apply (IH tr1 e tr2).
  - cbn [app] in H. destruct tr1 as [|y tr1]; injection H as -> H.
    + rewrite app_nil_r. inversion T; auto.
    + change (y :: tr1) with ([y] ++ tr1). rewrite app_assoc. now apply (IH tr1 e tr2).
Qed.

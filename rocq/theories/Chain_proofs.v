From Coq Require Import ZArith List Bool Lia.
From Verif Require Import Bytes Pack Chain Spec_Chain.
Import ListNotations.

Lemma started_app a b : started (a ++ b) = started a ++ started b.
Proof. apply flat_map_app. Qed.

(* Every started interceptor other than the one at [pos] was preceded by the
   start of its predecessor, and none below [pos] starts. *)
Definition ordered (pos : nat) (es : list event) : Prop :=
  forall es1 j r es2, es = es1 ++ Enter j r :: es2 ->
    pos <= j /\ (j = pos \/ exists j', j = S j' /\ In j' (started es1)).

Lemma ordered_nil pos : ordered pos [].
Proof. intros es1 j r es2 H. destruct es1; discriminate. Qed.

Lemma ordered_app pos a b : ordered pos a -> ordered pos b -> ordered pos (a ++ b).
Proof.
  intros Ha Hb es1 j r es2 H.
  destruct (app_eq_app _ _ _ _ H) as [q [[Hq1 Hq2]|[Hq1 Hq2]]].
  - (* a = es1 ++ q *)
    destruct q as [|e q].
    + rewrite app_nil_r in Hq1. subst a. cbn in Hq2. symmetry in Hq2.
      destruct (Hb [] j r es2 Hq2) as [H1 H2]. split; [exact H1|].
      destruct H2 as [H2|(j' & H2 & [])]. now left.
    + cbn in Hq2. injection Hq2 as He Hq2. subst e.
      destruct (Ha es1 j r q Hq1) as [H1 H2]. auto.
  - (* es1 = a ++ q *)
    subst es1. destruct (Hb q j r es2 Hq2) as [H1 H2]. split; [exact H1|].
    destruct H2 as [H2|(j' & H2 & Hin)]; [now left|].
    right. exists j'. split; [exact H2|]. rewrite started_app. apply in_or_app. now right.
Qed.

Lemma ordered_deliver pos q es : ordered pos es -> ordered pos (Deliver q :: es).
Proof.
  intros H. apply (ordered_app pos [Deliver q] es); [|exact H].
  intros es1 j r es2 E. destruct es1 as [|e [|]]; discriminate.
Qed.

Lemma ordered_run pos next a :
  (forall r, ordered pos (fst (next r))) -> ordered pos (fst (run_act next a)).
Proof.
  intros Hn. induction a as [r| |r k IH|q a IH]; cbn [run_act]; try apply ordered_nil.
  - specialize (Hn r). destruct (next r) as [es o]. destruct o as [v|]; [|exact Hn].
    specialize (IH v). destruct (run_act next (k v)) as [es' o']. cbn [fst] in *.
    now apply ordered_app.
  - destruct (run_act next a) as [es o]. cbn [fst] in *. now apply ordered_deliver.
Qed.

Lemma ordered_proceed rest : forall pos r, ordered pos (fst (proceed rest pos r)).
Proof.
  induction rest as [|ic rest IH]; intros pos r; cbn [proceed].
  - apply ordered_nil.
  - pose proof (ordered_run (S pos) (proceed rest (S pos)) (ic r) (IH (S pos))) as H.
    destruct (run_act (proceed rest (S pos)) (ic r)) as [es o]. cbn [fst] in *.
    intros es1 j r' es2 E. destruct es1 as [|e es1].
    + injection E as -> -> ->. split; [lia|now left].
    + cbn in E. injection E as <- E. destruct (H es1 j r' es2 E) as [H1 H2].
      split; [lia|]. right.
      destruct H2 as [->|(j' & -> & Hin)].
      * exists pos. split; [reflexivity|]. now left.
      * exists j'. split; [reflexivity|]. now right.
Qed.

Lemma chain_order ics r es1 j q es2 :
  fst (proceed ics 0 r) = es1 ++ Enter (S j) q :: es2 -> In j (started es1).
Proof.
  intros E. destruct (ordered_proceed ics 0 r es1 (S j) q es2 E) as [_ [H|(j' & H & Hin)]];
    [discriminate|]. injection H as <-. exact Hin.
Qed.

(* Positions started are below the length. *)
Lemma started_run (P : nat -> Prop) next a :
  (forall r, Forall P (started (fst (next r)))) -> Forall P (started (fst (run_act next a))).
Proof.
  intros Hn. induction a as [r| |r k IH|q a IH]; cbn [run_act]; try constructor.
  - specialize (Hn r). destruct (next r) as [es o]. destruct o as [v|]; [|exact Hn].
    specialize (IH v). destruct (run_act next (k v)) as [es' o']. cbn [fst] in *.
    rewrite started_app. now apply Forall_app.
  - destruct (run_act next a) as [es o]. cbn [fst] in *. exact IH.
Qed.

Lemma no_proceed_run next a : no_proceed a -> started (fst (run_act next a)) = [].
Proof.
  induction 1 as [r| |q a _ IH]; cbn [run_act]; try reflexivity.
  destruct (run_act next a) as [es o]. cbn [fst] in *. exact IH.
Qed.

Lemma chain_stop l1 ic l2 : (forall r, no_proceed (ic r)) ->
  forall pos r, Forall (fun j => j <= pos + length l1) (started (fst (proceed (l1 ++ ic :: l2) pos r))).
Proof.
  intros Hnp. induction l1 as [|i l1 IH]; intros pos r; cbn [app proceed length].
  - pose proof (no_proceed_run (proceed l2 (S pos)) (ic r) (Hnp r)) as H.
    destruct (run_act (proceed l2 (S pos)) (ic r)) as [es o]. cbn [fst] in *.
    change (started (Enter pos r :: es)) with (pos :: started es). rewrite H.
    constructor; [lia|constructor].
  - pose proof (started_run (fun j => j <= S pos + length l1) (proceed (l1 ++ ic :: l2) (S pos)) (i r) (IH (S pos))) as H.
    destruct (run_act _ (i r)) as [es o]. cbn [fst] in *.
    change (started (Enter pos r :: es)) with (pos :: started es).
    constructor; [lia|]. eapply Forall_impl; [|exact H]. cbv beta. intros. lia.
Qed.

(* Linear chains: full trace and response. *)
Lemma chain_linear bs : forall pos r,
  exists es, proceed (map interceptor_of bs) pos r = (es, Returned (response bs r)) /\
  es = map (fun p => Enter (fst p) (snd p))
         (combine (seq pos (length (requests_seen bs r))) (requests_seen bs r)).
Proof.
  induction bs as [|[f g|v] bs IH]; intros pos r; cbn [map proceed requests_seen response interceptor_of run_act].
  - exists []. split; reflexivity.
  - destruct (IH (S pos) (f r)) as (es & He & Hes). rewrite He.
    exists (Enter pos r :: es ++ []). rewrite app_nil_r. split; [reflexivity|].
    cbn [length seq combine map fst snd]. now rewrite <- Hes.
  - exists [Enter pos r]. split; reflexivity.
Qed.

Lemma builder_order gs :
  interceptors_of (fold_left register gs new_builder) = requested_order gs.
Proof.
  induction gs as [|g gs IH] using rev_ind; [reflexivity|].
  rewrite fold_left_app. cbn [fold_left].
  set (b := fold_left register gs new_builder) in *.
  assert (Hpart :
    opt_list (bd_head b) = last_of (fun g => match g with RHead i => Some i | _ => None end) gs /\
    bd_body b = added gs /\
    opt_list (bd_tail b) = last_of (fun g => match g with RTail i => Some i | _ => None end) gs).
  { subst b. clear IH. induction gs as [|g' gs IH] using rev_ind; [repeat split|].
    rewrite fold_left_app. cbn [fold_left]. destruct IH as (H1 & H2 & H3).
    unfold last_of, added in *. rewrite !flat_map_app, !rev_app_distr.
    destruct g'; cbn [register set_head set_tail add_interceptor bd_head bd_body bd_tail flat_map app rev opt_list];
      repeat split; rewrite ?app_nil_r; auto; now rewrite H2. }
  destruct Hpart as (H1 & H2 & H3). clear IH.
  unfold requested_order, interceptors_of, last_of, added in *.
  rewrite !flat_map_app, !rev_app_distr.
  destruct g; cbn [register set_head set_tail add_interceptor bd_head bd_body bd_tail flat_map app rev opt_list];
    rewrite ?app_nil_r, <- ?H1, <- ?H2, <- ?H3; cbn [opt_list app]; rewrite <- ?app_assoc; reflexivity.
Qed.

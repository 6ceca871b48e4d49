From Coq Require Import List Bool Arith Lia.
From Verif Require Import Bytes ShardMap Spec_Map ShardMap_proofs ShardConc Spec_Lin ShardConc_proofs PropMap Spec_PropMap.
Import ListNotations.

Section P.
Context {V : Type}.

Definition pmatches (c : nat) (p : ppc V) (l : list (@titem V)) : Prop :=
  exists pre, complete pre /\
  match p with
  | QCalled d o | QHold d o | QMade d o => l = pre ++ (if Nat.eqb d c then [TCall (as_map_call o)] else [])
  | QLeave d o r | QDone d o r =>
    l = pre ++ (if Nat.eqb d c then [TCall (as_map_call o); TPoint (as_map_call o) (as_map_answer o r)] else [])
  | _ => l = pre
  end.
Lemma pmatches_ok c p l : pmatches c p l -> thread_ok l.
Proof.
  intros (pre & C & H). destruct p; try (subst; rewrite <- (app_nil_r pre); apply complete_ok; [exact C|constructor]).
  all: destruct (Nat.eqb c0 c); rewrite H; apply complete_ok; try exact C; constructor.
Qed.

Definition holds (p : ppc V) (c : nat) : Prop :=
  match p with QHold d _ | QMade d _ | QLeave d _ _ => d = c | _ => False end.
(* The locks. *)
Record linv (s : pst V) : Prop := {
  pl_hold : forall t c, holds (pt_thr s t) c <-> pt_lock s c = Some t;
  pl_made : forall t c o, pt_thr s t = QMade c o -> pt_map s c <> None /\ exists k v, o = PSet k v;
  pl_panic : forall t, pt_thr s t <> QPanic
}.
Record pinv (c : nat) (s : pst V) (w : list (@item V)) : Prop := {
  pi_spec : exists a, a_calls a_empty (points w) a /\ forall k, gm_get k (props s c) = a k;
  pi_thr : forall t, pmatches c (pt_thr s t) (of_thread t w)
}.

Lemma upd_same {A} (f : nat -> A) i a : upd f i a i = a.
Proof. unfold upd. now rewrite Nat.eqb_refl. Qed.
Lemma upd_other {A} (f : nat -> A) i a j : j <> i -> upd f i a j = f j.
Proof. unfold upd. intros H. now rewrite (proj2 (Nat.eqb_neq _ _) H). Qed.

Lemma linv_move (s : pst V) t p mp lk : linv s ->
  (forall c, (holds p c <-> lk c = Some t)) ->
  (forall u c, u <> t -> (pt_lock s c = Some u <-> lk c = Some u)) ->
  (forall c, pt_map s c <> None -> mp c <> None) ->
  (forall c o, p = QMade c o -> mp c <> None /\ exists k v, o = PSet k v) -> p <> QPanic ->
  linv (Pst mp lk (upd (pt_thr s) t p)).
Proof.
  intros I H1 H2 H3 H4 H5. split; cbn [pt_thr pt_lock pt_map].
  - intros u c. destruct (Nat.eq_dec u t) as [->|N]; [rewrite upd_same; apply H1|]. rewrite upd_other by exact N.
    rewrite (pl_hold _ I). now apply H2.
  - intros u c o. destruct (Nat.eq_dec u t) as [->|N]; [rewrite upd_same; apply H4|]. rewrite upd_other by exact N.
    intros E. destruct (pl_made _ I _ _ _ E). auto.
  - intros u. destruct (Nat.eq_dec u t) as [->|N]; [now rewrite upd_same|]. rewrite upd_other by exact N. apply (pl_panic _ I).
Qed.
Lemma hold_same (s : pst V) t p : linv s -> (forall c, holds p c <-> holds (pt_thr s t) c) -> forall c, holds p c <-> pt_lock s c = Some t.
Proof. intros I H c. rewrite H. apply (pl_hold _ I). Qed.

Lemma upd_set {A} (f : nat -> option A) c x : forall d, f d <> None -> upd f c (Some x) d <> None.
Proof. intros d H. destruct (Nat.eq_dec d c) as [->|N]; [rewrite upd_same; discriminate|]. now rewrite upd_other. Qed.

Lemma step_linv (s : pst V) l : linv s -> linv (fst (prop_step s l)).
Proof.
  intros I. destruct l as [t c o|t]; cbn [prop_step].
  - destruct (pt_thr s t) eqn:Et; try exact I. apply linv_move; try tauto; try discriminate.
    apply (hold_same s t _ I). rewrite Et. cbn. tauto.
  - destruct (pt_thr s t) as [|c o|c o|c o|c o r|c o r|] eqn:Et; try exact I; cbn [fst].
    + destruct (pt_lock s c) as [u|] eqn:El; [exact I|]. apply linv_move; try tauto; try discriminate.
      * intros d. cbn. destruct (Nat.eq_dec d c) as [->|N]; [rewrite upd_same; tauto|]. rewrite upd_other by exact N.
        split; [congruence|]. intros H. apply (pl_hold _ I) in H. rewrite Et in H. destruct H.
      * intros u d N. destruct (Nat.eq_dec d c) as [->|N2]; [rewrite upd_same, El; split; congruence|]. now rewrite upd_other.
    + destruct o as [k v|k|k]; cbn [prop_body].
      * destruct (pt_map s c) as [g|] eqn:Em.
        -- apply linv_move; try tauto; try discriminate.
           ++ apply (hold_same s t _ I). rewrite Et. cbn. tauto.
           ++ intros d o [= <- <-]. split; [congruence|eauto].
        -- apply linv_move; try tauto; try discriminate.
           ++ apply (hold_same s t _ I). rewrite Et. cbn. tauto.
           ++ apply upd_set.
           ++ intros d o [= <- <-]. rewrite upd_same. split; [discriminate|eauto].
      * apply linv_move; try tauto; try discriminate. apply (hold_same s t _ I). rewrite Et. cbn. tauto.
      * destruct (pt_map s c) as [g|] eqn:Em; apply linv_move; try tauto; try discriminate; try apply upd_set;
          apply (hold_same s t _ I); rewrite Et; cbn; tauto.
    + destruct (pl_made _ I _ _ _ Et) as [Hm [k [v ->]]]. cbn [prop_write]. destruct (pt_map s c) as [g|] eqn:Em; [|congruence].
      apply linv_move; try tauto; try discriminate; try apply upd_set. apply (hold_same s t _ I). rewrite Et. cbn. tauto.
    + assert (El : pt_lock s c = Some t) by (apply (pl_hold _ I); rewrite Et; reflexivity).
      apply linv_move; try tauto; try discriminate.
      * intros d. cbn. destruct (Nat.eq_dec d c) as [->|N]; [rewrite upd_same; split; [tauto|discriminate]|]. rewrite upd_other by exact N.
        split; [tauto|]. intros H. apply (pl_hold _ I) in H. rewrite Et in H. cbn in H. congruence.
      * intros u d N. destruct (Nat.eq_dec d c) as [->|N2]; [rewrite upd_same, El; split; congruence|]. now rewrite upd_other.
    + apply linv_move; try tauto; try discriminate. apply (hold_same s t _ I). rewrite Et. cbn. tauto.
Qed.

(* A step that leaves c's map and w alone. *)
Lemma pinv_quiet c (s : pst V) w t p mp lk : pinv c s w -> mp c = pt_map s c \/ (mp c = Some [] /\ pt_map s c = None) ->
  pmatches c p (of_thread t w) -> pinv c (Pst mp lk (upd (pt_thr s) t p)) w.
Proof.
  intros [[a [Ha R]] T] Em Hp. split; cbn [pt_thr].
  - exists a. split; [exact Ha|]. intros k. rewrite <- R. unfold props; cbn [pt_map]. destruct Em as [->|[-> ->]]; reflexivity.
  - intros u. destruct (Nat.eq_dec u t) as [->|N]; [now rewrite upd_same|]. now rewrite upd_other.
Qed.
(* One that appends an item of t. *)
Lemma pinv_item c (s : pst V) w t p mp lk i : pinv c s w ->
  (forall u, u <> t -> of_thread u [i] = []) ->
  (exists a, a_calls a_empty (points (w ++ [i])) a /\ forall k, gm_get k (match mp c with Some g => g | None => [] end) = a k) ->
  pmatches c p (of_thread t w ++ of_thread t [i]) -> pinv c (Pst mp lk (upd (pt_thr s) t p)) (w ++ [i]).
Proof.
  intros [_ T] Hi Hs Hp. split; cbn [pt_thr].
  - exact Hs.
  - intros u. rewrite of_thread_app. destruct (Nat.eq_dec u t) as [->|N]; [now rewrite upd_same|]. rewrite upd_other, (Hi u N), app_nil_r by exact N. apply T.
Qed.
Lemma other_thread (t u : nat) (e : @item V) : match e with ItEv (CCall x _) | ItEv (CRet x _) | ItPoint x _ _ => x = t end -> u <> t -> of_thread u [e] = [].
Proof. intros H N. destruct e as [[x o|x r]|x o r]; subst x; cbn; rewrite (proj2 (Nat.eqb_neq t u)) by congruence; reflexivity. Qed.
Lemma own_thread (t : nat) (e : @item V) : of_thread t [e] =
  match e with
  | ItEv (CCall x o) => if Nat.eqb x t then [TCall o] else []
  | ItEv (CRet x r) => if Nat.eqb x t then [TRet r] else []
  | ItPoint x o r => if Nat.eqb x t then [TPoint o r] else []
  end.
Proof. destruct e as [[x o|x r]|x o r]; cbn; destruct (Nat.eqb x t); reflexivity. Qed.

(* A point of t on c. *)
Lemma pinv_point c (s : pst V) w t o r mp lk : pinv c s w ->
  (match pt_thr s t with QHold d o' | QMade d o' => d = c /\ o' = o | _ => False end) ->
  (forall a, (forall k, gm_get k (props s c) = a k) -> exists a1, a_call a (as_map_call o) (as_map_answer o r) a1 /\
     forall k, gm_get k (match mp c with Some g => g | None => [] end) = a1 k) ->
  pinv c (Pst mp lk (upd (pt_thr s) t (QLeave c o r))) (w ++ [ItPoint t (as_map_call o) (as_map_answer o r)]).
Proof.
  intros I Hp Hs. apply pinv_item; [exact I|intros u N; apply (other_thread t u); [reflexivity|exact N]|..].
  - destruct (pi_spec _ _ _ I) as [a [Ha R]]. destruct (Hs a R) as [a1 [Hc R1]]. exists a1. split; [|exact R1].
    rewrite points_app. eapply a_calls_snoc; eauto.
  - rewrite own_thread, Nat.eqb_refl. pose proof (pi_thr _ _ _ I t) as M. destruct M as (pre & C & H).
    exists pre. split; [exact C|]. rewrite Nat.eqb_refl.
    destruct (pt_thr s t) as [|d o'|d o'|d o'|d o' r'|d o' r'|]; try destruct Hp; subst; rewrite Nat.eqb_refl in H; rewrite H, <- app_assoc; reflexivity.
Qed.

Lemma a_del_nil (a : amap V) k : (forall x, None = a x) -> forall x, None = a_del a k x.
Proof. intros H x. unfold a_del. destruct (key_eqb k x); auto. Qed.

Lemma step_pinv c (s : pst V) w l : linv s -> pinv c s w ->
  exists w', pinv c (fst (prop_step s l)) (w ++ w') /\ history w' = on_conn c (snd (prop_step s l)).
Proof.
  intros L I. assert (Stay : exists w', pinv c s (w ++ w') /\ history w' = []) by (exists []; rewrite app_nil_r; auto).
  destruct l as [t d o|t]; cbn [prop_step].
  - destruct (pt_thr s t) eqn:Et; try exact Stay. cbn [fst snd on_conn flat_map]. pose proof (pi_thr _ _ _ I t) as M. rewrite Et in M. destruct M as (pre & C & H).
    destruct (Nat.eqb_spec d c) as [->|N].
    + exists [ItEv (CCall t (as_map_call o))]. split; [|reflexivity]. apply pinv_item; [exact I|intros u Nu; apply (other_thread t u); [reflexivity|exact Nu]|..].
      * rewrite points_app, app_nil_r. apply (pi_spec _ _ _ I).
      * rewrite own_thread, Nat.eqb_refl. exists pre. rewrite Nat.eqb_refl, H. auto.
    + exists []. rewrite app_nil_r. split; [|reflexivity]. apply pinv_quiet; [exact I|auto|]. exists pre.
      rewrite (proj2 (Nat.eqb_neq d c) N), app_nil_r. auto.
  - pose proof (pi_thr _ _ _ I t) as M. destruct (pt_thr s t) as [|d o|d o|d o|d o r|d o r|] eqn:Et; try exact Stay; cbn [fst snd].
    + destruct (pt_lock s d) as [u|] eqn:El; [exact Stay|]. exists []. rewrite app_nil_r. split; [|reflexivity]. apply pinv_quiet; [exact I|auto|exact M].
    + cbn [on_conn flat_map]. destruct (Nat.eq_dec d c) as [->|N].
      * destruct o as [k v|k|k]; cbn [prop_body].
        -- exists []. rewrite app_nil_r. split; [|reflexivity].
           destruct (pt_map s c) as [g|] eqn:Em; apply pinv_quiet; try exact I; try exact M; auto. right. now rewrite upd_same.
        -- eexists [ItPoint t _ _]. split; [|reflexivity]. apply pinv_point; [exact I|now rewrite Et|].
           intros a R. exists a. split; [|exact R]. cbn [as_map_call as_map_answer].
           replace (match match gm_get k (props s c) with Some v => PaVal v | None => PaNone end with PaVal v => RVal (Some v) | _ => RVal None end) with (RVal (a k)).
           ++ apply AOne. constructor.
           ++ rewrite <- R. destruct (gm_get k (props s c)); reflexivity.
        -- destruct (pt_map s c) as [g|] eqn:Em; eexists [ItPoint t _ _]; (split; [|reflexivity]); apply pinv_point; try exact I; try (now rewrite Et).
           ++ intros a R. exists (a_del a k). split; [apply AOne; constructor|]. intros x. rewrite upd_same, gm_get_del. unfold a_del.
              destruct (key_eqb k x); [reflexivity|]. rewrite <- R. unfold props. now rewrite Em.
           ++ intros a R. exists (a_del a k). split; [apply AOne; constructor|]. rewrite Em. apply a_del_nil. intros x. rewrite <- R. unfold props. now rewrite Em.
      * exists []. rewrite app_nil_r. split; [|reflexivity]. assert (Nc : Nat.eqb d c = false) by now apply Nat.eqb_neq. destruct M as (pre & C & H). rewrite Nc in H.
        destruct o as [k v|k|k]; cbn [prop_body]; [destruct (pt_map s d) eqn:Em|..|destruct (pt_map s d) eqn:Em];
          (apply pinv_quiet; [exact I|left; try (rewrite upd_other by congruence); reflexivity|exists pre; rewrite Nc; auto]).
    + cbn [on_conn flat_map]. destruct (pl_made _ L _ _ _ Et) as [Hm [k [v ->]]]. cbn [prop_write]. destruct (pt_map s d) as [g|] eqn:Em; [|congruence].
      destruct (Nat.eq_dec d c) as [->|N].
      * eexists [ItPoint t _ _]. split; [|reflexivity]. apply pinv_point; [exact I|now rewrite Et|].
        intros a R. exists (a_set a k v). split; [apply AOne; constructor|]. intros x. rewrite upd_same, gm_get_set. unfold a_set.
        destruct (key_eqb k x); [reflexivity|]. rewrite <- R. unfold props. now rewrite Em.
      * exists []. rewrite app_nil_r. split; [|reflexivity]. assert (Nc : Nat.eqb d c = false) by now apply Nat.eqb_neq. destruct M as (pre & C & H). rewrite Nc in H.
        apply pinv_quiet; [exact I|left; now rewrite upd_other by congruence|]. exists pre. rewrite Nc. auto.
    + exists []. rewrite app_nil_r. split; [|reflexivity]. apply pinv_quiet; [exact I|auto|exact M].
    + cbn [on_conn flat_map]. destruct M as (pre & C & H). destruct (Nat.eqb_spec d c) as [->|N].
      * exists [ItEv (CRet t (as_map_answer o r))]. split; [|reflexivity]. apply pinv_item; [exact I|intros u Nu; apply (other_thread t u); [reflexivity|exact Nu]|..].
        -- rewrite points_app, app_nil_r. apply (pi_spec _ _ _ I).
        -- rewrite own_thread, Nat.eqb_refl, H, <- app_assoc. eexists. split; [apply complete_snoc; exact C|reflexivity].
      * exists []. rewrite app_nil_r. split; [|reflexivity]. apply pinv_quiet; [exact I|auto|]. exists pre. rewrite app_nil_r in H. auto.
Qed.

Lemma linv_init : linv (@prop_init V).
Proof. split; cbn; intros; [split; [tauto|discriminate]|discriminate|discriminate]. Qed.
Lemma run_linv (ls : list (plabel V)) : forall s, linv s -> linv (fst (prop_run s ls)).
Proof.
  induction ls as [|l ls IH]; intros s I; [exact I|]. cbn. pose proof (step_linv s l I) as J. destruct (prop_step s l) as [s1 e1]. cbn in J.
  specialize (IH s1 J). destruct (prop_run s1 ls) as [s2 e2]. exact IH.
Qed.
Lemma on_conn_app c (a b : list (pev V)) : on_conn c (a ++ b) = on_conn c a ++ on_conn c b.
Proof. apply flat_map_app. Qed.
Lemma run_pinv c (ls : list (plabel V)) : forall s w, linv s -> pinv c s w ->
  exists w', pinv c (fst (prop_run s ls)) (w ++ w') /\ history w' = on_conn c (snd (prop_run s ls)).
Proof.
  induction ls as [|l ls IH]; intros s w L I; [exists []; rewrite app_nil_r; auto|]. cbn [prop_run].
  pose proof (step_linv s l L) as L1. destruct (step_pinv c s w l L I) as [w1 [I1 H1]]. destruct (prop_step s l) as [s1 e1]. cbn [fst snd] in L1, I1, H1.
  destruct (IH s1 _ L1 I1) as [w2 [I2 H2]]. destruct (prop_run s1 ls) as [s2 e2]. cbn [fst snd] in *.
  exists (w1 ++ w2). rewrite app_assoc, history_app, H1, H2, on_conn_app. auto.
Qed.
Lemma pinv_init c : pinv c (@prop_init V) [].
Proof.
  split; [exists a_empty; split; [constructor|reflexivity]|]. intros t. exists []. split; [constructor|reflexivity].
Qed.

Lemma run_app (s : pst V) a b : fst (prop_run s (a ++ b)) = fst (prop_run (fst (prop_run s a)) b).
Proof.
  revert s; induction a as [|l a IH]; intros s; [reflexivity|]. cbn. destruct (prop_step s l) as [s1 e1]. specialize (IH s1).
  destruct (prop_run s1 (a ++ b)); destruct (prop_run s1 a). exact IH.
Qed.
Lemma run_one (s : pst V) l ls : fst (prop_run s (l :: ls)) = fst (prop_run (fst (prop_step s l)) ls).
Proof. cbn. destruct (prop_step s l) as [s1 e1]. cbn. destruct (prop_run s1 ls). reflexivity. Qed.

(* Who holds a lock gives it up by itself; nobody else moves. *)
Lemma leave (s : pst V) t c : linv s -> holds (pt_thr s t) c ->
  exists n s', fst (prop_run s (repeat (PlStep t) n)) = s' /\ pt_thr s' t = QIdle /\ (forall u, u <> t -> pt_thr s' u = pt_thr s u) /\ pt_lock s' c = None.
Proof.
  intros L H.
  assert (D : forall (s : pst V) o r, pt_thr s t = QLeave c o r ->
    let s' := fst (prop_run s [PlStep t; PlStep t]) in pt_thr s' t = QIdle /\ (forall u, u <> t -> pt_thr s' u = pt_thr s u) /\ pt_lock s' c = None).
  { intros s0 o r E. cbv zeta. rewrite run_one. cbn [prop_step]. rewrite E. cbn [fst]. rewrite run_one. cbn [prop_step pt_thr]. rewrite upd_same.
    cbn. rewrite !upd_same. split; [reflexivity|]. split; [|reflexivity]. intros u N. now rewrite !upd_other. }
  assert (M : forall (s : pst V) o, linv s -> pt_thr s t = QMade c o ->
    let s' := fst (prop_run s [PlStep t; PlStep t; PlStep t]) in pt_thr s' t = QIdle /\ (forall u, u <> t -> pt_thr s' u = pt_thr s u) /\ pt_lock s' c = None).
  { intros s0 o L0 E. cbv zeta. rewrite run_one. cbn [prop_step]. rewrite E. cbn [fst]. destruct (pl_made _ L0 _ _ _ E) as [Hm [k [v ->]]]. cbn [prop_write].
    destruct (pt_map s0 c) as [g|]; [|congruence]. match goal with |- context [prop_run ?s1 _] => destruct (D s1 (PSet k v) PaUnit) as [D1 [D2 D3]] end.
    - cbn. apply upd_same.
    - split; [exact D1|]. split; [|exact D3]. intros u N. rewrite D2 by exact N. cbn. now rewrite upd_other. }
  destruct (pt_thr s t) as [|d o|d o|d o|d o r|d o r|] eqn:Et; try destruct H.
  - assert (B : exists p, pt_thr (prop_body s t d o) = upd (pt_thr s) t p /\ ((exists r, p = QLeave d o r) \/ p = QMade d o)).
    { destruct o as [k v|k|k]; cbn [prop_body]; [destruct (pt_map s d)|..|destruct (pt_map s d)]; eexists; (split; [reflexivity|eauto]). }
    assert (Eb : fst (prop_step s (PlStep t)) = prop_body s t d o) by (cbn [prop_step]; rewrite Et; reflexivity).
    pose proof (step_linv s (PlStep t) L) as L1. rewrite Eb in L1. destruct B as [p [E [[r ->]| ->]]].
    + exists 3, (fst (prop_run s (repeat (PlStep t) 3))). split; [reflexivity|]. cbn [repeat]. rewrite run_one, Eb.
      destruct (D _ o r (eq_trans (f_equal (fun f => f t) E) (upd_same _ _ _))) as [D1 [D2 D3]]. split; [exact D1|]. split; [|exact D3].
      intros u N. rewrite D2, E, upd_other by exact N. reflexivity.
    + exists 4, (fst (prop_run s (repeat (PlStep t) 4))). split; [reflexivity|]. cbn [repeat]. rewrite run_one, Eb.
      destruct (M _ o L1 (eq_trans (f_equal (fun f => f t) E) (upd_same _ _ _))) as [D1 [D2 D3]]. split; [exact D1|]. split; [|exact D3].
      intros u N. rewrite D2, E, upd_other by exact N. reflexivity.
  - exists 3, (fst (prop_run s (repeat (PlStep t) 3))). split; [reflexivity|]. exact (M s o L Et).
  - exists 2, (fst (prop_run s (repeat (PlStep t) 2))). split; [reflexivity|]. exact (D s o r Et).
Qed.
Lemma own_steps t n : Forall (fun l : plabel V => exists u, l = PlStep u) (repeat (PlStep t) n).
Proof. induction n; cbn; constructor; eauto. Qed.
Lemma can_return (s : pst V) t : linv s ->
  exists ls, Forall (fun l => exists u, l = PlStep u) ls /\ pt_thr (fst (prop_run s ls)) t = QIdle.
Proof.
  intros L. destruct (pt_thr s t) as [|d o|d o|d o|d o r|d o r|] eqn:Et.
  - exists []. auto.
  - assert (F : exists ls, Forall (fun l : plabel V => exists u, l = PlStep u) ls /\ let s' := fst (prop_run s ls) in
      pt_thr s' t = QCalled d o /\ pt_lock s' d = None /\ linv s').
    { destruct (pt_lock s d) as [u|] eqn:El; [|exists []; cbn; auto]. pose proof El as Hu. apply (pl_hold _ L) in Hu.
      destruct (leave s u d L Hu) as [n [s' [E [H1 [H2 H3]]]]]. exists (repeat (PlStep u) n). split; [apply own_steps|]. cbv zeta.
      split; [|split; [rewrite E; exact H3|apply run_linv; exact L]]. rewrite E, H2; [exact Et|]. intros ->. rewrite Et in Hu. destruct Hu. }
    destruct F as [l1 [O1 [T1 [K1 L1]]]]. set (s1 := fst (prop_run s l1)) in *.
    pose proof (step_linv s1 (PlStep t) L1) as L2. set (s2 := fst (prop_step s1 (PlStep t))) in *.
    assert (H2 : holds (pt_thr s2 t) d). { unfold s2. cbn [prop_step]. rewrite T1, K1. cbn. rewrite upd_same. reflexivity. }
    destruct (leave s2 t d L2 H2) as [n [s' [E [R1 _]]]]. exists (l1 ++ PlStep t :: repeat (PlStep t) n).
    split; [apply Forall_app; split; [exact O1|constructor; [eauto|apply own_steps]]|]. rewrite run_app, run_one. fold s1. fold s2. now rewrite E.
  - destruct (leave s t d L) as [n [s' [E [R1 _]]]]; [rewrite Et; reflexivity|]. exists (repeat (PlStep t) n). rewrite E. auto using own_steps.
  - destruct (leave s t d L) as [n [s' [E [R1 _]]]]; [rewrite Et; reflexivity|]. exists (repeat (PlStep t) n). rewrite E. auto using own_steps.
  - destruct (leave s t d L) as [n [s' [E [R1 _]]]]; [rewrite Et; reflexivity|]. exists (repeat (PlStep t) n). rewrite E. auto using own_steps.
  - exists [PlStep t]. split; [constructor; eauto|]. rewrite run_one. cbn [prop_step]. rewrite Et. cbn. apply upd_same.
  - exfalso. exact (pl_panic _ L t Et).
Qed.
End P.

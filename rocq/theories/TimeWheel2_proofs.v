(* At most once, never early, cancelled timers, no lost timers. *)
From Coq Require Import ZArith List Bool Lia Permutation ZifyBool.
From Verif Require Import Bytes TimeWheel Spec_TimeWheel TimeWheel_proofs.
Import ListNotations.
Local Open Scope Z_scope.

Lemma t_run_snoc s ls l : t_run s (ls ++ [l]) = t_step (t_run s ls) l.
Proof. unfold t_run. now rewrite fold_left_app. Qed.
Lemma t_run_app s a b : t_run s (a ++ b) = t_run (t_run s a) b.
Proof. unfold t_run. now rewrite fold_left_app. Qed.

Lemma fold_inv (P : sched -> Prop) s0 : P s0 -> (forall s l s', P s -> t_step1 s l = Some s' -> P s') -> forall ls, P (t_run s0 ls).
Proof.
  intros H0 Hs ls. revert s0 H0. induction ls as [|l ls IH]; intros s0 H0; [exact H0|]. cbn. apply IH. unfold t_step. destruct (t_step1 s0 l) eqn:E; [now apply (Hs _ _ _ H0 E)|exact H0].
Qed.

(* The log of created timers. *)
Definition made_ok (s : sched) : Prop :=
  s_idgen s = u32 (Z.of_nat (length (s_made s))) /\
  forall i e, nth_error (s_made s) i = Some e -> e_obj e = Z.of_nat i /\ e_id e = u32 (Z.of_nat i + 1).

Lemma made_step s l s' : made_ok s -> t_step1 s l = Some s' -> made_ok s'.
Proof.
  intros (H1 & H2) E.
  assert (Same : s_idgen s' = s_idgen s -> s_made s' = s_made s -> made_ok s') by (intros A B; unfold made_ok; now rewrite A, B).
  assert (C : forall due clock, create s due clock = Some s' -> made_ok s').
  { intros due clock. unfold create. destruct (s_cancel s); [discriminate|]. destruct (add_timer _ clock _) as [ws|]; [|discriminate]. intros [= <-].
    assert (U : u32 (s_idgen s + 1) = u32 (Z.of_nat (length (s_made s)) + 1)).
    { rewrite H1. unfold u32. now rewrite Zplus_mod_idemp_l. }
    unfold made_ok. cbn [s_idgen s_made]. split; [rewrite app_length; cbn [length]; rewrite U; f_equal; lia|].
    intros i e Hi. destruct (Nat.lt_ge_cases i (length (s_made s))) as [L|L]; [rewrite nth_error_app1 in Hi by exact L; now apply H2|].
    rewrite nth_error_app2 in Hi by exact L. destruct (i - length (s_made s))%nat as [|k] eqn:Ek; cbn in Hi; [|now destruct k].
    injection Hi as <-. cbn [e_obj e_id]. replace i with (length (s_made s)) by lia. auto. }
  destruct l; cbn [t_step1] in E; try (unfold with_wheels in E; destruct (at_wheel _ _ _); [|discriminate]; injection E as <-; now apply Same); try (now apply C in E).
  - destruct (s_cancel s); [discriminate|]. injection E as <-. now apply Same.
  - destruct (s_cancel s) as [[id k]|]; [|discriminate]. destruct (Nat.ltb _ _); [destruct (at_wheel _ _ _); [|discriminate]|]; injection E as <-; now apply Same.
  - destruct (s_polled s); [|discriminate]. destruct (poll_leaf _ _) as [[es ws]|]; [|discriminate]. injection E as <-. now apply Same.
  - destruct (take _ _) as [[x rest]|]; [|discriminate]. injection E as <-. now apply Same.
Qed.
Lemma made_new conf : made_ok (new_sched_of conf).
Proof. split; [reflexivity|]. intros i e H. now destruct i. Qed.
Lemma made_run conf ls : made_ok (t_run (new_sched_of conf) ls).
Proof. apply fold_inv; [apply made_new|apply made_step]. Qed.

Lemma made_obj_inj s e e' : made_ok s -> In e (s_made s) -> In e' (s_made s) -> e_obj e = e_obj e' -> e = e'.
Proof.
  intros (_ & H) I I' E. apply In_nth_error in I, I'. destruct I as (i & Ei), I' as (j & Ej).
  assert (i = j) by (apply H in Ei, Ej; lia). congruence.
Qed.
Lemma made_id_inj s e e' : made_ok s -> Z.of_nat (length (s_made s)) <= 2 ^ 32 -> In e (s_made s) -> In e' (s_made s) -> e_id e = e_id e' -> e = e'.
Proof.
  intros (_ & H) L I I' E. apply In_nth_error in I, I'. destruct I as (i & Ei), I' as (j & Ej).
  assert (i < length (s_made s))%nat by (apply nth_error_Some; congruence). assert (j < length (s_made s))%nat by (apply nth_error_Some; congruence).
  assert (i = j); [|congruence]. apply H in Ei, Ej. destruct Ei as (_ & Ei), Ej as (_ & Ej). rewrite E, Ej in Ei. unfold u32 in Ei.
  destruct (Z.eq_dec (Z.of_nat i + 1) (2 ^ 32)) as [X|X], (Z.eq_dec (Z.of_nat j + 1) (2 ^ 32)) as [Y|Y]; [lia| | |].
  - rewrite X, Z.mod_same, Z.mod_small in Ei by lia. lia.
  - rewrite Y, Z.mod_same, (Z.mod_small (Z.of_nat i + 1)) in Ei by lia. lia.
  - rewrite !Z.mod_small in Ei by lia. lia.
Qed.

(* Nothing is in two places. *)
Definition once (s : sched) : Prop := made_ok s /\ NoDup (map e_obj (everywhere s)) /\ (forall e, In e (everywhere s) -> In e (s_made s)).

Lemma nodup_app_l {A} (a b : list A) : NoDup (a ++ b) -> NoDup a.
Proof. induction a as [|x a IH]; [constructor|]. cbn. intros H. inversion H; subst. constructor; [intros X; apply H2; apply in_or_app; now left|auto]. Qed.

Lemma nodup_app_r {A} (a b : list A) : NoDup (a ++ b) -> NoDup b.
Proof. induction a as [|x a IH]; [auto|]. cbn. intros H. inversion H; subst. auto. Qed.

Lemma fresh_single s l s' : t_step1 s l = Some s' -> fresh_of s s' = [] \/ exists e, fresh_of s s' = [e] /\ e_obj e = Z.of_nat (length (s_made s)) /\ s_cancel s = None.
Proof.
  assert (SK : forall A (m : list A), skipn (length m) m = []) by (intros; apply skipn_all).
  assert (C : forall due clock, create s due clock = Some s' -> fresh_of s s' = [] \/ exists e, fresh_of s s' = [e] /\ e_obj e = Z.of_nat (length (s_made s)) /\ s_cancel s = None).
  { intros due clock. unfold create. destruct (s_cancel s); [discriminate|]. destruct (add_timer _ clock _) as [ws|]; [|discriminate]. intros [= <-].
    right. unfold fresh_of. cbn [s_made]. rewrite skipn_app, SK, Nat.sub_diag. eexists. split; [reflexivity|]. auto. }
  intros E. destruct l; cbn [t_step1] in E; try (unfold with_wheels in E; destruct (at_wheel _ _ _); [|discriminate]; injection E as <-; left; unfold fresh_of; cbn; apply SK); try (now apply C in E).
  - destruct (s_cancel s); [discriminate|]. injection E as <-. left. apply SK.
  - destruct (s_cancel s) as [[id k]|]; [|discriminate]. destruct (Nat.ltb _ _); [destruct (at_wheel _ _ _); [|discriminate]|]; injection E as <-; left; apply SK.
  - destruct (s_polled s); [|discriminate]. destruct (poll_leaf _ _) as [[es ws]|]; [|discriminate]. injection E as <-. left. apply SK.
  - destruct (take _ _) as [[x rest]|]; [|discriminate]. injection E as <-. left. apply SK.
Qed.

Lemma once_step s l s' : once s -> t_step1 s l = Some s' -> once s'.
Proof.
  intros (M & N & I) E. assert (M' := made_step s l s' M E). destruct (step_conserves s l s' E) as (lost & P & Em & _). split; [exact M'|].
  assert (N1 : NoDup (map e_obj (fresh_of s s' ++ everywhere s))).
  { destruct (fresh_single s l s' E) as [->|(e & -> & Eo & _)]; [exact N|]. cbn. constructor; [|exact N]. intros X. apply in_map_iff in X. destruct X as (y & Ey & Hy).
    apply I in Hy. apply In_nth_error in Hy. destruct Hy as (i & Hi). assert (i < length (s_made s))%nat by (apply nth_error_Some; congruence).
    destruct M as (_ & M). apply M in Hi. lia. }
  rewrite P, map_app in N1. split; [now apply nodup_app_l in N1|].
  intros e He. rewrite Em. assert (X : In e (fresh_of s s' ++ everywhere s)) by (rewrite P; apply in_or_app; now left).
  apply in_app_or in X. apply in_or_app. destruct X as [X|X]; [now right|left; now apply I].
Qed.
Lemma once_new conf : once (new_sched_of conf).
Proof.
  assert (Z : everywhere (new_sched_of conf) = []).
  { unfold everywhere, stored, new_sched_of. cbn. rewrite app_nil_r. induction conf as [|c conf IH]; [reflexivity|]. exact IH. }
  split; [apply made_new|]. rewrite Z. split; [constructor|contradiction].
Qed.
Lemma once_run conf ls : once (t_run (new_sched_of conf) ls).
Proof. apply fold_inv; [apply once_new|apply once_step]. Qed.

Lemma nodup_places x l : NoDup (map e_obj l) -> In x l -> places x l = 1%nat.
Proof.
  intros N I. apply in_split in I. destruct I as (a & b & ->). rewrite map_app in N. cbn in N. unfold places. rewrite filter_app. cbn. rewrite Z.eqb_refl.
  assert (F : forall c, (forall y, In y c -> In (e_obj y) (map e_obj a ++ map e_obj b)) -> filter (fun e => e_obj e =? e_obj x) c = []).
  { induction c as [|y c IH]; intros H; [reflexivity|]. cbn. destruct (Z.eqb_spec (e_obj y) (e_obj x)) as [Eq|]; [|apply IH; intros z Hz; apply H; now right].
    exfalso. apply NoDup_remove_2 in N. apply N. rewrite <- Eq. apply H. now left. }
  rewrite app_length. cbn [length]. rewrite (F a), (F b); [reflexivity| |].
  - intros y Hy. apply in_or_app. right. now apply in_map.
  - intros y Hy. apply in_or_app. left. now apply in_map.
Qed.

Lemma made_grows s l s' : t_step1 s l = Some s' -> exists x, s_made s' = s_made s ++ x.
Proof. intros E. destruct (step_conserves s l s' E) as (_ & _ & Em & _). eauto. Qed.
Lemma made_mono ls : forall s e, In e (s_made s) -> In e (s_made (t_run s ls)).
Proof.
  induction ls as [|l ls IH]; intros s e H; [exact H|]. cbn. apply IH. unfold t_step. destruct (t_step1 s l) as [s'|] eqn:E; [|exact H].
  destruct (made_grows _ _ _ E) as (x & ->). apply in_or_app. now left.
Qed.
Lemma made_bound ls : forall s, Z.of_nat (length (s_made (t_run s ls))) <= Z.of_nat (length (s_made s)) + creations ls.
Proof.
  induction ls as [|l ls IH]; intros s; [unfold creations; cbn; lia|]. cbn [t_run fold_left]. specialize (IH (t_step s l)). unfold t_run in IH.
  assert (X : Z.of_nat (length (s_made (t_step s l))) <= Z.of_nat (length (s_made s)) + (if is_create l then 1 else 0)).
  { unfold t_step. destruct (t_step1 s l) as [s'|] eqn:E; [|destruct (is_create l); lia]. destruct (made_grows _ _ _ E) as (x & Ex).
    destruct l; cbn [t_step1 is_create] in *; try (unfold with_wheels in E; destruct (at_wheel _ _ _); [|discriminate]; injection E as <-; cbn; lia).
    - unfold create in E. destruct (s_cancel s); [discriminate|]. destruct (add_timer _ clock _); [|discriminate]. injection E as <-. cbn. rewrite app_length. cbn. lia.
    - unfold create in E. destruct (s_cancel s); [discriminate|]. destruct (add_timer _ clock _); [|discriminate]. injection E as <-. cbn. rewrite app_length. cbn. lia.
    - destruct (s_cancel s); [discriminate|]. injection E as <-. cbn. lia.
    - destruct (s_cancel s) as [[id k]|]; [|discriminate]. destruct (Nat.ltb _ _); [destruct (at_wheel _ _ _); [|discriminate]|]; injection E as <-; cbn; lia.
    - destruct (s_polled s); [|discriminate]. destruct (poll_leaf _ _) as [[es ws]|]; [|discriminate]. injection E as <-. cbn. lia.
    - destruct (take _ _) as [[y rest]|]; [|discriminate]. injection E as <-. cbn. lia. }
  unfold creations in *. cbn [filter]. destruct (is_create l); cbn [length] in *; lia.
Qed.

(* A timer that is not being cancelled stays somewhere. *)
Lemma kept_step s l s' e : once s -> Z.of_nat (length (s_made s')) <= 2 ^ 32 -> t_step1 s l = Some s' ->
  (forall k, s_cancel s <> Some (e_id e, k)) -> (In e (s_made s) -> In e (everywhere s)) -> In e (s_made s') -> In e (everywhere s').
Proof.
  intros O L E Hc Hk He. assert (O' := once_step s l s' O E). destruct (step_conserves s l s' E) as (lost & P & Em & Hl).
  assert (X : In e (fresh_of s s' ++ everywhere s)).
  { rewrite Em in He. apply in_app_or in He. apply in_or_app. destruct He; auto. }
  rewrite P in X. apply in_app_or in X. destruct X as [X|X]; [exact X|].
  destruct Hl as [->|[(y & Hy & Hx)|(id & k & Ec & -> & Hx)]]; [contradiction| |].
  - specialize (Hx e X). unfold clash in Hx. destruct O' as (M' & N' & I').
    assert (Ey : In y (everywhere s')) by (unfold everywhere; apply in_or_app; now left).
    assert (e = y) by (apply (made_id_inj s'); auto). now subst y.
  - apply Hx in X. subst id. now destruct (Hc k).
Qed.

Lemma cancel_step s l s' : t_step1 s l = Some s' -> forall id k, s_cancel s' = Some (id, k) -> (exists k', s_cancel s = Some (id, k')) \/ l = CancelStart id.
Proof.
  intros E id k. destruct l; cbn [t_step1] in E; try (unfold with_wheels in E; destruct (at_wheel _ _ _); [|discriminate]; injection E as <-; cbn; eauto).
  - unfold create in E. destruct (s_cancel s); [discriminate|]. destruct (add_timer _ clock _); [|discriminate]. injection E as <-. discriminate.
  - unfold create in E. destruct (s_cancel s); [discriminate|]. destruct (add_timer _ clock _); [|discriminate]. injection E as <-. discriminate.
  - destruct (s_cancel s); [discriminate|]. injection E as <-. cbn. intros [= -> <-]. now right.
  - destruct (s_cancel s) as [[id0 k0]|]; [|discriminate]. destruct (Nat.ltb _ _); [destruct (at_wheel _ _ _); [|discriminate]|]; injection E as <-; cbn; [intros [= -> <-]; eauto|discriminate].
  - destruct (s_polled s); [|discriminate]. destruct (poll_leaf _ _) as [[es ws]|]; [|discriminate]. injection E as <-. cbn. eauto.
  - destruct (take _ _) as [[y rest]|]; [|discriminate]. injection E as <-. cbn. eauto.
Qed.

Lemma kept_run e : forall ls s, once s -> Z.of_nat (length (s_made s)) + creations ls <= 2 ^ 32 ->
  (In e (s_made s) -> In e (everywhere s) /\ forall k, s_cancel s <> Some (e_id e, k)) ->
  ~ In (CancelStart (e_id e)) ls -> In e (s_made (t_run s ls)) -> In e (everywhere (t_run s ls)).
Proof.
  induction ls as [|l ls IH]; intros s O L H Hn Hm; [now apply H|]. cbn [t_run fold_left] in *. fold (t_run (t_step s l) ls) in *.
  assert (L1 : Z.of_nat (length (s_made (t_step s l))) + creations ls <= 2 ^ 32).
  { assert (X := made_bound [l] s). cbn [t_run fold_left] in X. unfold creations in *. cbn [filter] in *. destruct (is_create l); cbn [length] in *; lia. }
  apply IH; auto.
  - unfold t_step. destruct (t_step1 s l) as [s'|] eqn:E; [|exact O]. now apply (once_step s l).
  - intros He. unfold t_step in He, L1 |- *. destruct (t_step1 s l) as [s'|] eqn:E; [|auto].
    assert (Hc : forall k, s_cancel s' <> Some (e_id e, k)).
    { intros k Ek. destruct (cancel_step s l s' E _ _ Ek) as [(k' & Ek')| ->]; [|apply Hn; now left].
      destruct (fresh_single s l s' E) as [F|(y & F & _ & Fc)]; [|congruence].
      destruct (step_conserves s l s' E) as (_ & _ & Em & _). rewrite Em, F, app_nil_r in He. destruct (H He) as (_ & X). now apply X in Ek'. }
    split; [|exact Hc].
    destruct (fresh_single s l s' E) as [F|(y & F & _ & Fc)].
    + destruct (step_conserves s l s' E) as (_ & _ & Em & _). rewrite Em, F, app_nil_r in He. destruct (H He) as (A & B).
      apply (kept_step s l s' e O ltac:(unfold creations in L1; lia) E B); auto. rewrite Em, F, app_nil_r. exact He.
    + apply (kept_step s l s' e O ltac:(unfold creations in L1; lia) E); auto.
      * intros k. rewrite Fc. discriminate.
      * intros X. now apply H.
  - intros X. apply Hn. now right.
Qed.

(* Never early. *)
Definition ripe (x : entry * Z) : Prop := e_due (fst x) - unix_milli (snd x) < 100.
Definition ripe_inv (s : sched) : Prop := (forall x, In x (s_polled s) -> ripe x) /\ (forall x, In x (s_sent s) -> ripe x).
Lemma poll_due now : forall ws es ws', poll_leaf now ws = Some (es, ws') -> forall e, In e es -> e_due e - now < 100.
Proof.
  induction ws as [|w lower IH]; intros es ws'; [discriminate|]. destruct lower as [|w2 lower].
  - cbn [poll_leaf]. destruct (idle w); [|discriminate]. unfold poll_wheel. intros [= <- <-] e He. apply filter_In in He. destruct He as (_ & He). unfold due_soon, within in He. lia.
  - change (poll_leaf now (w :: w2 :: lower)) with (match poll_leaf now (w2 :: lower) with Some (es, l) => Some (es, w :: l) | None => None end).
    destruct (poll_leaf now (w2 :: lower)) as [[es0 l]|] eqn:E; [|discriminate]. intros [= <- <-]. exact (IH _ _ eq_refl).
Qed.
Lemma ripe_step s l s' : ripe_inv s -> t_step1 s l = Some s' -> ripe_inv s'.
Proof.
  intros (A & B) E. destruct l; cbn [t_step1] in E; try (unfold with_wheels in E; destruct (at_wheel _ _ _); [|discriminate]; injection E as <-; split; assumption).
  - unfold create in E. destruct (s_cancel s); [discriminate|]. destruct (add_timer _ clock _); [|discriminate]. injection E as <-. split; assumption.
  - unfold create in E. destruct (s_cancel s); [discriminate|]. destruct (add_timer _ clock _); [|discriminate]. injection E as <-. split; assumption.
  - destruct (s_cancel s); [discriminate|]. injection E as <-. split; assumption.
  - destruct (s_cancel s) as [[id k]|]; [|discriminate]. destruct (Nat.ltb _ _); [destruct (at_wheel _ _ _); [|discriminate]|]; injection E as <-; split; assumption.
  - destruct (s_polled s); [|discriminate]. destruct (poll_leaf _ _) as [[es ws]|] eqn:Ep; [|discriminate]. injection E as <-. split; [|exact B].
    intros x Hx. cbn in Hx. apply in_map_iff in Hx. destruct Hx as (e & <- & He). exact (poll_due _ _ _ _ Ep e He).
  - destruct (take _ _) as [[y rest]|] eqn:Et; [|discriminate]. injection E as <-. apply take_perm in Et. cbn. split.
    + intros x Hx. apply A. rewrite Et. now right.
    + intros x Hx. apply in_app_or in Hx. destruct Hx as [Hx|[<-|[]]]; [now apply B|]. apply A. rewrite Et. now left.
Qed.
Lemma ripe_run conf ls : ripe_inv (t_run (new_sched_of conf) ls).
Proof. apply fold_inv; [split; contradiction|apply ripe_step]. Qed.

(* Timers only move down, into a poll's hands, into the channel. *)
Lemma slot_incl slot q : incl (in_slot slot q) (map snd q) /\ incl (map snd (out_slot slot q)) (map snd q).
Proof. split; intros x Hx; rewrite (slot_split slot q); apply in_or_app; auto. Qed.
Definition down (ws ws' : list wheel) : Prop := length ws' = length ws /\ forall i, incl (all_of (firstn i ws')) (all_of (firstn i ws)).
Lemma down_cons w ws ws' : down ws ws' -> down (w :: ws) (w :: ws').
Proof.
  intros (L & H). split; [cbn; lia|]. intros [|i]; cbn [firstn]; [intros x Hx; exact Hx|]. cbn. intros x Hx. apply in_app_or in Hx. apply in_or_app. destruct Hx as [Hx|Hx]; [now left|right; now apply (H i)].
Qed.
Lemma down_head w w' lower : incl (wheel_timers w') (wheel_timers w) -> down (w :: lower) (w' :: lower).
Proof.
  intros H. split; [reflexivity|]. intros [|i]; cbn [firstn]; [intros x Hx; exact Hx|]. cbn. intros x Hx. apply in_app_or in Hx. apply in_or_app. destruct Hx as [Hx|Hx]; [left; now apply H|now right].
Qed.
(* [add_timer] puts e in, at wheel level 0 or below. *)
Definition down_with (e : entry) (ws ws' : list wheel) : Prop := length ws' = length ws /\ forall i, incl (all_of (firstn i ws')) (e :: all_of (firstn i ws)).
Lemma put_incl w slot e : incl (wheel_timers (put w slot e)) (e :: wheel_timers w).
Proof. destruct (put_perm w slot e) as (lost & P & _). intros x Hx. rewrite P. apply in_or_app. now left. Qed.
Lemma put_down w slot e lower : down_with e (w :: lower) (put w slot e :: lower).
Proof.
  split; [reflexivity|]. intros [|i]; cbn [firstn]; [intros x []|]. cbn. intros x Hx. apply in_app_or in Hx. destruct Hx as [Hx|Hx].
  - apply put_incl in Hx. destruct Hx as [->|Hx]; [now left|right; apply in_or_app; now left].
  - right. apply in_or_app. now right.
Qed.
Lemma down_with_cons w e ws ws' : down_with e ws ws' -> down_with e (w :: ws) (w :: ws').
Proof.
  intros (L & H). split; [cbn; lia|]. intros [|i]; cbn [firstn]; [intros x []|]. cbn. intros x Hx. apply in_app_or in Hx. destruct Hx as [Hx|Hx].
  - right. apply in_or_app. now left.
  - apply (H i) in Hx. destruct Hx as [->|Hx]; [now left|right; apply in_or_app; now right].
Qed.
Lemma add_down : forall ws clock e ws', add_timer ws clock e = Some ws' -> down_with e ws ws'.
Proof.
  induction ws as [|w lower IH]; intros clock e ws'; cbn [add_timer]; [discriminate|]. destruct (idle w); [|discriminate].
  destruct (w_interval w <=? _); [intros [= <-]; apply put_down|]. destruct lower as [|w2 lower]; [intros [= <-]; apply put_down|].
  destruct (add_timer (w2 :: lower) (tl clock) e) as [l|] eqn:E; [|discriminate]. intros [= <-]. apply down_with_cons. exact (IH _ _ _ E).
Qed.
Lemma readd_down w lower clock e ws' : readd w lower clock e = Some ws' -> down_with e (w :: lower) ws'.
Proof.
  unfold readd. destruct (w_interval w <=? _); [intros [= <-]; apply put_down|]. destruct lower as [|w2 lower]; [intros [= <-]; apply put_down|].
  destruct (add_timer (w2 :: lower) (tl clock) e) as [l|] eqn:E; [|discriminate]. intros [= <-]. apply down_with_cons. exact (add_down _ _ _ _ E).
Qed.
Lemma move_down i clock w lower ws' : tick_move i clock w lower = Some ws' -> down (w :: lower) ws'.
Proof.
  assert (G : forall pend e rest p, pending w = pend -> take i pend = Some (e, rest) -> pending (with_queue w (w_queue w) p) = rest ->
    readd (with_queue w (w_queue w) p) lower clock e = Some ws' -> down (w :: lower) ws').
  { intros pend e rest p Hp Ht Hr H. apply readd_down in H. destruct H as (L & H). apply take_perm in Ht. split; [exact L|].
    assert (Ie : In e (wheel_timers w)) by (unfold wheel_timers; rewrite Hp, Ht; apply in_or_app; right; now left).
    assert (Ir : incl (wheel_timers (with_queue w (w_queue w) p)) (wheel_timers w)).
    { unfold wheel_timers at 1. rewrite Hr. cbn [w_queue with_queue]. unfold wheel_timers. rewrite Hp. intros x Hx. apply in_app_or in Hx. apply in_or_app. destruct Hx; [now left|right; rewrite Ht; now right]. }
    intros [|j] x Hx; [cbn in Hx; now destruct (firstn 0 ws')|]. apply (H (S j)) in Hx. cbn [firstn all_of flat_map] in *.
    destruct Hx as [<-|Hx]; [apply in_or_app; now left|]. apply in_app_or in Hx. apply in_or_app. destruct Hx; [left; now apply Ir|now right]. }
  unfold tick_move. destruct (w_phase w) as [|pend|pend] eqn:E; try discriminate; destruct (take i pend) as [[e rest]|] eqn:Et; try discriminate; intros H.
  - apply (G pend e rest (Curs rest)); auto. unfold pending. now rewrite E.
  - apply (G pend e rest (Nexts rest)); auto. unfold pending. now rewrite E.
Qed.
Lemma at_down f : (forall w lower ws', f w lower = Some ws' -> down (w :: lower) ws') ->
  forall ws k ws', at_wheel k f ws = Some ws' -> down ws ws'.
Proof.
  intros Hf. induction ws as [|w lower IH]; intros k ws'; [destruct k; discriminate|]. destruct k as [|k]; cbn [at_wheel]; [apply Hf|].
  destruct (at_wheel k f lower) as [l|] eqn:E; [|discriminate]. intros [= <-]. apply down_cons. exact (IH _ _ E).
Qed.
Lemma ow_down f : (forall w lower ws', f w lower = Some ws' -> exists w', ws' = w' :: lower /\ incl (wheel_timers w') (wheel_timers w)) ->
  forall ws k ws', at_wheel k f ws = Some ws' -> down ws ws'.
Proof. intros H. apply at_down. intros w lower ws' E. destruct (H _ _ _ E) as (w' & -> & I). now apply down_head. Qed.
Lemma start_down w lower ws' : tick_start w lower = Some ws' -> exists w', ws' = w' :: lower /\ incl (wheel_timers w') (wheel_timers w).
Proof.
  unfold tick_start. destruct (w_phase w) eqn:E; try discriminate. intros [= <-]. eexists. split; [reflexivity|]. destruct (slot_incl (w_cur w) (w_queue w)) as (A & B).
  intros x Hx. unfold wheel_timers in Hx. cbn in Hx. apply in_or_app. left. apply in_app_or in Hx. destruct Hx; auto.
Qed.
Lemma next_down w lower ws' : tick_next w lower = Some ws' -> exists w', ws' = w' :: lower /\ incl (wheel_timers w') (wheel_timers w).
Proof.
  unfold tick_next. destruct (w_phase w) as [|[|]|] eqn:E; try discriminate. intros [= <-]. eexists. split; [reflexivity|]. destruct (slot_incl (next_slot w) (w_queue w)) as (A & B).
  intros x Hx. unfold wheel_timers in Hx. cbn in Hx. apply in_or_app. left. apply in_app_or in Hx. destruct Hx; auto.
Qed.
Lemma end_down w lower ws' : tick_end w lower = Some ws' -> exists w', ws' = w' :: lower /\ incl (wheel_timers w') (wheel_timers w).
Proof.
  unfold tick_end. destruct (w_phase w) as [| |[|]] eqn:E; try discriminate. intros [= <-]. eexists. split; [reflexivity|].
  intros x Hx. unfold wheel_timers, pending in *. rewrite E. exact Hx.
Qed.
Lemma remove_down id w lower ws' : remove_timer id w lower = Some ws' -> exists w', ws' = w' :: lower /\ incl (wheel_timers w') (wheel_timers w).
Proof.
  unfold remove_timer. destruct (w_phase w) eqn:E; try discriminate. intros [= <-]. eexists. split; [reflexivity|].
  intros x Hx. unfold wheel_timers in Hx. cbn in Hx. rewrite app_nil_r in Hx. apply in_or_app. left. apply in_map_iff in Hx. destruct Hx as (y & <- & Hy). apply in_map. now apply filter_In in Hy.
Qed.
Lemma poll_down now : forall ws es ws', poll_leaf now ws = Some (es, ws') -> down ws ws'.
Proof.
  induction ws as [|w lower IH]; intros es ws'; [discriminate|]. destruct lower as [|w2 lower].
  - cbn [poll_leaf]. destruct (idle w); [|discriminate]. unfold poll_wheel. intros [= <- <-]. apply down_head. intros x Hx.
    unfold wheel_timers in *. change (pending (with_queue w _ (w_phase w))) with (pending w) in Hx. cbn [w_queue with_queue] in Hx. apply in_app_or in Hx. apply in_or_app.
    destruct Hx as [Hx|Hx]; [left|now right]. apply in_map_iff in Hx. destruct Hx as (y & <- & Hy). apply in_map. now apply filter_In in Hy.
  - change (poll_leaf now (w :: w2 :: lower)) with (match poll_leaf now (w2 :: lower) with Some (es, l) => Some (es, w :: l) | None => None end).
    destruct (poll_leaf now (w2 :: lower)) as [[es0 l]|] eqn:E; [|discriminate]. intros [= <- <-]. apply down_cons. exact (IH _ _ eq_refl).
Qed.

Lemma step_down s l s' : t_step1 s l = Some s' -> fresh_of s s' = [] -> down (s_wheels s) (s_wheels s').
Proof.
  assert (RF : down (s_wheels s) (s_wheels s)) by (split; [reflexivity|intros i x; auto]).
  assert (SK : forall A (m : list A), skipn (length m) m = []) by (intros; apply skipn_all).
  intros E F. destruct l; cbn [t_step1] in E.
  - destruct (at_wheel k tick_start (s_wheels s)) eqn:Ea; [|discriminate]. injection E as <-. cbn. exact (ow_down _ start_down _ _ _ Ea).
  - destruct (at_wheel k (tick_move i clock) (s_wheels s)) eqn:Ea; [|discriminate]. injection E as <-. cbn. exact (at_down _ (move_down i clock) _ _ _ Ea).
  - destruct (at_wheel k tick_next (s_wheels s)) eqn:Ea; [|discriminate]. injection E as <-. cbn. exact (ow_down _ next_down _ _ _ Ea).
  - destruct (at_wheel k tick_end (s_wheels s)) eqn:Ea; [|discriminate]. injection E as <-. cbn. exact (ow_down _ end_down _ _ _ Ea).
  - unfold create in E. destruct (s_cancel s); [discriminate|]. destruct (add_timer _ clock _); [|discriminate]. injection E as <-.
    unfold fresh_of in F. cbn [s_made] in F. rewrite skipn_app, SK, Nat.sub_diag in F. discriminate.
  - unfold create in E. destruct (s_cancel s); [discriminate|]. destruct (add_timer _ clock _); [|discriminate]. injection E as <-.
    unfold fresh_of in F. cbn [s_made] in F. rewrite skipn_app, SK, Nat.sub_diag in F. discriminate.
  - destruct (s_cancel s); [discriminate|]. injection E as <-. exact RF.
  - destruct (s_cancel s) as [[id k]|]; [|discriminate]. destruct (Nat.ltb _ _); [destruct (at_wheel k (remove_timer id) (s_wheels s)) eqn:Ea; [|discriminate]|]; injection E as <-; [|exact RF].
    exact (ow_down _ (remove_down id) _ _ _ Ea).
  - destruct (s_polled s); [|discriminate]. destruct (poll_leaf _ _) as [[es ws]|] eqn:Ep; [|discriminate]. injection E as <-. exact (poll_down _ _ _ _ Ep).
  - destruct (take _ _) as [[y rest]|]; [|discriminate]. injection E as <-. exact RF.
Qed.

(* The part of a cancel done so far. *)
Definition clean (id : Z) (k : nat) (s : sched) : Prop := forall x, In x (all_of (firstn k (s_wheels s))) -> e_id x <> id.
Definition scan_inv (s : sched) : Prop := forall id k, s_cancel s = Some (id, k) -> clean id k s.
Lemma scan_removes id : forall ws k ws', at_wheel k (remove_timer id) ws = Some ws' ->
  (forall x, In x (all_of (firstn k ws)) -> e_id x <> id) -> forall x, In x (all_of (firstn (S k) ws')) -> e_id x <> id.
Proof.
  induction ws as [|w lower IH]; intros k ws'; [destruct k; discriminate|]. destruct k as [|k]; cbn [at_wheel].
  - unfold remove_timer. destruct (w_phase w) eqn:E; try discriminate. intros [= <-] _ x Hx. cbn in Hx. rewrite app_nil_r in Hx. unfold wheel_timers in Hx. cbn in Hx.
    rewrite app_nil_r in Hx. apply in_map_iff in Hx. destruct Hx as (y & <- & Hy). apply filter_In in Hy. lia.
  - destruct (at_wheel k (remove_timer id) lower) as [l|] eqn:E; [|discriminate]. intros [= <-] H x Hx. cbn [firstn all_of flat_map] in *. apply in_app_or in Hx. destruct Hx as [Hx|Hx].
    + apply H. apply in_or_app. now left.
    + apply (IH k l E); [|exact Hx]. intros y Hy. apply H. apply in_or_app. now right.
Qed.
Lemma scan_step s l s' : scan_inv s -> t_step1 s l = Some s' -> scan_inv s'.
Proof.
  intros H E id k Ec. assert (Keep : s_cancel s = Some (id, k) -> clean id k s').
  { intros X. destruct (fresh_single s l s' E) as [F|(y & F & _ & Fc)]; [|congruence]. destruct (step_down s l s' E F) as (_ & D). intros x Hx. apply D in Hx. now apply (H id k X). }
  destruct l; cbn [t_step1] in E; try (unfold with_wheels in E; destruct (at_wheel _ _ _); [|discriminate]; injection E as <-; cbn in Ec; now apply Keep).
  - unfold create in E. destruct (s_cancel s); [discriminate|]. destruct (add_timer _ clock _); [|discriminate]. injection E as <-. discriminate.
  - unfold create in E. destruct (s_cancel s); [discriminate|]. destruct (add_timer _ clock _); [|discriminate]. injection E as <-. discriminate.
  - destruct (s_cancel s); [discriminate|]. injection E as <-. cbn in Ec. injection Ec as <- <-. intros x [].
  - destruct (s_cancel s) as [[id0 k0]|] eqn:Es; [|discriminate]. destruct (Nat.ltb _ _); [destruct (at_wheel k0 (remove_timer id0) (s_wheels s)) eqn:Ea; [|discriminate]|]; injection E as <-; cbn in Ec; [|discriminate].
    injection Ec as -> <-. intros x Hx. cbn in Hx. exact (scan_removes id _ _ _ Ea (H id k0 Es) x Hx).
  - destruct (s_polled s); [|discriminate]. destruct (poll_leaf _ _) as [[es ws]|]; [|discriminate]. injection E as <-. cbn in Ec. now apply Keep.
  - destruct (take _ _) as [[y rest]|]; [|discriminate]. injection E as <-. cbn in Ec. now apply Keep.
Qed.
Lemma scan_run conf ls : scan_inv (t_run (new_sched_of conf) ls).
Proof. apply fold_inv; [discriminate|apply scan_step]. Qed.

Lemma stored_down ws ws' : down ws ws' -> incl (all_of ws') (all_of ws).
Proof. intros (L & H). specialize (H (length ws)). rewrite <- L in H at 1. now rewrite !firstn_all in H. Qed.

(* After the cancel: the timers with that ID made before it are no longer in the wheels. *)
Lemma cancelled_gone conf ls id k s1 : s_cancel (t_run (new_sched_of conf) ls) = Some (id, k) ->
  t_step1 (t_run (new_sched_of conf) ls) CancelScan = Some s1 -> s_cancel s1 = None -> forall x, In x (stored s1) -> e_id x <> id.
Proof.
  intros Ec E En x Hx. assert (S := scan_run conf ls id k Ec). cbn [t_step1] in E. rewrite Ec in E.
  destruct (Nat.ltb_spec k (length (s_wheels (t_run (new_sched_of conf) ls)))) as [L|L]; [destruct (at_wheel _ _ _); [|discriminate]; injection E as <-; discriminate|].
  injection E as <-. apply S. rewrite firstn_all2 by exact L. exact Hx.
Qed.

Lemma flow_step s l s' : t_step1 s l = Some s' ->
  incl (stored s') (fresh_of s s' ++ stored s) /\ incl (taken s') (stored s ++ taken s) /\ incl (handed s') (taken s ++ handed s).
Proof.
  intros E. assert (I0 : incl (stored s') (fresh_of s s' ++ stored s)).
  { destruct (fresh_single s l s' E) as [F|(e & F & _ & Fc)].
    - rewrite F. apply stored_down. now apply (step_down s l).
    - assert (C : forall due clock, create s due clock = Some s' -> incl (stored s') (fresh_of s s' ++ stored s)).
      { intros due clock. unfold create. rewrite Fc. destruct (add_timer _ clock _) as [ws|] eqn:Ea; [|discriminate]. intros [= <-]. unfold fresh_of. cbn [s_made].
        rewrite skipn_app, skipn_all, Nat.sub_diag. cbn [skipn app]. apply add_perm in Ea. destruct Ea as (lost & P & _). intros x Hx. unfold stored in *. cbn in Hx.
        fold (all_of ws) in Hx. fold (all_of (s_wheels s)). rewrite P. apply in_or_app. now left. }
      assert (SK : forall A (m : list A), skipn (length m) m = []) by (intros; apply skipn_all).
      destruct l; cbn [t_step1] in E; try (unfold with_wheels in E; destruct (at_wheel _ _ _); [|discriminate]; injection E as <-; unfold fresh_of in F; cbn in F; rewrite SK in F; discriminate); try (now apply C in E).
      + rewrite Fc in E. injection E as <-. unfold fresh_of in F. cbn in F. rewrite SK in F. discriminate.
      + now rewrite Fc in E.
      + destruct (s_polled s); [|discriminate]. destruct (poll_leaf _ _) as [[es ws]|]; [|discriminate]. injection E as <-. unfold fresh_of in F. cbn in F. rewrite SK in F. discriminate.
      + destruct (take _ _) as [[y rest]|]; [|discriminate]. injection E as <-. unfold fresh_of in F. cbn in F. rewrite SK in F. discriminate. }
  split; [exact I0|].
  assert (Same : s_polled s' = s_polled s -> s_sent s' = s_sent s -> incl (taken s') (stored s ++ taken s) /\ incl (handed s') (taken s ++ handed s)).
  { intros A B. unfold taken, handed. rewrite A, B. split; intros x Hx; apply in_or_app; now right. }
  destruct l; cbn [t_step1] in E; try (unfold with_wheels in E; destruct (at_wheel _ _ _); [|discriminate]; injection E as <-; now apply Same).
  - unfold create in E. destruct (s_cancel s); [discriminate|]. destruct (add_timer _ clock _); [|discriminate]. injection E as <-. now apply Same.
  - unfold create in E. destruct (s_cancel s); [discriminate|]. destruct (add_timer _ clock _); [|discriminate]. injection E as <-. now apply Same.
  - destruct (s_cancel s); [discriminate|]. injection E as <-. now apply Same.
  - destruct (s_cancel s) as [[id k]|]; [|discriminate]. destruct (Nat.ltb _ _); [destruct (at_wheel _ _ _); [|discriminate]|]; injection E as <-; now apply Same.
  - destruct (s_polled s) eqn:Ep0; [|discriminate]. destruct (poll_leaf _ _) as [[es ws]|] eqn:Ep; [|discriminate]. injection E as <-. apply poll_perm in Ep. unfold taken, handed, stored. cbn. rewrite map_map. cbn. rewrite map_id. split.
    + intros x Hx. apply in_or_app. left. fold (all_of (s_wheels s)). rewrite Ep. apply in_or_app. now right.
    + intros x Hx. apply in_or_app. now right.
  - destruct (take _ _) as [[y rest]|] eqn:Et; [|discriminate]. injection E as <-. apply take_perm in Et. unfold taken, handed. cbn. split.
    + intros x Hx. apply in_or_app. right. rewrite (Permutation_map fst Et). now right.
    + rewrite map_app. intros x Hx. apply in_app_or in Hx. apply in_or_app. destruct Hx as [Hx|[<-|[]]]; [now right|left]. rewrite (Permutation_map fst Et). now left.
Qed.

(* A timer of the log that is not in the wheels never comes back. *)
Lemma gone_run e : forall ls s, once s -> In e (s_made s) -> ~ In e (stored s) ->
  ~ In e (stored (t_run s ls)) /\ (In e (handed (t_run s ls)) -> In e (taken s) \/ In e (handed s)).
Proof.
  induction ls as [|l ls IH]; intros s O Hm Hn; [auto|]. change (t_run s (l :: ls)) with (t_run (t_step s l) ls). assert (St : t_step s l = match t_step1 s l with Some x => x | None => s end) by reflexivity. rewrite St. clear St. destruct (t_step1 s l) as [s'|] eqn:E; [|now apply IH].
  destruct (flow_step s l s' E) as (F1 & F2 & F3).
  assert (Nf : ~ In e (fresh_of s s')).
  { destruct (fresh_single s l s' E) as [->|(y & -> & Ey & _)]; [auto|]. intros [->|[]]. apply In_nth_error in Hm. destruct Hm as (i & Hi).
    assert (i < length (s_made s))%nat by (apply nth_error_Some; congruence). destruct O as ((_ & M) & _). apply M in Hi. lia. }
  assert (Hn' : ~ In e (stored s')) by (intros X; apply F1 in X; apply in_app_or in X; tauto).
  destruct (made_grows _ _ _ E) as (x & Ex).
  destruct (IH s' (once_step _ _ _ O E)) as (A & B); [rewrite Ex; apply in_or_app; now left|exact Hn'|].
  split; [exact A|]. intros H. destruct (B H) as [X|X].
  - apply F2 in X. apply in_app_or in X. tauto.
  - apply F3 in X. apply in_app_or in X. tauto.
Qed.

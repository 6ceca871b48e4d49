(* C35 on infinite executions of a websocket: the lock comes free, and the writer writes. *)
From Coq Require Import List Bool Arith Lia ZifyBool ZifyNat.
From Verif Require Import Bytes GoSlice SendQueue Spec_Send SendLocked Spec_SendLocked SendLocked_proofs SendLocked2_proofs SendLocked3_proofs SendLocked4_proofs Spec_Fair Spec_FairWs SendFair_proofs.
Import ListNotations.
Local Arguments Nat.ltb : simpl never.
Local Arguments Nat.max : simpl never.
Local Arguments wired : simpl never.

Definition vrank (s : lst) : nat :=
  match l_writers s with
  | [] => 6
  | [VSelect] => 5
  | [VWait _] => 4
  | [VAcq _ _] => 3
  | [VClosed _ _] => 2
  | _ => 1
  end.
Definition wr (s : lst) : list (nat * msg) := wired true (l_wire s).

(* What a step by a sender, a call or anything but the writer leaves alone. *)
Lemma other_ws c s tr l : both s tr -> fine_l l -> (forall i ch o, l <> MWriter i ch o) ->
  let s' := fst (l_step c Ws s l) in wr s' = wr s /\ vrank s' <= vrank s.
Proof.
  intros [W V] F NW. unfold l_step. rewrite (lv_crash _ V). unfold wr, vrank.
  destruct l as [ | |t a m|t ch o|i ch o|]; cbn in F; try contradiction; cbn zeta.
  - cbn. auto.
  - destruct (l_send s t); try (cbn; auto; fail). destruct a; cbn; auto.
  - destruct o; [|contradiction]. unfold lsend_step. rewrite (lv_closed _ V), (lv_broken _ V).
    assert (R : forall x s1, l_wire (release s1 x) = l_wire s1 /\ l_writers (release s1 x) = l_writers s1) by (intros x s1; unfold release; destruct (l_excl s1); auto).
    destruct (l_send s t) eqn:Es.
    + cbn. auto.
    + destruct (take Ws s (OSend t)) eqn:Et; [|cbn; auto]. apply ws_take in Et as (-> & _). cbn. auto.
    + destruct (l_field s); cbn; auto.
    + cbn. auto.
    + cbn. split; [reflexivity|]. destruct lk.
      * destruct (wi_go _ _ W t m Es) as (_ & ->). cbn. lia.
      * pose proof (sf_lk _ _ (wi_safe _ _ W) t) as Q. rewrite Es in Q. discriminate.
    + cbn. auto.
    + cbn. auto.
    + destruct ch; cbn; auto.
      * destruct lk; cbn; auto. destruct (R (OSend t) s) as [-> ->]. auto.
      * destruct i as [k|]; cbn; auto. destruct (chan_at s k) as [[q [|]]|]; cbn; auto.
        -- destruct lk; cbn; auto. destruct (R (OSend t) s) as [-> ->]. auto.
        -- destruct (length q <? max 1 c); cbn; auto. destruct lk; cbn; auto.
           match goal with |- context [release ?s1 ?x] => destruct (R x s1) as [-> ->] end. cbn. auto.
    + destruct (take Ws s (OSend t)) eqn:Et; [|cbn; auto]. apply ws_take in Et as (-> & _). cbn. auto.
    + cbn. auto.
    + cbn. match goal with |- context [release ?s1 ?x] => destruct (R x s1) as [-> ->] end. cbn. rewrite wired_snoc. cbn. rewrite app_nil_r. auto.
  - exfalso. eapply NW. reflexivity.
  - unfold lfinal_step. rewrite (lv_final _ V), (lv_cancel _ V). auto.
Qed.

(* The writer's own steps. *)
Lemma writer_ws c s tr i ch : both s tr -> let s' := fst (l_step c Ws s (MWriter i ch NetOk)) in
  length (wr s) < length (wr s') \/ (wr s' = wr s /\ vrank s' <= vrank s).
Proof.
  intros [W V]. unfold l_step. rewrite (lv_crash _ V). unfold lwriter_step. cbn zeta. destruct (nth_error (l_writers s) i) as [v|] eqn:Ev; [|cbn; auto].
  destruct (one_writer s tr i v W Ev) as [-> Hw]. destruct (lv_writer _ V v) as [Vg Vk]; [rewrite Hw; now left|]. unfold wr, vrank.
  destruct v; cbn [fst]; try (now elim Vg).
  - rewrite (sf_ctx _ _ (wi_safe _ _ W)). cbn. rewrite Hw. cbn. right. split; [reflexivity|lia].
  - right. rewrite (lv_cancel _ V). destruct ch; cbn; auto. destruct i as [j|]; cbn; auto. destruct (chan_at s j) as [[[|[t m] q] [|]]|] eqn:Ec; cbn; auto; rewrite Hw; cbn; auto.
    assert (X : flate (l_final s) = true) by (eapply (sf_cl _ _ (wi_safe _ _ W)); exact Ec). rewrite (lv_final _ V) in X. discriminate.
  - destruct (take Ws s (OWriter 0)) eqn:Et; [|cbn; auto]. apply ws_take in Et as (-> & _). cbn. rewrite Hw. cbn. right. split; [reflexivity|lia].
  - rewrite (lv_closed _ V). cbn. rewrite Hw. cbn. right. split; [reflexivity|lia].
  - rewrite (lv_broken _ V). cbn. left. unfold release. cbn. destruct (l_excl s); cbn; rewrite wired_snoc; cbn; rewrite app_length; cbn; lia.
Qed.
Lemma any_ws c s tr l : both s tr -> fine_l l -> let s' := fst (l_step c Ws s l) in
  length (wr s) < length (wr s') \/ (wr s' = wr s /\ vrank s' <= vrank s).
Proof.
  intros B F. destruct l as [ | |t a m|t ch o|i ch o|]; try (right; apply (other_ws c s tr _ B F); intros; discriminate).
  destruct o; [|contradiction]. now apply (writer_ws c s tr).
Qed.

(* With the lock free and something left, a step of the writer brings it on. *)
Lemma go_ws c s tr : both s tr -> l_excl s = None -> 0 < left s -> let s' := fst (l_step c Ws s (MWriter 0 ChChan NetOk)) in vrank s' < vrank s.
Proof.
  intros [W V] He Hl. pose proof (sf_ctx _ _ (wi_safe _ _ W)) as Cx.
  assert (Hf : l_field s = Some 0).
  { destruct (l_field s) eqn:Ef; [destruct (wi_some _ _ W n Ef) as (-> & _); reflexivity|].
    destruct (wi_nil _ _ W Ef) as [Q R]. unfold left, in_hand, in_queue in Hl. rewrite Q, R in Hl. cbn in Hl. lia. }
  destruct (wi_some _ _ W 0 Hf) as (_ & q & cl & Hc).
  assert (Hw : exists v, l_writers s = [v]).
  { destruct (wi_wr _ _ W ltac:(congruence)) as [X|(_ & t & m & X)]; [exact X|].
    pose proof (lk_own _ (sf_lock _ _ (wi_safe _ _ W)) t) as Y. rewrite X in Y. specialize (Y eq_refl). unfold holds in Y.
    rewrite He, (wi_sh _ _ W) in Y. destruct Y as [Y|[]]. discriminate. }
  destruct Hw as (v & Hw).
  assert (Vc : vcrit v = false).
  { destruct (vcrit v) eqn:Q; [|reflexivity]. pose proof (lk_wown _ (sf_lock _ _ (wi_safe _ _ W)) 0 v) as Y. rewrite Hw in Y.
    specialize (Y eq_refl Q). unfold holds in Y. rewrite He, (wi_sh _ _ W) in Y. destruct Y as [Y|[]]. discriminate. }
  destruct (lv_writer _ V v) as [Vg Vk]; [rewrite Hw; now left|].
  unfold l_step. rewrite (lv_crash _ V). unfold lwriter_step. rewrite Hw. cbn [nth_error]. cbn zeta. unfold vrank. rewrite Hw.
  unfold left, in_hand, in_queue in Hl. rewrite Hw, Hc in Hl.
  destruct v; try discriminate; try (now elim Vg).
  - rewrite Cx. cbn. lia.
  - rewrite (Vk i eq_refl). unfold chan_at. rewrite Hc. cbn [nth_error]. cbn in Hl. destruct q as [|[t m] q]; [cbn in Hl; lia|]. cbn. rewrite Hw. cbn. lia.
  - cbn [take]. unfold take_excl. rewrite He, (wi_sh _ _ W). cbn. rewrite Hw. cbn. lia.
Qed.

(* Who holds the lock gets nearer to letting it go. *)
Lemma hold_ws c s tr l t : both s tr -> fine_l l -> l_excl s = Some (OSend t) -> let s' := fst (l_step c Ws s l) in
  l_excl s' = None \/ (l_excl s' = Some (OSend t) /\ steps_left (l_send s' t) <= steps_left (l_send s t) /\ (l = MSend t ChTimer NetOk -> steps_left (l_send s' t) < steps_left (l_send s t))).
Proof.
  intros [W V] F He. unfold l_step. rewrite (lv_crash _ V). cbn zeta. pose proof (lv_send _ V t He) as Cr.
  assert (Tk : forall x, take Ws s x = None) by (intros x; cbn; unfold take_excl; now rewrite He).
  assert (K : forall s', l_excl s' = l_excl s -> l_send s' t = l_send s t -> l <> MSend t ChTimer NetOk ->
    l_excl s' = None \/ (l_excl s' = Some (OSend t) /\ steps_left (l_send s' t) <= steps_left (l_send s t) /\ (l = MSend t ChTimer NetOk -> steps_left (l_send s' t) < steps_left (l_send s t)))).
  { intros s' A B N. right. rewrite A, B. repeat split; auto. intros; congruence. }
  destruct l as [ | |u a m|u ch o|i ch o|]; cbn in F; try contradiction.
  - apply K; cbn; auto; discriminate.
  - assert (U : l_send s u <> LIdle -> (match l_send s u with LIdle => True | _ => False end) -> False) by (destruct (l_send s u); congruence || tauto).
    destruct (Nat.eq_dec u t) as [->|Hu].
    + destruct (l_send s t) eqn:Es; try discriminate Cr; cbn [fst]; apply K; auto; try discriminate; now rewrite ?Es.
    + destruct (l_send s u); cbn [fst]; try (apply K; auto; discriminate). destruct a; cbn [fst]; apply K; auto; try discriminate; cbn; destruct (Nat.eqb_spec t u); congruence.
  - destruct o; [|contradiction]. unfold lsend_step. rewrite (lv_closed _ V), (lv_broken _ V), !Tk. destruct (Nat.eq_dec u t) as [->|Hu].
    + destruct (l_send s t) eqn:Es; cbn in Cr; try discriminate; try (destruct lk; [|discriminate]).
      * right. destruct (l_field s); cbn; rewrite He, Nat.eqb_refl; cbn; repeat split; auto; lia.
      * right. cbn; rewrite He, Nat.eqb_refl; cbn; repeat split; auto; lia.
      * right. cbn; rewrite He, Nat.eqb_refl; cbn; repeat split; auto; lia.
      * right. cbn; rewrite He, Nat.eqb_refl; cbn; repeat split; auto; lia.
      * right. cbn; rewrite He, Nat.eqb_refl; cbn; repeat split; auto; lia.
      * destruct ch; cbn [fst release_if].
        -- right. rewrite Es. cbn. repeat split; auto; intros; discriminate.
        -- left. cbn. apply release_excl.
        -- assert (Z : l_excl s = None \/ l_excl s = Some (OSend t) /\ steps_left (l_send s t) <= steps_left (LSel true m i) /\ (MSend t ChChan NetOk = MSend t ChTimer NetOk -> steps_left (l_send s t) < steps_left (LSel true m i)))
             by (right; rewrite Es; repeat split; auto; intros; discriminate).
           destruct i as [k|]; [|exact Z]. destruct (chan_at s k) as [[q [|]]|]; [left; cbn; apply release_excl| |exact Z].
           destruct (length q <? max 1 c); [left; cbn; apply release_excl|exact Z].
      * right. cbn; rewrite He, Nat.eqb_refl; cbn; repeat split; auto; lia.
      * left. cbn. apply release_excl.
    + assert (Cu : crit (l_send s u) = false).
      { destruct (crit (l_send s u)) eqn:Q; [|reflexivity]. elim Hu. eapply one_holder; [apply (wi_safe _ _ W)|apply (wi_sh _ _ W)|exact Q|exact Cr]. }
      pose proof (sf_lk _ _ (wi_safe _ _ W) u) as Lu.
      destruct (l_send s u) eqn:Es; cbn in Cu, Lu; try discriminate; try (destruct lk; discriminate); cbn [fst]; apply K; auto; congruence.
  - destruct o; [|contradiction]. unfold lwriter_step. destruct (nth_error (l_writers s) i) as [v|] eqn:Ev; [|apply K; auto; discriminate].
    assert (Vc : vcrit v = false).
    { destruct (vcrit v) eqn:Q; [|reflexivity]. pose proof (lk_wown _ (sf_lock _ _ (wi_safe _ _ W)) i v Ev Q) as Y. unfold holds in Y.
      rewrite He, (wi_sh _ _ W) in Y. destruct Y as [Y|[]]. discriminate. }
    rewrite Tk, (sf_ctx _ _ (wi_safe _ _ W)), (lv_cancel _ V). destruct v; try discriminate; try (cbn [fst]; apply K; auto; discriminate).
    destruct ch; try (cbn [fst]; apply K; auto; discriminate). destruct i0 as [j|]; [|cbn [fst]; apply K; auto; discriminate].
    destruct (chan_at s j) as [[[|[? ?] ?] [|]]|]; cbn [fst]; apply K; auto; discriminate.
  - unfold lfinal_step. rewrite (lv_final _ V), (lv_cancel _ V). apply K; auto; discriminate.
Qed.
Lemma hold_writer_ws c s tr l i : both s tr -> fine_l l -> l_excl s = Some (OWriter i) -> let s' := fst (l_step c Ws s l) in
  length (wr s) < length (wr s') /\ l_excl s' = None \/ (l_excl s' = Some (OWriter i) /\ vrank s' <= vrank s /\ (l = MWriter 0 ChChan NetOk -> vrank s' < vrank s)).
Proof.
  intros B F He. pose proof B as [W V]. destruct (lv_wr _ V i He) as (v & Ev & Cv). destruct (one_writer s tr i v W Ev) as [-> Hw].
  destruct (match l with MWriter _ _ _ => true | _ => false end) eqn:Ek.
  - destruct l as [ | |u a m|u ch o|i ch o|]; try discriminate. destruct o; [|contradiction]. unfold l_step. rewrite (lv_crash _ V). unfold lwriter_step. cbn zeta. rewrite Hw.
    destruct i as [|i]; [|right; destruct i; cbn; repeat split; auto; intros; discriminate]. cbn [nth_error]. destruct v; try discriminate.
    + rewrite (lv_closed _ V). right. cbn. unfold vrank. cbn. rewrite Hw. repeat split; auto; lia.
    + rewrite (lv_broken _ V). left. cbn. unfold wr, release. cbn. rewrite He. cbn. rewrite wired_snoc. cbn. rewrite app_length. cbn. split; [lia|reflexivity].
  - right. destruct (other_ws c s tr l B F) as (_ & R); [intros ? ? ? ->; discriminate|]. split; [|split; [exact R|intros ->; discriminate]].
    assert (Tk : forall x, take Ws s x = None) by (intros x; cbn; unfold take_excl; now rewrite He).
    unfold l_step. rewrite (lv_crash _ V). destruct l as [ | |u a m|u ch o|j ch o|]; cbn in F; try contradiction; try discriminate.
    + exact He.
    + destruct (l_send s u); try exact He. destruct a; exact He.
    + destruct o; [|contradiction]. unfold lsend_step. rewrite !Tk.
      assert (Cu : crit (l_send s u) = false).
      { destruct (crit (l_send s u)) eqn:Q; [|reflexivity]. pose proof (lk_own _ (sf_lock _ _ (wi_safe _ _ W)) u Q) as Y. unfold holds in Y. rewrite He, (wi_sh _ _ W) in Y. destruct Y as [Y|[]]. discriminate. }
      pose proof (sf_lk _ _ (wi_safe _ _ W) u) as Lu.
      destruct (l_send s u) eqn:Es; cbn in Cu, Lu; try discriminate; try (destruct lk; discriminate); exact He.
    + unfold lfinal_step. rewrite (lv_final _ V), (lv_cancel _ V). exact He.
Qed.

Section fair.
Variable c : nat.
Variable sch : nat -> llabel.
Hypothesis U : ws_undisturbed sch.
Hypothesis GO : ws_go_on sch.
Hypothesis LF : lock_fair c sch.
Let st n := fst (ws_at c sch n).
Let tr n := snd (ws_at c sch n).

Lemma g_both n : both (st n) (tr n).
Proof. destruct (U n) as (A & B). exact (both_run c (first sch n) A B). Qed.
Lemma g_fine n : fine_l (sch n).
Proof.
  destruct (U (S n)) as (A & (D & E)). rewrite firstS in A, D, E.
  assert (I : In (sch n) (first sch n ++ [sch n])) by (apply in_or_app; right; now left).
  destruct (sch n) as [ | |t a m|t ch [|k]|i ch [|k]|]; cbn; auto.
  - eapply D, I.
  - eapply E, I.
Qed.
Lemma g_step n : st (S n) = fst (l_step c Ws (st n) (sch n)) /\ tr (S n) = tr n ++ snd (l_step c Ws (st n) (sch n)).
Proof.
  subst st tr. unfold ws_at. rewrite firstS, app_comm_cons, l_run_app. cbn [fst snd l_run]. destruct (l_step c Ws _ (sch n)). cbn. now rewrite app_nil_r.
Qed.
Lemma g_later n : forall m, n <= m -> (exists more, nils true (tr m) = nils true (tr n) ++ more) /\
  (length (wr (st n)) < length (wr (st m)) \/ (wr (st m) = wr (st n) /\ vrank (st m) <= vrank (st n))).
Proof.
  induction 1 as [|m Hm ((mo & I1) & I2)]; [split; [exists []; now rewrite app_nil_r|auto]|].
  destruct (any_ws c (st m) (tr m) (sch m) (g_both m) (g_fine m)) as [J|[J1 J2]]; rewrite <- (proj1 (g_step m)) in *.
  - split; [destruct (g_step m) as [_ ->]; rewrite nils_app, I1, <- app_assoc; now eexists|]. left. destruct I2 as [I2|[I2 _]]; [lia|]. now rewrite <- I2.
  - split; [destruct (g_step m) as [_ ->]; rewrite nils_app, I1, <- app_assoc; now eexists|]. destruct I2 as [I2|[I2 I3]]; [left; now rewrite J1|right; split; [congruence|lia]].
Qed.

Lemma sender_frees : forall k n t, l_excl (st n) = Some (OSend t) -> steps_left (l_send (st n) t) <= k -> exists m, n <= m /\ l_excl (st m) = None.
Proof.
  induction k as [|k IH]; intros n t He Hk.
  { destruct (g_both n) as [W V]. pose proof (lv_send _ V t He) as Cr. destruct (l_send (st n) t); cbn in Hk, Cr; try lia; discriminate. }
  destruct (proj1 GO t n) as (m & Hm & Es).
  assert (D : forall d n, d = m - n -> n <= m -> l_excl (st n) = Some (OSend t) -> steps_left (l_send (st n) t) <= S k -> exists m, n <= m /\ l_excl (st m) = None).
  { clear n He Hk Hm. induction d as [|d ID]; intros n Hd Hn He Hk;
      destruct (hold_ws c (st n) (tr n) (sch n) t (g_both n) (g_fine n) He) as [X|(X & Y & Z)]; rewrite <- (proj1 (g_step n)) in *;
      try (exists (S n); split; [lia|exact X]).
    - assert (n = m) by lia. subst n. specialize (Z Es). destruct (IH (S m) t X ltac:(lia)) as (q & Q1 & Q2). exists q. split; [lia|exact Q2].
    - destruct (ID (S n) ltac:(lia) ltac:(lia) X ltac:(lia)) as (q & Q1 & Q2). exists q. split; [lia|exact Q2]. }
  exact (D (m - n) n eq_refl Hm He Hk).
Qed.
Lemma writer_frees : forall k n i, l_excl (st n) = Some (OWriter i) -> vrank (st n) <= k -> exists m, n <= m /\ l_excl (st m) = None /\ length (wr (st n)) < length (wr (st m)).
Proof.
  induction k as [|k IH]; intros n i He Hk.
  { unfold vrank in Hk. destruct (l_writers (st n)) as [|[] [|]]; lia. }
  destruct (proj2 GO n) as (m & Hm & Es).
  assert (D : forall d n, d = m - n -> n <= m -> l_excl (st n) = Some (OWriter i) -> vrank (st n) <= S k -> exists m, n <= m /\ l_excl (st m) = None /\ length (wr (st n)) < length (wr (st m))).
  { clear n He Hk Hm. induction d as [|d ID]; intros n Hd Hn He Hk;
      pose proof (proj2 (g_later n (S n) ltac:(lia))) as G;
      destruct (hold_writer_ws c (st n) (tr n) (sch n) i (g_both n) (g_fine n) He) as [(X1 & X)|(X & Y & Z)]; rewrite <- (proj1 (g_step n)) in *;
      try (exists (S n); split; [lia|split; [exact X|exact X1]]).
    - assert (n = m) by lia. subst n. specialize (Z Es). destruct (IH (S m) i X ltac:(lia)) as (q & Q1 & Q2 & Q3). exists q. split; [lia|]. split; [exact Q2|]. destruct G as [G|[-> _]] || (destruct G as [G|[G _]]; [lia|rewrite G in Q3]); lia.
    - destruct (ID (S n) ltac:(lia) ltac:(lia) X ltac:(lia)) as (q & Q1 & Q2 & Q3). exists q. split; [lia|]. split; [exact Q2|]. destruct G as [G|[G _]]; [lia|rewrite G in Q3; exact Q3]. }
  exact (D (m - n) n eq_refl Hm He Hk).
Qed.
Lemma lock_often : often (fun m => l_excl (fst (ws_at c sch m)) = None).
Proof.
  intros n. destruct (l_excl (st n)) as [[t|i|]|] eqn:He.
  - exact (sender_frees _ n t He (le_n _)).
  - destruct (writer_frees _ n i He (le_n _)) as (m & A & B & _). now exists m.
  - destruct (g_both n) as [_ V]. now elim (lv_fin _ V).
  - now exists n.
Qed.
Lemma g_left n : length (wr (st n)) + left (st n) = length (nils true (tr n)).
Proof.
  destruct (g_both n) as [W V]. rewrite (wi_exact _ _ W (lv_broken _ V)), !app_length. reflexivity.
Qed.
Lemma one_more n : 0 < left (st n) -> exists m, n <= m /\ length (wr (st n)) < length (wr (st m)).
Proof.
  intros H. remember (vrank (st n)) as r eqn:Er. revert n H Er. induction r as [r IH] using lt_wf_ind. intros n H ->.
  destruct (LF lock_often n) as (q & Q1 & Q2 & Q3). fold (st q) in Q2.
  destruct (g_later n q Q1) as ((mo & L1) & [L2|(L2 & L3)]); [now exists q|].
  pose proof (g_left n) as G1. pose proof (g_left q) as G2. rewrite L1, app_length, L2 in G2.
  pose proof (go_ws c (st q) (tr q) (g_both q) Q2 ltac:(lia)) as G. cbn zeta in G. rewrite <- Q3, <- (proj1 (g_step q)) in G.
  destruct (g_later q (S q) ltac:(lia)) as ((mo' & L4) & [L5|(L5 & _)]); [exists (S q); rewrite <- L2; split; [lia|exact L5]|].
  pose proof (g_left (S q)) as G3. rewrite L4, app_length, L5 in G3.
  assert (Ns : length (nils true (tr q)) = length (wr (st q)) + left (st q)) by (symmetry; apply g_left).
  pose proof (f_equal (@length _) L2) as L2'. pose proof (f_equal (@length _) L1) as L1'. rewrite app_length in L1'.
  destruct (IH (vrank (st (S q))) ltac:(lia) (S q) ltac:(lia) eq_refl) as (m & M1 & M2). exists m. split; [lia|]. rewrite L5, L2 in M2. exact M2.
Qed.
Theorem ws_written_fair n : exists m, n <= m /\ prefix (nils true (tr n)) (wr (st m)).
Proof.
  assert (X : forall d m, n <= m -> length (nils true (tr n)) - length (wr (st m)) <= d -> exists m', n <= m' /\ length (nils true (tr n)) <= length (wr (st m'))).
  { induction d as [|d IH]; intros m Hm Hd; [exists m; split; [exact Hm|lia]|].
    destruct (le_lt_dec (length (nils true (tr n))) (length (wr (st m)))) as [H|H]; [now exists m|].
    destruct (g_later n m Hm) as ((mo & L1) & _). pose proof (g_left m) as G. apply (f_equal (@length _)) in L1. rewrite app_length in L1.
    destruct (one_more m ltac:(lia)) as (q & Q1 & Q2). apply (IH q); lia. }
  destruct (X _ n (le_n _) (le_n _)) as (m & Hm & H). exists m. split; [exact Hm|].
  destruct (g_later n m Hm) as ((mo & L1) & _). destruct (g_both m) as [W V].
  apply (prefix_len _ _ (nils true (tr m))); [rewrite L1; now eexists|exact (wi_pre _ _ W)|exact H].
Qed.
End fair.

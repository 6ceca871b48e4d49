(* Proofs about the websocket and KCP send paths: accepted messages and Stop. *)
From Coq Require Import List Bool Arith Lia ZifyBool ZifyNat.
From Verif Require Import Bytes GoSlice SendQueue Spec_Send SendLocked Spec_SendLocked SendLocked_proofs SendLocked2_proofs SendLocked3_proofs.
Import ListNotations.

(* ---- websocket: without Stop and with a working network everything accepted can be written ---- *)

Definition fine_l (l : llabel) : Prop :=
  match l with MStop | MSend _ _ (NetFail _) | MWriter _ _ (NetFail _) => False | _ => True end.
Lemma goes_fine l : goes_on_l l -> fine_l l.
Proof. destruct l; cbn; try contradiction; destruct o; auto. Qed.

Record live (s : lst) : Prop := {
  lv_broken : l_broken s = false;
  lv_cancel : l_cancelled s = false;
  lv_closed : l_closed s = false;
  lv_final : l_final s = FIdle;
  lv_crash : l_crashed s = false;
  lv_writer : forall v, In v (l_writers s) -> v <> VGone /\ (forall k, v = VWait k -> k = Some 0);
  lv_send : forall t, l_excl s = Some (OSend t) -> crit (l_send s t) = true;
  lv_wr : forall i, l_excl s = Some (OWriter i) -> exists v, nth_error (l_writers s) i = Some v /\ vcrit v = true;
  lv_fin : l_excl s <> Some OFinal
}.

Lemma in_set_nth {A} (l : list A) n x y : In y (set_nth n x l) -> y = x \/ In y l.
Proof. revert l. induction n as [|n IH]; intros [|z l]; cbn; [tauto|intuition|tauto|intros [?|Hy]; [auto|destruct (IH _ Hy); auto]]. Qed.

(* A step by a goroutine that holds the lock and keeps it, or takes it, or does not need it. *)
Lemma live_send s s' t p : live s -> (forall u, l_send s' u = if u =? t then p else l_send s u) ->
  l_broken s' = false -> l_cancelled s' = false -> l_closed s' = false -> l_final s' = FIdle -> l_crashed s' = false ->
  (l_writers s' = l_writers s \/ l_writers s' = l_writers s ++ [VSelect]) ->
  (l_excl s' = None \/ (l_excl s' = Some (OSend t) /\ crit p = true) \/ (l_excl s' = l_excl s /\ (crit (l_send s t) = true -> crit p = true))) -> live s'.
Proof.
  intros [A B C D E F G H I] Hs B1 B2 B3 B4 B5 Hw He. constructor; auto.
  - intros v Hv. destruct Hw as [-> | ->] in Hv; auto. rewrite in_app_iff in Hv. destruct Hv as [Hv|[<-|[]]]; auto. split; congruence.
  - intros u X. rewrite Hs. destruct He as [He|[[He Hp]|[He Hp]]]; [congruence| |].
    + rewrite He in X. injection X as ->. now rewrite Nat.eqb_refl.
    + rewrite He in X. apply G in X. destruct (Nat.eqb_spec u t) as [->|]; auto.
  - intros i X. destruct He as [He|[[He Hp]|[He Hp]]]; [congruence|congruence|]. rewrite He in X. destruct (H i X) as (v & V1 & V2).
    exists v. split; [|exact V2]. destruct Hw as [-> | ->]; [exact V1|]. rewrite nth_error_app1; [exact V1|].
    apply nth_error_Some. congruence.
  - destruct He as [He|[[He Hp]|[He Hp]]]; congruence.
Qed.
Lemma live_writer s s' i v v' : live s -> nth_error (l_writers s) i = Some v -> l_writers s' = set_nth i v' (l_writers s) ->
  l_broken s' = false -> l_cancelled s' = false -> l_closed s' = false -> l_final s' = FIdle -> l_crashed s' = false ->
  l_send s' = l_send s -> v' <> VGone -> (forall k, v' = VWait k -> k = Some 0) ->
  (l_excl s' = None \/ (l_excl s' = Some (OWriter i) /\ vcrit v' = true) \/ (l_excl s' = l_excl s /\ (vcrit v = true -> vcrit v' = true))) -> live s'.
Proof.
  intros [A B C D E F G H I] Hv Hw B1 B2 B3 B4 B5 Hs Hg Hk He. constructor; auto.
  - intros x Hx. rewrite Hw in Hx. apply in_set_nth in Hx. destruct Hx as [->|Hx]; auto.
  - intros u X. rewrite Hs. destruct He as [He|[[He Hp]|[He Hp]]]; [congruence|congruence|]. rewrite He in X. auto.
  - intros j X. rewrite Hw, nth_error_set_nth. destruct He as [He|[[He Hp]|[He Hp]]]; [congruence| |].
    + rewrite He in X. injection X as ->. rewrite Nat.eqb_refl, Hv. eauto.
    + rewrite He in X. destruct (H j X) as (w & V1 & V2). destruct (Nat.eqb_spec j i) as [->|]; [|eauto]. rewrite Hv.
      exists v'. split; [reflexivity|]. apply Hp. congruence.
  - destruct He as [He|[[He Hp]|[He Hp]]]; congruence.
Qed.
Lemma release_excl s x : l_excl (release s x) = None.
Proof. unfold release. now destruct (l_excl s). Qed.
Lemma take_excl_ws s x s1 : take Ws s x = Some s1 -> l_excl s1 = Some x.
Proof. intros H. now destruct (ws_take _ _ _ H) as [-> _]. Qed.

Ltac rf s x := destruct (release_fields s x) as (?F & ?F & ?F & ?F & ?F & ?F & ?F & ?F & ?F & ?F & ?F).
Lemma live_step c s tr l : fine_l l -> wsinv s tr -> live s -> live (fst (l_step c Ws s l)).
Proof.
  intros Hl W V. pose proof V as [A B C D E F G H I]. pose proof (sf_ctx _ _ (wi_safe _ _ W)) as Cx.
  unfold l_step. rewrite E. destruct l as [ | |t a m|t ch o|i ch o|]; cbn in Hl; try contradiction.
  - constructor; cbn; auto.
  - destruct (l_send s t) eqn:Es; try exact V.
    destruct a; cbn [fst]; (eapply live_send with (t := t); [exact V|intros u; cbn; reflexivity|..]); cbn; auto;
      right; right; rewrite Es; auto.
  - destruct o; [|contradiction]. unfold lsend_step. destruct (l_send s t) eqn:Es; try exact V.
    + destruct (take Ws s (OSend t)) as [s1|] eqn:Et; [|exact V]. apply ws_take in Et. destruct Et as [-> Ee]. cbn [fst].
      eapply live_send with (t := t); [exact V|intros u; cbn; reflexivity|..]; cbn; auto.
    + destruct (l_field s); cbn [fst]; (eapply live_send with (t := t); [exact V|intros u; cbn; reflexivity|..]); cbn; auto;
        right; right; rewrite Es; destruct lk; auto.
    + cbn [fst]. eapply live_send with (t := t); [exact V|intros u; cbn; reflexivity|..]; cbn; auto;
        right; right; rewrite Es; destruct lk; auto.
    + cbn [fst]. eapply live_send with (t := t); [exact V|intros u; cbn; reflexivity|..]; cbn; auto;
        right; right; rewrite Es; destruct lk; auto.
    + rewrite C. cbn [fst]. eapply live_send with (t := t); [exact V|intros u; cbn; reflexivity|..]; cbn; auto;
        right; right; rewrite Es; destruct lk; auto.
    + cbn [fst]. eapply live_send with (t := t); [exact V|intros u; cbn; reflexivity|..]; cbn; auto;
        right; right; rewrite Es; destruct lk; auto.
    + pose proof (sf_lk _ _ (wi_safe _ _ W) t) as Ut. rewrite Es in Ut. cbn in Ut. destruct lk; [|discriminate]. cbn [release_if].
      assert (R : live (w_send (release s (OSend t)) t LIdle)).
      { eapply live_send with (t := t); [exact V|intros u; cbn; rewrite release_send; reflexivity|..]; cbn; rewrite ?release_excl;
          auto; rf s (OSend t); first [congruence|left; congruence]. }
      destruct ch; [exact V|exact R|]. destruct i as [k|]; [|exact V]. destruct (chan_at s k) as [[q [|]]|]; [exact R| |exact V].
      destruct (length q <? max 1 c); [|exact V]. cbn [fst].
      set (s0 := w_chans s (set_nth k (q ++ [(t, m)], false) (l_chans s)) (l_field s)).
      eapply live_send with (t := t); [exact V|intros u; cbn; rewrite release_send; subst s0; reflexivity|..]; cbn; rewrite ?release_excl;
          auto; rf s0 (OSend t); subst s0; cbn in *; try congruence; auto.
    + destruct (take Ws s (OSend t)) as [s1|] eqn:Et; [|exact V]. apply ws_take in Et. destruct Et as [-> Ee]. cbn [fst].
      eapply live_send with (t := t); [exact V|intros u; cbn; reflexivity|..]; cbn; auto.
    + rewrite C. cbn [fst]. eapply live_send with (t := t); [exact V|intros u; cbn; reflexivity|..]; cbn; auto.
    + rewrite A. cbn [fst]. set (s0 := w_wire s (l_wire s ++ [(false, t, m)]) false).
      eapply live_send with (t := t); [exact V|intros u; cbn; rewrite release_send; subst s0; reflexivity|..]; cbn; rewrite ?release_excl;
          auto; rf s0 (OSend t); subst s0; cbn in *; try congruence; auto.
  - destruct o; [|contradiction]. unfold lwriter_step. destruct (nth_error (l_writers s) i) as [v|] eqn:Ev; [|exact V].
    assert (Hf : l_field s = Some 0).
    { destruct (l_field s) eqn:Ef; [destruct (wi_some _ _ W n Ef) as (-> & _); reflexivity|].
      destruct (wi_nil _ _ W Ef) as [_ Q]. rewrite Q in Ev. now destruct i. }
    destruct v; try exact V.
    + rewrite Cx. cbn [fst]. eapply live_writer with (i := i); [exact V|exact Ev|cbn; reflexivity|..]; cbn; auto; try congruence.
    + rewrite B. destruct ch; try exact V. destruct i0 as [j|]; [|exact V].
      destruct (chan_at s j) as [[[|[t m] q] cl]|]; try exact V; [destruct cl; [|exact V]|]; cbn [fst];
        (eapply live_writer with (i := i); [exact V|exact Ev|cbn; reflexivity|..]); cbn; auto; try congruence.
    + destruct (take Ws s (OWriter i)) as [s1|] eqn:Et; [|exact V]. apply ws_take in Et. destruct Et as [-> Ee]. cbn [fst].
      eapply live_writer with (i := i); [exact V|exact Ev|cbn; reflexivity|..]; cbn; auto; try congruence.
    + rewrite C. cbn [fst]. eapply live_writer with (i := i); [exact V|exact Ev|cbn; reflexivity|..]; cbn; auto; try congruence.
    + rewrite A. cbn [fst]. set (s0 := w_wire s (l_wire s ++ [(true, t, m)]) false). rf s0 (OWriter i).
      eapply live_writer with (i := i); [exact V|exact Ev|cbn; rewrite F5; reflexivity|..]; cbn; rewrite ?release_excl; subst s0; cbn in *; try congruence; auto.
  - unfold lfinal_step. rewrite D, B. exact V.
Qed.

Definition both (s : lst) (tr : list lev) : Prop := wsinv s tr /\ live s.
Definition leads (c : nat) (s : lst) (tr : list lev) (P : lst -> list lev -> Prop) : Prop :=
  exists more, Forall goes_on_l more /\ P (fst (l_run c Ws s more)) (tr ++ snd (l_run c Ws s more)).
Lemma leads_now c s tr (P : _ -> _ -> Prop) : P s tr -> leads c s tr P.
Proof. intros H. exists []. cbn. rewrite app_nil_r. auto. Qed.
Lemma leads_step c s tr P l : goes_on_l l -> both s tr ->
  (both (fst (l_step c Ws s l)) (tr ++ snd (l_step c Ws s l)) -> leads c (fst (l_step c Ws s l)) (tr ++ snd (l_step c Ws s l)) P) ->
  leads c s tr P.
Proof.
  intros Hl [W V] H. destruct H as (more & F & X).
  { split; [now apply ws_step|]. eapply live_step; eauto. now apply goes_fine. }
  exists (l :: more). split; [now constructor|]. cbn. destruct (l_step c Ws s l) as [s1 e]. cbn [fst snd] in *.
  destruct (l_run c Ws s1 more) as [s2 es]. cbn [fst snd] in *. now rewrite app_assoc.
Qed.
Lemma leads_trans c s tr P Q : leads c s tr P -> (forall s' tr', P s' tr' -> leads c s' tr' Q) -> leads c s tr Q.
Proof.
  intros (m1 & F1 & X1) H. destruct (H _ _ X1) as (m2 & F2 & X2). exists (m1 ++ m2). split; [now apply Forall_app|].
  rewrite l_run_app. cbn [fst snd]. now rewrite app_assoc.
Qed.

(* Whoever holds the lock lets it go. *)
Definition steps_left (p : lpc) : nat :=
  match p with LChk _ _ => 6 | LMake _ _ => 5 | LGo _ _ => 4 | LClosed _ _ => 3 | LEnter _ _ => 2 | LSel _ _ _ => 1 | LDClosed _ => 2 | LDWrite _ => 1 | _ => 0 end.
Lemma sender_lets_go c : forall n s tr t, both s tr -> l_excl s = Some (OSend t) -> steps_left (l_send s t) <= n ->
  leads c s tr (fun s' tr' => both s' tr' /\ l_excl s' = None).
Proof.
  induction n as [|n IH]; intros s tr t Bo He Hn.
  { destruct Bo as [W V]. pose proof (lv_send _ V t He) as Cr. destruct (l_send s t); cbn in Hn, Cr; try lia; discriminate. }
  destruct Bo as [W V]. pose proof (lv_send _ V t He) as Cr.
  apply (leads_step c s tr _ (MSend t ChTimer NetOk)); [exact I|now split|]. intros Bo'. revert Bo'.
  unfold l_step. rewrite (lv_crash _ V). unfold lsend_step.
  destruct (l_send s t) eqn:Es; cbn in Cr; try discriminate; try (destruct lk; [|discriminate]); cbn in Hn.
  - destruct (l_field s); cbn [fst snd]; intros Bo'; apply (IH _ _ t Bo'); auto; cbn; rewrite Nat.eqb_refl; cbn; lia.
  - cbn [fst snd]; intros Bo'; apply (IH _ _ t Bo'); auto; cbn; rewrite Nat.eqb_refl; cbn; lia.
  - cbn [fst snd]; intros Bo'; apply (IH _ _ t Bo'); auto; cbn; rewrite Nat.eqb_refl; cbn; lia.
  - rewrite (lv_closed _ V). cbn [fst snd]; intros Bo'; apply (IH _ _ t Bo'); auto; cbn; rewrite Nat.eqb_refl; cbn; lia.
  - cbn [fst snd]; intros Bo'; apply (IH _ _ t Bo'); auto; cbn; rewrite Nat.eqb_refl; cbn; lia.
  - cbn [fst snd release_if]. intros Bo'. apply leads_now. split; [exact Bo'|]. cbn. apply release_excl.
  - rewrite (lv_closed _ V). cbn [fst snd]; intros Bo'; apply (IH _ _ t Bo'); auto; cbn; rewrite Nat.eqb_refl; cbn; lia.
  - rewrite (lv_broken _ V). cbn [fst snd]. intros Bo'. apply leads_now. split; [exact Bo'|]. cbn. apply release_excl.
Qed.

Lemma one_writer s tr i v : wsinv s tr -> nth_error (l_writers s) i = Some v -> i = 0 /\ l_writers s = [v].
Proof.
  intros W Ev. destruct (l_field s) as [j|] eqn:Ej.
  - destruct (wi_wr _ _ W ltac:(congruence)) as [(v' & E')|(E' & _)]; rewrite E' in Ev; [|now destruct i].
    destruct i as [|[|]]; cbn in Ev; try discriminate. injection Ev as ->. auto.
  - destruct (wi_nil _ _ W Ej) as [_ E]. rewrite E in Ev. now destruct i.
Qed.

(* The writer finishes the write it has locked for. *)
Definition left (s : lst) : nat := length (in_hand s) + length (in_queue s).
Lemma left_keep s s' : l_writers s' = l_writers s -> l_chans s' = l_chans s -> left s' = left s.
Proof. intros A B. unfold left, in_hand, in_queue. now rewrite A, B. Qed.
Lemma writer_writes c s tr t m : both s tr -> l_writers s = [VWrite t m] ->
  leads c s tr (fun s' tr' => both s' tr' /\ l_excl s' = None /\ left s' < left s).
Proof.
  intros [W V] Hw. apply (leads_step c s tr _ (MWriter 0 ChTimer NetOk)); [exact I|now split|].
  unfold l_step. rewrite (lv_crash _ V). unfold lwriter_step. rewrite Hw. cbn [nth_error]. rewrite (lv_broken _ V). cbn [fst snd]. intros Bo.
  apply leads_now. split; [exact Bo|]. cbn [l_excl w_writers]. rewrite release_excl. split; [reflexivity|].
  set (s0 := w_wire s (l_wire s ++ [(true, t, m)]) false). rf s0 (OWriter 0).
  unfold left, in_hand, in_queue. cbn [w_writers l_writers l_chans]. rewrite F4, F2. subst s0. cbn [w_wire l_writers l_chans]. rewrite Hw. cbn. lia.
Qed.
Lemma writer_lets_go c s tr t m : both s tr -> l_writers s = [VClosed t m] ->
  leads c s tr (fun s' tr' => both s' tr' /\ l_excl s' = None /\ left s' < left s).
Proof.
  intros [W V] Hw. apply (leads_step c s tr _ (MWriter 0 ChTimer NetOk)); [exact I|now split|].
  unfold l_step. rewrite (lv_crash _ V). unfold lwriter_step. rewrite Hw. cbn [nth_error]. rewrite (lv_closed _ V). cbn [fst snd set_nth]. intros Bo.
  assert (Ll : left (w_writers s [VWrite t m]) = left s) by (unfold left, in_hand, in_queue; cbn; now rewrite Hw).
  rewrite <- Ll. eapply writer_writes; [exact Bo|cbn; reflexivity].
Qed.

Lemma lock_free c s tr : both s tr -> leads c s tr (fun s' tr' => both s' tr' /\ l_excl s' = None).
Proof.
  intros Bo. destruct (l_excl s) as [[t|i|]|] eqn:He.
  - apply (sender_lets_go c 6 s tr t Bo He). destruct (l_send s t); cbn; lia.
  - destruct Bo as [W V]. destruct (lv_wr _ V i He) as (v & Ev & Cv). destruct (one_writer s tr i v W Ev) as [-> Hw].
    destruct v; try discriminate; (eapply leads_trans; [first [eapply writer_lets_go; [now split|exact Hw]|eapply writer_writes; [now split|exact Hw]]|]);
      intros s' tr' (X & Y & _); apply leads_now; auto.
  - destruct Bo as [W V]. now elim (lv_fin _ V).
  - apply leads_now. auto.
Qed.

(* With the lock free and something to write, the writer writes one. *)
Lemma one_less c s tr : both s tr -> l_excl s = None -> 0 < left s ->
  leads c s tr (fun s' tr' => both s' tr' /\ l_excl s' = None /\ left s' < left s).
Proof.
  intros [W V] He Hl. pose proof (sf_ctx _ _ (wi_safe _ _ W)) as Cx.
  assert (Hf : l_field s = Some 0).
  { destruct (l_field s) eqn:Ef; [destruct (wi_some _ _ W n Ef) as (-> & _); reflexivity|].
    destruct (wi_nil _ _ W Ef) as [Q R]. unfold left, in_hand, in_queue in Hl. rewrite Q, R in Hl. cbn in Hl. lia. }
  destruct (wi_some _ _ W 0 Hf) as (_ & q & cl & Hc).
  assert (Hw : exists v, l_writers s = [v]).
  { destruct (wi_wr _ _ W ltac:(congruence)) as [X|(_ & t & m & X)]; [exact X|].
    pose proof (lk_own _ (sf_lock _ _ (wi_safe _ _ W)) t) as Y. rewrite X in Y. specialize (Y eq_refl). unfold holds in Y.
    rewrite He, (wi_sh _ _ W) in Y. destruct Y as [Y|[]]. discriminate. }
  destruct Hw as (v & Hw).
  assert (Vc : vcrit v = false).
  { destruct (vcrit v) eqn:Q; [|reflexivity]. pose proof (lk_wown _ (sf_lock _ _ (wi_safe _ _ W)) 0 v) as Y. rewrite Hw in Y.
    specialize (Y eq_refl Q). unfold holds in Y. rewrite He, (wi_sh _ _ W) in Y. destruct Y as [Y|[]]. discriminate. }
  destruct (lv_writer _ V v) as [Vg Vk]; [rewrite Hw; now left|].
  (* from VAcq *)
  assert (S3 : forall s tr t m, both s tr -> l_excl s = None -> l_writers s = [VAcq t m] ->
    leads c s tr (fun s' tr' => both s' tr' /\ l_excl s' = None /\ left s' < left s)).
  { clear. intros s tr t m [W V] He Hw. apply (leads_step c s tr _ (MWriter 0 ChTimer NetOk)); [exact I|now split|].
    unfold l_step. rewrite (lv_crash _ V). unfold lwriter_step. rewrite Hw. cbn [nth_error take]. unfold take_excl.
    rewrite He, (wi_sh _ _ W). cbn [fst snd w_lock l_writers]. rewrite Hw. cbn [set_nth]. intros Bo.
    match goal with |- leads _ ?s1 _ _ => assert (Ll : left s1 = left s) by (unfold left, in_hand, in_queue; cbn; now rewrite Hw) end.
    rewrite <- Ll. eapply writer_lets_go; [exact Bo|cbn; reflexivity]. }
  (* from VWait *)
  assert (S2 : forall s tr x q cl, both s tr -> l_excl s = None -> l_writers s = [VWait (Some 0)] -> l_chans s = [(x :: q, cl)] ->
    leads c s tr (fun s' tr' => both s' tr' /\ l_excl s' = None /\ left s' < left s)).
  { clear - S3. intros s tr [t m] q cl [W V] He Hw Hc. apply (leads_step c s tr _ (MWriter 0 ChChan NetOk)); [exact I|now split|].
    unfold l_step. rewrite (lv_crash _ V). unfold lwriter_step. rewrite Hw. cbn [nth_error]. unfold chan_at. rewrite Hc.
    cbn [nth_error fst snd w_chans l_writers set_nth]. rewrite Hw. cbn [set_nth]. intros Bo.
    match goal with |- leads _ ?s1 _ _ => assert (Ll : left s1 = left s) by (unfold left, in_hand, in_queue; cbn; rewrite Hw, Hc; reflexivity) end.
    rewrite <- Ll. eapply S3; [exact Bo|cbn; exact He|cbn; reflexivity]. }
  unfold left, in_hand, in_queue in Hl. rewrite Hw, Hc in Hl.
  destruct v; try discriminate; try (now elim Vg).
  - destruct q as [|x q]; [cbn in Hl; lia|].
    apply (leads_step c s tr _ (MWriter 0 ChTimer NetOk)); [exact I|now split|].
    unfold l_step. rewrite (lv_crash _ V). unfold lwriter_step. rewrite Hw. cbn [nth_error]. rewrite Cx, Hf. cbn [fst snd set_nth]. intros Bo.
    match goal with |- leads _ ?s1 _ _ => assert (Ll : left s1 = left s) by (unfold left, in_hand, in_queue; cbn; rewrite Hw; reflexivity) end.
    rewrite <- Ll. eapply S2; [exact Bo|cbn; exact He|cbn; reflexivity|cbn; exact Hc].
  - destruct q as [|x q]; [cbn in Hl; lia|]. rewrite (Vk i eq_refl) in Hw. eapply S2; eauto. now split.
  - eapply S3; eauto. now split.
Qed.
Lemma drains c : forall n s tr, both s tr -> l_excl s = None -> left s <= n ->
  leads c s tr (fun s' tr' => both s' tr' /\ left s' = 0).
Proof.
  induction n as [|n IH]; intros s tr Bo He Hn; [apply leads_now; split; [exact Bo|lia]|].
  destruct (Nat.eq_dec (left s) 0) as [Z|Z]; [apply leads_now; auto|].
  eapply leads_trans; [apply one_less; auto; lia|]. intros s' tr' (A & B & C). apply IH; auto. lia.
Qed.

Lemma both_run c ls : never_stopped_l ls -> network_fine_l ls ->
  both (fst (l_run c Ws l_new (MStart :: ls))) (snd (l_run c Ws l_new (MStart :: ls))).
Proof.
  intros H1 [H2 H3]. rewrite started_run.
  change (snd (l_run c Ws started ls)) with ([] ++ snd (l_run c Ws started ls)).
  apply (l_run_inv c Ws fine_l both).
  - intros s tr l Hl [W V]. split; [now apply ws_step|]. eapply live_step; eauto.
  - split; [exact ws_started|]. constructor; cbn; auto; try discriminate; contradiction.
  - intros l Hl. destruct l as [ | |? ? ?|? ? [|]|? ? [|]|]; cbn; auto; [exact (H2 _ _ _ Hl)|exact (H3 _ _ _ Hl)].
Qed.

Lemma ws_accepted_can_be_written c ls : never_stopped_l ls -> network_fine_l ls ->
  exists more, Forall goes_on_l more /\
    let r := l_run c Ws l_new ((MStart :: ls) ++ more) in wired true (l_wire (fst r)) = nils true (snd r).
Proof.
  intros H1 H2. pose proof (both_run c ls H1 H2) as Bo.
  destruct (leads_trans c _ _ _ (fun s tr => both s tr /\ left s = 0) (lock_free c _ _ Bo)) as (more & F & [W V] & L).
  { intros s tr [A B]. exact (drains c _ s tr A B (le_n _)). }
  exists more. split; [exact F|]. cbv zeta. rewrite l_run_app. cbn [fst snd].
  rewrite (wi_exact _ _ W (lv_broken _ V)). unfold left in L.
  destruct (in_hand _); [|cbn in L; lia]. destruct (in_queue _); [|cbn in L; lia]. now rewrite app_nil_r.
Qed.

(* ---- Stop loses what is queued ---- *)

Lemma broken_step c fl s l : l_broken s = true -> l_broken (fst (l_step c fl s l)) = true /\ l_wire (fst (l_step c fl s l)) = l_wire s.
Proof.
  intros H. assert (R : forall x, l_broken (release s x) = true /\ l_wire (release s x) = l_wire s) by (intros x; unfold release; now destruct (l_excl s)).
  unfold l_step. destruct (l_crashed s); [auto|]. destruct l as [ | |t a m|t ch o|i ch o|]; cbn [fst]; auto.
  - now destruct (l_ctx s).
  - destruct (l_send s t); auto. now destruct a.
  - unfold lsend_step. destruct (l_send s t); auto.
    + destruct (take fl s (OSend t)) eqn:Et; auto. destruct (take_eq _ _ _ _ Et) as (e & sh & -> & _). auto.
    + now destruct (l_field s).
    + destruct (l_closed s); cbn; auto. destruct lk; cbn; auto.
    + destruct ch; auto; [destruct lk; cbn; auto|]. destruct i as [k|]; auto. destruct (chan_at s k) as [[q [|]]|]; auto; [destruct lk; cbn; auto|].
      destruct (length q <? max 1 c); auto. cbn. unfold release_if, release. destruct lk; cbn; auto. destruct (l_excl s); auto.
    + destruct (take fl s (OSend t)) eqn:Et; auto. destruct (take_eq _ _ _ _ Et) as (e & sh & -> & _). auto.
    + destruct (l_closed s); cbn; auto.
    + rewrite H. cbn. auto.
  - unfold lwriter_step. destruct (nth_error (l_writers s) i) as [[]|]; auto.
    + destruct (l_ctx s); auto.
    + destruct ch; auto; [destruct (l_cancelled s); auto|]. destruct i0 as [j|]; auto. destruct (chan_at s j) as [[[|[t m] q] [|]]|]; auto.
    + destruct (take fl s (OWriter i)) eqn:Et; auto. destruct (take_eq _ _ _ _ Et) as (e & sh & -> & _). auto.
    + destruct (l_closed s); cbn; auto.
    + rewrite H. cbn. auto.
  - unfold lfinal_step. destruct (l_final s); cbn; auto.
    + destruct (l_cancelled s); auto.
    + unfold take_excl. destruct (l_excl s); auto. destruct (l_shared s); auto.
    + destruct (l_field s); auto. destruct (chan_at s n) as [[? ?]|]; auto.
Qed.
Lemma broken_run c fl : forall ls s, l_broken s = true -> l_wire (fst (l_run c fl s ls)) = l_wire s.
Proof.
  induction ls as [|l ls IH]; intros s H; cbn; [reflexivity|]. destruct (broken_step c fl s l H) as [A B].
  destruct (l_step c fl s l) as [s1 e]. specialize (IH s1 A). destruct (l_run c fl s1 ls). cbn in *. congruence.
Qed.

(* A first buffered send by t, undisturbed. *)
Definition sending (t : nat) (n : nat) : list llabel := repeat (MSend t ChChan NetOk) n.
Definition l_lost_run (m : msg) : list llabel :=
  MStart :: MCall 0 ASendToQueue m :: sending 0 7 ++ [MStop; MFinal; MFinal; MFinal; MFinal].
Lemma l_lost_trace c fl m : snd (l_run c fl l_new (l_lost_run m)) = [MBegin 0 true m; MOk 0 true m].
Proof. destruct fl, c; vm_compute; reflexivity. Qed.
Lemma l_lost_broken c fl m : l_broken (fst (l_run c fl l_new (l_lost_run m))) = true.
Proof. destruct fl, c; vm_compute; reflexivity. Qed.
Lemma l_lost_wire c fl m : l_wire (fst (l_run c fl l_new (l_lost_run m))) = [].
Proof. destruct fl, c; vm_compute; reflexivity. Qed.
Lemma l_lost_on_stop c fl m : network_fine_l (l_lost_run m) /\
  snd (l_run c fl l_new (l_lost_run m)) = [MBegin 0 true m; MOk 0 true m] /\
  forall more, l_wire (fst (l_run c fl l_new (l_lost_run m ++ more))) = [].
Proof.
  split; [split; intros; cbn; intuition discriminate|]. split; [apply l_lost_trace|]. intros more. rewrite l_run_app. cbn [fst].
  rewrite broken_run by apply l_lost_broken. apply l_lost_wire.
Qed.

(* ---- KCP: SendBuffMsg does not take the lock ---- *)

(* Goroutine 0 passes the closed test; the finalizer closes the channel; the send panics. *)
Definition kcp_panic_run (m : msg) : list llabel :=
  MStart :: MCall 0 ASendBuffMsg m :: sending 0 5 ++ [MStop; MFinal; MFinal; MFinal; MFinal] ++ sending 0 1.
Lemma kcp_panic c m : In (MPanic 0) (snd (l_run c Kcp l_new (kcp_panic_run m))).
Proof. destruct c; vm_compute; auto 10. Qed.

Definition l_before_start_run (m : msg) : list llabel :=
  MCall 0 ASendToQueue m :: sending 0 4 ++ [MWriter 0 ChChan NetOk].
Lemma l_before_start c fl m : In MCrash (snd (l_run c fl l_new (l_before_start_run m))).
Proof. destruct fl, c; vm_compute; auto 10. Qed.

(* Two goroutines hold the read lock and both find no channel: two channels, two
   writers.  Goroutine 0's two messages go through different channels and are
   written in the wrong order. *)
Definition kcp_swap_run (m1 m2 m3 : msg) : list llabel :=
  MStart :: [MCall 0 ASendToQueue m1; MCall 1 ASendToQueue m3] ++ sending 0 2 ++ sending 1 2 ++
  sending 0 2 ++ [MWriter 0 ChChan NetOk] ++ sending 0 3 ++            (* channel 0, writer 0 waits on it, m1 in *)
  sending 1 5 ++                                                       (* channel 1, writer 1, m3 in *)
  [MCall 0 ASendToQueue m2] ++ sending 0 5 ++                          (* m2 into channel 1 *)
  repeat (MWriter 1 ChChan NetOk) 10 ++ repeat (MWriter 0 ChChan NetOk) 4.
Lemma kcp_swap c m1 m2 m3 : let r := l_run (S (S c)) Kcp l_new (kcp_swap_run m1 m2 m3) in
  of_goroutine 0 (nils true (snd r)) = [m1; m2] /\ of_goroutine 0 (wired true (l_wire (fst r))) = [m2; m1].
Proof. vm_compute. split; reflexivity. Qed.

(* A message put into the channel that was replaced before its writer looked is never taken. *)
Definition kcp_strand_run (m1 m2 : msg) : list llabel :=
  MStart :: [MCall 0 ASendToQueue m1; MCall 1 ASendToQueue m2] ++ sending 0 2 ++ sending 1 2 ++
  sending 0 5 ++ sending 1 5 ++ repeat (MWriter 0 ChChan NetOk) 5.
Definition quiet (l : llabel) : Prop := match l with MCall _ _ _ => False | _ => True end.
Definition msg_of (p : lpc) : option msg :=
  match p with
  | LIdle => None
  | LAcq m | LChk _ m | LMake _ m | LGo _ m | LClosed _ m | LEnter _ m | LSel _ m _ | LDAcq m | LDClosed m | LDWrite m => Some m
  end.
Definition at_rest (v : vpc) : bool := match v with VSelect | VWait None | VWait (Some (S _)) | VGone => true | _ => false end.
Definition stranded (w : list (bool * nat * msg)) (x : list (nat * msg)) (s : lst) : Prop :=
  (forall t, l_send s t = LIdle) /\ (exists cl cl', l_chans s = [(x, cl); ([], cl')]) /\ l_field s = Some 1 /\
  (forall v, In v (l_writers s) -> at_rest v = true) /\ l_wire s = w.
Lemma stranded_step c w x s l : quiet l -> stranded w x s -> stranded w x (fst (l_step c Kcp s l)).
Proof.
  intros Hl H. pose proof H as (A & (cl & cl' & B) & C & D & E). unfold l_step. destruct (l_crashed s); [exact H|].
  destruct l as [ | |t a m|t ch o|i ch o|]; cbn in Hl; try contradiction.
  - exact H.
  - destruct (l_ctx s); exact H.
  - unfold lsend_step. rewrite A. exact H.
  - assert (W : forall v, at_rest v = true -> stranded w x (w_writers s (set_nth i v (l_writers s)))).
    { intros v Hv. split; [exact A|]. split; [eauto|]. split; [exact C|]. split; [|exact E].
      intros y Hy. cbn in Hy. apply in_set_nth in Hy. destruct Hy as [->|Hy]; auto. }
    unfold lwriter_step. destruct (nth_error (l_writers s) i) as [v|] eqn:Ev; [|exact H].
    pose proof (D v (nth_error_In _ _ Ev)) as Rv. destruct v as [|k|? ?|? ?|? ?|]; try discriminate; [| |exact H].
    + rewrite C. destruct (l_ctx s); [now apply W|]. destruct (W VGone eq_refl) as (W1 & W2 & W3 & W4 & W5). repeat split; auto.
    + destruct ch; [destruct (l_cancelled s); [now apply W|exact H]|exact H|]. destruct k as [[|k]|]; [discriminate| |exact H].
      unfold chan_at. rewrite B. destruct k as [|[|]]; cbn [nth_error]; try exact H. destruct cl'; [now apply W|exact H].
  - unfold lfinal_step. destruct (l_final s); try exact H.
    + destruct (l_cancelled s); exact H.
    + unfold take_excl. destruct (l_excl s); [exact H|]. destruct (l_shared s); exact H.
    + rewrite C. unfold chan_at. rewrite B. unfold stranded. cbn. split; [exact A|]. split; [eauto|]. auto.
    + cbn [fst]. rf s OFinal. unfold stranded. cbn. rewrite F8, F2, F3, F4, F6. exact H.
Qed.
Lemma stranded_run c w x : forall ls s, Forall quiet ls -> stranded w x s -> stranded w x (fst (l_run c Kcp s ls)).
Proof.
  induction ls as [|l ls IH]; intros s F H; cbn; [exact H|]. inversion F; subst.
  pose proof (stranded_step c w x s l H2 H) as H1. destruct (l_step c Kcp s l) as [s1 e]. specialize (IH s1 H3 H1). now destruct (l_run c Kcp s1 ls).
Qed.
Lemma kcp_strand_trace c m1 m2 : nils true (snd (l_run c Kcp l_new (kcp_strand_run m1 m2))) = [(0, m1); (1, m2)].
Proof. destruct c; vm_compute; reflexivity. Qed.
Lemma kcp_strand_state c m1 m2 : stranded [(true, 1, m2)] [(0, m1)] (fst (l_run c Kcp l_new (kcp_strand_run m1 m2))).
Proof.
  destruct c; (split; [intros [|[|t]]; vm_compute; reflexivity|]); (split; [exists false, false; vm_compute; reflexivity|]);
    (split; [vm_compute; reflexivity|]); (split; [vm_compute; intuition (subst; reflexivity)|vm_compute; reflexivity]).
Qed.
Lemma kcp_stranded c m1 m2 more : Forall quiet more ->
  l_wire (fst (l_run c Kcp l_new (kcp_strand_run m1 m2 ++ more))) = [(true, 1, m2)].
Proof.
  intros F. rewrite l_run_app. cbn [fst]. exact (proj2 (proj2 (proj2 (proj2 (stranded_run c _ _ more _ F (kcp_strand_state c m1 m2)))))).
Qed.

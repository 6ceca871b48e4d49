(* Proofs about the TCP send path: what Stop loses, who panics, and the witnesses. *)
From Coq Require Import List Bool Arith Lia ZifyBool ZifyNat.
From Verif Require Import Bytes SendQueue Spec_Send SendQueue_proofs SendQueue2_proofs SendQueue3_proofs.
Import ListNotations.

(* ---- after Stop nothing more is written ---- *)

Definition past_check (w : wpc) : bool := match w with WPut _ | WFlush | WLast => true | _ => false end.
Definition writing (p : spc) : bool := match p with DWrite _ => true | _ => false end.
Definition silent (wire : list byte) (s : qst) : Prop :=
  q_ctx s = true /\ q_cancelled s = true /\ q_wire s = wire /\ past_check (q_writer s) = false /\
  forall t, writing (q_send s t) = false.

Lemma silent_upd (f : nat -> spc) t p : (forall u, writing (f u) = false) -> writing p = false -> forall u, writing (upd f t p u) = false.
Proof. intros H Hp u. updcases; auto. Qed.

Lemma silent_step c wire s l : silent wire s -> silent wire (fst (q_step c s l)).
Proof.
  intros H. pose proof H as (A & B & C & D & E).
  assert (Ho : q_is_closed s = true) by (unfold q_is_closed; now rewrite B, orb_true_r).
  assert (Ku : forall fl ch t p, writing p = false -> silent wire (set_send (set_chan s fl ch) t p)).
  { intros. repeat split; cbn; auto. apply silent_upd; auto. }
  assert (K : forall t p, writing p = false -> silent wire (set_send s t p)).
  { intros. repeat split; cbn; auto. apply silent_upd; auto. }
  assert (W : forall w, past_check w = false -> silent wire (set_writer s w)).
  { intros. repeat split; cbn; auto. }
  unfold q_step. destruct (q_crashed s); [exact H|].
  destruct l as [ | | |t d m|t ch o|ch o].
  - repeat split; cbn; auto.
  - rewrite A. repeat split; cbn; auto.
  - rewrite B. repeat split; cbn; auto.
  - destruct (q_send s t); try exact H. destruct d; [rewrite Ho; exact H|now apply K].
  - unfold send_step. pose proof (E t) as Et. destruct (q_send s t) eqn:Es; try exact H; try (now apply K).
    + destruct (q_chan s); now apply K.
    + destruct (q_flag s); [now apply K|now apply Ku].
    + repeat split; cbn; auto. apply silent_upd; auto.
    + rewrite Ho. now apply K.
    + rewrite B. destruct ch; [| |destruct nonnil; [|exact H]]; destruct (q_chan s) as [[l [|]]|]; try exact H; try (now apply K); try (now apply Ku).
      destruct (length l <? max 1 (qc_cap c)); [now apply Ku|exact H].
    + rewrite Ho. now apply K.
    + discriminate.
  - unfold writer_step. destruct (q_writer s) eqn:Ew; try exact H; cbn in D; try discriminate.
    + rewrite A. now apply W.
    + rewrite B. destruct ch; try (now apply W). destruct (q_chan s) as [[[|[t m] l] [|]]|]; try exact H; try (now apply W); repeat split; cbn; auto.
    + rewrite Ho. now apply W.
    + rewrite Ho. now apply W.
    + rewrite Ho. now apply W.
Qed.
Lemma silent_run c wire : forall ls s, silent wire s -> silent wire (fst (q_run c s ls)).
Proof.
  induction ls as [|l ls IH]; intros s H; cbn; [exact H|].
  pose proof (silent_step c wire s l H) as H1. destruct (q_step c s l) as [s1 e]. specialize (IH s1 H1). now destruct (q_run c s1 ls).
Qed.

(* Goroutine t sends m through the buffer, and the channel takes it. *)
Definition first_send (t : nat) (m : msg) : list qlabel :=
  [QCall t false m; QSend t ChChan NetOk; QSend t ChChan NetOk; QSend t ChChan NetOk; QSend t ChChan NetOk;
   QSend t ChChan NetOk; QSend t ChChan NetOk; QSend t ChChan NetOk].
Definition next_send (t : nat) (m : msg) : list qlabel :=
  [QCall t false m; QSend t ChChan NetOk; QSend t ChChan NetOk; QSend t ChChan NetOk; QSend t ChChan NetOk].
Definition to_buffer : list qlabel := [QWriter ChChan NetOk; QWriter ChChan NetOk; QWriter ChChan NetOk].
Definition flush_now : list qlabel := [QWriter ChTimer NetOk; QWriter ChTimer NetOk; QWriter ChTimer NetOk].

(* The message was accepted (nil returned), Stop was called, and however execution
   goes on nothing is ever written. *)
Definition lost_run (m : msg) : list qlabel := QStart :: first_send 0 m ++ [QWriter ChTimer NetOk; QStop].
Lemma lost_fine m : network_fine (lost_run m).
Proof. split; intros; cbn; intuition discriminate. Qed.
Lemma lost_trace c m : snd (q_run c q_new (lost_run m)) = [QBegin 0 m; QOk 0 m].
Proof. destruct c as [[|cap] bs]; vm_compute; reflexivity. Qed.
Lemma lost_send c m t : writing (q_send (fst (q_run c q_new (lost_run m))) t) = false.
Proof. destruct c as [[|cap] bs], t; vm_compute; reflexivity. Qed.
Lemma lost_state c m : let s := fst (q_run c q_new (lost_run m)) in
  q_ctx s = true /\ q_cancelled s = true /\ q_wire s = [] /\ past_check (q_writer s) = false.
Proof. destruct c as [[|cap] bs]; vm_compute; auto. Qed.
Lemma lost_on_stop c m :
  network_fine (lost_run m) /\ snd (q_run c q_new (lost_run m)) = [QBegin 0 m; QOk 0 m] /\
  forall more, q_wire (fst (q_run c q_new (lost_run m ++ more))) = [].
Proof.
  split; [apply lost_fine|]. split; [apply lost_trace|]. intros more.
  assert (S : silent [] (fst (q_run c q_new (lost_run m)))).
  { destruct (lost_state c m) as (A & B & C & D). split; [exact A|]. split; [exact B|]. split; [exact C|].
    split; [exact D|]. intros t. apply lost_send. }
  rewrite q_run_app. destruct (silent_run c [] more _ S) as (_ & _ & X & _). exact X.
Qed.

(* ---- who can panic ---- *)

Definition past_closed (p : spc) : bool := match p with SEnter _ | SSel _ _ => true | _ => false end.
Definition after_make (p : spc) : bool := match p with SGo _ | SClosed _ | SEnter _ | SSel _ _ => true | _ => false end.
Record single (t0 : nat) (s : qst) (tr : list qev) : Prop := {
  sg_str : str s;
  sg_ctx : q_ctx s = true;
  sg_tr : no_panic tr;
  sg_oth : forall u, u <> t0 -> dstate (q_send s u) = true;
  sg_cas : forall m, q_send s t0 = SCas m -> q_flag s = false;
  sg_flag : q_flag s = true -> q_chan s <> None \/ exists m, q_send s t0 = SMake m;
  sg_made : after_make (q_send s t0) = true -> q_chan s <> None;
  sg_sel : forall m nn, q_send s t0 = SSel m nn -> nn = true;
  sg_cl : forall l, q_chan s = Some (l, true) -> past_closed (q_send s t0) = false
}.

Lemma no_panic_app a b : no_panic a -> no_panic b -> no_panic (a ++ b).
Proof. intros [A B] [C D]. split; intros; rewrite in_app_iff; intros [|]; [eapply A|eapply C|apply B|apply D]; eauto. Qed.
Definition calm_ev (e : qev) : bool := match e with QPanic _ | QCrash => false | _ => true end.
Lemma calm_evs ev : forallb calm_ev ev = true -> no_panic ev.
Proof. rewrite forallb_forall. intros H. split; intros; intros X; apply H in X; discriminate. Qed.

Definition one_label (t0 : nat) (l : qlabel) : Prop := match l with QCall t false _ => t = t0 | _ => True end.

Lemma single_self t0 s s' tr p ev : single t0 s tr -> str s' -> forallb calm_ev ev = true ->
  q_ctx s' = true -> q_send s' = upd (q_send s) t0 p ->
  (forall m, p = SCas m -> q_flag s' = false) ->
  (q_flag s' = true -> q_chan s' <> None \/ exists m, p = SMake m) ->
  (after_make p = true -> q_chan s' <> None) -> (forall m nn, p = SSel m nn -> nn = true) ->
  (forall l, q_chan s' = Some (l, true) -> past_closed p = false) -> single t0 s' (tr ++ ev).
Proof.
  intros [S Cx Tr Ot Ca Fl Ma Se Cl] S' He Hc Hs H1 H2 H3 H4 H5.
  assert (E : q_send s' t0 = p) by (rewrite Hs; unfold upd; now rewrite Nat.eqb_refl).
  constructor; auto; try (rewrite E; assumption).
  - apply no_panic_app; [exact Tr|now apply calm_evs].
  - intros u Hu. rewrite Hs. unfold upd. destruct (Nat.eqb_spec u t0); [congruence|auto].
Qed.
Lemma single_keep t0 s s' tr ev : single t0 s tr -> str s' -> forallb calm_ev ev = true ->
  q_ctx s' = true -> q_send s' t0 = q_send s t0 -> (forall u, u <> t0 -> dstate (q_send s' u) = true) ->
  q_flag s' = q_flag s -> (q_chan s <> None -> q_chan s' <> None) ->
  (forall l, q_chan s' = Some (l, true) -> exists k, q_chan s = Some (k, true)) -> single t0 s' (tr ++ ev).
Proof.
  intros [S Cx Tr Ot Ca Fl Ma Se Cl] S' He Hc Hs Ho Hf Hn Hcl. constructor; auto; rewrite ?Hs, ?Hf; auto.
  - apply no_panic_app; [exact Tr|now apply calm_evs].
  - intros X. destruct (Fl X); auto.
  - intros l Hl. destruct (Hcl l Hl) as (k & Hk). eauto.
Qed.

Ltac self := eapply single_self; [eassumption|eassumption|try reflexivity|cbn; assumption|reflexivity|..]; cbn; intros; try discriminate; eauto.

Ltac w5 := cbn; split; [assumption|]; split; [reflexivity|]; split; [reflexivity|]; split; [intro; assumption|];
  let l := fresh in let H := fresh in intros l H; exists l; exact H.

Lemma single_step c t0 s tr l : one_label t0 l -> single t0 s tr ->
  single t0 (fst (q_step c s l)) (tr ++ snd (q_step c s l)).
Proof.
  intros Hl G. pose proof G as [S Cx Tr Ot Ca Fl Ma Se Cl].
  assert (N : single t0 s (tr ++ [])) by now rewrite app_nil_r.
  pose proof (str_step c s l S) as S'. revert S'.
  assert (DU : forall t p, t <> t0 -> dstate p = true -> forall u, u <> t0 -> dstate (upd (q_send s) t p u) = true).
  { intros t p Ht Hp u Hu. updcases; auto. }
  assert (UN : forall t p, t <> t0 -> upd (q_send s) t p t0 = q_send s t0).
  { intros t p Ht. unfold upd. destruct (Nat.eqb_spec t0 t); congruence. }
  unfold q_step. destruct (q_crashed s); [intros _; exact N|].
  destruct l as [ | | |t d m|t ch o|ch o]; cbn in Hl.
  - intros S'. eapply single_keep; eauto.
  - rewrite Cx. intros S'. eapply single_keep; eauto.
  - destruct (q_cancelled s); [|intros _; exact N]. intros S'. eapply single_keep; eauto.
  - destruct (q_send s t) eqn:Es; try (intros _; exact N).
    assert (K : forall p, dstate p = true -> str (set_send s t p) -> single t0 (set_send s t p) (tr ++ [QBegin t m])).
    { intros p Hp S'. destruct (Nat.eq_dec t t0) as [->|Hn].
      - destruct p; try discriminate Hp; (self);
          destruct (Fl H) as [X|(m' & X)]; auto; congruence.
      - eapply single_keep; eauto; cbn; eauto. }
    destruct d.
    + destruct (q_is_closed s); intros S'; [eapply single_keep; eauto|]. apply K; auto.
    + subst t. intros S'. self.
      destruct (Fl H) as [X|(m' & X)]; [auto|congruence].
  - unfold send_step. destruct (Nat.eq_dec t t0) as [->|Hn].
    + destruct (q_send s t0) eqn:Es; try (intros _; exact N).
      * destruct (q_chan s) eqn:Ec; intros S'; (self); try congruence.
        -- left. congruence.
        -- destruct (q_flag s) eqn:Ef; [|reflexivity]. destruct (Fl eq_refl) as [X|(m' & X)]; congruence.
        -- destruct (Fl H) as [X|(m' & X)]; congruence.
      * rewrite (Ca m eq_refl). intros S'. self.
      * intros S'. self. left. discriminate.
      * intros S'. self.
      * destruct (q_is_closed s) eqn:Eo; intros S'; (self);
          try (destruct (Fl H) as [X|(m' & X)]; [auto|congruence]).
        unfold q_is_closed in Eo. rewrite (st_closed s S _ H), orb_true_r in Eo. discriminate.
      * intros S'. self.
        inversion H. destruct (q_chan s); [reflexivity|]. now elim Ma.
      * pose proof (Se m nonnil eq_refl) as ->. pose proof (Ma eq_refl) as Hc.
        assert (K : forall ev, forallb calm_ev ev = true -> str (set_send s t0 SIdle) -> single t0 (set_send s t0 SIdle) (tr ++ ev)).
        { intros. self. }
        destruct ch.
        -- destruct (q_cancelled s); [|intros _; exact N]. destruct (q_chan s) as [[l [|]]|] eqn:Ec; [| |congruence].
           ++ pose proof (Cl _ eq_refl). discriminate.
           ++ intros S'. self. left. discriminate.
        -- intros S'. apply K; auto.
        -- destruct (q_chan s) as [[l [|]]|] eqn:Ec; [| |congruence].
           ++ pose proof (Cl _ eq_refl). discriminate.
           ++ destruct (length l <? max 1 (qc_cap c)); [|intros _; exact N].
              intros S'. self. left. discriminate.
      * destruct (q_is_closed s); intros S'; (self);
          destruct (Fl H) as [X|(m' & X)]; auto; congruence.
      * destruct (net_write_eq s m o) as (n & br & ok & E & _). rewrite E. intros S'.
        self; [now destruct ok|].
        destruct (Fl H) as [X|(m' & X)]; auto; congruence.
    + pose proof (Ot t Hn) as D. destruct (q_send s t) eqn:Es; cbn in D; try discriminate; try (intros _; exact N).
      * destruct (q_is_closed s); intros S'; eapply single_keep; eauto; cbn; eauto.
      * destruct (net_write_eq s m o) as (n & br & ok & E & _). rewrite E. intros S'.
        eapply single_keep; eauto; cbn; eauto. now destruct ok.
  - assert (E : q_send (fst (writer_step c s ch o)) = q_send s) by apply writer_quiet.
    assert (F : q_ctx (fst (writer_step c s ch o)) = true /\ q_flag (fst (writer_step c s ch o)) = q_flag s /\
      snd (writer_step c s ch o) = [] /\ (q_chan s <> None -> q_chan (fst (writer_step c s ch o)) <> None) /\
      (forall l, q_chan (fst (writer_step c s ch o)) = Some (l, true) -> exists k, q_chan s = Some (k, true))).
    { unfold writer_step. destruct (q_writer s) eqn:Ew; try w5.
      - rewrite Cx. w5.
      - destruct ch; [destruct (q_cancelled s); w5|w5|].
        destruct (q_chan s) as [[[|[t m] l] cl]|] eqn:Eh.
        + destruct cl; cbn; rewrite ?Eh; w5.
        + cbn. split; [exact Cx|]. split; [reflexivity|]. split; [reflexivity|]. split; [discriminate|].
          intros l' H. injection H as -> ->. eauto.
        + cbn. rewrite Eh. w5.
      - destruct (q_is_closed s); w5.
      - destruct (buf_write_eq c s rest o) as (b & er & wi & br & Q). destruct (buf_write c s rest o) as [s1 r]. cbn in Q. subst s1. w5.
      - destruct (q_is_closed s); w5.
      - destruct (buf_flush_eq s o) as (b & er & wi & br & Q). destruct (buf_flush s o) as [s1 r]. cbn in Q. subst s1. w5.
      - destruct (q_is_closed s); w5.
      - destruct (buf_flush_eq s o) as (b & er & wi & br & Q). destruct (buf_flush s o) as [s1 r]. cbn in Q. subst s1. w5. }
    destruct F as (F1 & F2 & F3 & F4 & F5). rewrite F3. intros S'. eapply single_keep; eauto; rewrite E; auto.
Qed.

Lemma one_sender_safe c ls : one_buffered_sender ls -> no_panic (snd (q_run c q_new (QStart :: ls))).
Proof.
  intros (t0 & H).
  set (s0 := fst (q_step c q_new QStart)).
  assert (Q : q_run c q_new (QStart :: ls) = q_run c s0 ls) by (cbn; now destruct (q_run _ _ _)).
  rewrite Q. apply (sg_tr t0 (fst (q_run c s0 ls))).
  apply (run_inv c (one_label t0) (single t0) (single_step c t0) ls s0 []).
  - constructor; cbn; auto; try discriminate; [apply (str_step c q_new QStart), str_new|].
    split; intros; cbn; auto.
  - intros l Hl. destruct l as [ | | |t [|] m|t ch o|ch o]; cbn; auto. now apply (H t m).
Qed.

(* ---- the panics ---- *)

(* Two goroutines are waiting in the select when Stop comes: both close the channel. *)
Definition double_close_run (m : msg) : list qlabel :=
  QStart :: [QCall 0 false m; QSend 0 ChTimer NetOk; QSend 0 ChTimer NetOk; QSend 0 ChTimer NetOk; QSend 0 ChTimer NetOk;
             QSend 0 ChTimer NetOk; QSend 0 ChTimer NetOk;
             QCall 1 false m; QSend 1 ChTimer NetOk; QSend 1 ChTimer NetOk; QSend 1 ChTimer NetOk;
             QStop; QSend 0 ChDone NetOk; QSend 1 ChDone NetOk].
(* The same, but the second one's select picks the send: send on closed channel. *)
Definition closed_send_run (m : msg) : list qlabel :=
  removelast (double_close_run m) ++ [QSend 1 ChChan NetOk].
(* The second goroutine comes between the first one's flag and its channel: close of nil channel. *)
Definition nil_close_run (m : msg) : list qlabel :=
  [QStart; QCall 0 false m; QSend 0 ChTimer NetOk; QSend 0 ChTimer NetOk;
   QCall 1 false m; QSend 1 ChTimer NetOk; QSend 1 ChTimer NetOk; QSend 1 ChTimer NetOk; QSend 1 ChTimer NetOk;
   QStop; QSend 1 ChDone NetOk].
(* A buffered send before Start: the writer goroutine dereferences a nil context. *)
Definition before_start_run (m : msg) : list qlabel :=
  [QCall 0 false m; QSend 0 ChTimer NetOk; QSend 0 ChTimer NetOk; QSend 0 ChTimer NetOk; QSend 0 ChTimer NetOk; QWriter ChTimer NetOk].

Lemma double_close c m : In (QPanic 1) (snd (q_run c q_new (double_close_run m))).
Proof. destruct c as [cap bs]; vm_compute; auto 10. Qed.
Lemma closed_send c m : In (QPanic 1) (snd (q_run c q_new (closed_send_run m))).
Proof. destruct c as [[|cap] bs]; vm_compute; auto 10. Qed.
Lemma nil_close c m : In (QPanic 1) (snd (q_run c q_new (nil_close_run m))).
Proof. destruct c as [cap bs]; vm_compute; auto 10. Qed.
Lemma before_start c m : In QCrash (snd (q_run c q_new (before_start_run m))).
Proof. destruct c as [cap bs]; vm_compute; auto 10. Qed.

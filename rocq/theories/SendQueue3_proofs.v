(* Proofs about the TCP send path: progress, loss on Stop, panics. *)
From Coq Require Import List Bool Arith Lia ZifyBool ZifyNat.
From Verif Require Import Bytes SendQueue Spec_Send SendQueue_proofs SendQueue2_proofs.
Import ListNotations.

(* ---- C35: without Stop and with a working network everything accepted can be written ---- *)

Definition calm (s : qst) : Prop :=
  q_ctx s = true /\ q_cancelled s = false /\ q_crashed s = false /\ q_broken s = false /\ q_err s = false /\ ended (q_writer s) = false.
(* Nothing is on the way before the writer exists, and whoever made the channel starts the writer. *)
Definition early (s : qst) : Prop :=
  q_writer s = WNone -> q_wire s = [] /\ q_buf s = [] /\ (q_chan s <> None -> exists t m, q_send s t = SGo m).

Definition fine_label (l : qlabel) : Prop :=
  match l with
  | QStop | QCall _ true _ | QSend _ _ (NetFail _) | QWriter _ (NetFail _) => False
  | _ => True
  end.

Lemma calm_open s : calm s -> q_is_closed s = false.
Proof. intros (A & B & _). unfold q_is_closed. now rewrite A, B. Qed.

Lemma flush_fine s : q_err s = false -> q_broken s = false ->
  snd (buf_flush s NetOk) = true /\ q_buf (fst (buf_flush s NetOk)) = [] /\
  q_err (fst (buf_flush s NetOk)) = false /\ q_broken (fst (buf_flush s NetOk)) = false.
Proof.
  intros E B. unfold buf_flush. rewrite E. destruct (q_buf s) eqn:Eb; [cbn; rewrite Eb; auto|].
  unfold net_write. rewrite B. cbn. auto.
Qed.
Lemma write_fine c s p : q_err s = false -> q_broken s = false ->
  snd (buf_write c s p NetOk) <> inr false /\
  q_err (fst (buf_write c s p NetOk)) = false /\ q_broken (fst (buf_write c s p NetOk)) = false.
Proof.
  intros E B. unfold buf_write. rewrite E. destruct (length p <=? qc_buf c - length (q_buf s)).
  - cbn. repeat split; auto; discriminate.
  - destruct (q_buf s) as [|x b] eqn:Eb.
    + unfold net_write. rewrite B. cbn. repeat split; discriminate.
    + match goal with |- context [buf_flush ?s0 _] => pose proof (flush_fine s0 eq_refl B) as F; destruct (buf_flush s0 NetOk) as [s1 ok] end.
      cbn in F. cbn. repeat split; try tauto. discriminate.
Qed.

Ltac q6 := cbn [fst snd q_ctx q_cancelled q_crashed q_broken q_err q_writer set_send set_chan set_writer set_buf ended]; repeat split; auto.
Lemma calm_step c s l : str s -> fine_label l -> calm s -> calm (fst (q_step c s l)).
Proof.
  intros S Hl C. pose proof (calm_open s C) as Ho. pose proof C as (A & B & D & E & F & G).
  unfold q_step. rewrite D. unfold calm.
  destruct l as [ | | |t d m|t ch o|ch o]; cbn in Hl; try contradiction.
  - cbn. auto 10.
  - rewrite B. cbn. auto 10.
  - destruct (q_send s t); cbn; auto 10. destruct d; [contradiction|]. cbn. auto 10.
  - destruct o; [|contradiction]. unfold send_step. destruct (q_send s t) eqn:Es; try solve [q6].
    + destruct (q_chan s); try solve [q6].
    + destruct (q_flag s); try solve [q6].
    + rewrite Ho. q6.
    + rewrite B. destruct ch; try solve [q6]. destruct nonnil; try solve [q6].
      destruct (q_chan s) as [[l [|]]|]; try solve [q6]. destruct (length l <? max 1 (qc_cap c)); try solve [q6].
    + rewrite Ho. q6.
    + unfold net_write. rewrite E. q6.
  - destruct o; [|contradiction]. unfold writer_step. destruct (q_writer s) eqn:Ew; cbn in G; try discriminate.
    + cbn. rewrite Ew. auto 10.
    + rewrite A. q6.
    + rewrite B. destruct ch; cbn; rewrite ?Ew; auto 10. destruct (q_chan s) as [[[|[t m] l] [|]]|] eqn:Eh; cbn; rewrite ?Ew; auto 10.
      rewrite (st_closed s S _ Eh) in B. discriminate.
    + rewrite Ho. q6.
    + destruct (write_fine c s rest F E) as (X & Y & Z). destruct (buf_write_eq c s rest NetOk) as (b & er & wi & br & Q).
      destruct (buf_write c s rest NetOk) as [s1 r]. cbn in *. subst s1. cbn in *.
      destruct r as [?|[|]]; try (exfalso; now apply X); try solve [q6].
    + rewrite Ho. q6.
    + destruct (flush_fine s F E) as (X & Y & Z & V). destruct (buf_flush_eq s NetOk) as (b & er & wi & br & Q).
      destruct (buf_flush s NetOk) as [s1 r]. cbn in *. subst s1 r. cbn in *. auto 10.
Qed.

Lemma early_step c s l : str s -> (forall t, is_direct (q_send s t) = false) -> early s -> early (fst (q_step c s l)).
Proof.
  intros S Hdir E. unfold q_step. destruct (q_crashed s); [exact E|].
  assert (Hw : forall w, w <> WNone -> early (set_writer s w)) by (intros w H X; cbn in X; congruence).
  destruct l as [ | | |t d m|t ch o|ch o].
  - exact E.
  - destruct (q_ctx s); exact E.
  - destruct (q_cancelled s); exact E.
  - destruct (q_send s t) eqn:Es; try exact E.
    assert (K : forall p, early (set_send s t p)).
    { intros p X. cbn in X. destruct (E X) as (P & Q & R). cbn. repeat split; auto.
      intros Hc. destruct (R Hc) as (u & m' & Hu). exists u, m'. unfold upd. destruct (Nat.eqb_spec u t); [congruence|exact Hu]. }
    destruct d; [destruct (q_is_closed s); [exact E|]|]; apply K.
  - unfold send_step. destruct (q_send s t) eqn:Es; try exact E.
    (* goroutines that are not starting the writer may move freely *)
    all: assert (K : (forall m', q_send s t <> SGo m') -> forall fl ch' p, (q_chan s = None -> ch' = None) ->
         early (set_send (set_chan s fl ch') t p)) by
      (intros NG fl ch' p Hc X; cbn in X; destruct (E X) as (P & Q & R); cbn; repeat split; auto;
       intros Hn; destruct (R ltac:(tauto)) as (u & m' & Hu); exists u, m'; unfold upd; destruct (Nat.eqb_spec u t); subst; [exfalso; eapply NG; eassumption|exact Hu]).
    all: assert (K' : (forall m', q_send s t <> SGo m') -> forall p, early (set_send s t p)) by
      (intros NG p; specialize (K NG (q_flag s) (q_chan s) p (fun x => x)); destruct s; exact K).
    all: rewrite Es in K, K'; try specialize (K ltac:(intros; discriminate)); try specialize (K' ltac:(intros; discriminate)).
    + destruct (q_chan s); apply K'.
    + destruct (q_flag s); [apply K'|]. cbn [fst]. apply K. auto.
    + intros X. cbn in X. destruct (E X) as (P & Q & R). cbn. repeat split; auto. intros _. exists t, m. unfold upd. now rewrite Nat.eqb_refl.
    + intros X. cbn in X. discriminate.
    + destruct (q_is_closed s); apply K'.
    + apply K'.
    + destruct ch; [destruct (q_cancelled s); [|exact E]|apply K'|destruct nonnil; [|exact E]];
        destruct (q_chan s) as [[l [|]]|] eqn:Eh; try (apply K'); try exact E.
      * cbn [fst]. apply K. discriminate.
      * destruct (length l <? max 1 (qc_cap c)); [|exact E]. cbn [fst]. apply K. discriminate.
    + specialize (Hdir t). rewrite Es in Hdir. discriminate.
    + specialize (Hdir t). rewrite Es in Hdir. discriminate.
  - unfold writer_step. destruct (q_writer s) eqn:Ew; try exact E.
    + destruct (q_ctx s); [apply Hw; discriminate|]. intros X. discriminate X.
    + destruct ch; [destruct (q_cancelled s); [apply Hw; discriminate|exact E]|apply Hw; discriminate|].
      destruct (q_chan s) as [[[|[t m] l] [|]]|]; try exact E; try (apply Hw; discriminate); intros X; discriminate X.
    + destruct (q_is_closed s); apply Hw; discriminate.
    + destruct (buf_write c s rest o) as [s1 r]. intros X. cbn in X. destruct r as [?|[|]]; discriminate.
    + destruct (q_is_closed s); apply Hw; discriminate.
    + destruct (buf_flush s o) as [s1 r]. intros X. cbn in X. destruct r; discriminate.
    + destruct (q_is_closed s); apply Hw; discriminate.
    + intros X. cbn in X. discriminate.
Qed.

Definition good (s : qst) (tr : list qev) : Prop := str s /\ cont s tr /\ calm s /\ early s.

Lemma good_step c s tr l : fine_label l -> good s tr -> good (fst (q_step c s l)) (tr ++ snd (q_step c s l)).
Proof.
  intros Hl (S & C & K & E). split; [now apply str_step|split; [|split; [now apply calm_step|]]].
  - apply cont_step; auto. destruct l; cbn in *; auto; destruct direct; auto.
  - apply early_step; auto. apply (ct_dir _ _ C).
Qed.

(* Steps that only let goroutines go on. *)

Definition reach c (s : qst) (P : qst -> Prop) : Prop :=
  exists ls, (forall l, In l ls -> goes_on l) /\ oks (snd (q_run c s ls)) = [] /\ P (fst (q_run c s ls)).

Lemma reach_here c s (P : qst -> Prop) : P s -> reach c s P.
Proof. intros H. exists []. cbn. repeat split; auto. contradiction. Qed.
Lemma reach_step c s l (P : qst -> Prop) :
  goes_on l -> oks (snd (q_step c s l)) = [] -> reach c (fst (q_step c s l)) P -> reach c s P.
Proof.
  intros Hl Ho (ls & H1 & H2 & H3). exists (l :: ls). cbn.
  destruct (q_step c s l) as [s1 e]. cbn in *. destruct (q_run c s1 ls) as [s2 es]. cbn in *.
  repeat split; auto.
  - intros x [<-|Hx]; auto.
  - now rewrite oks_app, Ho, H2.
Qed.

Lemma goes_fine l : goes_on l -> fine_label l.
Proof. destruct l as [ | | |? [|] ?|? ? [|]|? [|]]; cbn; auto. Qed.

Definition drained (tr : list qev) (s : qst) : Prop := q_wire s = concat (map snd (oks tr)).

(* From the select: receive everything, then flush. *)
Lemma wstep c s tr ch (P : qst -> Prop) : good s tr -> oks (snd (q_step c s (QWriter ch NetOk))) = [] ->
  (good (fst (q_step c s (QWriter ch NetOk))) tr -> reach c (fst (q_step c s (QWriter ch NetOk))) P) -> reach c s P.
Proof.
  intros G Ho H. apply (reach_step c s (QWriter ch NetOk)); [exact I|exact Ho|]. apply H.
  pose proof (good_step c s tr (QWriter ch NetOk) I G) as (S & [D Pr X] & K). unfold exact in X. rewrite oks_app, Ho, app_nil_r in Pr, X. 
  split; [exact S|]. split; [|exact K]. constructor; auto.
Qed.

Lemma writer_silent c s ch o : oks (snd (q_step c s (QWriter ch o))) = [].
Proof.
  unfold q_step. destruct (q_crashed s); [reflexivity|]. destruct (writer_quiet c s ch o) as [_ [-> | ->]]; reflexivity.
Qed.

Lemma step_writer c s ch : q_crashed s = false -> q_step c s (QWriter ch NetOk) = writer_step c s ch NetOk.
Proof. intros H. unfold q_step. now rewrite H. Qed.

(* Finishing a write into the buffer. *)
Lemma put_done c : forall s tr (P : qst -> Prop) p, good s tr -> q_writer s = WPut p ->
  (forall s', good s' tr -> q_writer s' = WSelect -> q_chan s' = q_chan s -> reach c s' P) -> reach c s P.
Proof.
  intros s tr P p G Ew H.
  assert (A : forall s tr p, good s tr -> q_writer s = WPut p -> length p <= qc_buf c - length (q_buf s) ->
    (forall s', good s' tr -> q_writer s' = WSelect -> q_chan s' = q_chan s -> reach c s' P) -> reach c s P).
  { clear. intros s tr p G Ew Hl H. apply (wstep c s tr ChTimer P G (writer_silent _ _ _ _)). intros G'.
    destruct G as (_ & _ & (_ & _ & Kc & _ & Ke & _) & _). rewrite step_writer in * by auto.
    unfold writer_step in *. rewrite Ew in *. unfold buf_write in *. rewrite Ke in *.
    apply Nat.leb_le in Hl. rewrite Hl in *. apply H; [exact G'|reflexivity|reflexivity]. }
  assert (B : forall s tr p, good s tr -> q_writer s = WPut p -> q_buf s = [] ->
    (forall s', good s' tr -> q_writer s' = WSelect -> q_chan s' = q_chan s -> reach c s' P) -> reach c s P).
  { clear H Ew G s tr p. intros s tr p G Ew Hb H.
    destruct (length p <=? qc_buf c - length (q_buf s)) eqn:El; [apply Nat.leb_le in El; eapply A; eauto|].
    apply (wstep c s tr ChTimer P G (writer_silent _ _ _ _)). intros G'.
    destruct G as (_ & _ & (_ & _ & Kc & Kb & Ke & _) & _). rewrite step_writer in * by auto.
    unfold writer_step in *. rewrite Ew in *. unfold buf_write in *. rewrite Ke, El, Hb in *. unfold net_write in *. rewrite Kb in *.
    cbn -[skipn firstn] in G'. cbn -[skipn firstn]. eapply A; [exact G'|reflexivity| |].
    - rewrite skipn_all. cbn. lia.
    - intros s' G2 E2 E3. apply H; auto. }
  destruct (length p <=? qc_buf c - length (q_buf s)) eqn:El; [apply Nat.leb_le in El; eapply A; eauto|].
  destruct (q_buf s) as [|x b] eqn:Eb; [eapply B; eauto|].
  apply (wstep c s tr ChTimer P G (writer_silent _ _ _ _)). intros G'.
  destruct G as (_ & _ & (_ & _ & Kc & Kb & Ke & _) & _). rewrite step_writer in * by auto.
  unfold writer_step in *. rewrite Ew in *. unfold buf_write in *. rewrite Ke, Eb, El in *.
  match type of G' with context [buf_flush ?s0 _] => pose proof (flush_fine s0 eq_refl Kb) as F; pose proof (buf_flush_eq s0 NetOk) as Q; destruct (buf_flush s0 NetOk) as [s1 ok] end.
  destruct Q as (b1 & e1 & w1 & r1 & Q). cbn -[skipn firstn length] in F, Q. subst s1. cbn -[skipn firstn length] in *.
  eapply B; [exact G'|reflexivity|apply F|]. intros s' G2 E2 E3. apply H; auto.
Qed.

Lemma drain c : forall n s tr, good s tr -> q_writer s = WSelect -> length (queue s) = n -> reach c s (drained tr).
Proof.
  induction n as [|n IH]; intros s tr G Ew En.
  - (* flush *)
    apply (wstep c s tr ChTimer _ G (writer_silent _ _ _ _)). intros G1.
    pose proof G as (_ & _ & K & _). rewrite step_writer in * by apply K. unfold writer_step in *. rewrite Ew in *.
    cbn [fst] in *. apply (wstep c _ tr ChTimer _ G1 (writer_silent _ _ _ _)). intros G2.
    pose proof (calm_open _ (proj1 (proj2 (proj2 G1)))) as Ho.
    rewrite step_writer in * by apply K. unfold writer_step in *. cbn [q_writer set_writer] in *. rewrite Ho in *. cbn [fst] in *.
    apply (wstep c _ tr ChTimer _ G2 (writer_silent _ _ _ _)). intros G3.
    rewrite step_writer in * by apply K. unfold writer_step in *. cbn [q_writer set_writer] in *.
    match type of G3 with context [buf_flush ?s0 _] => pose proof (flush_fine s0 ltac:(apply K) ltac:(apply K)) as F;
      pose proof (buf_flush_eq s0 NetOk) as Q; destruct (buf_flush s0 NetOk) as [s1 ok] end.
    destruct Q as (b1 & e1 & w1 & r1 & Q). cbn in F, Q. subst s1. cbn in F. destruct F as (-> & -> & _).
    apply reach_here. destruct G3 as (_ & C3 & _). destruct (ct_ex _ _ C3 eq_refl) as (done & E & Fq).
    cbn in *. unfold drained. cbn. rewrite !app_nil_r in Fq. rewrite <- Fq, E.
    assert (Z : queue s = []) by (destruct (queue s); [reflexivity|discriminate]).
    unfold queue in Z |- *. cbn. rewrite Z. now rewrite app_nil_r.
  - apply (wstep c s tr ChChan _ G (writer_silent _ _ _ _)). intros G1.
    pose proof G as (_ & _ & K & _). rewrite step_writer in * by apply K. unfold writer_step in *. rewrite Ew in *.
    unfold queue in En. destruct (q_chan s) as [[[|[t m] l] cl]|] eqn:Eh; cbn in En; try discriminate.
    cbn [fst] in *. apply (wstep c _ tr ChTimer _ G1 (writer_silent _ _ _ _)). intros G2.
    pose proof (calm_open _ (proj1 (proj2 (proj2 G1)))) as Ho.
    rewrite step_writer in * by apply K. unfold writer_step in *. cbn [q_writer set_writer set_chan] in *. rewrite Ho in *. cbn [fst] in *.
    eapply put_done; [exact G2|reflexivity|]. intros s' G' Ew' Ec'. apply IH; auto.
    unfold queue. rewrite Ec'. cbn. lia.
Qed.

Lemma to_select c s tr : good s tr -> q_writer s <> WNone -> reach c s (drained tr).
Proof.
  intros G Hn. destruct (q_writer s) eqn:Ew; try congruence.
  - apply (wstep c s tr ChTimer _ G (writer_silent _ _ _ _)). intros G1.
    pose proof G as (_ & _ & K & _). rewrite step_writer in * by apply K. unfold writer_step in *. rewrite Ew in *.
    destruct K as (K1 & _). rewrite K1 in *. eapply drain; [exact G1|reflexivity|reflexivity].
  - eapply drain; eauto.
  - apply (wstep c s tr ChTimer _ G (writer_silent _ _ _ _)). intros G1.
    pose proof G as (_ & _ & K & _). pose proof (calm_open s K) as Ho. rewrite step_writer in * by apply K. unfold writer_step in *. rewrite Ew, Ho in *.
    eapply put_done; [exact G1|reflexivity|]. intros. eapply drain; eauto.
  - eapply put_done; [exact G|exact Ew|]. intros. eapply drain; eauto.
  - apply (wstep c s tr ChTimer _ G (writer_silent _ _ _ _)). intros G1.
    pose proof G as (_ & _ & K & _). pose proof (calm_open s K) as Ho. rewrite step_writer in * by apply K. unfold writer_step in *. rewrite Ew, Ho in *.
    cbn [fst] in *. apply (wstep c _ tr ChTimer _ G1 (writer_silent _ _ _ _)). intros G2.
    rewrite step_writer in * by apply K. unfold writer_step in *. cbn [q_writer set_writer] in *.
    match type of G2 with context [buf_flush ?s0 _] => pose proof (flush_fine s0 ltac:(apply K) ltac:(apply K)) as F; destruct (buf_flush s0 NetOk) as [s1 ok] end.
    cbn in F. destruct F as (-> & _). cbn [fst] in *. eapply drain; [exact G2|reflexivity|reflexivity].
  - apply (wstep c s tr ChTimer _ G (writer_silent _ _ _ _)). intros G1.
    pose proof G as (_ & _ & K & _). rewrite step_writer in * by apply K. unfold writer_step in *. rewrite Ew in *.
    destruct (flush_fine s ltac:(apply K) ltac:(apply K)) as (F & _). destruct (buf_flush s NetOk) as [s1 ok]. cbn in F. subst ok.
    cbn [fst] in *. eapply drain; [exact G1|reflexivity|reflexivity].
  - destruct G as (_ & _ & (_ & _ & _ & _ & _ & K) & _). now rewrite Ew in K.
  - destruct G as (_ & _ & (_ & _ & _ & _ & _ & K) & _). now rewrite Ew in K.
  - destruct G as (_ & _ & (_ & _ & _ & _ & _ & K) & _). now rewrite Ew in K.
Qed.

Lemma can_drain c s tr : good s tr -> reach c s (drained tr).
Proof.
  intros G. destruct (q_writer s) eqn:Ew; try (apply to_select; [exact G|congruence]).
  pose proof G as (S & C & K & E). destruct (E Ew) as (E1 & E2 & E3).
  destruct (q_chan s) as [[l cl]|] eqn:Ec.
  - destruct (E3 ltac:(discriminate)) as (t & m & Hs).
    pose proof (good_step c s tr (QSend t ChTimer NetOk) I G) as G1.
    assert (Q : q_step c s (QSend t ChTimer NetOk) = (set_send (set_writer s WBegin) t (SClosed m), [])).
    { destruct K as (K1 & K2 & K3 & _). unfold q_step, send_step. now rewrite K3, Hs. }
    apply (reach_step c s (QSend t ChTimer NetOk)); [exact I|now rewrite Q|].
    rewrite Q in *. cbn [fst snd] in *. rewrite app_nil_r in G1. apply to_select; [exact G1|discriminate].
  - apply reach_here. destruct (ct_ex _ _ C ltac:(now rewrite Ew)) as (done & X & Y).
    unfold queue in X. rewrite Ew, Ec in X. rewrite Ew, E1, E2 in Y. cbn in X, Y. rewrite app_nil_r in X.
    unfold drained. now rewrite E1, X, Y.
Qed.

Lemma good_run c ls : buffered_only ls -> never_stopped ls -> network_fine ls ->
  good (fst (q_run c q_new (QStart :: ls))) (snd (q_run c q_new (QStart :: ls))).
Proof.
  intros H1 H2 [H3 H4].
  set (s0 := fst (q_step c q_new QStart)).
  assert (G0 : good s0 []).
  { subst s0. split; [apply str_step, str_new|]. split; [|split].
    - apply (cont_step c q_new [] QStart str_new I cont_new).
    - cbn. repeat split.
    - intros _. cbn. split; [reflexivity|split; [reflexivity|]]. intros X. now elim X. }
  pose proof (run_inv c fine_label good (good_step c) ls s0 [] G0) as R.
  assert (Q : q_run c q_new (QStart :: ls) = q_run c s0 ls) by (cbn; now destruct (q_run _ _ _)).
  rewrite Q. apply R. clear Q R. intros l Hl. destruct l as [ | | |t [|] m|t ch [|n]|ch [|n]]; cbn; auto.
  - exact (H1 _ _ Hl).
  - exact (H3 _ _ _ Hl).
  - exact (H4 _ _ Hl).
Qed.

Lemma accepted_can_be_written c ls : buffered_only ls -> never_stopped ls -> network_fine ls ->
  exists more, (forall l, In l more -> goes_on l) /\
    q_wire (fst (q_run c q_new ((QStart :: ls) ++ more))) = concat (map snd (oks (snd (q_run c q_new (QStart :: ls))))).
Proof.
  intros H1 H2 H3. destruct (can_drain c _ _ (good_run c ls H1 H2 H3)) as (more & A & _ & B).
  exists more. split; [exact A|]. rewrite q_run_app. cbn [fst]. exact B.
Qed.

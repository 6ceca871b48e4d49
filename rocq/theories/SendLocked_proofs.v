(* Proofs about the websocket and KCP send paths. *)
From Coq Require Import List Bool Arith Lia ZifyBool ZifyNat.
From Verif Require Import Bytes GoSlice SendQueue Spec_Send SendLocked Spec_SendLocked.
Import ListNotations.

Lemma l_run_app c fl : forall ls s ls', l_run c fl s (ls ++ ls') =
  (fst (l_run c fl (fst (l_run c fl s ls)) ls'), snd (l_run c fl s ls) ++ snd (l_run c fl (fst (l_run c fl s ls)) ls')).
Proof.
  induction ls as [|l ls IH]; intros s ls'; cbn.
  - now destruct (l_run c fl s ls').
  - destruct (l_step c fl s l) as [s1 e]. rewrite IH. destruct (l_run c fl s1 ls) as [s2 es]. cbn. now rewrite app_assoc.
Qed.
Lemma l_run_inv c fl (ok : llabel -> Prop) (I : lst -> list lev -> Prop) :
  (forall s tr l, ok l -> I s tr -> I (fst (l_step c fl s l)) (tr ++ snd (l_step c fl s l))) ->
  forall ls s tr, I s tr -> (forall l, In l ls -> ok l) -> I (fst (l_run c fl s ls)) (tr ++ snd (l_run c fl s ls)).
Proof.
  intros H. induction ls as [|l ls IH]; intros s tr Hi Hok; cbn.
  - now rewrite app_nil_r.
  - pose proof (H s tr l (Hok l (or_introl eq_refl)) Hi) as H1.
    destruct (l_step c fl s l) as [s1 e]. cbn in H1.
    specialize (IH s1 (tr ++ e) H1 (fun x Hx => Hok x (or_intror Hx))).
    destruct (l_run c fl s1 ls) as [s2 es]. cbn in *. now rewrite app_assoc.
Qed.

(* ---- the lock ---- *)

Definition holds (s : lst) (x : owner) : Prop := l_excl s = Some x \/ In x (l_shared s).

Lemma owner_eqb_spec a b : owner_eqb a b = true <-> a = b.
Proof. destruct a, b; cbn; try (split; congruence); rewrite Nat.eqb_eq; split; congruence. Qed.

Lemma take_eq fl s x s1 : take fl s x = Some s1 ->
  exists e sh, s1 = w_lock s e sh /\ l_excl s = None /\ (e <> None -> sh = []) /\
    (forall y, l_excl s = Some y \/ In y (l_shared s) -> e = Some y \/ In y sh) /\ (e = Some x \/ In x sh) /\
    (forall y, e = Some y -> y = x).
Proof.
  unfold take, take_excl, take_shared. destruct fl.
  - destruct (l_excl s) eqn:E; [discriminate|]. destruct (l_shared s) eqn:Sh; [|discriminate].
    injection 1 as <-. exists (Some x), []. repeat split; auto; [intros y [X|[]]; discriminate|]. intros y [= ->]. reflexivity.
  - destruct (l_excl s) eqn:E; [discriminate|]. injection 1 as <-. exists None, (x :: l_shared s).
    repeat split; auto; try congruence; cbn; intuition congruence.
Qed.
Lemma release_eq s x : exists sh, release s x = w_lock s None sh /\
  (l_excl s = None -> forall y, In y sh <-> In y (l_shared s) /\ x <> y) /\ (l_excl s <> None -> sh = l_shared s).
Proof.
  unfold release. destruct (l_excl s) eqn:E.
  - exists (l_shared s). repeat split; try congruence; discriminate.
  - exists (filter (fun y => negb (owner_eqb x y)) (l_shared s)). repeat split; try congruence.
    + apply filter_In in H0. tauto.
    + apply filter_In in H0. destruct H0 as [_ H0]. intros ->. rewrite (proj2 (owner_eqb_spec y y) eq_refl) in H0. discriminate.
    + intros [A B]. apply filter_In. split; [exact A|]. destruct (owner_eqb x y) eqn:Q; [apply owner_eqb_spec in Q; congruence|reflexivity].
Qed.

Definition unlocked (p : lpc) : bool :=
  match p with LChk false _ | LMake false _ | LGo false _ | LClosed false _ | LEnter false _ | LSel false _ _ => true | _ => false end.
Definition crit (p : lpc) : bool :=
  match p with LChk true _ | LMake true _ | LGo true _ | LClosed true _ | LEnter true _ | LSel true _ _ | LDClosed _ | LDWrite _ => true | _ => false end.
Definition past (p : lpc) : bool := match p with LEnter _ _ | LSel _ _ _ => true | _ => false end.
Definition vcrit (v : vpc) : bool := match v with VClosed _ _ | VWrite _ _ => true | _ => false end.
Definition fcrit (f : fpc) : bool := match f with FClose | FFlag | FUnlock => true | _ => false end.
Definition ffree (f : fpc) : bool := match f with FIdle | FSet | FLock => true | _ => false end.
Definition flate (f : fpc) : bool := match f with FFlag | FUnlock | FDone => true | _ => false end.
Definition fdone (f : fpc) : bool := match f with FUnlock | FDone => true | _ => false end.

(* Holders of the lock are where the code holds it. *)
Record locked (s : lst) : Prop := {
  lk_own : forall t, crit (l_send s t) = true -> holds s (OSend t);
  lk_wown : forall i v, nth_error (l_writers s) i = Some v -> vcrit v = true -> holds s (OWriter i);
  lk_fown : fcrit (l_final s) = true -> l_excl s = Some OFinal;
  lk_sh : l_excl s <> None -> l_shared s = []
}.

Lemma nth_error_set_nth {A} : forall (l : list A) n x k, nth_error (set_nth n x l) k =
  if k =? n then match nth_error l k with Some _ => Some x | None => None end else nth_error l k.
Proof.
  intros l n. revert l. induction n as [|n IH]; intros [|y l] x [|k]; cbn; auto; try (now rewrite IH);
    try (destruct (k =? n); reflexivity).
Qed.
Lemma set_nth_length {A} : forall (l : list A) n x, length (set_nth n x l) = length l.
Proof. intros l n. revert l. induction n as [|n IH]; intros [|y l] x; cbn; auto. Qed.

(* What a step may do to the lock fields, by who makes it. *)
Lemma locked_same s s' : locked s -> l_excl s' = l_excl s -> l_shared s' = l_shared s ->
  (forall t, crit (l_send s' t) = true -> crit (l_send s t) = true) ->
  (forall i v, nth_error (l_writers s') i = Some v -> vcrit v = true -> exists w, nth_error (l_writers s) i = Some w /\ vcrit w = true) ->
  (fcrit (l_final s') = true -> fcrit (l_final s) = true) -> locked s'.
Proof.
  intros [A B C D] He Hs Hc Hw Hf. unfold holds in *. constructor; rewrite ?He, ?Hs; unfold holds; rewrite ?He, ?Hs; auto.
  intros i v H1 H2. destruct (Hw i v H1 H2) as (w & H3 & H4). eauto.
Qed.
Lemma locked_take fl s x s1 s' : locked s -> take fl s x = Some s1 ->
  l_excl s' = l_excl s1 -> l_shared s' = l_shared s1 ->
  (forall t, crit (l_send s' t) = true -> x = OSend t \/ crit (l_send s t) = true) ->
  (forall i v, nth_error (l_writers s') i = Some v -> vcrit v = true -> x = OWriter i \/ exists w, nth_error (l_writers s) i = Some w /\ vcrit w = true) ->
  (fcrit (l_final s') = true -> fcrit (l_final s) = true) -> locked s'.
Proof.
  intros [A B C D] Ht He Hs Hc Hw Hf. destruct (take_eq fl s x s1 Ht) as (e & sh & -> & T1 & T2 & T3 & T4 & _).
  cbn in He, Hs. unfold holds in *. constructor; unfold holds; rewrite ?He, ?Hs; auto.
  - intros t H. destruct (Hc t H) as [->|H1]; auto.
  - intros i v H1 H2. destruct (Hw i v H1 H2) as [->|(w & H3 & H4)]; eauto.
  - intros H. specialize (C (Hf H)). congruence.
Qed.
Lemma locked_release s x s' : locked s -> holds s x ->
  l_excl s' = l_excl (release s x) -> l_shared s' = l_shared (release s x) ->
  (forall t, crit (l_send s' t) = true -> x <> OSend t /\ crit (l_send s t) = true) ->
  (forall i v, nth_error (l_writers s') i = Some v -> vcrit v = true -> x <> OWriter i /\ exists w, nth_error (l_writers s) i = Some w /\ vcrit w = true) ->
  (fcrit (l_final s') = true -> x <> OFinal /\ fcrit (l_final s) = true) -> locked s'.
Proof.
  intros [A B C D] Hh He Hs Hc Hw Hf. destruct (release_eq s x) as (sh & E & R1 & R2). rewrite E in He, Hs. cbn in He, Hs.
  assert (K : forall y, x <> y -> holds s y -> In y sh).
  { intros y Hn Hy. destruct (l_excl s) as [z|] eqn:Q.
    - exfalso. assert (l_shared s = []) by (apply D; discriminate). unfold holds in *. rewrite H, Q in *. cbn in *.
      destruct Hy as [Hy|[]], Hh as [Hh|[]]. congruence.
    - apply R1; auto. split; [|exact Hn]. destruct Hy as [Hy|Hy]; [congruence|exact Hy]. }
  constructor; unfold holds; rewrite ?He, ?Hs.
  - intros t H. destruct (Hc t H) as [H1 H2]. right. apply K; auto.
  - intros i v H1 H2. destruct (Hw i v H1 H2) as (H3 & w & H4 & H5). right. apply K; eauto.
  - intros H. destruct (Hf H) as [H1 H2]. specialize (C H2).
    exfalso. assert (l_shared s = []) by (apply D; congruence). unfold holds in Hh. rewrite H0, C in Hh. cbn in Hh. destruct Hh as [Hh|[]]. congruence.
  - congruence.
Qed.

(* A holder other than the finalizer keeps it outside its critical part. *)
Lemma holder_free s x : locked s -> holds s x -> x <> OFinal -> fcrit (l_final s) = false.
Proof.
  intros [A B C D] H Hn. destruct (fcrit (l_final s)); [|reflexivity]. specialize (C eq_refl).
  assert (l_shared s = []) by (apply D; congruence). unfold holds in H. rewrite H0, C in H. destruct H as [H|[]]. congruence.
Qed.

(* ---- no panic ---- *)

Record safe (s : lst) (tr : list lev) : Prop := {
  sf_lock : locked s;
  sf_lk : forall t, unlocked (l_send s t) = false;
  sf_fin : forall t, past (l_send s t) = true -> ffree (l_final s) = true;
  sf_cl : forall i q, nth_error (l_chans s) i = Some (q, true) -> flate (l_final s) = true;
  sf_flag : fdone (l_final s) = true -> l_closed s = true;
  sf_ctx : l_ctx s = true;
  sf_tr : no_panic_l tr
}.

Definition calm_lev (e : lev) : bool := match e with MPanic _ | MCrash => false | _ => true end.
Lemma no_panic_snoc tr ev : no_panic_l tr -> forallb calm_lev ev = true -> no_panic_l (tr ++ ev).
Proof.
  intros [A B] H. rewrite forallb_forall in H.
  split; intros; rewrite in_app_iff; intros [X|X]; [eapply A; eauto| |now apply B|]; apply H in X; discriminate.
Qed.

Definition locked_label (fl : flavour) (l : llabel) : Prop :=
  match fl, l with Kcp, MCall _ ASendBuffMsg _ => False | _, _ => True end.

Ltac ueq := repeat match goal with
  | H : context [if ?u =? ?t then _ else _] |- _ => destruct (Nat.eqb_spec u t); subst
  | |- context [if ?u =? ?t then _ else _] => destruct (Nat.eqb_spec u t); subst
  end.

(* A sender moves from p to p', touching nothing else but possibly chans and field and writers. *)
Lemma locked_send s s' t p' : locked s -> l_excl s' = l_excl s -> l_shared s' = l_shared s ->
  l_send s' = (fun u => if u =? t then p' else l_send s u) -> (crit p' = true -> crit (l_send s t) = true) ->
  (forall i v, nth_error (l_writers s') i = Some v -> vcrit v = true -> exists w, nth_error (l_writers s) i = Some w /\ vcrit w = true) ->
  l_final s' = l_final s -> locked s'.
Proof.
  intros L He Hs Hp Hc Hw Hf. eapply locked_same; eauto.
  - intros u. rewrite Hp. ueq; auto.
  - now rewrite Hf.
Qed.
Lemma locked_send_take fl s s1 s' t p' : locked s -> take fl s (OSend t) = Some s1 ->
  l_excl s' = l_excl s1 -> l_shared s' = l_shared s1 ->
  l_send s' = (fun u => if u =? t then p' else l_send s u) -> l_writers s' = l_writers s -> l_final s' = l_final s -> locked s'.
Proof.
  intros L Ht He Hs Hp Hw Hf. eapply locked_take; eauto.
  - intros u. rewrite Hp. ueq; auto.
  - intros i v. rewrite Hw. eauto.
  - now rewrite Hf.
Qed.
Lemma locked_send_release s s' t : locked s -> crit (l_send s t) = true ->
  l_excl s' = l_excl (release s (OSend t)) -> l_shared s' = l_shared (release s (OSend t)) ->
  l_send s' = (fun u => if u =? t then LIdle else l_send s u) -> l_writers s' = l_writers s -> l_final s' = l_final s -> locked s'.
Proof.
  intros L Hc He Hs Hp Hw Hf. eapply locked_release; eauto.
  - now apply lk_own.
  - intros u. rewrite Hp. ueq; [discriminate|]. split; congruence.
  - intros i v. rewrite Hw. intros. split; [discriminate|eauto].
  - rewrite Hf. intros; split; [discriminate|auto].
Qed.

Lemma release_fields s x : let s1 := release s x in
  l_ctx s1 = l_ctx s /\ l_cancelled s1 = l_cancelled s /\ l_closed s1 = l_closed s /\ l_chans s1 = l_chans s /\ l_field s1 = l_field s /\
  l_writers s1 = l_writers s /\ l_final s1 = l_final s /\ l_wire s1 = l_wire s /\ l_broken s1 = l_broken s /\ l_send s1 = l_send s /\ l_crashed s1 = l_crashed s.
Proof. cbn. unfold release. destruct (l_excl s); cbn; repeat split. Qed.
Lemma release_lock s s' x : l_excl s = l_excl s' -> l_shared s = l_shared s' ->
  l_excl (release s x) = l_excl (release s' x) /\ l_shared (release s x) = l_shared (release s' x).
Proof. intros A B. unfold release. rewrite <- A, <- B. destruct (l_excl s); cbn; auto. Qed.

(* The part of the invariant that does not concern the lock. *)
Lemma safe_intro s s' tr ev : safe s tr -> locked s' -> l_ctx s' = true -> forallb calm_lev ev = true ->
  (forall t, unlocked (l_send s' t) = false) ->
  (forall t, past (l_send s' t) = true -> ffree (l_final s') = true) ->
  (forall i q, nth_error (l_chans s') i = Some (q, true) -> flate (l_final s') = true) ->
  (fdone (l_final s') = true -> l_closed s' = true) -> safe s' (tr ++ ev).
Proof. intros S L C E A B D F. constructor; auto. apply no_panic_snoc; [apply (sf_tr _ _ S)|exact E]. Qed.

Ltac sI := eapply safe_intro; [eassumption| |try reflexivity; try assumption|try reflexivity|..]; cbn [fst snd w_send w_chans w_writers w_lock w_final w_wire l_ctx l_cancelled l_closed l_excl l_shared l_chans l_field l_writers l_final l_wire l_broken l_send l_crashed];
  try assumption; try (intros; match goal with
    | UU : forall t p, unlocked p = false -> _ |- unlocked (if _ =? _ then _ else _) = false => apply UU; first [assumption|reflexivity]
    | PP : forall t p, past p = false -> _, H : past (if ?u =? ?t then ?p else _) = true |- _ => refine (PP t p _ u H); first [assumption|reflexivity]
    end).
Ltac lS := eapply locked_send; [eassumption|reflexivity|reflexivity|reflexivity| |cbn; try solve [eauto]|reflexivity].

Lemma safe_step c fl s tr l : locked_label fl l -> safe s tr ->
  safe (fst (l_step c fl s l)) (tr ++ snd (l_step c fl s l)).
Proof.
  intros Hl S. pose proof S as [L U P Cl Fg Cx Tr].
  assert (N : safe s (tr ++ [])) by now rewrite app_nil_r.
  unfold l_step. destruct (l_crashed s); [exact N|].
  assert (UU : forall t p, unlocked p = false -> forall u, unlocked (if u =? t then p else l_send s u) = false).
  { intros t p Hp u. ueq; auto. }
  assert (PP : forall t p, past p = false -> forall u, past (if u =? t then p else l_send s u) = true -> ffree (l_final s) = true).
  { intros t p Hp u. ueq; [congruence|apply P]. }
  destruct l as [ | |t a m|t ch o|i ch o|].
  - sI. eapply locked_same; eauto.
  - rewrite Cx. sI. eapply locked_same; eauto.
  - destruct (l_send s t) eqn:Es; try exact N.
    assert (K : forall p, unlocked p = false -> past p = false -> crit p = false -> forall b, safe (w_send s t p) (tr ++ [MBegin t b m])).
    { intros p K1 K2 K3 b. sI. lS. congruence. }
    destruct a; try (apply K; reflexivity). destruct fl; [apply K; reflexivity|contradiction].
  - unfold lsend_step. pose proof (U t) as Ut. pose proof (P t) as Pt.
    assert (Rel : forall s0 ev, crit (l_send s t) = true -> l_excl s0 = l_excl s -> l_shared s0 = l_shared s ->
       l_send s0 = l_send s -> l_writers s0 = l_writers s -> l_final s0 = l_final s -> l_ctx s0 = true -> l_closed s0 = l_closed s ->
       (forall i q, nth_error (l_chans s0) i = Some (q, true) -> flate (l_final s) = true) -> forallb calm_lev ev = true ->
       safe (w_send (release s0 (OSend t)) t LIdle) (tr ++ ev)).
    { intros s0 ev Hc R1 R2 R3 R4 R5 R6 R7 R8 R9.
      destruct (release_fields s0 (OSend t)) as (F1 & F2 & F3 & F4 & F5 & F6 & F7 & F8 & F9 & F10 & F11).
      destruct (release_lock s0 s (OSend t) R1 R2) as (G1 & G2).
      eapply safe_intro; [exact S| |cbn; congruence|exact R9|..]; cbn; rewrite ?F1, ?F3, ?F4, ?F7, ?F10, ?R3, ?R5, ?R7; auto.
      - apply (locked_send_release s _ t L Hc); cbn; try congruence.
        + rewrite F10, R3. reflexivity.
      - apply (PP t LIdle). reflexivity. }
    destruct (l_send s t) eqn:Es; try exact N; cbn in Ut; try (destruct lk; [|discriminate]).
    + destruct (take fl s (OSend t)) as [s1|] eqn:Et; [|exact N]. pose proof Et as Et'.
      apply take_eq in Et. destruct Et as (e & sh & -> & _).
      sI. eapply locked_send_take; [eassumption|exact Et'|reflexivity|reflexivity|reflexivity|reflexivity|reflexivity].
    + destruct (l_field s); (sI; lS; now rewrite Es).
    + sI.
      * lS. now rewrite Es.
      * intros i q H. destruct (Nat.lt_ge_cases i (length (l_chans s))).
        -- rewrite nth_error_app1 in H by lia. eauto.
        -- rewrite nth_error_app2 in H by lia. destruct (i - length (l_chans s)) as [|[|]]; cbn in H; congruence.
    + sI.
      lS; [now rewrite Es|].
      intros i v H Hv. destruct (Nat.lt_ge_cases i (length (l_writers s))).
      * rewrite nth_error_app1 in H by lia. eauto.
      * rewrite nth_error_app2 in H by lia. destruct (i - length (l_writers s)) as [|[|]]; cbn in H; try congruence. injection H as <-. discriminate.
    + destruct (l_closed s) eqn:Ec; cbn [release_if fst snd].
      * apply Rel; auto.
      * assert (Hf : ffree (l_final s) = true).
        { pose proof (holder_free s (OSend t) L (lk_own _ L t ltac:(now rewrite Es)) ltac:(discriminate)) as X.
          destruct (l_final s); try reflexivity; try discriminate. specialize (Fg eq_refl). congruence. }
        sI; [lS; now rewrite Es|intros; exact Hf|intros H; specialize (Fg H); congruence].
    + sI; [lS; now rewrite Es|intros; apply Pt; reflexivity].
    + cbn [release_if]. destruct ch; [exact N|apply Rel; auto|].
      destruct i as [k|]; [|exact N]. unfold chan_at. destruct (nth_error (l_chans s) k) as [[q [|]]|] eqn:Ek; [| |exact N].
      * specialize (Cl _ _ Ek). specialize (Pt eq_refl). destruct (l_final s); discriminate.
      * destruct (length q <? max 1 c); [|exact N]. apply Rel; auto. cbn. intros i q' H.
        rewrite nth_error_set_nth in H. destruct (Nat.eqb_spec i k); [subst; rewrite Ek in H; discriminate|eauto].
    + destruct (take fl s (OSend t)) as [s1|] eqn:Et; [|exact N]. pose proof Et as Et'.
      apply take_eq in Et. destruct Et as (e & sh & -> & _).
      sI. eapply locked_send_take; [eassumption|exact Et'|reflexivity|reflexivity|reflexivity|reflexivity|reflexivity].
    + destruct (l_closed s) eqn:Ec; cbn [release_if fst snd]; [apply Rel; auto|].
      sI; [lS; now rewrite Es|intros H; specialize (Fg H); congruence].
    + destruct (l_broken s); cbn [release_if fst snd]; [apply Rel; auto|]. destruct o; apply Rel; auto.
  - unfold lwriter_step. destruct (nth_error (l_writers s) i) as [v|] eqn:Ev; [|exact N].
    assert (At : forall s0 v', l_excl s0 = l_excl s -> l_shared s0 = l_shared s -> l_send s0 = l_send s -> l_writers s0 = l_writers s ->
       l_final s0 = l_final s -> l_ctx s0 = true -> l_closed s0 = l_closed s -> (vcrit v' = true -> vcrit v = true) ->
       (forall i q, nth_error (l_chans s0) i = Some (q, true) -> flate (l_final s) = true) ->
       safe (w_writers s0 (set_nth i v' (l_writers s0))) (tr ++ [])).
    { intros s0 v' R1 R2 R3 R4 R5 R6 R7 R8 R9.
      eapply safe_intro; [exact S| |exact R6|reflexivity|..]; cbn; rewrite ?R3, ?R5, ?R7; auto.
      eapply locked_same; eauto; cbn; rewrite ?R3, ?R4, ?R5; auto.
      intros k w. rewrite nth_error_set_nth. destruct (Nat.eqb_spec k i); [subst; rewrite Ev; intros [= <-] Hv; eauto|eauto]. }
    assert (Rel : forall s0 v', vcrit v = true -> vcrit v' = false -> l_excl s0 = l_excl s -> l_shared s0 = l_shared s -> l_send s0 = l_send s -> l_writers s0 = l_writers s ->
       l_final s0 = l_final s -> l_ctx s0 = true -> l_closed s0 = l_closed s -> l_chans s0 = l_chans s ->
       safe (w_writers (release s0 (OWriter i)) (set_nth i v' (l_writers (release s0 (OWriter i))))) (tr ++ [])).
    { intros s0 v' Hc Hc' R1 R2 R3 R4 R5 R6 R7 R8.
      destruct (release_fields s0 (OWriter i)) as (F1 & F2 & F3 & F4 & F5 & F6 & F7 & F8 & F9 & F10 & F11).
      destruct (release_lock s0 s (OWriter i) R1 R2) as (G1 & G2).
      eapply safe_intro; [exact S| |cbn; congruence|reflexivity|..]; cbn; rewrite ?F1, ?F3, ?F4, ?F6, ?F7, ?F10, ?R3, ?R5, ?R7, ?R8; auto.
      eapply (locked_release s (OWriter i)); eauto; cbn; rewrite ?F6, ?F7, ?F10, ?R3, ?R4, ?R5.
      - eapply lk_wown; eauto.
      - intros u H. split; [discriminate|exact H].
      - intros k w. rewrite nth_error_set_nth. destruct (Nat.eqb_spec k i); [subst; rewrite Ev; intros [= <-]; congruence|].
        intros. split; [congruence|eauto].
      - intros H. split; [discriminate|exact H]. }
    destruct v; try exact N.
    + rewrite Cx. apply At; auto.
    + destruct ch; [destruct (l_cancelled s); [apply At; auto; discriminate|exact N]|exact N|].
      destruct i0 as [j|]; [|exact N]. unfold chan_at. destruct (nth_error (l_chans s) j) as [[[|[t m] q] cl]|] eqn:Ej; [| |exact N].
      * destruct cl; [apply At; auto; discriminate|exact N].
      * apply At; auto. cbn. intros k q' H. rewrite nth_error_set_nth in H.
        destruct (Nat.eqb_spec k j); [|eauto]. subst. rewrite Ej in H. injection H as <- ->. eauto.
    + destruct (take fl s (OWriter i)) as [s1|] eqn:Et; [|exact N]. pose proof Et as Et'.
      apply take_eq in Et. destruct Et as (e & sh & -> & _).
      sI. eapply locked_take; eauto; cbn; auto.
      intros k w. rewrite nth_error_set_nth. destruct (Nat.eqb_spec k i); [subst; auto|eauto].
    + destruct (l_closed s) eqn:Ec; [apply Rel; auto|apply At; auto].
    + destruct (l_broken s); [apply Rel; auto|]. destruct o; apply Rel; auto.
  - unfold lfinal_step. destruct (l_final s) eqn:Ef; try exact N.
    + destruct (l_cancelled s); [|exact N].
      sI.
      * eapply locked_same; eauto; cbn; destruct fl; discriminate.
      * destruct fl; reflexivity.
      * intros i q H. specialize (Cl _ _ H). discriminate.
      * destruct fl; discriminate.
    + sI; try discriminate.
      eapply locked_same; eauto; cbn; discriminate.
    + destruct (take_excl s OFinal) as [s1|] eqn:Et; [|exact N].
      unfold take_excl in Et. destruct (l_excl s) eqn:Ee; [discriminate|]. destruct (l_shared s) eqn:Esh; [|discriminate].
      injection Et as <-.
      assert (NC : forall t, crit (l_send s t) = false).
      { intros t. destruct (crit (l_send s t)) eqn:Q; [|reflexivity]. apply (lk_own _ L) in Q. unfold holds in Q. rewrite Ee, Esh in Q. destruct Q as [Q|[]]; discriminate. }
      sI; try discriminate.
      * constructor; unfold holds; cbn; auto.
        -- intros t H. rewrite NC in H. discriminate.
        -- intros i v H1 H2. pose proof (lk_wown _ L i v H1 H2) as Q. unfold holds in Q. rewrite Ee, Esh in Q. destruct Q as [Q|[]]; discriminate.
      * intros t H. specialize (NC t). specialize (U t). destruct (l_send s t); cbn in *; try discriminate; destruct lk; discriminate.
    + assert (NC : forall t, past (l_send s t) = false).
      { intros t. destruct (past (l_send s t)) eqn:Q; [|reflexivity]. specialize (P _ Q). discriminate. }
      assert (He : l_excl s = Some OFinal) by (apply (lk_fown _ L); now rewrite Ef).
      cbn zeta. destruct (l_field s) as [k|] eqn:Efi; [destruct (chan_at s k) as [[q b]|] eqn:Ek|];
        (sI; try discriminate;
          [eapply locked_same; eauto; cbn; eauto; now rewrite Ef|intros; reflexivity]).
    + assert (He : l_excl s = Some OFinal) by (apply (lk_fown _ L); now rewrite Ef).
      sI; [eapply locked_same; eauto; cbn; eauto; now rewrite Ef|intros; reflexivity].
    + assert (He : l_excl s = Some OFinal) by (apply (lk_fown _ L); now rewrite Ef).
      destruct (release_fields s OFinal) as (F1 & F2 & F3 & F4 & F5 & F6 & F7 & F8 & F9 & F10 & F11).
      sI; cbn; rewrite ?F1, ?F3, ?F4, ?F6, ?F7, ?F10; eauto.
      eapply (locked_release s OFinal); eauto; cbn; rewrite ?F6, ?F10; try discriminate.
      * now left.
      * intros t H. split; [discriminate|exact H].
      * intros i v H1 H2. split; [discriminate|eauto].
Qed.

Lemma locked_run_safe c fl ls : (fl = Ws \/ no_send_buff ls) -> no_panic_l (snd (l_run c fl l_new (MStart :: ls))).
Proof.
  intros H. set (s0 := fst (l_step c fl l_new MStart)).
  assert (Q : l_run c fl l_new (MStart :: ls) = l_run c fl s0 ls) by (cbn; now destruct (l_run _ _ _ _)).
  rewrite Q. apply (sf_tr (fst (l_run c fl s0 ls))).
  apply (l_run_inv c fl (locked_label fl) safe (safe_step c fl) ls s0 []).
  - constructor; cbn; auto; try discriminate.
    + constructor; unfold holds; cbn; try discriminate; auto. intros [|i]; discriminate.
    + intros [|i]; discriminate.
    + split; intros; cbn; auto.
  - intros l Hl. destruct fl; cbn; auto. destruct l as [ | |t [| |] m|? ? ?|? ? ?|]; auto.
    destruct H as [H|H]; [discriminate|]. exact (H _ _ Hl).
Qed.

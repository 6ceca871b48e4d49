(* Proofs about the websocket send path: order and integrity. *)
From Coq Require Import List Bool Arith Lia ZifyBool ZifyNat.
From Verif Require Import Bytes GoSlice SendQueue Spec_Send SendLocked Spec_SendLocked SendLocked_proofs.
Import ListNotations.

Definition handv (v : vpc) : list (nat * msg) := match v with VAcq t m | VClosed t m | VWrite t m => [(t, m)] | _ => [] end.
Definition in_hand (s : lst) : list (nat * msg) := match l_writers s with [v] => handv v | _ => [] end.
Definition in_queue (s : lst) : list (nat * msg) := match l_chans s with [(q, _)] => q | _ => [] end.

Record wsinv (s : lst) (tr : list lev) : Prop := {
  wi_safe : safe s tr;
  wi_sh : l_shared s = [];
  wi_set : l_final s <> FSet;
  wi_nil : l_field s = None -> l_chans s = [] /\ l_writers s = [];
  wi_some : forall k, l_field s = Some k -> k = 0 /\ exists q cl, l_chans s = [(q, cl)];
  wi_wr : l_field s <> None -> (exists v, l_writers s = [v]) \/ (l_writers s = [] /\ exists t m, l_send s t = LGo true m);
  wi_make : forall t m, l_send s t = LMake true m -> l_field s = None;
  wi_go : forall t m, l_send s t = LGo true m -> l_field s <> None /\ l_writers s = [];
  wi_late : flate (l_final s) = true -> l_broken s = true;
  wi_closed : l_closed s = true -> flate (l_final s) = true;
  wi_exact : l_broken s = false -> nils true tr = wired true (l_wire s) ++ in_hand s ++ in_queue s;
  wi_pre : prefix (wired true (l_wire s)) (nils true tr);
  wi_dir : wired false (l_wire s) = nils false tr
}.

Lemma nils_app b x y : nils b (x ++ y) = nils b x ++ nils b y.
Proof. induction x as [|[] x IH]; cbn; auto. destruct (Bool.eqb b buffered); cbn; now rewrite IH. Qed.
Lemma wired_app b x y : wired b (x ++ y) = wired b x ++ wired b y.
Proof. unfold wired. now rewrite filter_app, map_app. Qed.
Lemma wired_snoc b w b' t m : wired b (w ++ [(b', t, m)]) = wired b w ++ (if Bool.eqb b b' then [(t, m)] else []).
Proof. rewrite wired_app. unfold wired. cbn. now destruct b, b'. Qed.
Local Arguments wired : simpl never.

Lemma one_holder s t u : locked s -> l_shared s = [] -> crit (l_send s t) = true -> crit (l_send s u) = true -> t = u.
Proof.
  intros L Sh A B. apply (lk_own _ L) in A. apply (lk_own _ L) in B. unfold holds in *. rewrite Sh in *.
  destruct A as [A|[]], B as [B|[]]. congruence.
Qed.

Lemma ws_take s x s1 : take Ws s x = Some s1 -> s1 = w_lock s (Some x) [] /\ l_excl s = None.
Proof. cbn. unfold take_excl. destruct (l_excl s); [discriminate|]. destruct (l_shared s); [|discriminate]. now injection 1 as <-. Qed.

(* Only the lock, the sending goroutines, ctx, cancelled or the finalizer's place changed. *)
Lemma ws_same s s' tr ev : wsinv s tr -> safe s' (tr ++ ev) -> l_shared s' = [] -> l_final s' <> FSet ->
  l_field s' = l_field s -> l_chans s' = l_chans s -> l_wire s' = l_wire s ->
  (l_broken s' = false -> l_broken s = false) ->
  (l_writers s' = l_writers s \/ exists v v', l_writers s = [v] /\ l_writers s' = [v'] /\ (l_broken s' = false -> handv v' = handv v)) ->
  (forall t m, l_send s' t = LMake true m -> l_send s t = LMake true m \/ l_field s = None) ->
  (forall t m, l_send s' t = LGo true m <-> l_send s t = LGo true m) ->
  (flate (l_final s') = true -> l_broken s' = true) -> (l_closed s' = true -> flate (l_final s') = true) ->
  nils true ev = [] -> nils false ev = [] -> wsinv s' (tr ++ ev).
Proof.
  intros [A1 A2 A0 A3 A4 A5 A6 A7 A8 A9 A10 A11 A12] Sf Sh Hset Hf Hc Hw Hb Hwr Hm Hg Hl Hcl He1 He2.
  assert (Q : in_queue s' = in_queue s) by (unfold in_queue; now rewrite Hc).
  constructor; auto; rewrite ?Hf, ?Hc, ?Hw, ?nils_app, ?He1, ?He2, ?app_nil_r; auto.
  - intros X. destruct (A3 X) as [B1 B2]. split; [exact B1|].
    destruct Hwr as [->|(v & v' & E1 & E2 & _)]; [exact B2|congruence].
  - intros X. destruct Hwr as [->|(v & v' & E1 & E2 & _)].
    + destruct (A5 X) as [B|(B & t & m & B2)]; [auto|right]. split; [exact B|]. exists t, m. now apply Hg.
    + left. eauto.
  - intros t m X. destruct (Hm t m X); eauto.
  - intros t m X. apply Hg in X. destruct (A7 t m X) as [B1 B2]. split; [exact B1|].
    destruct Hwr as [->|(v & v' & E1 & E2 & _)]; [exact B2|congruence].
  - intros X. rewrite Q. assert (in_hand s' = in_hand s).
    { unfold in_hand. destruct Hwr as [->|(v & v' & E1 & E2 & E3)]; [reflexivity|]. rewrite E1, E2. auto. }
    rewrite H. apply A10. auto.
Qed.

Lemma send_iff (s : lst) t p : (forall m, p <> LGo true m) -> (forall m, l_send s t <> LGo true m) ->
  forall u m, (if u =? t then p else l_send s u) = LGo true m <-> l_send s u = LGo true m.
Proof. intros A B u m. ueq; [|tauto]. split; intros X; [now elim (A m)|now elim (B m)]. Qed.

Ltac sm W Sf := (eapply ws_same; [exact W|exact Sf|..]); cbn; auto; try tauto; try congruence; try (apply send_iff; congruence);
  try (intros ? ?; ueq; [try discriminate; auto|auto]).

Lemma ws_step c s tr l : wsinv s tr -> wsinv (fst (l_step c Ws s l)) (tr ++ snd (l_step c Ws s l)).
Proof.
  intros W. pose proof W as [A1 A2 A0 A3 A4 A5 A6 A7 A8 A9 A10 A11 A12].
  assert (N : wsinv s (tr ++ [])) by now rewrite app_nil_r.
  pose proof (safe_step c Ws s tr l ltac:(now destruct l) A1) as Sf. revert Sf.
  pose proof (sf_lock _ _ A1) as L. pose proof (sf_ctx _ _ A1) as Cx.
  unfold l_step. destruct (l_crashed s); [intros _; exact N|].
  destruct l as [ | |t a m|t ch o|i ch o|].
  - intros Sf. sm W Sf.
  - rewrite Cx. intros Sf. sm W Sf.
  - destruct (l_send s t) eqn:Es; try (intros _; exact N).
    destruct a; cbn [fst snd]; intros Sf; sm W Sf.
  - unfold lsend_step. pose proof (sf_lk _ _ A1 t) as Ut.
    destruct (l_send s t) eqn:Es; try (intros _; exact N); cbn in Ut; try (destruct lk; [|discriminate]).
    + destruct (take Ws s (OSend t)) as [s1|] eqn:Et; [|intros _; exact N]. apply ws_take in Et. destruct Et as [-> Ee].
      intros Sf. sm W Sf.
    + destruct (l_field s) as [k|] eqn:Efi.
      * intros Sf. sm W Sf.
      * intros Sf. sm W Sf.
    + pose proof (A6 t m Es) as Hn. destruct (A3 Hn) as [Hc Hw]. intros Sf. constructor; cbn; auto; rewrite ?Hc, ?Hw; cbn.
      * discriminate.
      * intros k [= <-]. eauto.
      * intros _. right. split; [reflexivity|]. exists t, m. now rewrite Nat.eqb_refl.
      * intros u x. ueq; [discriminate|]. intros X. exfalso. apply n. apply (one_holder s); auto; [now rewrite X|now rewrite Es].
      * intros u x _. split; [discriminate|reflexivity].
      * rewrite app_nil_r. intros X. specialize (A10 X). unfold in_hand, in_queue in A10. rewrite Hc, Hw in A10.
        unfold in_hand, in_queue. cbn. rewrite Hw. exact A10.
      * now rewrite app_nil_r.
      * now rewrite app_nil_r.
    + destruct (A7 t m Es) as [Hn Hw]. intros Sf. constructor; cbn; auto; rewrite ?Hw; cbn; rewrite ?app_nil_r; auto.
      * congruence.
      * eauto.
      * intros u x. ueq; [discriminate|]. intros X. exfalso. apply n. apply (one_holder s); auto; [now rewrite X|now rewrite Es].
      * intros u x. ueq; [discriminate|]. intros X. exfalso. apply n. apply (one_holder s); auto; [now rewrite X|now rewrite Es].
      * intros X. specialize (A10 X). unfold in_hand, in_queue in *. cbn. rewrite Hw in *. exact A10.
    + destruct (l_closed s) eqn:Ec; cbn [release_if fst snd]; intros Sf.
      * destruct (release_fields s (OSend t)) as (F1 & F2 & F3 & F4 & F5 & F6 & F7 & F8 & F9 & F10 & F11).
        eapply ws_same; [exact W|exact Sf|..]; cbn; rewrite ?F3, ?F4, ?F5, ?F6, ?F7, ?F8, ?F9, ?F10; auto.
        -- unfold release. destruct (l_excl s); cbn; [exact A2|now rewrite A2].
        -- intros u x; ueq; [discriminate|auto].
        -- apply send_iff; congruence.
      * sm W Sf.
    + intros Sf. sm W Sf.
    + cbn [release_if]. destruct (release_fields s (OSend t)) as (F1 & F2 & F3 & F4 & F5 & F6 & F7 & F8 & F9 & F10 & F11).
      assert (Rel : forall ev, nils true ev = [] -> nils false ev = [] -> safe (w_send (release s (OSend t)) t LIdle) (tr ++ ev) ->
        wsinv (w_send (release s (OSend t)) t LIdle) (tr ++ ev)).
      { intros ev E1 E2 Sf. eapply ws_same; eauto; cbn; rewrite ?F3, ?F4, ?F5, ?F6, ?F7, ?F8, ?F9, ?F10; auto.
        - unfold release. destruct (l_excl s); cbn; [exact A2|now rewrite A2].
        - intros u x; ueq; [discriminate|auto].
        - apply send_iff; congruence. }
      destruct ch; [intros _; exact N|cbn [fst snd]; apply Rel; auto|].
      destruct i as [k|]; [|intros _; exact N]. destruct (chan_at s k) as [[q [|]]|] eqn:Ek; [cbn [fst snd]; apply Rel; auto| |intros _; exact N].
      destruct (length q <? max 1 c); [|intros _; exact N]. intros Sf.
      assert (K : k = 0 /\ l_chans s = [(q, false)] /\ l_field s = Some 0).
      { unfold chan_at in Ek. destruct (l_field s) as [j|] eqn:Ej.
        - destruct (A4 j eq_refl) as (-> & q' & cl & E). rewrite E in Ek. destruct k as [|[|]]; cbn in Ek; try discriminate.
          injection Ek as -> ->. auto.
        - destruct (A3 eq_refl) as [E _]. rewrite E in Ek. now destruct k. }
      destruct K as (-> & Hc & Hfi).
      cbn [release_if] in *.
      set (s0 := w_chans s (set_nth 0 (q ++ [(t, m)], false) (l_chans s)) (l_field s)) in *.
      destruct (release_fields s0 (OSend t)) as (G1 & G2 & G3 & G4 & G5 & G6 & G7 & G8 & G9 & G10 & G11).
      assert (IH : in_hand (w_send (release s0 (OSend t)) t LIdle) = in_hand s) by (unfold in_hand; cbn; now rewrite G6).
      assert (IQ : in_queue (w_send (release s0 (OSend t)) t LIdle) = in_queue s ++ [(t, m)])
        by (unfold in_queue; cbn; rewrite G4; subst s0; cbn; now rewrite Hc).
      cbn [fst snd]. constructor; auto; rewrite ?IH, ?IQ; clear IH IQ; cbn; rewrite ?G3, ?G4, ?G5, ?G6, ?G7, ?G8, ?G9, ?G10; subst s0; cbn; rewrite ?Hc; cbn; rewrite ?Hfi; auto.
      * unfold release. cbn. destruct (l_excl s); cbn; [exact A2|now rewrite A2].
      * discriminate.
      * intros k [= <-]. eauto.
      * intros _. destruct (A5 ltac:(congruence)) as [B|(B & u & x & B2)]; [auto|right]. split; [exact B|].
        exists u, x. ueq; [congruence|exact B2].
      * intros u x. ueq; [discriminate|]. intros X. rewrite <- Hfi. eauto.
      * intros u x. ueq; [discriminate|]. intros X. rewrite <- Hfi. eauto.
      * intros X. specialize (A10 X). rewrite nils_app, A10. rewrite <- !app_assoc. reflexivity.
      * rewrite nils_app. destruct A11 as (r & ->). exists (r ++ [(t, m)]). cbn. now rewrite app_assoc.
      * rewrite nils_app. cbn. now rewrite app_nil_r.
    + destruct (take Ws s (OSend t)) as [s1|] eqn:Et; [|intros _; exact N]. apply ws_take in Et. destruct Et as [-> Ee].
      intros Sf. sm W Sf.
    + destruct (l_closed s) eqn:Ec; cbn [release_if fst snd]; intros Sf.
      * destruct (release_fields s (OSend t)) as (F1 & F2 & F3 & F4 & F5 & F6 & F7 & F8 & F9 & F10 & F11).
        eapply ws_same; [exact W|exact Sf|..]; cbn; rewrite ?F3, ?F4, ?F5, ?F6, ?F7, ?F8, ?F9, ?F10; auto.
        -- unfold release. destruct (l_excl s); cbn; [exact A2|now rewrite A2].
        -- intros u x; ueq; [discriminate|auto].
        -- apply send_iff; congruence.
      * sm W Sf.
    + cbn [release_if]. destruct (l_broken s) eqn:Eb; [|destruct o]; cbn [fst snd]; intros Sf.
      * destruct (release_fields s (OSend t)) as (F1 & F2 & F3 & F4 & F5 & F6 & F7 & F8 & F9 & F10 & F11).
        eapply ws_same; [exact W|exact Sf|..]; cbn; rewrite ?F3, ?F4, ?F5, ?F6, ?F7, ?F8, ?F9, ?F10; auto; try congruence.
        -- unfold release. destruct (l_excl s); cbn; [exact A2|now rewrite A2].
        -- intros u x; ueq; [discriminate|auto].
        -- apply send_iff; congruence.
      * set (s0 := w_wire s (l_wire s ++ [(false, t, m)]) false) in *.
        destruct (release_fields s0 (OSend t)) as (G1 & G2 & G3 & G4 & G5 & G6 & G7 & G8 & G9 & G10 & G11).
        constructor; auto; cbn; rewrite ?G3, ?G4, ?G5, ?G6, ?G7, ?G8, ?G9, ?G10; subst s0; cbn; auto.
        -- unfold release. cbn. destruct (l_excl s); cbn; [exact A2|now rewrite A2].
        -- intros X. destruct (A5 X) as [B|(B & u & x & B2)]; [auto|right]. split; [exact B|].
           exists u, x. ueq; [congruence|exact B2].
        -- intros u x. ueq; [discriminate|eauto].
        -- intros u x. ueq; [discriminate|eauto].
        -- intros _. rewrite nils_app, wired_snoc, (A10 eq_refl). unfold in_hand, in_queue. cbn. rewrite G4, G6. cbn. now rewrite !app_nil_r.
        -- rewrite nils_app, wired_snoc. cbn. rewrite !app_nil_r. exact A11.
        -- rewrite nils_app, wired_snoc, A12. reflexivity.
      * set (s0 := w_wire s (l_wire s) true) in *.
        destruct (release_fields s0 (OSend t)) as (G1 & G2 & G3 & G4 & G5 & G6 & G7 & G8 & G9 & G10 & G11).
        eapply ws_same; [exact W|exact Sf|..]; cbn; rewrite ?G3, ?G4, ?G5, ?G6, ?G7, ?G8, ?G9, ?G10; subst s0; cbn; auto; try congruence.
        -- unfold release. cbn. destruct (l_excl s); cbn; [exact A2|now rewrite A2].
        -- intros u x; ueq; [discriminate|auto].
        -- apply send_iff; congruence.
  - unfold lwriter_step. destruct (nth_error (l_writers s) i) as [v|] eqn:Ev; [|intros _; exact N].
    assert (K : i = 0 /\ l_writers s = [v] /\ l_field s = Some 0 /\ exists q cl, l_chans s = [(q, cl)]).
    { destruct (l_field s) as [j|] eqn:Ej.
      - destruct (A4 j eq_refl) as (-> & q' & cl & E). destruct (A5 ltac:(discriminate)) as [(v' & E')|(E' & _)]; rewrite E' in Ev.
        + destruct i as [|[|]]; cbn in Ev; try discriminate. injection Ev as ->. eauto 10.
        + now destruct i.
      - destruct (A3 eq_refl) as [_ E]. rewrite E in Ev. now destruct i. }
    destruct K as (-> & Hw & Hfi & q0 & cl0 & Hc).
    assert (NG : forall t m, l_send s t <> LGo true m) by (intros t m X; destruct (A7 t m X); congruence).
    assert (At : forall s0 v', l_shared s0 = [] -> l_field s0 = l_field s -> l_chans s0 = l_chans s -> l_wire s0 = l_wire s ->
      (l_broken s0 = false -> l_broken s = false) -> l_writers s0 = l_writers s -> l_send s0 = l_send s -> l_final s0 = l_final s ->
      l_closed s0 = l_closed s -> (l_broken s0 = false -> handv v' = handv v) -> (l_broken s = true -> l_broken s0 = true) ->
      safe (w_writers s0 (set_nth 0 v' (l_writers s0))) (tr ++ []) ->
      wsinv (w_writers s0 (set_nth 0 v' (l_writers s0))) (tr ++ [])).
    { intros s0 v' R1 R2 R3 R4 R5 R6 R7 R8 R9 R10 R11 Sf.
      eapply ws_same; [exact W|exact Sf|..]; cbn; rewrite ?R7, ?R8, ?R9; auto; try tauto.
      right. exists v, v'. rewrite R6, Hw. cbn. auto. }
    destruct v; try (intros _; exact N).
    + rewrite Cx. cbn [fst snd]. apply At; auto.
    + destruct ch; [destruct (l_cancelled s); [cbn [fst snd]; apply At; auto|intros _; exact N]|intros _; exact N|].
      destruct i as [j|]; [|intros _; exact N]. destruct (chan_at s j) as [[[|[t m] q] cl]|] eqn:Ej; [| |intros _; exact N].
      * destruct cl; [cbn [fst snd]; apply At; auto|intros _; exact N].
      * unfold chan_at in Ej. rewrite Hc in Ej. destruct j as [|[|]]; cbn in Ej; try discriminate. injection Ej as -> ->.
        cbn [fst snd]. intros Sf. constructor; auto; cbn; rewrite ?Hc, ?Hw, ?Hfi; cbn; rewrite ?app_nil_r; auto.
        -- discriminate.
        -- intros k [= <-]. eauto.
        -- eauto.
        -- intros u x X. now elim (NG u x).
        -- intros X. rewrite (A10 X). unfold in_hand, in_queue. rewrite Hw, Hc. cbn. rewrite ?Hc, ?Hw. reflexivity.
    + destruct (take Ws s (OWriter 0)) as [s1|] eqn:Et; [|intros _; exact N]. apply ws_take in Et. destruct Et as [-> Ee].
      cbn [fst snd]. apply At; auto.
    + destruct (release_fields s (OWriter 0)) as (F1 & F2 & F3 & F4 & F5 & F6 & F7 & F8 & F9 & F10 & F11).
      destruct (l_closed s) eqn:Ec; cbn [fst snd]; apply At; auto; rewrite ?F3, ?F9; auto; try congruence.
      * unfold release. destruct (l_excl s); cbn; [exact A2|now rewrite A2].
      * intros X. rewrite A8 in X by auto. discriminate.
    + destruct (l_broken s) eqn:Eb; [|destruct o]; cbn [fst snd].
      * destruct (release_fields s (OWriter 0)) as (F1 & F2 & F3 & F4 & F5 & F6 & F7 & F8 & F9 & F10 & F11).
        apply At; auto; try congruence. unfold release. destruct (l_excl s); cbn; [exact A2|now rewrite A2].
      * set (s0 := w_wire s (l_wire s ++ [(true, t, m)]) false).
        destruct (release_fields s0 (OWriter 0)) as (G1 & G2 & G3 & G4 & G5 & G6 & G7 & G8 & G9 & G10 & G11).
        intros Sf. constructor; auto; cbn; rewrite ?G3, ?G4, ?G5, ?G6, ?G7, ?G8, ?G9, ?G10; subst s0; cbn; rewrite ?Hw; cbn; auto; rewrite ?app_nil_r; auto.
        -- unfold release. cbn. destruct (l_excl s); cbn; [exact A2|now rewrite A2].
        -- congruence.
        -- eauto.
        -- intros u x X. now elim (NG u x).
        -- intros _. rewrite wired_snoc, (A10 eq_refl). unfold in_hand, in_queue. rewrite Hw. cbn. rewrite ?G4, ?G6. cbn. rewrite ?Hw. cbn. now rewrite <- app_assoc.
        -- rewrite wired_snoc, (A10 eq_refl). unfold in_hand. rewrite Hw. cbn. eexists. rewrite <- app_assoc. reflexivity.
        -- rewrite wired_snoc. cbn. now rewrite app_nil_r.
      * set (s0 := w_wire s (l_wire s) true).
        destruct (release_fields s0 (OWriter 0)) as (G1 & G2 & G3 & G4 & G5 & G6 & G7 & G8 & G9 & G10 & G11).
        apply At; rewrite ?G3, ?G4, ?G5, ?G6, ?G7, ?G8, ?G9, ?G10; subst s0; cbn; auto; try congruence.
        unfold release. cbn. destruct (l_excl s); cbn; [exact A2|now rewrite A2].
  - unfold lfinal_step. destruct (l_final s) eqn:Ef; try (intros _; exact N).
    + destruct (l_cancelled s); [|intros _; exact N]. cbn [fst snd]. intros Sf. sm W Sf; try discriminate.
    + cbn [fst snd]. intros Sf. now elim A0.
    + destruct (take_excl s OFinal) as [s1|] eqn:Et; [|intros _; exact N].
      assert (Et' : take Ws s OFinal = Some s1) by exact Et. apply ws_take in Et'. destruct Et' as [-> Ee].
      cbn [fst snd]. intros Sf. sm W Sf; try discriminate.
    + cbn zeta. destruct (l_field s) as [k|] eqn:Efi.
      * destruct (A4 k eq_refl) as (-> & q & cl & Hc). unfold chan_at. rewrite Hc. cbn [nth_error fst snd set_nth]. intros Sf.
        constructor; auto; cbn; rewrite ?app_nil_r; auto; try congruence.
        intros k [= <-]. eauto.
      * cbn [fst snd]. intros Sf. sm W Sf.
    + cbn [fst snd]. intros Sf. sm W Sf.
    + destruct (release_fields s OFinal) as (F1 & F2 & F3 & F4 & F5 & F6 & F7 & F8 & F9 & F10 & F11).
      cbn [fst snd]. intros Sf. eapply ws_same; [exact W|exact Sf|..]; cbn; rewrite ?F3, ?F4, ?F5, ?F6, ?F7, ?F8, ?F9, ?F10; auto; try tauto.
      unfold release. cbn. destruct (l_excl s); cbn; [exact A2|now rewrite A2].
  all: try discriminate.
Qed.

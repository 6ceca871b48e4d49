(* Proofs for C84, websocket: the lock comes free, calls return, the finalizer and the writer end. *)
From Coq Require Import List Bool Arith Lia ZifyBool ZifyNat.
From Verif Require Import Bytes GoSlice SendQueue Spec_Send SendLocked Spec_SendLocked SendLocked_proofs SendLocked2_proofs SendLocked3_proofs SendLocked4_proofs Spec_Fair SendErr_proofs SendFair_proofs Spec_Ends EndsTcp_proofs.
Import ListNotations.
Local Arguments Nat.ltb : simpl never.
Local Arguments Nat.max : simpl never.
Local Arguments Nat.leb : simpl never.
Local Arguments Nat.eqb : simpl never.

Definition owner_at (s : lst) (x : owner) : bool :=
  match x with
  | OSend t => crit (l_send s t)
  | OWriter i => match nth_error (l_writers s) i with Some v => vcrit v | None => false end
  | OFinal => fcrit (l_final s)
  end.
Definition owned (s : lst) : Prop := l_crashed s = false /\ forall x, l_excl s = Some x -> owner_at s x = true.

Lemma rel s x : l_excl (release s x) = None /\ l_send (release s x) = l_send s /\ l_writers (release s x) = l_writers s /\ l_final (release s x) = l_final s /\
  l_cancelled (release s x) = l_cancelled s /\ l_broken (release s x) = l_broken s /\ l_crashed (release s x) = l_crashed s.
Proof. unfold release. destruct (l_excl s); repeat split; reflexivity. Qed.
Lemma owner_of s tr x : wsinv s tr -> owner_at s x = true -> l_excl s = Some x.
Proof.
  intros W H. pose proof (sf_lock _ _ (wi_safe _ _ W)) as L. assert (X : holds s x \/ l_excl s = Some x).
  { destruct x; cbn in H.
    - left. now apply (lk_own _ L).
    - destruct (nth_error (l_writers s) i) eqn:E; [|discriminate]. left. now apply (lk_wown _ L i v).
    - right. now apply (lk_fown _ L). }
  destruct X as [[X|X]|X]; auto. rewrite (wi_sh _ _ W) in X. destruct X.
Qed.
Lemma take_free s tr x : wsinv s tr -> take Ws s x = match l_excl s with None => Some (w_lock s (Some x) []) | Some _ => None end.
Proof. intros W. cbn. unfold take_excl. rewrite (wi_sh _ _ W). reflexivity. Qed.
Lemma sends_locked s tr t : wsinv s tr -> unlocked (l_send s t) = false.
Proof. intros W. apply (sf_lk _ _ (wi_safe _ _ W)). Qed.

Definition lrank (p : lpc) : nat :=
  match p with LIdle => 0 | LAcq _ => 8 | LChk _ _ => 7 | LMake _ _ => 6 | LGo _ _ => 5 | LClosed _ _ => 4 | LEnter _ _ => 3 | LSel _ _ _ => 2
  | LDAcq _ => 3 | LDClosed _ => 2 | LDWrite _ => 1 end.
Definition lbusy (p : lpc) : nat := match p with LIdle => 0 | _ => 1 end.
Lemma l_called_app t a b : l_called t (a ++ b) = l_called t a + l_called t b.
Proof. unfold l_called. now rewrite filter_app, app_length. Qed.
Lemma l_returned_app t a b : l_returned t (a ++ b) = l_returned t a + l_returned t b.
Proof. unfold l_returned. now rewrite filter_app, app_length. Qed.

(* What one step of a sender does, in the terms needed here. *)
Inductive moved (s s' : lst) (t : nat) (ev : list lev) : Prop :=
| Stays : s' = s -> ev = [] -> moved s s' t ev
| Gets (p : lpc) : l_excl s = None -> l_excl s' = Some (OSend t) -> crit (l_send s t) = false -> crit p = true -> l_send s' = (fun u => if u =? t then p else l_send s u) ->
    lrank p < lrank (l_send s t) -> l_send s t <> LIdle -> p <> LIdle -> ev = [] -> l_writers s' = l_writers s -> moved s s' t ev
| Goes (p : lpc) : l_excl s' = l_excl s -> crit (l_send s t) = true -> crit p = true -> l_send s' = (fun u => if u =? t then p else l_send s u) ->
    lrank p < lrank (l_send s t) -> ev = [] -> (exists r, l_writers s' = l_writers s ++ r) -> moved s s' t ev
| Returns : l_excl s' = None -> crit (l_send s t) = true -> l_send s' = (fun u => if u =? t then LIdle else l_send s u) ->
    l_called t ev = 0 -> l_returned t ev = 1 -> (forall u, u <> t -> l_called u ev = 0 /\ l_returned u ev = 0) -> l_writers s' = l_writers s -> moved s s' t ev.
Lemma send_moves c s tr t ch o : wsinv s tr -> l_crashed s = false -> let s' := fst (lsend_step c Ws s t ch o) in
  moved s s' t (snd (lsend_step c Ws s t ch o)) /\ l_crashed s' = false /\ l_final s' = l_final s /\ l_cancelled s' = l_cancelled s /\ (l_broken s = true -> l_broken s' = true).
Proof.
  intros W Cr. cbv zeta. pose proof (sends_locked s tr t W) as Lk. unfold lsend_step. rewrite !(take_free s tr _ W).
  assert (Ev : forall e, match e with MErr u _ | MOk u _ _ | MPanic u => u = t | _ => False end ->
     l_called t [e] = 0 /\ l_returned t [e] = 1 /\ forall u, u <> t -> l_called u [e] = 0 /\ l_returned u [e] = 0).
  { intros e He. unfold l_called, l_returned. destruct e; try contradiction; subst; cbn; rewrite Nat.eqb_refl; repeat split; intros; cbn; destruct (Nat.eqb_spec t u); auto; congruence. }
  assert (Ret : forall s1 e, crit (l_send s t) = true -> l_send s1 = l_send s -> l_writers s1 = l_writers s -> l_final s1 = l_final s -> l_cancelled s1 = l_cancelled s -> l_crashed s1 = false -> (l_broken s = true -> l_broken s1 = true) ->
     match e with MErr u _ | MOk u _ _ | MPanic u => u = t | _ => False end ->
     let s' := w_send (release s1 (OSend t)) t LIdle in
     moved s s' t [e] /\ l_crashed s' = false /\ l_final s' = l_final s /\ l_cancelled s' = l_cancelled s /\ (l_broken s = true -> l_broken s' = true)).
  { intros s1 e C1 E1 E2 E3 E4 E5 E6 He. cbv zeta. destruct (rel s1 (OSend t)) as (R1 & R2 & R3 & R4 & R5 & R6 & R7). destruct (Ev e He) as (V1 & V2 & V3).
    split; [|cbn; rewrite R4, R5, R6, R7; auto]. apply Returns; auto; cbn; [|congruence]. now rewrite R2, E1. }
  assert (Go : forall s1 p, crit (l_send s t) = true -> crit p = true -> lrank p < lrank (l_send s t) -> l_excl s1 = l_excl s -> l_send s1 = l_send s -> (exists r, l_writers s1 = l_writers s ++ r) -> l_final s1 = l_final s -> l_cancelled s1 = l_cancelled s -> l_crashed s1 = false -> l_broken s1 = l_broken s ->
     let s' := w_send s1 t p in
     moved s s' t [] /\ l_crashed s' = false /\ l_final s' = l_final s /\ l_cancelled s' = l_cancelled s /\ (l_broken s = true -> l_broken s' = true)).
  { intros s1 p C1 C2 Lt E0 E1 E2 E3 E4 E5 E6. cbv zeta. split; [|cbn; rewrite E3, E4, E6; auto]. apply (Goes _ _ _ _ p); auto. cbn. now rewrite E1. }
  assert (Same : exists r, l_writers s = l_writers s ++ r) by (exists []; now rewrite app_nil_r).
  assert (St : moved s s t [] /\ l_crashed s = false /\ l_final s = l_final s /\ l_cancelled s = l_cancelled s /\ (l_broken s = true -> l_broken s = true)) by (repeat split; auto; now apply Stays).
  destruct (l_send s t) eqn:Es; try (destruct lk; [|discriminate Lk]).
  - exact St.
  - destruct (l_excl s) eqn:Ex; [exact St|]. cbn. split; [|auto]. apply (Gets _ _ _ _ (LChk true m)); auto; cbn; rewrite ?Es; cbn; auto; try lia; discriminate.
  - destruct (l_field s); apply (Go s); cbn; auto; lia.
  - apply (Go (w_chans s (l_chans s ++ [([], false)]) (Some (length (l_chans s))))); cbn; auto; lia.
  - apply (Go (w_writers s (l_writers s ++ [VSelect]))); cbn; auto; try lia. now eexists.
  - destruct (l_closed s); [apply Ret; auto|apply (Go s); cbn; auto; lia].
  - apply (Go s); cbn; auto; lia.
  - destruct ch; [exact St|apply Ret; auto|]. destruct i as [k|]; [|exact St]. destruct (chan_at s k) as [[q [|]]|]; [apply Ret; auto| |exact St].
    destruct (length q <? max 1 c); [|exact St]. apply (Ret (w_chans s (set_nth k (q ++ [(t, m)], false) (l_chans s)) (l_field s))); auto.
  - destruct (l_excl s) eqn:Ex; [exact St|]. cbn. split; [|auto]. apply (Gets _ _ _ _ (LDClosed m)); auto; cbn; rewrite ?Es; cbn; auto; try lia; discriminate.
  - destruct (l_closed s); [apply Ret; auto|apply (Go s); cbn; auto; lia].
  - destruct (l_broken s) eqn:Eb; [apply Ret; auto|]. destruct o; apply Ret; cbn; auto; discriminate.
Qed.

(* One step of the writer. *)
Definition vrank (v : vpc) : nat := match v with VAcq _ _ => 5 | VClosed _ _ => 4 | VWrite _ _ => 3 | VSelect => 2 | VWait _ | VGone => 0 end.
Inductive wmoved (s s' : lst) (i : nat) (l : llabel) : Prop :=
| WStays : s' = s -> wmoved s s' i l
| WGets v v' : nth_error (l_writers s) i = Some v -> vcrit v = false -> vcrit v' = true -> l_excl s = None -> l_excl s' = Some (OWriter i) -> l_writers s' = set_nth i v' (l_writers s) -> vrank v' < vrank v -> wmoved s s' i l
| WGoes v v' : nth_error (l_writers s) i = Some v -> vcrit v = true -> vcrit v' = true -> l_excl s' = l_excl s -> l_writers s' = set_nth i v' (l_writers s) -> vrank v' < vrank v -> wmoved s s' i l
| WLets v v' : nth_error (l_writers s) i = Some v -> vcrit v = true -> vcrit v' = false -> l_excl s' = None -> l_writers s' = set_nth i v' (l_writers s) -> vrank v' < vrank v -> wmoved s s' i l
| WLooks : nth_error (l_writers s) i = Some VSelect -> l_excl s' = l_excl s -> l_writers s' = set_nth i (VWait (l_field s)) (l_writers s) -> wmoved s s' i l
| WTakes k v' : nth_error (l_writers s) i = Some (VWait k) -> vcrit v' = false -> l_excl s' = l_excl s -> l_writers s' = set_nth i v' (l_writers s) -> ((exists o, l = MWriter i ChDone o) -> v' = VGone) -> wmoved s s' i l.
Lemma writer_moves s tr i ch o : wsinv s tr -> l_crashed s = false -> let s' := fst (lwriter_step Ws s i ch o) in
  wmoved s s' i (MWriter i ch o) /\ snd (lwriter_step Ws s i ch o) = [] /\ l_send s' = l_send s /\ l_crashed s' = false /\ l_final s' = l_final s /\ l_cancelled s' = l_cancelled s /\ (l_broken s = true -> l_broken s' = true).
Proof.
  intros W Cr. cbv zeta. unfold lwriter_step. rewrite !(take_free s tr _ W), (sf_ctx _ _ (wi_safe _ _ W)).
  assert (St : wmoved s s i (MWriter i ch o) /\ @nil lev = [] /\ l_send s = l_send s /\ l_crashed s = false /\ l_final s = l_final s /\ l_cancelled s = l_cancelled s /\ (l_broken s = true -> l_broken s = true)) by (repeat split; auto; now apply WStays).
  destruct (nth_error (l_writers s) i) as [v|] eqn:Ev; [|exact St].
  assert (Let : forall s1, vcrit v = true -> 2 < vrank v -> l_writers s1 = l_writers s -> l_send s1 = l_send s -> l_final s1 = l_final s -> l_cancelled s1 = l_cancelled s -> l_crashed s1 = false -> (l_broken s = true -> l_broken s1 = true) ->
    let s' := w_writers (release s1 (OWriter i)) (set_nth i VSelect (l_writers (release s1 (OWriter i)))) in
    wmoved s s' i (MWriter i ch o) /\ @nil lev = [] /\ l_send s' = l_send s /\ l_crashed s' = false /\ l_final s' = l_final s /\ l_cancelled s' = l_cancelled s /\ (l_broken s = true -> l_broken s' = true)).
  { intros s1 C1 Lt E1 E2 E3 E4 E5 E6. cbv zeta. destruct (rel s1 (OWriter i)) as (R1 & R2 & R3 & R4 & R5 & R6 & R7). cbn. rewrite R2, R3, R4, R5, R6, R7. repeat split; auto.
    apply (WLets _ _ _ _ v VSelect); auto; cbn; congruence. }
  destruct v.
  - cbn. repeat split; auto. now apply WLooks.
  - destruct ch; [destruct (l_cancelled s) eqn:Ec| |destruct i0 as [j|]; [destruct (chan_at s j) as [[[|[t m] q] [|]]|]|]]; try exact St; cbn; rewrite ?Ec; repeat split; auto; try (now apply WStays);
      (eapply WTakes; [exact Ev| |reflexivity|cbn; reflexivity|]; [reflexivity|intros (o0 & X); congruence || reflexivity]).
  - destruct (l_excl s) eqn:Ex; [exact St|]. cbn. repeat split; auto. eapply (WGets _ _ _ _ (VAcq t m) (VClosed t m)); auto; cbn; lia.
  - destruct (l_closed s); [apply Let; cbn; auto|]. cbn. repeat split; auto. apply (WGoes _ _ _ _ (VClosed t m) (VWrite t m)); auto.
  - destruct (l_broken s) eqn:Eb; [apply Let; cbn; auto|]. destruct o; apply Let; cbn; auto; discriminate.
  - exact St.
Qed.

(* One step of the finalizer. *)
Definition frank (f : fpc) : nat := match f with FIdle => 6 | FSet => 6 | FLock => 5 | FClose => 4 | FFlag => 3 | FUnlock => 2 | FDone => 0 end.
Inductive fmoved (s s' : lst) : Prop :=
| FStays : s' = s -> (l_final s = FLock /\ l_excl s <> None \/ l_final s = FIdle /\ l_cancelled s = false \/ l_final s = FDone) -> fmoved s s'
| FBegins : fcrit (l_final s) = false -> fcrit (l_final s') = false -> l_excl s' = l_excl s -> frank (l_final s') < frank (l_final s) -> fmoved s s'
| FGets : fcrit (l_final s) = false -> l_excl s = None -> l_excl s' = Some OFinal -> fcrit (l_final s') = true -> frank (l_final s') < frank (l_final s) -> fmoved s s'
| FGoes : fcrit (l_final s) = true -> l_excl s' = l_excl s -> fcrit (l_final s') = true -> frank (l_final s') < frank (l_final s) -> fmoved s s'
| FLets : fcrit (l_final s) = true -> l_excl s' = None -> frank (l_final s') < frank (l_final s) -> fmoved s s'.
Lemma final_moves s tr : wsinv s tr -> l_crashed s = false -> let s' := fst (lfinal_step Ws s) in
  fmoved s s' /\ snd (lfinal_step Ws s) = [] /\ l_send s' = l_send s /\ l_writers s' = l_writers s /\ l_crashed s' = false /\ l_cancelled s' = l_cancelled s /\ (l_broken s = true -> l_broken s' = true).
Proof.
  intros W Cr. cbv zeta. unfold lfinal_step. destruct (l_final s) eqn:Ef.
  - destruct (l_cancelled s) eqn:Ec; cbn; repeat split; auto. + apply FBegins; rewrite ?Ef; cbn; auto; lia. + apply FStays; auto.
  - now elim (wi_set _ _ W).
  - unfold take_excl. rewrite (wi_sh _ _ W). destruct (l_excl s) eqn:Ex; cbn; repeat split; auto. + apply FStays; auto. left. split; [auto|]. rewrite Ex. discriminate. + apply FGets; rewrite ?Ef; cbn; auto; lia.
  - destruct (l_field s) as [k|]; [destruct (chan_at s k) as [[q cl]|]|]; cbn; repeat split; auto; apply FGoes; rewrite ?Ef; cbn; auto; lia.
  - cbn. repeat split; auto. apply FGoes; rewrite ?Ef; cbn; auto; lia.
  - destruct (rel s OFinal) as (R1 & R2 & R3 & R4 & R5 & R6 & R7). cbn. rewrite R2, R3, R5, R6, R7. repeat split; auto. apply FLets; rewrite ?Ef; cbn; auto; lia.
  - cbn. repeat split; auto. apply FStays; auto.
Qed.

Lemma nth_app_keep {A} (l r : list A) i v : nth_error l i = Some v -> nth_error (l ++ r) i = Some v.
Proof. intros H. rewrite nth_error_app1; [exact H|]. apply nth_error_Some. congruence. Qed.
Lemma owned_step c s tr l : wsinv s tr -> owned s -> let s' := fst (l_step c Ws s l) in
  owned s' /\ (l_cancelled s = true -> l_cancelled s' = true) /\ (l_broken s = true -> l_broken s' = true).
Proof.
  intros W (Cr & Ow). cbv zeta. unfold owned. unfold l_step. rewrite Cr. destruct l as [ | |t a m|t ch o|i ch o|].
  - cbn. repeat split; auto.
  - rewrite (sf_ctx _ _ (wi_safe _ _ W)). cbn. repeat split; auto.
  - destruct (l_send s t) eqn:Es; try (cbn; repeat split; auto; fail).
    destruct a; cbn; repeat split; auto; intros [u|i|] Hx; specialize (Ow _ Hx); cbn in *; auto; destruct (Nat.eqb_spec u t) as [->|]; auto; now rewrite Es in Ow.
  - destruct (send_moves c s tr t ch o W Cr) as (M & E1 & E2 & E3 & E4). set (s' := fst (lsend_step c Ws s t ch o)) in *. rewrite E3. repeat split; auto.
    destruct M as [E _|p X1 X2 X3 X4 X5 _ _ _ _ X6|p X1 X2 X3 X4 _ _ (r & X5)|X1 _ _ _ _ _ _].
    + rewrite E. exact Ow.
    + rewrite X2. intros x [= <-]. cbn. now rewrite X5, Nat.eqb_refl.
    + rewrite X1. intros [u|i|] Hx; specialize (Ow _ Hx); cbn in *.
      * rewrite X4. now destruct (u =? t).
      * rewrite X5. destruct (nth_error (l_writers s) i) eqn:Ei; [|discriminate]. now rewrite (nth_app_keep _ _ _ _ Ei).
      * now rewrite E2.
    + rewrite X1. discriminate.
  - destruct (writer_moves s tr i ch o W Cr) as (M & _ & E0 & E1 & E2 & E3 & E4). set (s' := fst (lwriter_step Ws s i ch o)) in *. rewrite E3. repeat split; auto.
    assert (Keep : forall v v', nth_error (l_writers s) i = Some v -> (vcrit v = true -> vcrit v' = true) -> l_excl s' = l_excl s -> l_writers s' = set_nth i v' (l_writers s) -> forall x, l_excl s' = Some x -> owner_at s' x = true).
    { intros v v' Ev Vc X1 X2. rewrite X1. intros [u|j|] Hx; specialize (Ow _ Hx); cbn in *; [now rewrite E0| |now rewrite E2].
      rewrite X2, nth_error_set_nth. destruct (Nat.eqb_spec j i) as [->|]; [|exact Ow]. rewrite Ev in *. auto. }
    destruct M as [E|v v' X1 X2 X3 X4 X5 X6 _|v v' X1 X2 X3 X4 X5 _|v v' X1 X2 X3 X4 X5 _|X1 X2 X3|k v' X1 X2 X3 X4 _].
    + rewrite E. exact Ow.
    + rewrite X5. intros x [= <-]. cbn. now rewrite X6, nth_error_set_nth, Nat.eqb_refl, X1.
    + now apply (Keep v v').
    + rewrite X4. discriminate.
    + apply (Keep VSelect (VWait (l_field s))); auto.
    + apply (Keep (VWait k) v'); auto. discriminate.
  - destruct (final_moves s tr W Cr) as (M & _ & E0 & E1 & E2 & E3 & E4). set (s' := fst (lfinal_step Ws s)) in *. rewrite E3. repeat split; auto.
    destruct M as [E _|X1 X2 X3 _|X1 X2 X3 X4 _|X1 X2 X3 _|X1 X2 _].
    + rewrite E. exact Ow.
    + rewrite X3. intros [u|j|] Hx; specialize (Ow _ Hx); cbn in *; [now rewrite E0|now rewrite E1|congruence].
    + rewrite X3. intros x [= <-]. exact X4.
    + rewrite X2. intros [u|j|] Hx; specialize (Ow _ Hx); cbn in *; [now rewrite E0|now rewrite E1|exact X3].
    + rewrite X2. discriminate.
Qed.

(* A step and goroutine t's call. *)
Lemma call_steps c s tr l t : wsinv s tr -> owned s -> let s' := fst (l_step c Ws s l) in let ev := snd (l_step c Ws s l) in
  l_called t ev + lbusy (l_send s t) = l_returned t ev + lbusy (l_send s' t) /\
  (l_send s t <> LIdle -> l_called t ev = 0 /\ (l_returned t ev = 0 -> lrank (l_send s' t) <= lrank (l_send s t))) /\
  (l_send s t <> LIdle -> (forall b, l_held_up Ws b s (LSending t) = false -> l_step_of c s (LSending t) l -> l_returned t ev = 0 -> lrank (l_send s' t) < lrank (l_send s t))).
Proof.
  intros W (Cr & Ow). cbv zeta. unfold l_step_of. unfold l_step. rewrite Cr. destruct l as [ | |u a m|u ch o|i ch o|].
  - cbn. repeat split; auto; try lia. intros _ b _ (? & ? & X & _). discriminate.
  - rewrite (sf_ctx _ _ (wi_safe _ _ W)). cbn. repeat split; auto; try lia. intros _ b _ (? & ? & X & _). discriminate.
  - split; [|split; [|intros _ b _ (? & ? & X & _); discriminate]].
    + destruct (l_send s u) eqn:Eu; try (cbn; lia). destruct a; cbn; unfold l_called, l_returned; cbn; rewrite ?(Nat.eqb_sym t u); destruct (Nat.eqb_spec u t) as [<-|]; rewrite ?Eu; cbn; lia.
    + intros N. destruct (l_send s u) eqn:Eu; try (cbn; auto; fail). assert (Q : (u =? t) = false) by (destruct (Nat.eqb_spec u t); congruence).
      destruct a; cbn; unfold l_called, l_returned; cbn; rewrite ?(Nat.eqb_sym t u), Q; cbn; auto.
  - destruct (send_moves c s tr u ch o W Cr) as (M & _). set (s' := fst (lsend_step c Ws s u ch o)) in *. set (ev := snd (lsend_step c Ws s u ch o)) in *.
    destruct (Nat.eq_dec u t) as [->|Hu].
    + destruct M as [E E'|p X1 X2 X3 X4 X5 X6 X7 X8 -> X9|p X1 X2 X3 X4 X5 -> X6|X1 X2 X3 X4 X5 X6 X7].
      * replace (l_send s' t) with (l_send s t) by now rewrite E. rewrite E'. cbn [l_called l_returned filter length]. split; [cbn; lia|]. split; [auto|]. intros N b Hh (ch0 & o0 & [= <- <-] & Hs) _. exfalso. clear E'.
        subst s' ev. unfold lsend_step in E. rewrite !(take_free s tr _ W) in E. pose proof (sends_locked s tr t W) as Lk. unfold l_held_up, locked_out in Hh.
        destruct (l_send s t) eqn:Es; try (destruct lk; [|discriminate Lk]).
        -- now elim N.
        -- destruct (l_excl s) eqn:Ex; [discriminate|]. cbn in E. apply (f_equal l_excl) in E. cbn in E. congruence.
        -- apply (f_equal (fun s => l_send s t)) in E. destruct (l_field s); cbn in E; rewrite Nat.eqb_refl in E; congruence.
        -- apply (f_equal (fun s => l_send s t)) in E. cbn in E; rewrite Nat.eqb_refl in E; congruence.
        -- apply (f_equal (fun s => l_send s t)) in E. cbn in E; rewrite Nat.eqb_refl in E; congruence.
        -- apply (f_equal (fun s => l_send s t)) in E. destruct (l_closed s); cbn in E; rewrite Nat.eqb_refl in E; congruence.
        -- apply (f_equal (fun s => l_send s t)) in E. cbn in E; rewrite Nat.eqb_refl in E; congruence.
        -- apply (f_equal (fun s => l_send s t)) in E. specialize (Hs true m i eq_refl). destruct ch; [destruct Hs| |destruct Hs as (k & q & cl & -> & Ec & Hr); rewrite Ec in E; destruct cl;
             [|replace (length q <? max 1 c) with true in E by (destruct Hr as [Hr|Hr]; [discriminate|lia])]]; cbn in E; rewrite Nat.eqb_refl in E; congruence.
        -- destruct (l_excl s) eqn:Ex; [discriminate|]. cbn in E. apply (f_equal l_excl) in E. cbn in E. congruence.
        -- apply (f_equal (fun s => l_send s t)) in E. destruct (l_closed s); cbn in E; rewrite Nat.eqb_refl in E; congruence.
        -- apply (f_equal (fun s => l_send s t)) in E. destruct (l_broken s); [|destruct o]; cbn in E; rewrite Nat.eqb_refl in E; congruence.
      * rewrite X5, Nat.eqb_refl. cbn. split; [destruct (l_send s t), p; cbn; congruence|]. split; [split; auto; lia|auto].
      * rewrite X4, Nat.eqb_refl. cbn. split; [destruct (l_send s t), p; cbn in *; congruence|]. split; [split; auto; lia|auto].
      * rewrite X3, Nat.eqb_refl, X4, X5. split; [destruct (l_send s t); cbn in *; congruence|]. split; [split; auto; lia|lia].
    + assert (Q : l_send s' t = l_send s t /\ l_called t ev = 0 /\ l_returned t ev = 0).
      { destruct M as [E E'|p X1 X2 X3 X4 X5 X6 X7 X8 E' X9|p X1 X2 X3 X4 X5 E' X6|X1 X2 X3 X4 X5 X6 X7].
        - rewrite E, E'. auto.
        - rewrite X5, E'. destruct (Nat.eqb_spec t u); [congruence|auto].
        - rewrite X4, E'. destruct (Nat.eqb_spec t u); [congruence|auto].
        - rewrite X3. destruct (Nat.eqb_spec t u); [congruence|]. destruct (X6 t ltac:(auto)). auto. }
      destruct Q as (-> & -> & ->). repeat split; auto. intros _ b _ (? & ? & X & _). congruence.
  - destruct (writer_moves s tr i ch o W Cr) as (_ & -> & -> & _). cbn. repeat split; auto. intros _ b _ (? & ? & X & _). congruence.
  - destruct (final_moves s tr W Cr) as (_ & -> & -> & _). cbn. repeat split; auto. intros _ b _ (? & ? & X & _). congruence.
Qed.

Definition holder (x : owner) : lgoroutine := match x with OSend t => LSending t | OWriter i => LWriting i | OFinal => Finalizing end.
Definition hrank (x : owner) (s : lst) : nat :=
  match x with OSend t => lrank (l_send s t) | OWriter i => match nth_error (l_writers s) i with Some v => vrank v | None => 0 end | OFinal => frank (l_final s) end.
(* Who holds the lock nears the moment it lets it go. *)
Lemma hold_steps c s tr l x : wsinv s tr -> owned s -> l_excl s = Some x -> let s' := fst (l_step c Ws s l) in
  l_excl s' = None \/ (l_excl s' = Some x /\ hrank x s' <= hrank x s /\ (l_step_of c s (holder x) l -> hrank x s' < hrank x s)).
Proof.
  intros W O Hx. cbv zeta. destruct O as (Cr & Ow). pose proof (Ow x Hx) as Ox.
  assert (Keep : forall s', l_excl s' = l_excl s -> hrank x s' = hrank x s -> ~ label_of (holder x) l ->
    l_excl s' = None \/ (l_excl s' = Some x /\ hrank x s' <= hrank x s /\ (l_step_of c s (holder x) l -> hrank x s' < hrank x s))).
  { intros s' E1 E2 N. right. rewrite E1, E2. repeat split; auto. intros X. elim N. destruct x; cbn in *; [destruct X as (ch0 & o0 & X & _); eauto|destruct X as (ch0 & o0 & X & _); eauto|exact X]. }
  pose proof (call_steps c s tr l) as CS. unfold l_step in *. rewrite Cr in *. destruct l as [ | |u a m|u ch o|i ch o|].
  - apply Keep; [reflexivity|destruct x; reflexivity|]. destruct x; cbn; try (intros (? & ? & X)); discriminate.
  - rewrite (sf_ctx _ _ (wi_safe _ _ W)). apply Keep; [reflexivity|destruct x; reflexivity|]. destruct x; cbn; try (intros (? & ? & X)); discriminate.
  - assert (N : ~ label_of (holder x) (MCall u a m)) by (destruct x; cbn; try (intros (? & ? & X)); discriminate).
    destruct (l_send s u) eqn:Eu; try (apply Keep; auto; fail).
    destruct a; apply Keep; auto; destruct x; cbn; auto; cbn in Ox; destruct (Nat.eqb_spec t u) as [->|]; auto; now rewrite Eu in Ox.
  - destruct (send_moves c s tr u ch o W Cr) as (M & _ & E2 & _). specialize (CS u W (conj Cr Ow)). cbv zeta in CS. set (s' := fst (lsend_step c Ws s u ch o)) in *.
    assert (Nc : x <> OSend u -> crit (l_send s u) = false).
    { intros N. destruct (crit (l_send s u)) eqn:Q; [|reflexivity]. pose proof (owner_of s tr (OSend u) W Q) as X. congruence. }
    assert (D : x = OSend u \/ x <> OSend u) by (destruct x as [t|i|]; try (right; discriminate); destruct (Nat.eq_dec t u); [left; congruence|right; congruence]).
    destruct D as [->|N].
    + destruct M as [E E'|p X1 X2 X3 X4 X5 X6 X7 X8 E' X9|p X1 X2 X3 X4 X5 E' X6|X1 X2 X3 X4 X5 X6 X7]; [|congruence| |now left].
      * right. rewrite E. repeat split; auto. intros St. cbn [holder hrank] in *. cbn in Ox.
        destruct CS as (_ & _ & CS). assert (Nl : l_send s u <> LIdle) by (intros Q; rewrite Q in Ox; discriminate).
        specialize (CS Nl true). rewrite E, E' in CS. apply CS; auto. cbn. unfold locked_out. destruct (l_send s u); auto; discriminate.
      * right. rewrite X1. repeat split; auto; cbn; rewrite X4, Nat.eqb_refl; auto; lia.
    + specialize (Nc N). destruct M as [E E'|p X1 X2 X3 X4 X5 X6 X7 X8 E' X9|p X1 X2 X3 X4 X5 E' X6|X1 X2 X3 X4 X5 X6 X7]; try congruence.
      rewrite E. apply Keep; auto. intros L. destruct x; cbn in L; [destruct L as (? & ? & L); congruence|destruct L as (? & ? & L); discriminate|discriminate].
  - destruct (writer_moves s tr i ch o W Cr) as (M & _ & E0 & E1 & E2 & _). set (s' := fst (lwriter_step Ws s i ch o)) in *.
    assert (Nc : x <> OWriter i -> forall v, nth_error (l_writers s) i = Some v -> vcrit v = false).
    { intros N v Ev. destruct (vcrit v) eqn:Q; [|reflexivity]. assert (Y : owner_at s (OWriter i) = true) by (cbn; now rewrite Ev). pose proof (owner_of s tr (OWriter i) W Y). congruence. }
    assert (D : x = OWriter i \/ x <> OWriter i) by (destruct x as [t|j|]; try (right; discriminate); destruct (Nat.eq_dec j i); [left; congruence|right; congruence]).
    destruct D as [->|N].
    + cbn in Ox. destruct M as [E|v v' X1 X2 X3 X4 X5 X6 X7|v v' X1 X2 X3 X4 X5 X7|v v' X1 X2 X3 X4 X5 X7|X1 X2 X3|k v' X1 X2 X3 X4 X5]; try congruence.
      * exfalso. destruct (nth_error (l_writers s) i) as [v|] eqn:Ev; [|discriminate]. destruct (one_writer s tr i v W Ev) as (-> & Hw). subst s'. unfold lwriter_step in E. rewrite Ev in E. destruct v; try discriminate.
        -- apply (f_equal l_writers) in E. destruct (l_closed s); cbn in E; rewrite ?(proj1 (proj2 (proj2 (rel _ _)))) in E; rewrite Hw in E; discriminate.
        -- apply (f_equal l_writers) in E. destruct (l_broken s); [|destruct o]; cbn in E; rewrite ?(proj1 (proj2 (proj2 (rel _ _)))) in E; cbn in E; rewrite Hw in E; discriminate.
      * right. rewrite X4. cbn. rewrite X5, nth_error_set_nth, Nat.eqb_refl, X1. repeat split; auto; lia.
      * now left.
      * rewrite X1 in Ox. discriminate.
      * rewrite X1 in Ox. discriminate.
    + assert (Lb : ~ label_of (holder x) (MWriter i ch o)) by (destruct x; cbn; [intros (? & ? & L); discriminate|intros (? & ? & L); congruence|discriminate]).
      assert (Kw : forall v', l_excl s' = l_excl s -> l_writers s' = set_nth i v' (l_writers s) -> l_excl s' = l_excl s /\ hrank x s' = hrank x s).
      { intros v' Y1 Y2. split; [exact Y1|]. destruct x; cbn; [now rewrite E0| |now rewrite E2]. rewrite Y2, nth_error_set_nth. destruct (Nat.eqb_spec i0 i); [congruence|reflexivity]. }
      destruct M as [E|v v' X1 X2 X3 X4 X5 X6 X7|v v' X1 X2 X3 X4 X5 X7|v v' X1 X2 X3 X4 X5 X7|X1 X2 X3|k v' X1 X2 X3 X4 X5]; try congruence.
      * rewrite E. now apply Keep.
      * rewrite (Nc N v X1) in X2. discriminate.
      * now left.
      * destruct (Kw _ X2 X3). now apply Keep.
      * destruct (Kw _ X3 X4). now apply Keep.
  - destruct (final_moves s tr W Cr) as (M & _ & E0 & E1 & _). set (s' := fst (lfinal_step Ws s)) in *.
    assert (D : x = OFinal \/ x <> OFinal) by (destruct x; auto; right; discriminate).
    destruct D as [->|N].
    + cbn in Ox. destruct M as [E X|X1 X2 X3 X4|X1 X2 X3 X4 X5|X1 X2 X3 X4|X1 X2 X3]; try congruence.
      * exfalso. destruct X as [(X & _)|[(X & _)|X]]; rewrite X in Ox; discriminate.
      * right. rewrite X2. cbn. repeat split; auto; lia.
      * now left.
    + assert (Nc : fcrit (l_final s) = false) by (destruct (fcrit (l_final s)) eqn:Q; [|reflexivity]; pose proof (owner_of s tr OFinal W Q); congruence).
      assert (Lb : ~ label_of (holder x) MFinal) by (destruct x; cbn; [intros (? & ? & L); discriminate|intros (? & ? & L); discriminate|congruence]).
      destruct M as [E X|X1 X2 X3 X4|X1 X2 X3 X4 X5|X1 X2 X3 X4|X1 X2 X3]; try congruence.
      * rewrite E. now apply Keep.
      * apply Keep; auto. destruct x; cbn; [now rewrite E0|now rewrite E1|congruence].
Qed.

Section Runs.
Variables (c : nat) (taking : nat -> bool) (sch : nat -> llabel).
Hypothesis F : l_fair c Ws taking sch.
Let st n := fst (l_at c Ws sch n).
Let tr n := snd (l_at c Ws sch n).
Lemma w_step n : st (S n) = fst (l_step c Ws (st n) (sch n)) /\ tr (S n) = tr n ++ snd (l_step c Ws (st n) (sch n)).
Proof. unfold st, tr, l_at. rewrite firstS, app_comm_cons, SendErr_proofs.l_run_snoc. auto. Qed.
Lemma w_inv n : wsinv (st n) (tr n).
Proof. apply ws_run. Qed.
Lemma w_own n : owned (st n).
Proof.
  induction n as [|n IH]; [split; [reflexivity|cbn; discriminate]|]. rewrite (proj1 (w_step n)). now apply (owned_step c (st n) (tr n) (sch n) (w_inv n)).
Qed.
Lemma w_stay n m : n <= m -> (l_cancelled (st n) = true -> l_cancelled (st m) = true) /\ (l_broken (st n) = true -> l_broken (st m) = true).
Proof.
  induction 1 as [|m H (IH1 & IH2)]; [auto|]. rewrite (proj1 (w_step m)). destruct (owned_step c (st m) (tr m) (sch m) (w_inv m) (w_own m)) as (_ & X & Y). auto.
Qed.

(* Held from n to m, and no further from its end; or let go in between. *)
Lemma walk x n : l_excl (st n) = Some x -> forall m, n <= m ->
  (exists k, n <= k /\ k <= m /\ l_excl (st k) = None) \/ (l_excl (st m) = Some x /\ hrank x (st m) <= hrank x (st n)).
Proof.
  intros Hx. induction 1 as [|m H [(k & K1 & K2 & K3)|(IH1 & IH2)]]; [auto|left; exists k; repeat split; auto; lia|].
  rewrite (proj1 (w_step m)). destruct (hold_steps c (st m) (tr m) (sch m) x (w_inv m) (w_own m) IH1) as [X|(X & Y & _)].
  - left. exists (S m). rewrite (proj1 (w_step m)). repeat split; auto.
  - right. split; [exact X|lia].
Qed.
Lemma comes_free : often (fun m => taking m = true) -> forall n, exists m, n <= m /\ l_excl (st m) = None.
Proof.
  intros O n. destruct (l_excl (st n)) as [x|] eqn:Hx; [|exists n; auto].
  assert (X : forall k n, l_excl (st n) = Some x -> hrank x (st n) <= k -> exists m, n <= m /\ l_excl (st m) = None).
  { clear n Hx. induction k as [k IH] using lt_wf_ind. intros n Hx Hk. destruct (proj1 F (holder x) n) as (m & Hm & [(_ & Sm)|Stuck]).
    - destruct (walk x n Hx m Hm) as [(j & J1 & J2 & J3)|(A & B)]; [exists j; auto|].
      destruct (hold_steps c (st m) (tr m) (sch m) x (w_inv m) (w_own m) A) as [X|(X & _ & Y)]; rewrite <- (proj1 (w_step m)) in *; [exists (S m); split; [lia|exact X]|].
      specialize (Y Sm). destruct (IH (hrank x (st (S m))) ltac:(lia) (S m) X (le_n _)) as (j & J1 & J2). exists j. split; [lia|exact J2].
    - destruct (O m) as (k' & Hk' & Tk). destruct (walk x n Hx k' ltac:(lia)) as [(j & J1 & J2 & J3)|(A & _)]; [exists j; auto|].
      exfalso. apply (Stuck k' Hk'). fold (st k'). pose proof (proj2 (w_own k') x A) as Ox. rewrite Tk. unfold l_held_up. destruct x as [t|i|]; cbn in Ox |- *.
      + destruct (l_send (st k') t); auto; discriminate.
      + destruct (nth_error (l_writers (st k')) i) as [v|]; [|reflexivity]. destruct v; auto; discriminate.
      + destruct (l_final (st k')); auto; discriminate. }
  exact (X _ n Hx (le_n _)).
Qed.

Section Free.
Hypothesis Fr : forall n, exists m, n <= m /\ l_excl (st m) = None.
Lemma w_moves t : often (fun m => l_held_up Ws (taking m) (st m) (LSending t) = false /\ l_step_of c (st m) (LSending t) (sch m)).
Proof.
  intros n. destruct (proj1 F (LSending t) n) as (m & Hm & [X|X]); [exists m; auto|]. exfalso. destruct (Fr m) as (k & Hk & E). apply (X k Hk). fold (st k).
  unfold l_held_up, locked_out. rewrite E, (wi_sh _ _ (w_inv k)). destruct (l_send (st k) t) eqn:Es; auto.
  pose proof (owner_of (st k) (tr k) (OSend t) (w_inv k)) as Y. cbn in Y. rewrite Es in Y. specialize (Y eq_refl). congruence.
Qed.
Lemma w_calls n t : l_called t (tr n) = l_returned t (tr n) + lbusy (l_send (st n) t).
Proof.
  induction n as [|n IH]; [reflexivity|]. destruct (w_step n) as (E1 & E2). rewrite E1, E2, l_called_app, l_returned_app.
  destruct (call_steps c (st n) (tr n) (sch n) t (w_inv n) (w_own n)) as (X & _). lia.
Qed.
Lemma w_called n m t : n <= m -> l_called t (tr n) <= l_called t (tr m).
Proof. induction 1 as [|m H IH]; [lia|]. rewrite (proj2 (w_step m)), l_called_app. lia. Qed.
Lemma w_call_ends n t : exists m, n <= m /\ l_called t (tr n) <= l_returned t (tr m).
Proof.
  set (D := fun k => if l_called t (tr n) <=? l_returned t (tr k) then 0 else lrank (l_send (st k) t)).
  assert (Busy : forall k, n <= k -> l_returned t (tr k) < l_called t (tr n) -> l_send (st k) t <> LIdle).
  { intros k Hk L E. pose proof (w_calls k t) as X. rewrite E in X. cbn in X. pose proof (w_called n k t Hk). lia. }
  assert (B1 : forall k, lbusy (l_send (st k) t) <= 1) by (intros k; destruct (l_send (st k) t); cbn; lia).
  destruct (descend D (fun m => l_held_up Ws (taking m) (st m) (LSending t) = false /\ l_step_of c (st m) (LSending t) (sch m)) n) as (m & Hm & Z).
  - intros k Hk. unfold D. destruct (w_step k) as (E1 & E2). rewrite E1, E2, l_returned_app. destruct (call_steps c (st k) (tr k) (sch k) t (w_inv k) (w_own k)) as (_ & Y & _).
    set (r := l_returned t (snd (l_step c Ws (st k) (sch k)))) in *. destruct (Nat.leb_spec (l_called t (tr n)) (l_returned t (tr k))) as [L|L].
    + destruct (Nat.leb_spec (l_called t (tr n)) (l_returned t (tr k) + r)); lia.
    + destruct (Nat.leb_spec (l_called t (tr n)) (l_returned t (tr k) + r)) as [L'|L']; [lia|].
      destruct (Y (Busy k Hk L)) as (_ & Y'). pose proof (w_calls k t) as X. pose proof (w_called n k t Hk). apply Y'. specialize (B1 k). lia.
  - intros k Hk (Hh & Mv) P. unfold D in *. destruct (w_step k) as (E1 & E2). rewrite E1, E2, l_returned_app. destruct (call_steps c (st k) (tr k) (sch k) t (w_inv k) (w_own k)) as (_ & _ & Y).
    set (r := l_returned t (snd (l_step c Ws (st k) (sch k)))) in *. destruct (Nat.leb_spec (l_called t (tr n)) (l_returned t (tr k))) as [L|L]; [lia|].
    destruct (Nat.leb_spec (l_called t (tr n)) (l_returned t (tr k) + r)) as [L'|L']; [lia|].
    apply (Y (Busy k Hk L) _ Hh Mv). pose proof (w_calls k t). pose proof (w_called n k t Hk). specialize (B1 k). lia.
  - exact (w_moves t).
  - exists m. split; [exact Hm|]. unfold D in Z. destruct (Nat.leb_spec (l_called t (tr n)) (l_returned t (tr m))) as [L|L]; [exact L|].
    exfalso. apply (Busy m Hm L). destruct (l_send (st m) t); cbn in Z; congruence.
Qed.

(* The finalizer. *)
Lemma final_steps s t l : wsinv s t -> owned s -> let s' := fst (l_step c Ws s l) in
  frank (l_final s') <= frank (l_final s) /\ (l = MFinal -> l_cancelled s = true -> l_final s <> FDone -> (l_final s = FLock -> l_excl s = None) -> frank (l_final s') < frank (l_final s)).
Proof.
  intros W (Cr & _). cbv zeta. unfold l_step. rewrite Cr. destruct l as [ | |u a m|u ch o|i ch o|].
  - cbn. split; [lia|discriminate].
  - rewrite (sf_ctx _ _ (wi_safe _ _ W)). cbn. split; [lia|discriminate].
  - split; [|discriminate]. destruct (l_send s u); try (cbn; lia). destruct a; cbn; lia.
  - destruct (send_moves c s t u ch o W Cr) as (_ & _ & -> & _). split; [lia|discriminate].
  - destruct (writer_moves s t i ch o W Cr) as (_ & _ & _ & _ & -> & _). split; [lia|discriminate].
  - destruct (final_moves s t W Cr) as (M & _). destruct M as [-> X|X1 X2 X3 X4|X1 X2 X3 X4 X5|X1 X2 X3 X4|X1 X2 X3]; split; try lia.
    intros _ C N L. exfalso. destruct X as [(X1 & X2)|[(X1 & X2)|X]]; [|congruence|congruence]. now elim X2; apply L.
Qed.
Lemma w_final n : l_cancelled (st n) = true -> exists m, n <= m /\ l_final (st m) = FDone.
Proof.
  intros C. destruct (descend (fun m => frank (l_final (st m))) (fun m => l_held_up Ws (taking m) (st m) Finalizing = false /\ sch m = MFinal) n) as (m & Hm & Z).
  - intros k Hk. rewrite (proj1 (w_step k)). apply (final_steps (st k) (tr k) (sch k) (w_inv k) (w_own k)).
  - intros k Hk (Hh & El) P. rewrite (proj1 (w_step k)). destruct (final_steps (st k) (tr k) (sch k) (w_inv k) (w_own k)) as (_ & X).
    apply X; [exact El|now apply (proj1 (w_stay n k Hk))|intros Q; rewrite Q in P; cbn in P; lia|]. intros Q. unfold l_held_up, locked_out in Hh. rewrite Q in Hh. destruct (l_excl (st k)); [discriminate|reflexivity].
  - intros k. destruct (proj1 F Finalizing (n + k)) as (m & Hm & [(X1 & X2)|X]); [exists m; split; [lia|]; auto|]. exfalso. destruct (Fr m) as (j & Hj & E). apply (X j Hj). fold (st j).
    unfold l_held_up, locked_out. rewrite E, (wi_sh _ _ (w_inv j)), (proj1 (w_stay n j ltac:(lia)) C). now destruct (l_final (st j)).
  - exists m. split; [exact Hm|]. destruct (l_final (st m)); cbn in Z; congruence.
Qed.

(* The writer. *)
Definition vr (i : nat) (s : lst) : nat := match nth_error (l_writers s) i with Some v => vrank v | None => 0 end.
Lemma w_steps s t l i v : wsinv s t -> owned s -> nth_error (l_writers s) i = Some v -> exists v', nth_error (l_writers (fst (l_step c Ws s l))) i = Some v' /\
  (v = VGone -> v' = VGone) /\
  ((forall k, v <> VWait k) -> vrank v' <= vrank v /\ (forall b, l_held_up Ws b s (LWriting i) = false -> label_of (LWriting i) l -> v <> VGone -> vrank v' < vrank v)) /\
  (forall k, v = VWait k -> l_cancelled s = true -> (exists o, l = MWriter i ChDone o) -> v' = VGone).
Proof.
  intros W (Cr & Ow) Ev.
  assert (Keep : forall s', nth_error (l_writers s') i = Some v -> ~ label_of (LWriting i) l -> exists v', nth_error (l_writers s') i = Some v' /\
    (v = VGone -> v' = VGone) /\ ((forall k, v <> VWait k) -> vrank v' <= vrank v /\ (forall b, l_held_up Ws b s (LWriting i) = false -> label_of (LWriting i) l -> v <> VGone -> vrank v' < vrank v)) /\
    (forall k, v = VWait k -> l_cancelled s = true -> (exists o, l = MWriter i ChDone o) -> v' = VGone)).
  { intros s' E N. exists v. repeat split; auto; intros; [now elim N|]. elim N. cbn. destruct H1 as (o & ->). now exists ChDone, o. }
  unfold l_step. rewrite Cr. destruct l as [ | |u a m|u ch o|j ch o|].
  - apply Keep; [exact Ev|]. intros (? & ? & X). discriminate.
  - rewrite (sf_ctx _ _ (wi_safe _ _ W)). apply Keep; [exact Ev|]. intros (? & ? & X). discriminate.
  - assert (N : ~ label_of (LWriting i) (MCall u a m)) by (intros (? & ? & X); discriminate). destruct (l_send s u); try (apply Keep; [exact Ev|exact N]). destruct a; (apply Keep; [exact Ev|exact N]).
  - apply Keep; [|intros (? & ? & X); discriminate]. destruct (send_moves c s t u ch o W Cr) as (M & _).
    destruct M as [E E'|p X1 X2 X3 X4 X5 X6 X7 X8 E' X9|p X1 X2 X3 X4 X5 E' (r & X6)|X1 X2 X3 X4 X5 X6 X7].
    + now rewrite E. + now rewrite X9. + rewrite X6. now apply nth_app_keep. + now rewrite X7.
  - destruct (one_writer s t i v W Ev) as (-> & Hw). destruct j as [|j].
    + destruct (writer_moves s t 0 ch o W Cr) as (M & _). set (s' := fst (lwriter_step Ws s 0 ch o)) in *.
      assert (Lb : forall v', l_writers s' = set_nth 0 v' (l_writers s) -> nth_error (l_writers s') 0 = Some v') by (intros v' E; now rewrite E, Hw).
      destruct M as [E|v0 v' X1 X2 X3 X4 X5 X6 X7|v0 v' X1 X2 X3 X4 X5 X7|v0 v' X1 X2 X3 X4 X5 X7|X1 X2 X3|k v' X1 X2 X3 X4 X5].
      * exists v. rewrite E. split; [exact Ev|]. split; [auto|]. split.
        -- intros Nw. split; [lia|]. intros b Hh _ Ng. exfalso. subst s'. unfold lwriter_step in E. rewrite Ev, !(take_free s t _ W), (sf_ctx _ _ (wi_safe _ _ W)) in E. unfold l_held_up, locked_out in Hh. rewrite Ev in Hh.
           apply (f_equal l_writers) in E. destruct v.
           ++ cbn in E. rewrite Hw in E. discriminate.
           ++ now elim (Nw i).
           ++ destruct (l_excl s); [discriminate|]. cbn in E. rewrite Hw in E. discriminate.
           ++ destruct (l_closed s); cbn in E; rewrite ?(proj1 (proj2 (proj2 (rel _ _)))) in E; rewrite Hw in E; discriminate.
           ++ destruct (l_broken s); [|destruct o]; cbn in E; rewrite ?(proj1 (proj2 (proj2 (rel _ _)))) in E; cbn in E; rewrite Hw in E; discriminate.
           ++ congruence.
        -- intros k -> Cn (o0 & [= -> ->]). subst s'. unfold lwriter_step in E. rewrite Ev, Cn in E. apply (f_equal l_writers) in E. cbn in E. rewrite Hw in E. discriminate.
      * rewrite Ev in X1. injection X1 as <-. exists v'. split; [now apply Lb|]. repeat split; try lia; intros; subst; cbn in X7; try discriminate; lia.
      * rewrite Ev in X1. injection X1 as <-. exists v'. split; [now apply Lb|]. repeat split; try lia; intros; subst; cbn in X7; try discriminate; lia.
      * rewrite Ev in X1. injection X1 as <-. exists v'. split; [now apply Lb|]. repeat split; try lia; intros; subst; cbn in X7; try discriminate; lia.
      * rewrite Ev in X1. injection X1 as ->. eexists. split; [apply Lb; exact X3|]. repeat split; cbn; try lia; intros; try discriminate; lia.
      * rewrite Ev in X1. injection X1 as ->. exists v'. split; [now apply Lb|]. split; [discriminate|]. split; [intros Q; now elim (Q k)|]. auto.
    + assert (N : nth_error (l_writers s) (S j) = None) by (rewrite Hw; now destruct j). unfold lwriter_step. rewrite N. apply Keep; [exact Ev|]. intros (? & ? & X). discriminate.
  - apply Keep; [|intros X; destruct X as (? & ? & X); discriminate]. destruct (final_moves s t W Cr) as (_ & _ & _ & -> & _). exact Ev.
Qed.
Lemma w_there i v n : nth_error (l_writers (st n)) i = Some v -> forall m, n <= m -> exists v', nth_error (l_writers (st m)) i = Some v' /\ (v = VGone -> v' = VGone).
Proof.
  intros Ev. induction 1 as [|m H (v' & E & G)]; [exists v; auto|]. destruct (w_steps (st m) (tr m) (sch m) i v' (w_inv m) (w_own m) E) as (v'' & E'' & G'' & _).
  rewrite (proj1 (w_step m)). exists v''. auto.
Qed.
(* The writer comes to its select, or is gone. *)
Lemma w_comes n i v : nth_error (l_writers (st n)) i = Some v -> exists m, n <= m /\ exists v', nth_error (l_writers (st m)) i = Some v' /\ (v' = VGone \/ exists k, v' = VWait k).
Proof.
  intros Ev. assert (X : forall r n v, nth_error (l_writers (st n)) i = Some v -> vrank v <= r -> exists m, n <= m /\ exists v', nth_error (l_writers (st m)) i = Some v' /\ (v' = VGone \/ exists k, v' = VWait k)).
  2: exact (X _ n v Ev (le_n _)).
  clear n v Ev. induction r as [r IH] using lt_wf_ind. intros n v Ev Hr.
  assert (Walk : forall m, n <= m -> (exists j, n <= j /\ exists v', nth_error (l_writers (st j)) i = Some v' /\ (v' = VGone \/ exists k, v' = VWait k)) \/
     exists v', nth_error (l_writers (st m)) i = Some v' /\ v' <> VGone /\ (forall k, v' <> VWait k) /\ vrank v' <= vrank v).
  { assert (Dec : forall v0 : vpc, (v0 = VGone \/ exists k, v0 = VWait k) \/ (v0 <> VGone /\ forall k, v0 <> VWait k)) by (intros []; eauto; right; split; try discriminate; intros; discriminate).
    induction 1 as [|m H [IHm|(v' & E1 & E2 & E3 & E4)]].
    - destruct (Dec v) as [D|D]; [left; exists n; split; [lia|exists v; auto]|right; exists v; destruct D; auto].
    - auto.
    - destruct (w_steps (st m) (tr m) (sch m) i v' (w_inv m) (w_own m) E1) as (v'' & E'' & _ & G & _). rewrite <- (proj1 (w_step m)) in E''. destruct (G E3) as (G1 & _).
      destruct (Dec v'') as [D|D]; [left; exists (S m); split; [lia|exists v''; auto]|right; exists v''; destruct D; repeat split; auto; lia]. }
  destruct (proj1 F (LWriting i) n) as (m & Hm & [(Hh & Sm0)|Stuck]).
  - assert (Sm : label_of (LWriting i) (sch m)) by (destruct Sm0 as (ch0 & o0 & X & _); cbn; eauto).
    destruct (Walk m Hm) as [X|(v' & E1 & E2 & E3 & E4)]; [exact X|].
    destruct (w_steps (st m) (tr m) (sch m) i v' (w_inv m) (w_own m) E1) as (v'' & E'' & _ & G & _). rewrite <- (proj1 (w_step m)) in E''. destruct (G E3) as (_ & G2).
    specialize (G2 _ Hh Sm E2). destruct (IH (vrank v'') ltac:(lia) (S m) v'' E'' (le_n _)) as (j & Hj & X). exists j. split; [lia|exact X].
  - destruct (Fr m) as (k & Hk & E). destruct (Walk k ltac:(lia)) as [X|(v' & E1 & E2 & E3 & E4)]; [exact X|]. exfalso. apply (Stuck k Hk). fold (st k). unfold l_held_up, locked_out. rewrite E, (wi_sh _ _ (w_inv k)), E1.
    destruct v'; auto; [now elim (E3 i0)|]. pose proof (owner_of (st k) (tr k) (OWriter i) (w_inv k)) as Y. cbn in Y. rewrite E1 in Y. specialize (Y eq_refl). congruence.
Qed.
Lemma w_gone n i v : l_cancelled (st n) = true -> nth_error (l_writers (st n)) i = Some v -> exists m, n <= m /\ nth_error (l_writers (st m)) i = Some VGone.
Proof.
  intros C Ev. destruct (proj2 F i n) as (m & Hm & [((_ & k & Ek) & Sm)|Never]).
  - fold (st m) in Ek. destruct (w_steps (st m) (tr m) (sch m) i (VWait k) (w_inv m) (w_own m) Ek) as (v' & E' & _ & _ & G).
    rewrite (G k eq_refl (proj1 (w_stay n m Hm) C) Sm) in E'. exists (S m). split; [lia|]. now rewrite (proj1 (w_step m)).
  - destruct (w_there i v n Ev m Hm) as (v1 & E1 & _). destruct (w_comes m i v1 E1) as (j & Hj & v2 & E2 & [->|(k & ->)]); [exists j; split; [lia|exact E2]|].
    exfalso. apply (Never j Hj). split; [apply (proj1 (w_stay n j ltac:(lia)) C)|]. now exists k.
Qed.
End Free.

Lemma ws_returns n t : often (fun m => taking m = true) -> exists m, n <= m /\ l_called t (tr n) <= l_returned t (tr m).
Proof. intros O. exact (w_call_ends (comes_free O) n t). Qed.
Lemma ws_stop n : often (fun m => taking m = true) -> l_cancelled (st n) = true -> exists m, n <= m /\ l_final (st m) = FDone /\ l_broken (st m) = true.
Proof.
  intros O C. destruct (w_final (comes_free O) n C) as (m & Hm & E). exists m. split; [exact Hm|]. split; [exact E|]. apply (wi_late _ _ (w_inv m)). now rewrite E.
Qed.
Lemma ws_writer_ends n i v : often (fun m => taking m = true) -> l_cancelled (st n) = true -> nth_error (l_writers (st n)) i = Some v -> exists m, n <= m /\ nth_error (l_writers (st m)) i = Some VGone.
Proof. intros O. exact (w_gone (comes_free O) n i v). Qed.
End Runs.

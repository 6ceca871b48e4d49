(* C113: a logger's lock and its hook. *)
From Coq Require Import List Bool Arith Lia.
From Verif Require Import LogHook Spec_LogHook.
Import ListNotations.

Definition holds (p : pc) : bool := match p with H1 _ | Held _ | Hook _ _ | HS => true | _ => false end.
Definition idle (p : pc) : bool := match p with Idle => true | _ => false end.
Lemma upd_same f g p : upd f g p g = p. Proof. unfold upd. now rewrite Nat.eqb_refl. Qed.
Lemma upd_other f g p h : h <> g -> upd f g p h = f h. Proof. intros N. unfold upd. destruct (Nat.eqb_spec h g); congruence. Qed.

Section S.
Variable lvl : nat.
Variable files : bool.
Variable hook : nat -> list act.
Notation step := (l_step lvl files hook).
Notation run := (l_run lvl files hook).
Lemma run_app a b s : run s (a ++ b) = (fst (run (fst (run s a)) b), snd (run s a) ++ snd (run (fst (run s a)) b)).
Proof.
  revert s. induction a as [|l a IH]; intros s; [cbn; destruct (run s b); reflexivity|]. cbn [app l_run]. destruct (step s l) as [s1 e1]. rewrite IH. destruct (run s1 a) as [s2 e2]. cbn [fst snd]. destruct (run s2 b). cbn. now rewrite app_assoc.
Qed.
Lemma fst_snoc s ls l : fst (run s (ls ++ [l])) = fst (step (fst (run s ls)) l).
Proof. rewrite run_app. cbn [fst l_run]. destruct (step (fst (run s ls)) l). reflexivity. Qed.
Lemma snd_snoc s ls l : snd (run s (ls ++ [l])) = snd (run s ls) ++ snd (step (fst (run s ls)) l).
Proof. rewrite run_app. cbn [snd l_run]. destruct (step (fst (run s ls)) l). cbn. now rewrite app_nil_r. Qed.

(* What a step can be: nothing, or a move of one goroutine. *)
Inductive moved (s : lst) : lst * list ev -> Prop :=
| MNone : moved s (s, [])
| MBelow g : l_pc s g = Idle -> moved s (s, [ECall g; EEnd g])
| MCall g p : l_pc s g = Idle -> holds p = false -> idle p = false -> moved s (goto s g p, [ECall g])
| MLock g p : holds (l_pc s g) = false -> idle (l_pc s g) = false -> l_lock s = None -> (forall r l, p <> Hook r l) -> holds p = true -> moved s (Lst (Some g) (upd (l_pc s) g p), [])
| MAway g r : l_pc s g = H1 r -> moved s (release s g (W2 r), [])
| MWritten g r : l_pc s g = Held r -> moved s (goto s g (Hook r (hook r)), [EWritten g r])
| MHook g r a l : l_pc s g = Hook r (a :: l) -> (match a with ALog lev => lvl <= lev -> l_lock s = None | ALock => l_lock s = None | APanic => False | AOther => True end) -> moved s (goto s g (Hook r l), [])
| MEnd g : (exists r, l_pc s g = Hook r []) \/ l_pc s g = HS -> moved s (release s g Idle, [EEnd g])
| MPanic g r l : l_pc s g = Hook r (APanic :: l) -> moved s (release s g Idle, [EPanicked g r]).
Lemma step_moved s l : moved s (step s l).
Proof.
  destruct l as [g lev r|g|g]; cbn [l_step].
  - destruct (l_pc s g) eqn:E; try constructor. destruct (lvl <=? lev); now constructor.
  - destruct (l_pc s g) eqn:E; now constructor.
  - unfold go. destruct (l_pc s g) as [|r|r|r|r|r [|a l]| |] eqn:E; try (constructor; fail).
    + unfold acquire. destruct (l_lock s) eqn:L; [constructor|]. apply MLock; rewrite ?E; auto; destruct files; discriminate || reflexivity.
    + now constructor.
    + unfold acquire. destruct (l_lock s) eqn:L; [constructor|]. apply MLock; rewrite ?E; auto; discriminate.
    + now constructor.
    + constructor. eauto.
    + destruct a as [lev| | |].
      * destruct (Nat.leb_spec lvl lev); [destruct (l_lock s) eqn:L; [constructor|]|]; eapply MHook; eauto; cbn; intros; auto; lia.
      * destruct (l_lock s) eqn:L; [constructor|]. eapply MHook; eauto.
      * eapply MPanic; eauto.
      * eapply MHook; eauto. exact I.
    + unfold acquire. destruct (l_lock s) eqn:L; [constructor|]. apply MLock; rewrite ?E; auto; discriminate.
    + constructor. auto.
Qed.

Definition inv (s : lst) : Prop := forall g, holds (l_pc s g) = true <-> l_lock s = Some g.
Lemma inv_moved s x : inv s -> moved s x -> inv (fst x).
Proof.
  intros I M g. destruct M as [|h E|h p E H Id|h p H Id L Np Hp|h r E|h r E|h r a l E _|h E|h r l E]; cbn [fst]; try apply I; unfold goto, release; cbn [l_lock l_pc]; destruct (Nat.eq_dec g h) as [->|N]; rewrite ?upd_same, ?upd_other by assumption; try apply I.
  - rewrite H. rewrite <- (I h), E. cbn. intuition discriminate.
  - intuition.
  - rewrite (I g), L. split; intros X; [discriminate|congruence].
  - cbn. intuition discriminate.
  - rewrite (I g). assert (L : l_lock s = Some h) by (apply I; now rewrite E). rewrite L. split; intros X; [congruence|discriminate].
  - rewrite <- (I h), E. cbn. intuition.
  - rewrite <- (I h), E. cbn. intuition.
  - cbn. intuition discriminate.
  - rewrite (I g). assert (L : l_lock s = Some h) by (apply I; destruct E as [(r & E)|E]; now rewrite E). rewrite L. split; intros X; [congruence|discriminate].
  - cbn. intuition discriminate.
  - rewrite (I g). assert (L : l_lock s = Some h) by (apply I; now rewrite E). rewrite L. split; intros X; [congruence|discriminate].
Qed.
Lemma inv_run ls : inv (fst (run l_new ls)).
Proof. induction ls as [|l ls IH] using rev_ind; [intros g; cbn; intuition discriminate|]. rewrite fst_snoc. eapply inv_moved; [exact IH|apply step_moved]. Qed.

Lemma calls_app g a b : calls g (a ++ b) = calls g a + calls g b.
Proof. unfold calls. now rewrite filter_app, app_length. Qed.
Lemma over_app g a b : over g (a ++ b) = over g a + over g b.
Proof. unfold over. now rewrite filter_app, app_length. Qed.
Lemma account ls g : calls g (told lvl files hook ls) = over g (told lvl files hook ls) + if idle (l_pc (fst (run l_new ls)) g) then 0 else 1.
Proof.
  unfold told. induction ls as [|l ls IH] using rev_ind; [reflexivity|]. rewrite fst_snoc, snd_snoc, calls_app, over_app, IH. clear IH. set (s := fst (run l_new ls)).
  destruct (step_moved s l) as [|h E|h p E H Id|h p H Id L Np Hp|h r E|h r E|h r a l0 E _|h E|h r l0 E]; cbn [fst snd]; unfold goto, release, calls, over; cbn [filter l_pc length]; try lia;
    (destruct (Nat.eqb_spec h g) as [->|N]; [rewrite ?upd_same, ?E|rewrite ?upd_other by congruence]); cbn [idle length]; try lia.
  - rewrite Id. lia.
  - rewrite Id. destruct p; try discriminate; cbn; lia.
  - destruct E as [(r & E)|E]; rewrite E; cbn [idle]; lia.
Qed.

Lemma one_app c a b : one_at_a_time c (a ++ b) = match one_at_a_time c a with Some c' => one_at_a_time c' b | None => None end.
Proof. revert c. induction a as [|e a IH]; intros c; [reflexivity|]. cbn. destruct e; auto. destruct c; auto. Qed.
Definition hooking (s : lst) : option nat := match l_lock s with Some g => match l_pc s g with Hook _ _ => Some g | _ => None end | None => None end.
Lemma hooking_run ls : one_at_a_time None (told lvl files hook ls) = Some (hooking (fst (run l_new ls))).
Proof.
  unfold told. induction ls as [|l ls IH] using rev_ind; [reflexivity|]. rewrite fst_snoc, snd_snoc, one_app, IH. pose proof (inv_run ls) as I. set (s := fst (run l_new ls)) in *. clear IH.
  destruct (step_moved s l) as [|h E|h p E H Id|h p H Id L Np Hp|h r E|h r E|h r a l0 E _|h E|h r l0 E]; cbn [fst snd one_at_a_time]; try reflexivity; unfold hooking, goto, release; cbn [l_lock l_pc].
  - destruct (l_lock s) as [g|]; [|reflexivity]. destruct (l_pc s g) eqn:Eg; try reflexivity. destruct (Nat.eqb_spec g h) as [->|]; [congruence|reflexivity].
  - destruct (l_lock s) as [g|] eqn:L; [|reflexivity]. destruct (Nat.eq_dec g h) as [->|N]; [|now rewrite upd_other]. apply I in L. rewrite E in L. discriminate.
  - rewrite upd_same, L. destruct p; try reflexivity. exfalso. eapply Np. reflexivity.
  - assert (L : l_lock s = Some h) by (apply I; now rewrite E). now rewrite L, E.
  - assert (L : l_lock s = Some h) by (apply I; now rewrite E). now rewrite L, E, upd_same.
  - assert (L : l_lock s = Some h) by (apply I; now rewrite E). now rewrite L, E, upd_same.
  - assert (L : l_lock s = Some h) by (apply I; destruct E as [(r & E)|E]; now rewrite E). rewrite L. destruct (l_pc s h); try reflexivity. now rewrite Nat.eqb_refl.
  - assert (L : l_lock s = Some h) by (apply I; now rewrite E). now rewrite L, E, Nat.eqb_refl.
Qed.

Definition quiet (a : act) : Prop := match a with ALog lev => lev < lvl | ALock => False | APanic | AOther => True end.
Definition reach (s : lst) (P : lst -> Prop) : Prop := exists more, Forall is_go more /\ P (fst (run s more)).
Lemma reach_now s (P : lst -> Prop) : P s -> reach s P. Proof. intros H. exists []. split; [constructor|exact H]. Qed.
Lemma reach_step s g P : reach (fst (go lvl files hook s g)) P -> reach s P.
Proof. intros (m & F & H). exists (LGo g :: m). split; [constructor; [exact I|exact F]|]. cbn [l_run l_step]. destruct (go lvl files hook s g) as [s1 e1]. cbn [fst] in H. destruct (run s1 m). exact H. Qed.
Lemma reach_trans s (P Q : lst -> Prop) : reach s P -> (forall s', P s' -> reach s' Q) -> reach s Q.
Proof. intros (m & F & H) K. destruct (K _ H) as (m2 & F2 & H2). exists (m ++ m2). split; [apply Forall_app; auto|]. rewrite run_app. exact H2. Qed.
Definition done_by (s : lst) (g : nat) (s' : lst) : Prop := l_lock s' = None /\ l_pc s' g = Idle /\ forall h, h <> g -> l_pc s' h = l_pc s h.
Lemma hook_ends l : forall s g r, l_pc s g = Hook r l -> Forall quiet l -> reach s (done_by s g).
Proof.
  induction l as [|a l IH]; intros s g r E F; apply (reach_step s g); unfold go; rewrite E.
  - apply reach_now. repeat split; cbn; [apply upd_same|intros h N; now apply upd_other].
  - inversion F as [|? ? Q F']; subst. assert (K : reach (goto s g (Hook r l)) (done_by s g)).
    { destruct (IH (goto s g (Hook r l)) g r (upd_same _ _ _) F') as (m & Fm & A & B & C). exists m. repeat split; auto. intros h N. rewrite C by exact N. cbn. now apply upd_other. }
    destruct a as [lev| | |]; cbn in Q; [|destruct Q| |].
    + destruct (Nat.leb_spec lvl lev); [lia|exact K].
    + apply reach_now. repeat split; cbn; [apply upd_same|intros h N; now apply upd_other].
    + exact K.
Qed.
Variable K : keeps_off lvl hook.
Lemma held_ends s g r : l_pc s g = Held r -> reach s (done_by s g).
Proof.
  intros E. apply (reach_step s g). unfold go. rewrite E. cbn [fst]. destruct (hook_ends (hook r) (goto s g (Hook r (hook r))) g r (upd_same _ _ _) (K r)) as (m & Fm & A & B & C). exists m. repeat split; auto. intros h N. rewrite C by exact N. cbn. now apply upd_other.
Qed.
Lemma done_after s0 s g : (forall h, h <> g -> l_pc s h = l_pc s0 h) -> reach s (done_by s g) -> reach s (done_by s0 g).
Proof. intros H (m & F & A & B & C). exists m. repeat split; auto. intros h N. rewrite C by exact N. now apply H. Qed.
Lemma second_lock s g r : l_lock s = None -> l_pc s g = W2 r -> reach s (done_by s g).
Proof.
  intros L E. apply (reach_step s g). unfold go. rewrite E. unfold acquire. rewrite L. cbn [fst]. apply done_after; [intros h N; cbn; now apply upd_other|]. eapply held_ends. cbn. apply upd_same.
Qed.
Lemma one_ends s g : l_lock s = None -> holds (l_pc s g) = false -> reach s (done_by s g).
Proof.
  intros L H. destruct (l_pc s g) as [|r|r|r|r|r l| |] eqn:E; try discriminate.
  - apply reach_now. repeat split; auto.
  - apply (reach_step s g). unfold go. rewrite E. unfold acquire. rewrite L. cbn [fst]. destruct files eqn:Ef.
    + apply (reach_step _ g). unfold go. cbn [l_pc]. rewrite upd_same. cbn [fst]. apply done_after; [intros h N; unfold release; cbn; now rewrite !upd_other|]. eapply second_lock; [reflexivity|]. unfold release. cbn [l_pc]. apply upd_same.
    + apply done_after; [intros h N; cbn; now apply upd_other|]. eapply held_ends. cbn. apply upd_same.
  - eapply second_lock; eauto.
  - apply (reach_step s g). unfold go. rewrite E. unfold acquire. rewrite L. cbn [fst]. apply (reach_step _ g). unfold go. cbn [l_pc]. rewrite upd_same. cbn [fst]. apply reach_now. repeat split; unfold release; cbn [l_pc]; [apply upd_same|intros h N; now rewrite !upd_other].
Qed.
Lemma all_end gs : forall s, l_lock s = None -> (forall g, holds (l_pc s g) = false) -> (forall g, ~ In g gs -> l_pc s g = Idle) -> reach s (fun s' => forall g, l_pc s' g = Idle).
Proof.
  induction gs as [|g gs IH]; intros s L H N; [apply reach_now; intros g; apply N; intros []|].
  eapply reach_trans; [exact (one_ends s g L (H g))|]. intros s' (A & B & C). apply IH; [exact A|..].
  - intros h. destruct (Nat.eq_dec h g) as [->|Nh]; [now rewrite B|rewrite C by exact Nh; apply H].
  - intros h Nh. destruct (Nat.eq_dec h g) as [->|Ng]; [exact B|]. rewrite C by exact Ng. apply N. intros [X|X]; [congruence|contradiction].
Qed.
Lemma free s : inv s -> (forall g r l, l_pc s g = Hook r l -> Forall quiet l) -> forall h, l_lock s = Some h -> reach s (fun s' => l_lock s' = None /\ holds (l_pc s' h) = false /\ forall g, g <> h -> l_pc s' g = l_pc s g).
Proof.
  intros Iv Q h L. assert (H := proj2 (Iv h) L). assert (D : forall s1, done_by s h s1 -> l_lock s1 = None /\ holds (l_pc s1 h) = false /\ forall g, g <> h -> l_pc s1 g = l_pc s g) by (intros s1 (A & B & C); rewrite B; auto).
  destruct (l_pc s h) as [|r|r|r|r|r l| |] eqn:E; try discriminate.
  - apply (reach_step s h). unfold go. rewrite E. cbn [fst]. apply reach_now. unfold release. cbn [l_lock l_pc]. rewrite upd_same. repeat split. intros g N. now apply upd_other.
  - eapply reach_trans; [exact (held_ends s h r E)|]. intros s1 X. apply reach_now, D, X.
  - eapply reach_trans; [exact (hook_ends l s h r E (Q _ _ _ E))|]. intros s1 X. apply reach_now, D, X.
  - apply (reach_step s h). unfold go. rewrite E. cbn [fst]. apply reach_now. unfold release. cbn [l_lock l_pc]. rewrite upd_same. repeat split. intros g N. now apply upd_other.
Qed.
Lemma hooks_quiet ls : forall g r l, l_pc (fst (run l_new ls)) g = Hook r l -> Forall quiet l.
Proof.
  induction ls as [|l ls IH] using rev_ind; [discriminate|]. rewrite fst_snoc. set (s := fst (run l_new ls)) in *. intros g r k.
  destruct (step_moved s l) as [|h E|h p E H Id|h p H Id L Np Hp|h r0 E|h r0 E|h r0 a l0 E _|h E|h r0 l0 E]; cbn [fst]; try apply IH; unfold goto, release; cbn [l_pc]; destruct (Nat.eq_dec g h) as [->|N]; rewrite ?upd_same, ?upd_other by assumption; try apply IH; intros X.
  - subst p. discriminate.
  - exfalso. eapply Np. exact X.
  - discriminate.
  - injection X as <- <-. apply K.
  - injection X as <- <-. specialize (IH _ _ _ E). now inversion IH.
  - discriminate.
  - discriminate.
Qed.
Definition who (l : label) : nat := match l with LLog g _ _ | LSet g | LGo g => g end.
Lemma untouched ls g : ~ In g (map who ls) -> l_pc (fst (run l_new ls)) g = Idle.
Proof.
  induction ls as [|l ls IH] using rev_ind; [reflexivity|]. intros N. rewrite map_app, in_app_iff in N. rewrite fst_snoc. assert (E := IH (fun X => N (or_introl X))). assert (Ng : g <> who l) by (intros ->; apply N; right; now left). clear IH N. set (s := fst (run l_new ls)) in *.
  destruct l as [h lev r|h|h]; cbn [l_step who] in *.
  - destruct (l_pc s h); try exact E. destruct (lvl <=? lev); [|exact E]. cbn. now rewrite upd_other.
  - destruct (l_pc s h); try exact E. cbn. now rewrite upd_other.
  - unfold go, acquire, release, goto. destruct (l_pc s h) as [|r|r|r|r|r [|[lev| | |] l]| |]; try destruct (lvl <=? lev); try destruct (l_lock s); cbn [fst l_pc]; rewrite ?upd_other by exact Ng; exact E.
Qed.
End S.

(* A hook that keeps off the logger, and may panic: whatever is under way, all the calls can end, one after the other. *)
Theorem C113_ends_partial : forall lvl files hook ls, keeps_off lvl hook ->
  exists more, Forall is_go more /\ forall g, over g (told lvl files hook (ls ++ more)) = calls g (told lvl files hook (ls ++ more)).
Proof.
  intros lvl files hook ls K. assert (R : reach lvl files hook (fst (l_run lvl files hook l_new ls)) (fun s => forall g, l_pc s g = Idle)).
  { pose proof (inv_run lvl files hook ls) as I. pose proof (hooks_quiet lvl files hook K ls) as Q. pose proof (untouched lvl files hook ls) as U. set (s := fst (l_run lvl files hook l_new ls)) in *. destruct (l_lock s) as [h|] eqn:L.
    - eapply reach_trans; [exact (free lvl files hook K s I Q h L)|]. intros s' (A & B & C). apply (all_end lvl files hook K (h :: map who ls)); [exact A|..].
      + intros g. destruct (Nat.eq_dec g h) as [->|N]; [exact B|]. rewrite C by exact N. destruct (holds (l_pc s g)) eqn:H; [|reflexivity]. apply I in H. congruence.
      + intros g N. rewrite C by (intros ->; apply N; now left). apply U. intros X. apply N. now right.
    - apply (all_end lvl files hook K (map who ls)); [exact L| |exact U]. intros g. destruct (holds (l_pc s g)) eqn:H; [|reflexivity]. apply I in H. congruence. }
  destruct R as (more & F & R). exists more. split; [exact F|]. intros g. rewrite account, run_app. cbn [fst]. rewrite R. cbn. lia.
Qed.
Print Assumptions C113_ends_partial.
(* With any hook: from the writing of a record until the hook is done with it, nothing else is written and no other hook runs. *)
Theorem C113_one_at_a_time : forall lvl files hook ls, one_at_a_time None (told lvl files hook ls) <> None.
Proof. intros. rewrite hooking_run. discriminate. Qed.
Print Assumptions C113_one_at_a_time.
(* A call below the level ends at once, whoever holds the lock. *)
Theorem C113_below : forall lvl files hook ls g lev r, lev < lvl -> over g (told lvl files hook ls) = calls g (told lvl files hook ls) ->
  told lvl files hook (ls ++ [LLog g lev r]) = told lvl files hook ls ++ [ECall g; EEnd g].
Proof.
  intros lvl files hook ls g lev r L E. unfold told at 1. rewrite snd_snoc. fold (told lvl files hook ls). f_equal. pose proof (account lvl files hook ls g) as A. rewrite E in A. cbn [l_step]. destruct (l_pc (fst (l_run lvl files hook l_new ls)) g); cbn in A; try lia. destruct (Nat.leb_spec lvl lev); [lia|reflexivity].
Qed.
Print Assumptions C113_below.

(* A hook that uses the logger: its call never ends, and nothing is ever written again. *)
Theorem C113_hook_refuted : forall lvl files hook a b g r, uses lvl hook r -> In (EWritten g r) (told lvl files hook a) ->
  over g (told lvl files hook (a ++ b)) < calls g (told lvl files hook (a ++ b)) /\ exists rest, told lvl files hook (a ++ b) = told lvl files hook a ++ rest /\ forall h q, ~ In (EWritten h q) rest.
Proof.
  intros lvl files hook a b g r U W. destruct U as (act & l & Hk & Ua).
  assert (St : forall s lb, inv s -> l_lock s = Some g -> l_pc s g = Hook r (hook r) -> let x := l_step lvl files hook s lb in l_lock (fst x) = Some g /\ l_pc (fst x) g = Hook r (hook r) /\ forall h q, ~ In (EWritten h q) (snd x)).
  { intros s lb I L P. assert (O : forall h, h <> g -> holds (l_pc s h) = false) by (intros h N; destruct (holds (l_pc s h)) eqn:H; [apply I in H; congruence|reflexivity]).
    destruct (step_moved lvl files hook s lb) as [|h E|h p E H Id|h p H Id L0 Np Hp|h r0 E|h r0 E|h r0 a0 l0 E Ha|h E|h r0 l0 E]; cbn zeta; cbn [fst snd].
    - repeat split; auto.
    - repeat split; auto. intros ? ? [X|[X|[]]]; discriminate.
    - unfold goto. cbn [l_lock l_pc]. rewrite upd_other by congruence. repeat split; auto. intros ? ? [X|[]]; discriminate.
    - congruence.
    - exfalso. destruct (Nat.eq_dec h g) as [->|N]; [congruence|]. specialize (O h N). rewrite E in O. discriminate.
    - exfalso. destruct (Nat.eq_dec h g) as [->|N]; [congruence|]. specialize (O h N). rewrite E in O. discriminate.
    - exfalso. destruct (Nat.eq_dec h g) as [->|N]; [|specialize (O h N); rewrite E in O; discriminate]. rewrite P, Hk in E. injection E as <- <- <-. destruct act as [lev| | |]; try contradiction; [specialize (Ha Ua)|]; congruence.
    - exfalso. destruct (Nat.eq_dec h g) as [->|N]; [destruct E as [(q & E)|E]; rewrite P in E; [rewrite Hk in E|]; discriminate|]. specialize (O h N). destruct E as [(q & E)|E]; rewrite E in O; discriminate.
    - exfalso. destruct (Nat.eq_dec h g) as [->|N]; [|specialize (O h N); rewrite E in O; discriminate]. rewrite P, Hk in E. injection E as <- -> _. contradiction. }
  assert (A : l_lock (fst (l_run lvl files hook l_new a)) = Some g /\ l_pc (fst (l_run lvl files hook l_new a)) g = Hook r (hook r)).
  { revert W. unfold told. induction a as [|lb a IH] using rev_ind; [intros []|]. rewrite fst_snoc, snd_snoc. intros X. apply in_app_or in X. pose proof (inv_run lvl files hook a) as I. set (s := fst (l_run lvl files hook l_new a)) in *. destruct X as [X|X].
    - destruct (IH X) as (L & P). destruct (St s lb I L P) as (L' & P' & _). auto.
    - clear IH. destruct (step_moved lvl files hook s lb) as [|h E|h p E H Id|h p H Id L0 Np Hp|h r0 E|h r0 E|h r0 a0 l0 E Ha|h E|h r0 l0 E]; cbn [fst snd] in *; try (destruct X; fail); try (destruct X as [X|[]]; discriminate); [destruct X as [X|[X|[]]]; discriminate|].
      destruct X as [X|[]]. injection X as -> ->. unfold goto. cbn [l_lock l_pc]. rewrite upd_same. split; [|reflexivity]. apply I. now rewrite E. }
  assert (B : l_lock (fst (l_run lvl files hook (fst (l_run lvl files hook l_new a)) b)) = Some g /\ l_pc (fst (l_run lvl files hook (fst (l_run lvl files hook l_new a)) b)) g = Hook r (hook r) /\ forall h q, ~ In (EWritten h q) (snd (l_run lvl files hook (fst (l_run lvl files hook l_new a)) b))).
  { destruct A as (A1 & A2). induction b as [|lb b IH] using rev_ind; [repeat split; auto|]. rewrite fst_snoc, snd_snoc. pose proof (inv_run lvl files hook (a ++ b)) as I. rewrite run_app in I. cbn [fst] in I. destruct IH as (L & P & Nw). destruct (St _ lb I L P) as (L' & P' & N'). repeat split; auto. intros h q X. apply in_app_or in X. destruct X as [X|X]; [exact (Nw h q X)|exact (N' h q X)]. }
  destruct B as (_ & P & Nw). split.
  - rewrite account, run_app. cbn [fst]. rewrite P. cbn. lia.
  - eexists. split; [unfold told; rewrite run_app; reflexivity|exact Nw].
Qed.
Print Assumptions C113_hook_refuted.

(* Goroutines 1 and 2 log at level 3, file names asked for; the hook panics at record 7. *)
Example C113_ends_used : let hook := fun r => if Nat.eqb r 7 then [AOther; ALog 0; APanic; AOther] else [AOther] in
  told 1 true hook [LLog 1 3 7; LLog 2 3 8; LGo 1; LGo 2; LGo 1; LGo 2; LGo 2; LGo 1; LGo 2; LGo 2; LGo 1; LGo 2; LGo 2; LGo 1; LGo 1; LSet 3; LGo 3; LGo 1; LGo 1; LGo 1; LGo 3; LGo 3; LGo 2; LGo 2; LGo 2; LGo 2; LGo 2; LGo 2] =
  [ECall 1; ECall 2; EWritten 1 7; ECall 3; EPanicked 1 7; EEnd 3; EWritten 2 8; EEnd 2] /\ keeps_off 1 hook.
Proof. split; [reflexivity|]. intros r. cbn. destruct (Nat.eqb r 7); repeat constructor. Qed.
Example C113_hook_used : let hook := fun r => if Nat.eqb r 7 then [ALog 2] else [] in uses 1 hook 7 /\
  told 1 false hook [LLog 1 3 7; LGo 1; LGo 1; LGo 1; LLog 2 3 8; LGo 2; LGo 1; LGo 2; LLog 3 0 9; LSet 4; LGo 4] = [ECall 1; EWritten 1 7; ECall 2; ECall 3; EEnd 3; ECall 4].
Proof. split; [|reflexivity]. exists (ALog 2), []. split; [reflexivity|]. lia. Qed.

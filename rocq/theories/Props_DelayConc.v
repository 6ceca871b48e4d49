(* C99: the accept back-off shared by all listeners and websocket requests of a process. *)
From Coq Require Import ZArith List Bool Lia Arith.
From Verif Require Import AcceptDelay AcceptDelay_proofs DelayConc Spec_DelayConc.
Import ListNotations.
Local Open Scope Z_scope.

Lemma d_app : forall a s b, d_run s (a ++ b) =
  (fst (d_run (fst (d_run s a)) b), snd (d_run s a) ++ snd (d_run (fst (d_run s a)) b)).
Proof.
  induction a as [|l a IH]; intros s b; cbn [app d_run]; [cbn; now destruct (d_run s b)|].
  destruct (d_step s l) as [s1 e]. rewrite IH. destruct (d_run s1 a) as [s2 es]. cbn. now rewrite app_assoc.
Qed.
Lemma d_snoc a l : fst (d_run sh_new (a ++ [l])) = fst (d_step (fst (d_run sh_new a)) l) /\
  snd (d_run sh_new (a ++ [l])) = snd (d_run sh_new a) ++ snd (d_step (fst (d_run sh_new a)) l).
Proof. rewrite d_app. cbn. destruct (d_step (fst (d_run sh_new a)) l) as [s1 e]. cbn. now rewrite app_nil_r. Qed.
Lemma pc_at s g p h : sh_pc (at_pc s g p) h = if Nat.eqb h g then p else sh_pc s h.
Proof. reflexivity. Qed.
Lemma to_int64_id z : - 2 ^ 63 <= z < 2 ^ 63 -> to_int64 z = z.
Proof. intros H. unfold to_int64. rewrite Z.mod_small; lia. Qed.
Lemma to_int64_lt z : to_int64 z < 2 ^ 63.
Proof. unfold to_int64. pose proof (Z.mod_pos_bound (z + 2 ^ 63) (2 ^ 64) ltac:(lia)). lia. Qed.

(* ---- never two in Up ---- *)
Definition capping (p : dpc) : bool := match p with DUp4 | DUp5 => true | _ => false end.
Record dinv (s : shared) : Prop := {
  di_dur : 0 <= sh_dur s <= 2 * max_delay;
  di_low : (forall g, capping (sh_pc s g) = false) -> sh_dur s <= max_delay;
  di_t : forall g t, sh_pc s g = DUp3 t -> 0 <= t <= max_delay
}.
Definition alone (s : shared) : Prop := forall g h, in_up (sh_pc s g) -> in_up (sh_pc s h) -> g = h.
Lemma dinv_step s l : dinv s -> alone s -> dinv (fst (d_step s l)) /\ forall g t, In (Sleeps g t) (snd (d_step s l)) -> 0 <= t <= 2 * max_delay.
Proof.
  intros I A. destruct l as [g|g|g]; cbn [d_step].
  - destruct (sh_pc s g) eqn:E; cbn [fst snd]; (split; [|intros ? ? []]); try exact I. destruct I as [I1 I2 I3]. constructor; cbn [at_pc sh_dur].
    + exact I1.
    + intros H. apply I2. intros h. specialize (H h). rewrite pc_at in H. destruct (Nat.eqb_spec h g); [subst; now rewrite E|exact H].
    + intros h t. rewrite pc_at. destruct (Nat.eqb h g); [discriminate|apply I3].
  - destruct (sh_pc s g) eqn:E; cbn [fst snd]; (split; [|intros ? ? []]); try exact I. destruct I as [I1 I2 I3]. constructor; cbn [with_dur sh_dur]; unfold max_delay; try lia. exact I3.
  - destruct I as [I1 I2 I3].
    assert (L : in_up (sh_pc s g) -> capping (sh_pc s g) = false -> sh_dur s <= max_delay).
    { intros U C. apply I2. intros h. destruct (Nat.eq_dec h g) as [->|N]; [exact C|]. destruct (capping (sh_pc s h)) eqn:Q; [|reflexivity]. exfalso. apply N, A; [|exact U]. destruct (sh_pc s h); try discriminate Q; exact I. }
    assert (K : forall d p, (capping p = false -> capping (sh_pc s g) = false \/ d <= max_delay) -> 0 <= d <= 2 * max_delay -> (forall t, p = DUp3 t -> 0 <= t <= max_delay) -> d = sh_dur s \/ (d <= max_delay \/ capping p = true) -> dinv (at_pc (with_dur s d) g p)).
    { intros d p K1 K2 K3 K4. constructor; cbn [at_pc with_dur sh_dur].
      - exact K2.
      - intros H. pose proof (H g) as Hg. rewrite pc_at, Nat.eqb_refl in Hg. destruct K4 as [->|[K4|K4]]; [|exact K4|congruence]. destruct (K1 Hg) as [K5|K5]; [|exact K5].
        apply I2. intros h. specialize (H h). rewrite pc_at in H. destruct (Nat.eqb_spec h g); [now subst|exact H].
      - intros h t. rewrite pc_at. destruct (Nat.eqb h g); [apply K3|apply I3]. }
    assert (K' : forall p, (capping p = false -> capping (sh_pc s g) = false \/ sh_dur s <= max_delay) -> (forall t, p = DUp3 t -> 0 <= t <= max_delay) -> dinv (at_pc s g p)).
    { intros p K1 K3. specialize (K (sh_dur s) p K1 I1 K3 (or_introl eq_refl)). exact K. }
    destruct (sh_pc s g) as [| | | |t| | | |] eqn:E; cbn [fst snd].
    + split; [constructor; assumption|intros ? ? []].
    + split; [|intros ? ? []]. apply K'; [auto|]. intros t. now destruct (sh_dur s =? 0).
    + split; [|intros ? ? []]. apply K; unfold max_delay; auto; try lia; try discriminate.
    + split; [|intros ? ? []]. apply K'; [auto|]. intros t [= <-]. split; [lia|]. apply L; [exact Logic.I|reflexivity].
    + split; [|intros ? ? []]. specialize (I3 g t E). unfold max_delay in *. rewrite to_int64_id by lia. apply K; unfold max_delay; auto; try lia; try discriminate.
    + split; [|intros ? ? []]. rewrite Z.gtb_ltb. destruct (Z.ltb_spec max_delay (sh_dur s)); apply K'; try discriminate; auto.
    + split; [|intros ? ? []]. apply K; unfold max_delay; auto; try lia; try discriminate.
    + split; [|intros ? ? []]. apply K'; [auto|]. intros t. now destruct (sh_dur s >? 0).
    + split; [apply K'; [auto|discriminate]|]. intros h t [[= <- <-]|[]]. exact I1.
Qed.
(* If no two goroutines are in Up at the same time - while others may be about to sleep, sleeping,
   or resetting - nobody sleeps for more than two seconds.  Missing: the limit is one second. *)
Theorem C99_two_seconds_partial ls : never_two_up ls -> forall t, In t (sleeps (snd (d_run sh_new ls))) -> 0 <= t <= 2000000000.
Proof.
  intros N. assert (P : dinv (fst (d_run sh_new ls)) /\ forall g t, In (Sleeps g t) (snd (d_run sh_new ls)) -> 0 <= t <= 2 * max_delay).
  { induction ls as [|l ls IH] using rev_ind.
    - split; [|intros ? ? []]. constructor; cbn; unfold max_delay; try lia. discriminate.
    - destruct (d_snoc ls l) as (-> & ->). assert (N' : never_two_up ls) by (intros b a -> ; apply (N b (a ++ [l])); now rewrite app_assoc).
      destruct (IH N') as (I & J). destruct (dinv_step _ l I) as (I' & J'). { exact (N ls [l] eq_refl). }
      split; [exact I'|]. intros g t. rewrite in_app_iff. intros [H|H]; [eapply J|eapply J']; eassumption. }
  destruct P as (_ & P). intros t H. apply in_map_iff in H. destruct H as ([g t'] & <- & H). exact (P g t' H).
Qed.
Print Assumptions C99_two_seconds_partial.
(* One goroutine has failed nine times and sleeps a second each time; a second one fails: while it
   is in Up the first one reads the field between the doubling and the cap. *)
Definition climb (g : nat) (n : nat) : list dlabel := concat (repeat (AFail g :: repeat (AGo g) 7) n).
Definition two_seconds : list dlabel :=
  climb 0 9 ++ [AFail 0; AGo 0; AGo 0; AGo 0; AGo 0; AGo 0] ++ [AFail 1; AGo 1; AGo 1; AGo 1] ++ [AGo 0; AGo 0].
Lemma two_seconds_apart : never_two_up two_seconds.
Proof.
  assert (H : forall n, (n <= length two_seconds)%nat -> let s := fst (d_run sh_new (firstn n two_seconds)) in
    (forall g, in_up (sh_pc s g) -> (g < 2)%nat) /\ (in_up (sh_pc s 0%nat) -> in_up (sh_pc s 1%nat) -> False)).
  { intros n Hn. assert (B : forall ls s, (forall g, (2 <= g)%nat -> sh_pc s g = DIdle) -> Forall (fun l => match l with AFail g | AOk g | AGo g => (g < 2)%nat end) ls ->
      forall g, (2 <= g)%nat -> sh_pc (fst (d_run s ls)) g = DIdle).
    { clear. induction ls as [|l ls IH]; intros s H F g Hg; [now apply H|]. inversion F as [|? ? F1 F2]; subst. cbn [d_run].
      assert (S : forall g, (2 <= g)%nat -> sh_pc (fst (d_step s l)) g = DIdle).
      { intros h Hh. destruct l as [j|j|j]; cbn [d_step]; destruct (sh_pc s j) eqn:E; cbn [fst]; rewrite ?pc_at; try (destruct (Nat.eqb_spec h j); [lia|]); now apply H. }
      specialize (IH _ S F2 g Hg). destruct (d_step s l) as [s1 e]. cbn [fst] in *. destruct (d_run s1 ls). exact IH. }
    assert (F : Forall (fun l => match l with AFail g | AOk g | AGo g => (g < 2)%nat end) two_seconds) by (apply Forall_forall; intros l Hl; vm_compute in Hl; repeat (destruct Hl as [<-|Hl]; [lia|]); destruct Hl).
    cbv zeta. split.
    - intros g U. destruct (Nat.lt_ge_cases g 2) as [|Hg]; [assumption|]. rewrite B in U; [destruct U|reflexivity| |exact Hg].
      rewrite <- (firstn_skipn n two_seconds) in F. now apply Forall_app in F.
    - assert (T : forallb (fun n => let s := fst (d_run sh_new (firstn n two_seconds)) in
        negb (match sh_pc s 0%nat with DIdle | DDo0 | DDo1 => false | _ => true end && match sh_pc s 1%nat with DIdle | DDo0 | DDo1 => false | _ => true end)) (seq 0 (S (length two_seconds))) = true) by (vm_compute; reflexivity).
      rewrite forallb_forall in T. specialize (T n). cbv zeta in T. rewrite in_seq in T. specialize (T ltac:(lia)).
      destruct (sh_pc _ 0%nat); try (intros []; fail); destruct (sh_pc _ 1%nat); try (intros _ []; fail); discriminate T. }
  intros b a E g h U V. assert (Eb : b = firstn (length b) two_seconds) by (rewrite E, firstn_app, Nat.sub_diag, firstn_all; cbn; now rewrite app_nil_r).
  assert (Lb : (length b <= length two_seconds)%nat) by (rewrite E, app_length; lia).
  destruct (H (length b) Lb) as (H1 & H2). cbv zeta in *. rewrite <- Eb in *.
  pose proof (H1 g U). pose proof (H1 h V). assert (g = 0 \/ g = 1)%nat as [-> | ->] by lia; assert (h = 0 \/ h = 1)%nat as [-> | ->] by lia; auto; exfalso; apply H2; assumption.
Qed.
Lemma one_of z l : existsb (Z.eqb z) l = true -> In z l.
Proof. intros H. apply existsb_exists in H. destruct H as (x & H & E). apply Z.eqb_eq in E. now subst x. Qed.
(* The cap of one second does not hold, even then. *)
Theorem C99_cap_refuted : exists ls, never_two_up ls /\ In 2000000000 (sleeps (snd (d_run sh_new ls))).
Proof. exists two_seconds. split; [exact two_seconds_apart|]. assert (H : existsb (Z.eqb 2000000000) (sleeps (snd (d_run sh_new two_seconds))) = true) by (vm_compute; reflexivity). exact (one_of _ _ H). Qed.
Print Assumptions C99_cap_refuted.

(* Two goroutines whose Ups overlap again and again make the delay grow without regard to the cap:
   each reads the field before the other one has put the cap back. *)
Definition leap (g h : nat) : list dlabel := (* h has just written; g reads it, h caps and comes back *)
  [AGo g; AGo h; AGo h; AGo h; AGo h; AGo g; AFail h; AGo h].
Fixpoint leaps (g h : nat) (n : nat) : list dlabel := match n with O => [] | S n => leap g h ++ leaps h g n end.
Definition runaway : list dlabel :=
  climb 0 9 ++ [AFail 0; AGo 0; AGo 0; AGo 0; AFail 1; AGo 1] ++ leaps 1 0 31 ++ [AGo 0; AGo 1; AGo 1; AGo 1; AGo 0; AGo 1].
(* Two goroutines are enough for a sleep of 272 years. *)
Theorem C99_runaway_refuted : exists ls, (forall l, In l ls -> match l with AFail g | AOk g | AGo g => (g < 2)%nat end) /\
  In (1000000000 * 2 ^ 33) (sleeps (snd (d_run sh_new ls))).
Proof.
  exists runaway. split.
  - assert (H : forallb (fun l => match l with AFail g | AOk g | AGo g => (g <? 2)%nat end) runaway = true) by (vm_compute; reflexivity).
    rewrite forallb_forall in H. intros l Hl. specialize (H l Hl). destruct l; now apply Nat.ltb_lt.
  - assert (H : existsb (Z.eqb (1000000000 * 2 ^ 33)) (sleeps (snd (d_run sh_new runaway))) = true) by (vm_compute; reflexivity).
    exact (one_of _ _ H).
Qed.
Print Assumptions C99_runaway_refuted.
(* A success while another goroutine is in Up is forgotten: the next failure sleeps a second, not 5 ms. *)
Theorem C99_reset_refuted : exists ls g h, g <> h /\
  sleeps (snd (d_run sh_new (ls ++ [AOk h] ++ repeat (AGo g) 5 ++ whole_call (h, DFail)))) = sleeps (snd (d_run sh_new ls)) ++ [1000000000; 1000000000].
Proof. exists (climb 0 9 ++ [AFail 0; AGo 0; AGo 0])%nat, 0%nat, 1%nat. split; [discriminate|vm_compute; reflexivity]. Qed.
Print Assumptions C99_reset_refuted.

(* ---- any schedule ---- *)
(* The field never exceeds one second doubled once for every call of Delay so far. *)
Definition doubled (n : nat) : Z := 1000000000 * 2 ^ Z.of_nat n.
Lemma doubled_S n : doubled (S n) = 2 * doubled n.
Proof. unfold doubled. rewrite Nat2Z.inj_succ, Z.pow_succ_r by lia. lia. Qed.
Lemma doubled_pos n : 1000000000 <= doubled n.
Proof. unfold doubled. pose proof (Z.pow_pos_nonneg 2 (Z.of_nat n) ltac:(lia) ltac:(lia)). nia. Qed.
Lemma doubled_mono n m : (n <= m)%nat -> doubled n <= doubled m.
Proof. intros H. unfold doubled. pose proof (Z.pow_le_mono_r 2 (Z.of_nat n) (Z.of_nat m) ltac:(lia) ltac:(lia)). lia. Qed.
Lemma fails_app a b : fails (a ++ b) = (fails a + fails b)%nat.
Proof. unfold fails. now rewrite filter_app, app_length. Qed.
Definition before_write (p : dpc) : bool := match p with DUp0 | DUp1 | DUp2 | DUp3 _ => true | _ => false end.
(* k: how often the field has been doubled. *)
Record kinv (s : shared) (k n : nat) : Prop := {
  ki_n : forall gs, NoDup gs -> (forall g, In g gs -> before_write (sh_pc s g) = true) -> (k + length gs <= n)%nat;
  ki_dur : sh_dur s < 2 ^ 63 /\ ((k <= 33)%nat -> 0 <= sh_dur s <= doubled k);
  ki_t : forall g t, sh_pc s g = DUp3 t -> t < 2 ^ 63 /\ ((k <= 33)%nat -> 0 <= t <= doubled k)
}.
Lemma kinv_pc s k n g p : kinv s k n -> (before_write p = true -> before_write (sh_pc s g) = true) -> (forall t, p = DUp3 t -> t = sh_dur s) -> kinv (at_pc s g p) k n.
Proof.
  intros [I1 I2 I3] H1 H2. constructor; cbn [at_pc sh_dur]; [|exact I2|].
  - intros gs N F. apply I1; [exact N|]. intros h Hh. specialize (F h Hh). rewrite pc_at in F. destruct (Nat.eqb_spec h g); [subst; auto|exact F].
  - intros h t. rewrite pc_at. destruct (Nat.eqb h g); [|apply I3]. intros E. rewrite (H2 t E). exact I2.
Qed.
Lemma kinv_dur s k n d : kinv s k n -> 0 <= d <= 1000000000 -> kinv (with_dur s d) k n.
Proof. intros [I1 I2 I3] H. constructor; cbn [with_dur sh_dur sh_pc]; [exact I1| |exact I3]. pose proof (doubled_pos k). split; [lia|intros; lia]. Qed.
Lemma kinv_step s k n l : kinv s k n -> exists k', kinv (fst (d_step s l)) k' (n + fails [l]) /\ (k <= k')%nat.
Proof.
  intros I. destruct l as [g|g|g]; cbn [d_step].
  - exists k. split; [|lia]. assert (W : kinv s k (n + fails [AFail g])).
    { destruct I as [I1 I2 I3]. constructor; [|exact I2|exact I3]. intros gs N F. specialize (I1 gs N F). lia. }
    destruct (sh_pc s g) eqn:E; try exact W. cbn [fst]. destruct I as [I1 I2 I3]. constructor; cbn [at_pc sh_dur]; [|exact I2|].
    + intros gs N F. change (fails [AFail g]) with 1%nat. destruct (in_dec Nat.eq_dec g gs) as [Hg|Hg].
      * destruct (in_split _ _ Hg) as (a & b & ->). assert (N' := NoDup_remove_1 _ _ _ N). assert (N2 := NoDup_remove_2 _ _ _ N).
        assert (Q : (k + length (a ++ b) <= n)%nat).
        { apply I1; [exact N'|]. intros h Hh. assert (Hh' : In h (a ++ g :: b)) by (rewrite in_app_iff in *; cbn; tauto). specialize (F h Hh'). rewrite pc_at in F. destruct (Nat.eqb_spec h g); [subst; contradiction|exact F]. }
        rewrite app_length in *. cbn. lia.
      * assert (Q : (k + length gs <= n)%nat); [|lia]. apply I1; [exact N|]. intros h Hh. specialize (F h Hh). rewrite pc_at in F. destruct (Nat.eqb_spec h g); [subst; contradiction|exact F].
    + intros h t. rewrite pc_at. destruct (Nat.eqb h g); [discriminate|apply I3].
  - exists k. split; [|lia]. change (fails [AOk g]) with 0%nat. rewrite Nat.add_0_r. destruct (sh_pc s g); cbn [fst]; try exact I. apply kinv_dur; [exact I|lia].
  - change (fails [AGo g]) with 0%nat. rewrite Nat.add_0_r. destruct (sh_pc s g) as [| | | |t| | | |] eqn:E; cbn [fst].
    + exists k. split; [exact I|lia].
    + exists k. split; [|lia]. apply kinv_pc; [exact I|now rewrite E|]. intros t. now destruct (sh_dur s =? 0).
    + exists k. split; [|lia]. apply kinv_pc; [apply kinv_dur; [exact I|lia]|discriminate|discriminate].
    + exists k. split; [|lia]. apply kinv_pc; [exact I|now rewrite E|]. now intros t [= <-].
    + exists (S k). split; [|lia]. destruct I as [I1 I2 I3]. destruct (I3 g t E) as (T1 & T2). constructor; cbn [at_pc with_dur sh_dur].
      * intros gs N F. assert (Hg : ~ In g gs). { intros Hg. specialize (F g Hg). rewrite pc_at, Nat.eqb_refl in F. discriminate F. }
        assert (Q : (k + length (g :: gs) <= n)%nat); [|cbn in Q; lia]. apply I1; [now constructor|]. intros h [<-|Hh]; [now rewrite E|].
        specialize (F h Hh). rewrite pc_at in F. destruct (Nat.eqb_spec h g); [subst; contradiction|exact F].
      * split; [apply to_int64_lt|]. intros Hk. specialize (T2 ltac:(lia)). rewrite doubled_S.
        assert (B : doubled (S k) <= doubled 33) by (apply doubled_mono; lia). rewrite doubled_S in B. change (doubled 33) with 8589934592000000000 in B. rewrite to_int64_id by lia. lia.
      * intros h u. rewrite pc_at. destruct (Nat.eqb h g); [discriminate|]. intros Eh. destruct (I3 h u Eh) as (U1 & U2). split; [exact U1|]. intros Hk. specialize (U2 ltac:(lia)). pose proof (doubled_mono k (S k) ltac:(lia)). lia.
    + exists k. split; [|lia]. apply kinv_pc; [exact I|now destruct (sh_dur s >? max_delay)|]. intros t. now destruct (sh_dur s >? max_delay).
    + exists k. split; [|lia]. apply kinv_pc; [apply kinv_dur; [exact I|unfold max_delay; lia]|discriminate|discriminate].
    + exists k. split; [|lia]. apply kinv_pc; [exact I|now destruct (sh_dur s >? 0)|]. intros t. now destruct (sh_dur s >? 0).
    + exists k. split; [|lia]. apply kinv_pc; [exact I|discriminate|discriminate].
Qed.
(* However many goroutines fail at the same time, a sleep is at most one second doubled once for
   every failure there has been in the process. *)
Theorem C99_growth_partial ls t : In t (sleeps (snd (d_run sh_new ls))) -> t <= 1000000000 * 2 ^ Z.of_nat (fails ls).
Proof.
  intros H. assert (P : (exists k, kinv (fst (d_run sh_new ls)) k (fails ls)) /\ forall g t, In (Sleeps g t) (snd (d_run sh_new ls)) -> t <= doubled (fails ls)).
  { clear t H. induction ls as [|l ls IH] using rev_ind.
    - split; [|intros ? ? []]. exists 0%nat. constructor; cbn.
      + intros [|g gs] _ F; [cbn; lia|]. specialize (F g (or_introl eq_refl)). discriminate F.
      + split; [lia|]. intros _. split; [lia|]. discriminate.
      + discriminate.
    - destruct (d_snoc ls l) as (-> & ->). destruct IH as ((k & I) & J). rewrite fails_app. destruct (kinv_step _ k _ l I) as (k' & I' & _). split; [now exists k'|].
      intros g t. rewrite in_app_iff. intros [H|H]; [pose proof (J g t H); pose proof (doubled_mono (fails ls) (fails ls + fails [l]) ltac:(lia)); lia|].
      assert (Et : t = sh_dur (fst (d_run sh_new ls)) /\ fails [l] = 0%nat).
      { destruct l as [j|j|j]; cbn [d_step] in H; destruct (sh_pc _ j) eqn:E; cbn [snd] in H; try (destruct H; fail). destruct H as [[= _ <-]|[]]. auto. }
      destruct Et as (-> & ->). rewrite Nat.add_0_r. destruct I as [I1 (I2 & I3) _]. specialize (I1 [] ltac:(constructor) ltac:(intros ? [])). cbn in I1.
      pose proof (doubled_mono k (fails ls) ltac:(lia)). destruct (Nat.le_gt_cases k 33) as [Hk|Hk]; [specialize (I3 Hk); lia|].
      pose proof (doubled_mono 34 (fails ls) ltac:(lia)) as D. change (doubled 34) with 17179869184000000000 in D. lia. }
  apply in_map_iff in H. destruct H as ([g t'] & <- & H). exact (proj2 P g t' H).
Qed.
Print Assumptions C99_growth_partial.
Example C99_growth_case : fails two_seconds = 11%nat /\ sleeps (snd (d_run sh_new two_seconds)) = map (Z.mul 1000000) [5; 10; 20; 40; 80; 160; 320; 640; 1000; 2000].
Proof. vm_compute. auto. Qed.

(* Nobody waits for anybody else in Delay: seven of its own steps bring a goroutine to the end. *)
Definition d_rank (p : dpc) : nat :=
  match p with DIdle => 0 | DDo1 => 1 | DDo0 => 2 | DUp5 | DUp1 => 3 | DUp4 => 4 | DUp3 _ => 5 | DUp2 => 6 | DUp0 => 7 end.
Definition own (g : nat) (ls : list dlabel) : nat := length (filter (fun l => match l with AGo h => Nat.eqb h g | _ => false end) ls).
Theorem C99_no_wait before g ls : let s := fst (d_run sh_new before) in (7 <= own g ls)%nat -> ~ In (AFail g) ls -> sh_pc (fst (d_run s ls)) g = DIdle.
Proof.
  intros s. clearbody s. assert (G : forall ls s, ~ In (AFail g) ls -> (d_rank (sh_pc s g) <= own g ls)%nat -> sh_pc (fst (d_run s ls)) g = DIdle).
  { clear. induction ls as [|l ls IH]; intros s N H; [cbn in *; destruct (sh_pc s g); cbn in H; (reflexivity || lia)|]. cbn [d_run].
    assert (S : (d_rank (sh_pc (fst (d_step s l)) g) <= own g ls)%nat).
    { destruct l as [j|j|j].
      - assert (Hj : j <> g) by (intros ->; apply N; now left). cbn [d_step]. unfold own in *. cbn [filter] in H. destruct (sh_pc s j); cbn [fst]; rewrite ?pc_at; try (destruct (Nat.eqb_spec g j); [congruence|]); exact H.
      - unfold own in *. cbn [filter] in H. cbn [d_step]. destruct (sh_pc s j); exact H.
      - unfold own in *. cbn [filter] in H. destruct (Nat.eqb_spec j g) as [->|Hj]; cbn [d_step].
        + cbn [length] in H. destruct (sh_pc s g) eqn:E; cbn [fst]; rewrite ?pc_at, ?Nat.eqb_refl; rewrite ?E in *; cbn [d_rank] in *; repeat match goal with |- context [if ?b then _ else _] => destruct b end; cbn [d_rank] in *; lia.
        + destruct (sh_pc s j); cbn [fst]; rewrite ?pc_at; try (destruct (Nat.eqb_spec g j); [congruence|]); exact H. }
    specialize (IH (fst (d_step s l)) ltac:(intros Q; apply N; now right) S). destruct (d_step s l) as [s1 e]. cbn [fst] in *. now destruct (d_run s1 ls). }
  intros H N. apply G; [exact N|]. assert (d_rank (sh_pc s g) <= 7)%nat by (destruct (sh_pc s g); cbn; lia). lia.
Qed.
Print Assumptions C99_no_wait.
Example C99_no_wait_case : (7 <= own 0 (firstn 12 (leaps 0 1 3) ++ repeat (AGo 0) 4 ++ repeat (AGo 1) 3))%nat.
Proof. vm_compute. lia. Qed.

(* ---- calls that do not run at the same time ---- *)
Definition is_fail (o : dop) : bool := match o with DFail => true | DOk => false end.
Lemma whole_fail s g k : (forall h, sh_pc s h = DIdle) -> sh_dur s = after k ->
  let r := d_run s (whole_call (g, DFail)) in (forall h, sh_pc (fst r) h = DIdle) /\ sh_dur (fst r) = after (S k) /\ snd r = [Sleeps g (after (S k))].
Proof.
  intros Hi Hd. pose proof (up_after k) as U. unfold delay_up in U.
  assert (Ha : 0 <= after k <= 1000000000) by (destruct k; cbn [after]; [lia|]; pose proof (Z.pow_pos_nonneg 2 (Z.of_nat k) ltac:(lia) ltac:(lia)); lia).
  assert (Hp : 0 < after (S k)) by (cbn [after]; pose proof (Z.pow_pos_nonneg 2 (Z.of_nat k) ltac:(lia) ltac:(lia)); lia).
  remember (after (S k)) as a' eqn:Ea. clear Ea.
  destruct s as [d pc]. cbn [sh_dur sh_pc] in *. subst d. cbv zeta. cbn [whole_call repeat d_run d_step sh_pc]. rewrite Hi. cbn [fst snd].
  cbn [at_pc sh_dur sh_pc]. rewrite Nat.eqb_refl. destruct (after k =? 0) eqn:E0.
  - do 9 (cbn [at_pc with_dur sh_dur sh_pc fst snd app]; rewrite ?Nat.eqb_refl). change (5000000 >? 0) with true. do 9 (cbn [at_pc with_dur sh_dur sh_pc fst snd app]; rewrite ?Nat.eqb_refl). rewrite <- U. split; [|auto]. intros h. cbn [sh_pc]. destruct (Nat.eqb h g); [reflexivity|apply Hi].
  - cbv zeta in U. do 9 (cbn [at_pc with_dur sh_dur sh_pc fst snd app]; rewrite ?Nat.eqb_refl). rewrite to_int64_id by lia. destruct (2 * after k >? max_delay) eqn:E1.
    + do 9 (cbn [at_pc with_dur sh_dur sh_pc fst snd app]; rewrite ?Nat.eqb_refl). change (max_delay >? 0) with true. do 9 (cbn [at_pc with_dur sh_dur sh_pc fst snd app]; rewrite ?Nat.eqb_refl). rewrite <- U. split; [|auto]. intros h. cbn [sh_pc]. destruct (Nat.eqb h g); [reflexivity|apply Hi].
    + do 9 (cbn [at_pc with_dur sh_dur sh_pc fst snd app]; rewrite ?Nat.eqb_refl). rewrite U. assert (E2 : (a' >? 0) = true) by (rewrite Z.gtb_ltb; now apply Z.ltb_lt). rewrite E2.
      do 9 (cbn [at_pc with_dur sh_dur sh_pc fst snd app]; rewrite ?Nat.eqb_refl). split; [|auto]. intros h. cbn [sh_pc]. destruct (Nat.eqb h g); [reflexivity|apply Hi].
Qed.
(* Calls of any number of goroutines, one after the other: every failure sleeps exactly what the
   history of failures and successes of the whole process asks for (C40). *)
Theorem C99_apart calls : sleeps (snd (d_run sh_new (concat (map whole_call calls)))) =
  map snd (filter (fun p => is_fail (fst p)) (combine (map snd calls) (delays 0 (map snd calls)))).
Proof.
  assert (G : forall calls s k, (forall h, sh_pc s h = DIdle) -> sh_dur s = after k ->
    sleeps (snd (d_run s (concat (map whole_call calls)))) = map snd (filter (fun p => is_fail (fst p)) (combine (map snd calls) (delays (after k) (map snd calls))))).
  { clear calls. induction calls as [|[g []] calls IH]; intros s k Hi Hd; [reflexivity| |]; cbn [map concat snd delays combine filter is_fail fst]; rewrite d_app; cbn [snd]; unfold sleeps in *; rewrite map_app.
    - destruct (whole_fail s g k Hi Hd) as (A & B & C). rewrite C. rewrite up_after. cbn [map snd app]. f_equal. exact (IH _ (S k) A B).
    - assert (R : d_run s (whole_call (g, DOk)) = (with_dur s 0, [])) by (cbn; now rewrite Hi). rewrite R. cbn [fst snd map app]. exact (IH (with_dur s 0) 0%nat Hi eq_refl). }
  exact (G calls sh_new 0%nat (fun _ => eq_refl) eq_refl).
Qed.
Print Assumptions C99_apart.
Example C99_apart_case : sleeps (snd (d_run sh_new (concat (map whole_call [(0, DFail); (1, DFail); (0, DFail); (2, DOk); (1, DFail)]%nat)))) = [5000000; 10000000; 20000000; 5000000].
Proof. vm_compute. reflexivity. Qed.

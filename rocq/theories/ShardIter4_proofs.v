(* IterCb with a callback that keeps to other shards can always finish. *)
From Coq Require Import ZArith List Bool Arith Lia Permutation.
From Verif Require Import Bytes GoSlice ShardMap Spec_Map ShardMap_proofs ShardIter Spec_ShardIter ShardIter_proofs ShardIter2_proofs ShardIter3_proofs.
Import ListNotations.

Section P.
Context {V : Type}.
Variable h : key -> Z.
Variable cb : key -> V -> list (mop V).
Hypothesis El : elsewhere h cb.

Record ainv (s : cbs V) : Prop := {
  ai_m : minv (cb_map s);
  ai_h : sm_hash (cb_map s) = h;
  ai_n : cb_seen s = None -> cb_calls s = [];
  ai_o : forall o, In o (cb_calls s) -> exists k, touches o k /\ shard_of h k <> cb_i s
}.
Lemma ainv_after s o w calls : ainv s -> (forall x, In x calls -> In x (cb_calls s)) -> (cb_calls s = [] -> calls = []) -> ainv (Cbs (after (cb_map s) o) (cb_i s) (cb_seen s) calls (cb_got s) w).
Proof.
  intros [A B C D] Hc Hn. split; cbn; auto; [now apply after_inv|now rewrite after_hash].
Qed.
Lemma ainv_step s l : ainv s -> ainv (cb_step cb s l).
Proof.
  intros I. pose proof I as [A B C D]. destruct l as [o|n| |n| |]; cbn [cb_step].
  - destruct (may _ _ o); [now apply ainv_after|split; auto].
  - destruct (nth_error (cb_wait s) n) as [o|]; [|exact I]. destruct (may _ _ o); [now apply ainv_after|exact I].
  - destruct (cb_seen s) eqn:E; [exact I|]. destruct (_ && _); [|exact I]. split; cbn; auto; try easy.
  - destruct (cb_seen s) as [seen|] eqn:E; [|exact I]. destruct (cb_calls s) eqn:Ec; [|exact I]. destruct (nth_error (rest _ _) n) as [e|] eqn:En; [|exact I].
    split; cbn; auto; [discriminate|]. intros o Ho. destruct (El _ _ _ Ho) as (k & T & N). exists k. split; [exact T|].
    assert (He : shard_of h (fst e) = cb_i s). { rewrite <- B. apply shard_home; [exact A|]. eapply rest_in. eapply nth_error_In; eauto. }
    now rewrite <- He.
  - destruct (cb_calls s) as [|o os] eqn:Ec; [exact I|]. destruct (cb_may s o); [|exact I]. apply ainv_after; [exact I|rewrite Ec; now right|rewrite Ec; discriminate].
  - destruct (cb_seen s) as [seen|] eqn:E; [|exact I]. destruct (cb_calls s) eqn:Ec; [|exact I]. destruct (rest _ _); [|exact I]. split; cbn; auto; easy.
Qed.
Lemma ainv_run ls : forall s, ainv s -> ainv (cb_run cb s ls).
Proof. induction ls as [|l ls IH]; intros s I; [exact I|]. cbn [cb_run fold_left]. apply IH. now apply ainv_step. Qed.

(* Waiting calls that do not wait for the iteration go through. *)
Definition stay (s s' : cbs V) : Prop :=
  cb_i s' = cb_i s /\ cb_seen s' = cb_seen s /\ (cb_seen s <> None -> shard (cb_map s') (cb_i s) = shard (cb_map s) (cb_i s)).
Lemma may_other (s : cbs V) o : (forall k, writes o = Some k -> cb_seen s = None \/ shard_of (sm_hash (cb_map s)) k <> cb_i s) -> may (cb_map s) (cb_held s) o = true.
Proof.
  intros H. unfold may. destruct (writes o) as [k|]; [|reflexivity]. unfold cb_held. destruct (H k eq_refl) as [->|N]; [reflexivity|]. destruct (cb_seen s); [|reflexivity].
  apply Nat.eqb_neq in N. now rewrite N.
Qed.
Lemma after_stay (s : cbs V) o calls w : may (cb_map s) (cb_held s) o = true -> stay s (Cbs (after (cb_map s) o) (cb_i s) (cb_seen s) calls (cb_got s) w).
Proof.
  intros M. split; [reflexivity|]. split; [reflexivity|]. cbn. intros S. apply (after_shard _ _ _ _ M). unfold cb_held. destruct (cb_seen s); [apply Nat.eqb_refl|congruence].
Qed.
Lemma stay_trans a b c : stay a b -> stay b c -> stay a c.
Proof. intros (A1 & A2 & A3) (B1 & B2 & B3). split; [congruence|]. split; [congruence|]. intros S. rewrite <- (A3 S). rewrite A1 in B3. apply B3. congruence. Qed.
Lemma existsb_nth {A} (f : A -> bool) l : existsb f l = true -> exists n x, nth_error l n = Some x /\ f x = true.
Proof. rewrite existsb_exists. intros (x & I & F). apply In_nth_error in I as (n & E). eauto. Qed.
Lemma remove_length {A} : forall (l : list A) n x, nth_error l n = Some x -> length (remove_nth n l) < length l.
Proof. induction l as [|a l IH]; intros [|n] x H; cbn in *; try discriminate; [lia|]. specialize (IH n x H). lia. Qed.
Lemma wake_other n : forall s, ainv s -> length (cb_wait s) <= n -> exists ls, Forall nobody_else ls /\ let s' := cb_run cb s ls in
  stay s s' /\ cb_calls s' = cb_calls s /\ (forall o, In o (cb_wait s') -> may (cb_map s') (cb_held s') o = false).
Proof.
  induction n as [|n IH]; intros s I L; destruct (existsb (may (cb_map s) (cb_held s)) (cb_wait s)) eqn:E.
  2,4: exists []; split; [constructor|]; cbn; split; [split; auto|]; split; [reflexivity|]; intros o Ho; destruct (may (cb_map s) (cb_held s) o) eqn:M; [|reflexivity];
       assert (existsb (may (cb_map s) (cb_held s)) (cb_wait s) = true) by (apply existsb_exists; eauto); congruence.
  - destruct (cb_wait s); [discriminate|cbn in L; lia].
  - destruct (existsb_nth _ _ E) as (k & o & N & M). set (s1 := Cbs (after (cb_map s) o) (cb_i s) (cb_seen s) (cb_calls s) (cb_got s) (remove_nth k (cb_wait s))).
    assert (E1 : cb_step cb s (QWake k) = s1) by (cbn [cb_step]; now rewrite N, M).
    destruct (IH s1) as (ls & O & R).
    + rewrite <- E1. now apply ainv_step.
    + cbn. apply remove_length in N. lia.
    + exists (QWake k :: ls). split; [constructor; [exact Logic.I|exact O]|]. cbn [cb_run fold_left]. rewrite E1. destruct R as (R1 & R2 & R3). split; [|auto]. eapply stay_trans; [|exact R1]. now apply after_stay.
Qed.

(* The calls of the callback go through. *)
Lemma drain n : forall s, ainv s -> length (cb_calls s) <= n -> exists ls, Forall nobody_else ls /\ let s' := cb_run cb s ls in stay s s' /\ cb_calls s' = [].
Proof.
  induction n as [|n IH]; intros s I L; destruct (cb_calls s) as [|o os] eqn:Ec; try (cbn in L; lia).
  1,2: exists []; split; [constructor|]; cbn; split; [split; auto|exact Ec].
  destruct (wake_other _ s I (Nat.le_refl _)) as (l1 & O1 & St & C1 & W1). set (s1 := cb_run cb s l1) in *. pose proof (ainv_run l1 s I) as I1. fold s1 in I1. rewrite Ec in C1.
  destruct (ai_o _ I1 o ltac:(rewrite C1; now left)) as (k & T & N). pose proof (ai_h _ I1) as Hh.
  assert (M : may (cb_map s1) (cb_held s1) o = true).
  { apply may_other. intros k' W. right. rewrite Hh. destruct T as [T|T]; [replace k' with k by congruence; exact N|]. destruct o; cbn in *; discriminate. }
  assert (Q : cb_may s1 o = true).
  { unfold cb_may. rewrite M. cbn. destruct (reads o) as [k'|] eqn:R; [|reflexivity]. assert (k' = k) as -> by (destruct T as [T|T]; [destruct o; cbn in *; discriminate|congruence]).
    destruct (waited s1 (shard_of (sm_hash (cb_map s1)) k)) eqn:Wt; [|reflexivity]. exfalso. unfold waited in Wt. apply existsb_exists in Wt as (x & Ix & Hx). specialize (W1 x Ix). unfold may in W1.
    destruct (writes x) as [kx|]; [|discriminate]. apply Nat.eqb_eq in Hx. rewrite Hx in W1. unfold cb_held in W1. rewrite Hh in W1. destruct (cb_seen s1); [|discriminate]. apply Nat.eqb_neq in N. rewrite N in W1. discriminate. }
  set (s2 := Cbs (after (cb_map s1) o) (cb_i s1) (cb_seen s1) os (cb_got s1) (cb_wait s1)).
  assert (E2 : cb_step cb s1 QIn = s2) by (cbn [cb_step]; rewrite C1, Q; reflexivity).
  destruct (IH s2) as (l3 & O3 & St3 & C3); [rewrite <- E2; now apply ainv_step|cbn in *; lia|].
  exists (l1 ++ QIn :: l3). split; [apply Forall_app; split; [exact O1|constructor; [exact Logic.I|exact O3]]|]. rewrite cb_run_app. fold s1. cbn [cb_run fold_left]. rewrite E2. split; [|exact C3].
  eapply stay_trans; [exact St|]. eapply stay_trans; [|exact St3]. now apply after_stay.
Qed.

Lemma cb_run_app' s a b : cb_run cb s (a ++ b) = cb_run cb (cb_run cb s a) b.
Proof. apply fold_left_app. Qed.
Lemma visit n : forall s seen, ainv s -> cb_seen s = Some seen -> length (rest (shard (cb_map s) (cb_i s)) seen) <= n ->
  exists ls, Forall nobody_else ls /\ let s' := cb_run cb s ls in cb_calls s' = [] /\ cb_seen s' = None /\ cb_i s' = S (cb_i s).
Proof.
  induction n as [|n IH]; intros s seen I E H; destruct (drain _ s I (Nat.le_refl _)) as (l1 & O1 & (Si & Ss & Sh) & C1); set (s1 := cb_run cb s l1) in *; pose proof (ainv_run l1 s I) as I1; fold s1 in I1;
  rewrite <- Si in Sh; specialize (Sh ltac:(congruence)); rewrite Si in Sh; rewrite E in Ss; rewrite <- Sh, <- Si in H; destruct (rest (shard (cb_map s1) (cb_i s1)) seen) as [|e r] eqn:Er; try (cbn in H; lia).
  1,2: exists (l1 ++ [QUnlock]); split; [apply Forall_app; split; [exact O1|repeat constructor]|]; rewrite cb_run_app'; fold s1; cbn [cb_run fold_left cb_step]; rewrite Ss, C1, Er; cbn; rewrite Si; auto.
  assert (En : nth_error (rest (shard (cb_map s1) (cb_i s1)) seen) 0 = Some e) by (rewrite Er; reflexivity).
  pose proof (rest_take _ _ _ _ (shard_nodup _ _ (ai_m _ I1)) En) as P. apply Permutation_length in P. rewrite Er in P. cbn [length] in P, H.
  set (s2 := Cbs (cb_map s1) (cb_i s1) (Some (fst e :: seen)) (cb (fst e) (snd e)) (cb_got s1 ++ [e]) (cb_wait s1)).
  assert (E2 : cb_step cb s1 (QCall 0) = s2) by (cbn [cb_step]; rewrite Ss, C1, Er; reflexivity).
  destruct (IH s2 (fst e :: seen)) as (l3 & O3 & R1 & R2 & R3); [rewrite <- E2; now apply ainv_step|reflexivity|cbn; lia|].
  exists (l1 ++ QCall 0 :: l3). split; [apply Forall_app; split; [exact O1|constructor; [exact Logic.I|exact O3]]|]. rewrite cb_run_app'. fold s1. cbn [cb_run fold_left]. rewrite E2. cbn in R3. rewrite Si in R3. auto.
Qed.
Lemma finish n : forall s, ainv s -> shard_count - cb_i s <= n -> exists ls, Forall nobody_else ls /\ cb_end (cb_run cb s ls) = true.
Proof.
  induction n as [|n IH]; intros s I H; destruct (cb_end s) eqn:Ee; try (exists []; split; [constructor|exact Ee]); unfold cb_end in Ee; apply Nat.leb_gt in Ee; [lia|].
  assert (L : exists ls, Forall nobody_else ls /\ let s' := cb_run cb s ls in (exists seen, cb_seen s' = Some seen) /\ cb_i s' = cb_i s).
  { destruct (cb_seen s) as [seen|] eqn:Es; [exists []; split; [constructor|]; cbn; eauto|].
    destruct (wake_other _ s I (Nat.le_refl _)) as (l1 & O1 & (Si & Ss & _) & C1 & W1). set (s1 := cb_run cb s l1) in *. rewrite Es in Ss.
    assert (Wn : cb_wait s1 = []).
    { destruct (cb_wait s1) as [|o w]; [reflexivity|]. specialize (W1 o (or_introl eq_refl)). rewrite may_other in W1; [discriminate|]. auto. }
    exists (l1 ++ [QLock]). split; [apply Forall_app; split; [exact O1|repeat constructor]|]. rewrite cb_run_app'. fold s1. cbn [cb_run fold_left cb_step]. rewrite Ss, Si. unfold waited. rewrite Wn.
    destruct (Nat.ltb_spec (cb_i s) shard_count); [|lia]. cbn. eauto. }
  destruct L as (l1 & O1 & (seen & E1) & Hi1). pose proof (ainv_run l1 s I) as I1. set (s1 := cb_run cb s l1) in *. destruct (visit _ s1 seen I1 E1 (Nat.le_refl _)) as (l2 & O2 & C2 & E2 & Hi2).
  pose proof (ainv_run l2 s1 I1) as I2. destruct (IH _ I2) as (l3 & O3 & R3); [rewrite Hi2, Hi1; lia|].
  exists (l1 ++ l2 ++ l3). split; [rewrite !Forall_app; auto|]. rewrite !cb_run_app'. exact R3.
Qed.
End P.

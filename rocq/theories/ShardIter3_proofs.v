From Coq Require Import ZArith List Bool Arith Lia Permutation.
From Verif Require Import Bytes GoSlice ShardMap Spec_Map ShardMap_proofs ShardIter Spec_ShardIter ShardIter_proofs ShardIter2_proofs.
Import ListNotations.

Section P.
Context {V : Type}.
Implicit Types (s : keys V).
Definition idk (k : key) : key := k.

Lemma by_shard_keys (h : key -> Z) (past : list (smap V)) (l : list key) :
  (forall m, In m past -> minv m /\ sm_hash m = h) ->
  (forall i, i < shard_count -> exists m, In m past /\ Permutation (mine idk h i l) (map fst (shard m i))) ->
  each_key_as_once_keys (map sm_get past) l.
Proof.
  intros Hp H. split.
  - rewrite <- (map_id l). apply (mine_nodup idk h). intros i. destruct (Nat.lt_ge_cases i shard_count) as [Hi|Hi].
    + destruct (H i Hi) as [m [Hm P]]. destruct (Hp _ Hm) as [Im _]. unfold idk at 1. rewrite map_id.
      eapply Permutation_NoDup; [apply Permutation_sym, P|]. now apply shard_nodup.
    + rewrite mine_over by exact Hi. constructor.
  - intros k. destruct (H (shard_of h k) (shard_of_lt h k)) as [m [Hm P]]. destruct (Hp _ Hm) as [Im Eh]. exists (sm_get m).
    split; [now apply in_map|].
    assert (Q : In k l <-> In k (map fst (shard m (shard_of h k)))).
    { split; intros Hin.
      - apply (Permutation_in _ P). apply filter_In. split; [exact Hin|]. apply Nat.eqb_refl.
      - apply Permutation_sym in P. apply (Permutation_in _ P) in Hin. now apply filter_In in Hin. }
    rewrite Q. rewrite in_map_iff. split.
    + intros [[k' v] [Ek Hin]]. cbn in Ek. subst k'. rewrite <- Eh in Hin. apply shard_get in Hin; [congruence|exact Im].
    + intros Hn. destruct (sm_get m k) as [v|] eqn:Ev; [|congruence]. apply shard_get in Ev; [|exact Im]. rewrite Eh in Ev. now exists (k, v).
Qed.

(* Keys. *)
Definition kseen (s : keys V) (i : nat) : list key := mine idk (sm_hash (ks_map s)) i (ks_out s ++ ks_got s).
Arguments kseen : simpl never.
Arguments mine : simpl never.
Arguments rest : simpl never.
Arguments shard : simpl never.
Definition klane_ok (past : list (smap V)) (s : keys V) (i : nat) (p : fpc) : Prop :=
  match p with
  | FStart => kseen s i = []
  | FFill seen => Permutation (map fst (rest (shard (ks_map s) i) seen) ++ kseen s i) (map fst (shard (ks_map s) i))
  | FEnd => exists m, In m past /\ Permutation (kseen s i) (map fst (shard m i))
  end.
Record kinv (h : key -> Z) (past : list (smap V)) (s : keys V) : Prop := {
  ki_now : In (ks_map s) past;
  ki_past : forall m, In m past -> minv m /\ sm_hash m = h;
  ki_len : length (ks_lanes s) = shard_count;
  ki_lane : forall i p, nth_error (ks_lanes s) i = Some p -> klane_ok past s i p;
  ki_closed : ks_closed s = true -> forall i p, nth_error (ks_lanes s) i = Some p -> p = FEnd;
  ki_end : ks_end s = true -> ks_closed s = true /\ ks_out s = []
}.
Lemma klane_more past p s i l : klane_ok past s i l -> klane_ok (past ++ p) s i l.
Proof. unfold klane_ok. destruct l; auto. intros [m [H1 H2]]. exists m. split; [apply in_or_app; auto|exact H2]. Qed.
Lemma kinv_same h past s : kinv h past s -> kinv h (past ++ [ks_map s]) s.
Proof.
  intros [I1 I2 I3 I4 I5 I6]. split; auto.
  - apply in_or_app; now left.
  - intros m Hin. apply in_app_or in Hin as [Hin|[<-|[]]]; auto.
  - intros i l H. apply klane_more; auto.
Qed.
Lemma klane_step h past s s' i p p' :
  kinv h past s -> nth_error (ks_lanes s) i = Some p -> p <> FEnd -> ks_lanes s' = set_nth i p' (ks_lanes s) ->
  ks_map s' = ks_map s -> ks_closed s' = ks_closed s -> ks_end s' = ks_end s ->
  (forall j, j <> i -> kseen s' j = kseen s j) ->
  klane_ok past s' i p' -> kinv h (past ++ [ks_map s']) s'.
Proof.
  intros I E Np El Em Ec Ee Ho Hl. pose proof (nth_lt _ _ _ E) as Hlt. destruct I as [I1 I2 I3 I4 I5 I6].
  assert (Gl : forall j k, nth_error (ks_lanes s') j = Some k -> (j = i /\ k = p') \/ (j <> i /\ nth_error (ks_lanes s) j = Some k)).
  { intros j k. rewrite El, nth_error_set by exact Hlt. destruct (Nat.eqb_spec j i) as [->|N]; intros Q; [left; split; congruence|right; auto]. }
  split.
  - apply in_or_app; right; now left.
  - intros m Hin. apply in_app_or in Hin as [Hin|[<-|[]]]; [auto|]. rewrite Em. auto.
  - rewrite El, set_nth_len. exact I3.
  - intros j k Hj. apply klane_more. destruct (Gl _ _ Hj) as [[-> ->]|[N Hk]]; [exact Hl|].
    specialize (I4 _ _ Hk). unfold klane_ok in *. rewrite Em, (Ho _ N). exact I4.
  - rewrite Ec. intros T. specialize (I5 T _ _ E). congruence.
  - rewrite Ee. intros T. destruct (I6 T) as [Q1 Q2]. specialize (I5 Q1 _ _ E). congruence.
Qed.
Lemma kmine_add (h : key -> Z) i k a b : shard_of h k = i -> Permutation (mine idk h i ((a ++ [k]) ++ b)) (k :: mine idk h i (a ++ b)).
Proof.
  intros E. rewrite !mine_app, mine_one. unfold idk at 2. rewrite E, Nat.eqb_refl, <- app_assoc. cbn. symmetry. apply Permutation_middle.
Qed.
Lemma kmine_other (h : key -> Z) i j k a b : shard_of h k = i -> j <> i -> mine idk h j ((a ++ [k]) ++ b) = mine idk h j (a ++ b).
Proof.
  intros E N. rewrite !mine_app, mine_one. unfold idk at 2. rewrite E. destruct (Nat.eqb_spec i j); [congruence|]. now rewrite app_nil_r.
Qed.
Lemma ksend_lane (g : gomap V) seen n e r r' : NoDup (map fst g) -> nth_error (rest g seen) n = Some e ->
  Permutation (map fst (rest g seen) ++ r) (map fst g) -> Permutation r' (fst e :: r) ->
  Permutation (map fst (rest g (fst e :: seen)) ++ r') (map fst g).
Proof.
  intros N E P Q. rewrite <- P. rewrite (Permutation_map fst (rest_take _ _ _ _ N E)). cbn. rewrite Q.
  symmetry. apply Permutation_middle.
Qed.
Lemma rest_in (g : gomap V) seen e : In e (rest g seen) -> In e g.
Proof. unfold rest. intros H. now apply filter_In in H. Qed.

Lemma keys_step_inv h past s lb : kinv h past s -> kinv h (past ++ [ks_map (keys_step s lb)]) (keys_step s lb).
Proof.
  intros I. pose proof (kinv_same _ _ _ I) as Same. pose proof (ki_past _ _ _ I _ (ki_now _ _ _ I)) as [Im Eh].
  destruct lb as [o| |i|i n|i n|i| |]; cbn [keys_step].
  - destruct (may _ _ o) eqn:Hm; [|exact Same]. destruct I as [I1 I2 I3 I4 I5 I6].
    split; cbn [ks_map ks_lanes ks_out ks_closed ks_got ks_end]; auto.
    + apply in_or_app; right; now left.
    + intros m Hin. apply in_app_or in Hin as [Hin|[<-|[]]]; [auto|]. rewrite after_hash. split; [now apply after_inv|exact Eh].
    + intros i l E. specialize (I4 _ _ E). unfold klane_ok, kseen in *. cbn [ks_map ks_out ks_got]. rewrite after_hash.
      destruct l as [|seen|]; [exact I4| |].
      * rewrite (after_shard _ _ _ _ Hm); [exact I4|]. unfold kheld. now rewrite E.
      * destruct I4 as [m [Q1 Q2]]. exists m. split; [apply in_or_app; auto|exact Q2].
  - destruct (shard_count <=? ks_i s); [exact Same|]. destruct Same as [I1 I2 I3 I4 I5 I6].
    split; cbn [ks_map ks_lanes ks_out ks_closed ks_got ks_end]; auto.
  - destruct (nth_error (ks_lanes s) i) as [[|seen|]|] eqn:E; try exact Same. destruct (shard_count <=? ks_i s); [|exact Same].
    apply (klane_step _ _ s _ i _ (FFill []) I E); try reflexivity; try discriminate.
    pose proof (ki_lane _ _ _ I _ _ E) as L. unfold klane_ok in *. rewrite rest_nil.
    change (kseen (kw_lane s i (FFill [])) i) with (kseen s i). rewrite L, app_nil_r. reflexivity.
  - destruct (nth_error (ks_lanes s) i) as [[|seen|]|] eqn:E; try exact Same. destruct (nth_error (rest _ _) n) as [e|] eqn:En; [|exact Same].
    destruct (length (ks_out s) <? ks_n s); [|exact Same].
    assert (He : shard_of (sm_hash (ks_map s)) (fst e) = i).
    { apply shard_home; [exact Im|]. eapply rest_in. eapply nth_error_In; eauto. }
    apply (klane_step _ _ s _ i _ (FFill (fst e :: seen)) I E); try reflexivity; try discriminate.
    + intros j Nj. unfold kseen. cbn. now apply (kmine_other _ i).
    + pose proof (ki_lane _ _ _ I _ _ E) as L. unfold klane_ok in *. cbn [ks_map].
      eapply ksend_lane; [now apply shard_nodup|exact En|exact L|]. unfold kseen. cbn. now apply kmine_add.
  - destruct (nth_error (ks_lanes s) i) as [[|seen|]|] eqn:E; try exact Same. destruct (ks_out s) as [|] eqn:Eo; [|exact Same].
    destruct (nth_error (rest _ _) n) as [e|] eqn:En; [|exact Same].
    assert (He : shard_of (sm_hash (ks_map s)) (fst e) = i).
    { apply shard_home; [exact Im|]. eapply rest_in. eapply nth_error_In; eauto. }
    apply (klane_step _ _ s _ i _ (FFill (fst e :: seen)) I E); try reflexivity; try discriminate.
    + intros j Nj. unfold kseen. cbn. rewrite Eo. cbn. pose proof (kmine_other _ i j _ (ks_got s) [] He Nj) as Q. rewrite !app_nil_r in Q. exact Q.
    + pose proof (ki_lane _ _ _ I _ _ E) as L. unfold klane_ok in *. cbn [ks_map].
      eapply ksend_lane; [now apply shard_nodup|exact En|exact L|]. unfold kseen. cbn. rewrite Eo. cbn.
      pose proof (kmine_add _ i _ (ks_got s) [] He) as Q. rewrite !app_nil_r in Q. exact Q.
  - destruct (nth_error (ks_lanes s) i) as [[|seen|]|] eqn:E; try exact Same. destruct (rest _ _) eqn:Er; [|exact Same].
    apply (klane_step _ _ s _ i _ FEnd I E); try reflexivity; try discriminate.
    pose proof (ki_lane _ _ _ I _ _ E) as L. unfold klane_ok in *. exists (ks_map s). split; [apply (ki_now _ _ _ I)|]. rewrite Er in L. exact L.
  - destruct (forallb _ (ks_lanes s)) eqn:F; [|exact Same]. destruct Same as [I1 I2 I3 I4 I5 I6].
    split; cbn [ks_map ks_lanes ks_out ks_closed ks_got ks_end]; auto.
    + intros _ i p E. apply nth_error_In in E. rewrite forallb_forall in F. specialize (F _ E). destruct p; congruence.
    + intros Q. split; [reflexivity|]. now apply I6.
  - destruct (ks_out s) as [|k o] eqn:Eo.
    + destruct (ks_closed s) eqn:Ec; [|exact Same]. destruct Same as [I1 I2 I3 I4 I5 I6].
      split; cbn [ks_map ks_lanes ks_out ks_closed ks_got ks_end]; auto.
      * intros i l E. specialize (I4 _ _ E). unfold klane_ok, kseen in *. cbn [ks_map ks_out ks_got]. rewrite Eo in I4. exact I4.
      * intros _. exact (I5 Ec).
    + destruct Same as [I1 I2 I3 I4 I5 I6]. split; cbn [ks_map ks_lanes ks_out ks_closed ks_got ks_end]; auto.
      * intros i l E. specialize (I4 _ _ E).
        assert (Hs : Permutation (kseen (Keys (ks_map s) (ks_i s) (ks_n s) (ks_lanes s) o (ks_closed s) (ks_got s ++ [k]) (ks_end s)) i) (kseen s i)).
        { unfold kseen. cbn. rewrite Eo, !mine_app. change (k :: o) with ([k] ++ o). rewrite mine_app.
          generalize (mine idk (sm_hash (ks_map s)) i [k]) (mine idk (sm_hash (ks_map s)) i o) (mine idk (sm_hash (ks_map s)) i (ks_got s)).
          intros a b c. rewrite app_assoc, Permutation_app_comm, app_assoc. reflexivity. }
        unfold klane_ok in *. cbn [ks_map] in *. destruct l as [|seen|].
        -- rewrite I4 in Hs. now apply perm_nil_r.
        -- rewrite Hs. exact I4.
        -- destruct I4 as [m [Q1 Q2]]. exists m. split; [exact Q1|]. rewrite Hs. exact Q2.
      * intros Q. destruct (I6 Q) as [_ Q2]. congruence.
Qed.
Lemma keys_run_inv h ls : forall past s, kinv h (past ++ [ks_map s]) s ->
  kinv h (past ++ map ks_map (keys_trace s ls)) (keys_run s ls).
Proof.
  induction ls as [|l ls IH]; intros past s I; [exact I|]. cbn [keys_trace map keys_run fold_left].
  change (ks_map s :: map ks_map (keys_trace (keys_step s l) ls)) with ([ks_map s] ++ map ks_map (keys_trace (keys_step s l) ls)).
  rewrite app_assoc. apply IH. now apply keys_step_inv.
Qed.
Lemma keys_reach (m : smap V) ls : minv m ->
  kinv (sm_hash m) (map ks_map (keys_trace (keys_start m) ls)) (keys_run (keys_start m) ls).
Proof.
  intros I. apply (keys_run_inv _ ls []). split; cbn [keys_start ks_map ks_lanes ks_out ks_closed ks_got ks_end]; try discriminate.
  - now left.
  - intros m' [<-|[]]. auto.
  - apply repeat_length.
  - intros i l E. apply nth_error_In, repeat_spec in E. subst l. reflexivity.
Qed.
Lemma keys_whole h past s : kinv h past s -> ks_end s = true -> each_key_as_once_keys (map sm_get past) (ks_got s).
Proof.
  intros I E. destruct (ki_end _ _ _ I E) as [Ec Eo]. destruct (ki_past _ _ _ I _ (ki_now _ _ _ I)) as [_ Eh].
  apply (by_shard_keys h); [exact (ki_past _ _ _ I)|]. intros i Hi.
  destruct (nth_error (ks_lanes s) i) as [l|] eqn:El; [|apply nth_error_None in El; rewrite (ki_len _ _ _ I) in El; lia].
  pose proof (ki_closed _ _ _ I Ec _ _ El) as ->. pose proof (ki_lane _ _ _ I _ _ El) as L. unfold klane_ok, kseen in L. rewrite Eo, Eh in L. exact L.
Qed.

(* Keys can always finish by itself. *)
Definition klane_w (m : smap V) (i : nat) (p : fpc) : nat :=
  match p with FStart => 2 * length (shard m i) + 2 | FFill seen => 2 * length (rest (shard m i) seen) + 1 | FEnd => 0 end.
Definition kbase (s : keys V) : nat := (shard_count - ks_i s) + length (ks_out s) + (if ks_closed s then 0 else 1) + (if ks_end s then 0 else 1).
Definition ktodo (s : keys V) : nat :=
  list_sum (map (fun i => match nth_error (ks_lanes s) i with Some l => klane_w (ks_map s) i l | None => 0 end) (seq 0 shard_count)) + kbase s.
Lemma ktodo_lane s s' i l l' : length (ks_lanes s) = shard_count ->
  nth_error (ks_lanes s) i = Some l -> ks_lanes s' = set_nth i l' (ks_lanes s) ->
  ks_map s' = ks_map s -> kbase s' = kbase s ->
  klane_w (ks_map s) i l' < klane_w (ks_map s) i l -> ktodo s' < ktodo s.
Proof.
  intros Hlen E El Em Eb Hw. pose proof (nth_lt _ _ _ E) as Hi. unfold ktodo. rewrite Em, El, Eb.
  apply Nat.add_lt_mono_r. apply (sum_lt2 _ _ _ i).
  - intros j _. rewrite nth_error_set by exact Hi. destruct (Nat.eqb_spec j i) as [->|N]; [rewrite E; lia|lia].
  - apply in_seq. lia.
  - rewrite nth_error_set, Nat.eqb_refl, E by exact Hi. exact Hw.
Qed.
Lemma kown_step h past s : kinv h past s -> ks_end s = false -> exists l, kown l /\ ktodo (keys_step s l) < ktodo s.
Proof.
  intros I C. destruct (ki_past _ _ _ I _ (ki_now _ _ _ I)) as [Im Eh]. pose proof (ki_len _ _ _ I) as Len.
  destruct (Nat.leb_spec shard_count (ks_i s)) as [Hgo|Hgo].
  2:{ exists KCount. split; [exact Logic.I|]. cbn [keys_step]. destruct (Nat.leb_spec shard_count (ks_i s)); [lia|].
      unfold ktodo, kbase. cbn [ks_map ks_i ks_lanes ks_out ks_closed ks_end]. lia. }
  destruct (ks_out s) as [|k o] eqn:Eo.
  2:{ exists KNext. split; [exact Logic.I|]. cbn [keys_step]. rewrite Eo. unfold ktodo, kbase. cbn [ks_map ks_i ks_lanes ks_out ks_closed ks_end]. rewrite Eo. cbn. lia. }
  destruct (forallb (fun p => match p with FEnd => true | _ => false end) (ks_lanes s)) eqn:F.
  - destruct (ks_closed s) eqn:Ec.
    + exists KNext. split; [exact Logic.I|]. cbn [keys_step]. rewrite Eo, Ec. unfold ktodo, kbase. cbn [ks_map ks_i ks_lanes ks_out ks_closed ks_end].
      rewrite Eo, Ec, C. cbn. lia.
    + exists KClose. split; [exact Logic.I|]. cbn [keys_step]. rewrite F. unfold ktodo, kbase. cbn [ks_map ks_i ks_lanes ks_out ks_closed ks_end].
      rewrite Ec. lia.
  - destruct (forallb_false _ _ F) as [i [p [E Fd]]]. destruct p as [|seen|]; [| |discriminate].
    + exists (KLock i). split; [exact Logic.I|]. cbn [keys_step]. rewrite E. destruct (Nat.leb_spec shard_count (ks_i s)); [|lia].
      eapply (ktodo_lane _ _ i _ _ Len E); try reflexivity. unfold klane_w. rewrite rest_nil. lia.
    + destruct (rest (shard (ks_map s) i) seen) as [|e r] eqn:Er.
      * exists (KUnlock i). split; [exact Logic.I|]. cbn [keys_step]. rewrite E, Er. eapply (ktodo_lane _ _ i _ _ Len E); try reflexivity.
        unfold klane_w. lia.
      * exists (KPass i 0). split; [exact Logic.I|]. cbn [keys_step]. rewrite E, Eo, Er. cbn [nth_error].
        apply (ktodo_lane s _ i _ (FFill (fst e :: seen)) Len E); try reflexivity.
        -- unfold kbase. cbn. now rewrite Eo.
        -- unfold klane_w. assert (En : nth_error (rest (shard (ks_map s) i) seen) 0 = Some e) by (rewrite Er; reflexivity).
           pose proof (rest_take _ _ _ _ (shard_nodup _ i Im) En) as P2. apply Permutation_length in P2. cbn [length] in P2. lia.
Qed.
Lemma kown_run h n : forall past s, ktodo s <= n -> kinv h (past ++ [ks_map s]) s ->
  exists ls, Forall kown ls /\ ks_end (keys_run s ls) = true.
Proof.
  induction n as [|n IH]; intros past s Hn I; destruct (ks_end s) eqn:C;
    try (exists []; split; [constructor|]; exact C).
  - destruct (kown_step _ _ _ I C) as [l [_ Hl]]. lia.
  - destruct (kown_step _ _ _ I C) as [l [Ol Hl]]. pose proof (keys_step_inv _ _ _ l I) as I'.
    destruct (IH _ (keys_step s l) ltac:(lia) I') as [ls [Ho Hc]]. exists (l :: ls). split; [constructor; assumption|exact Hc].
Qed.

(* Count: what it counts is such a list of entries. *)
Record ctinv (h : key -> Z) (past : list (smap V)) (s : count V) (l : gomap V) : Prop := {
  ci_now : In (ct_map s) past;
  ci_past : forall m, In m past -> minv m /\ sm_hash m = h;
  ci_n : ct_n s = length l;
  ci_done : forall i, i < ct_i s -> exists m, In m past /\ Permutation (mine fst h i l) (shard m i);
  ci_not : forall i, ct_i s <= i -> mine fst h i l = []
}.
Lemma mine_shard (m : smap V) i j : minv m -> mine fst (sm_hash m) j (shard m i) = if j =? i then shard m i else [].
Proof.
  intros I. destruct (Nat.eqb_spec j i) as [->|N].
  - apply mine_home. intros e He. now apply shard_home.
  - unfold mine. assert (H : forall e, In e (shard m i) -> shard_of (sm_hash m) (fst e) =? j = false).
    { intros e He. rewrite (shard_home m i e I He). apply Nat.eqb_neq. auto. }
    induction (shard m i) as [|e g IH]; cbn; [reflexivity|]. rewrite (H e) by now left. apply IH. intros x Hx. apply H. now right.
Qed.
Lemma count_step_inv h past (s : count V) l lb : ctinv h past s l -> exists l', ctinv h (past ++ [ct_map (count_step s lb)]) (count_step s lb) l'.
Proof.
  intros [I1 I2 I3 I4 I5]. destruct (I2 _ I1) as [Im Eh].
  assert (More : forall (i : nat) g m', (exists m, In m past /\ Permutation g (shard m i)) -> exists m, In m (past ++ [m']) /\ Permutation g (shard m i)).
  { intros i g m' [m [H1 H2]]. exists m. split; [apply in_or_app; now left|exact H2]. }
  destruct lb as [o|]; cbn [count_step].
  - exists l. split; cbn [ct_map ct_i ct_n]; auto.
    + apply in_or_app; right; now left.
    + intros m Hin. apply in_app_or in Hin as [Hin|[<-|[]]]; [auto|]. rewrite after_hash. split; [now apply after_inv|exact Eh].
  - assert (P : forall m, In m (past ++ [ct_map s]) -> minv m /\ sm_hash m = h).
    { intros m Hin. apply in_app_or in Hin as [Hin|[<-|[]]]; auto. }
    destruct (Nat.ltb_spec (ct_i s) shard_count) as [Hi|Hi].
    + exists (l ++ shard (ct_map s) (ct_i s)). split; cbn [ct_map ct_i ct_n]; auto.
      * apply in_or_app; now left.
      * rewrite app_length. lia.
      * intros i Hl. rewrite mine_app, <- Eh, mine_shard by exact Im. destruct (Nat.eqb_spec i (ct_i s)) as [->|N].
        -- rewrite Eh, I5 by lia. exists (ct_map s). split; [apply in_or_app; now left|reflexivity].
        -- rewrite app_nil_r, Eh. apply More, I4. lia.
      * intros i Hl. rewrite mine_app, I5 by lia. rewrite <- Eh, mine_shard by exact Im. destruct (Nat.eqb_spec i (ct_i s)); [lia|reflexivity].
    + exists l. split; auto. apply in_or_app; now left.
Qed.
Lemma count_run_inv h ls : forall past (s : count V) l, ctinv h (past ++ [ct_map s]) s l ->
  exists l', ctinv h (past ++ map ct_map (count_trace s ls)) (count_run s ls) l'.
Proof.
  induction ls as [|lb ls IH]; intros past s l I; [exists l; exact I|]. cbn [count_trace map count_run fold_left].
  change (ct_map s :: map ct_map (count_trace (count_step s lb) ls)) with ([ct_map s] ++ map ct_map (count_trace (count_step s lb) ls)).
  rewrite app_assoc. destruct (count_step_inv _ _ _ _ lb I) as [l' I']. apply (IH _ _ l' I').
Qed.
Lemma count_whole (m : smap V) ls : minv m -> count_end (count_run (Count m 0 0) ls) = true ->
  exists l, each_key_as_once (map sm_get (map ct_map (count_trace (Count m 0 0) ls))) l /\ ct_n (count_run (Count m 0 0) ls) = length l.
Proof.
  intros I E. destruct (count_run_inv (sm_hash m) ls [] (Count m 0 0) []) as [l [I1 I2 I3 I4 I5]].
  - split; cbn [ct_map ct_i ct_n]; auto; [now left|intros m' [<-|[]]; auto|lia].
  - exists l. split; [|exact I3]. unfold count_end in E. apply Nat.leb_le in E. apply (by_shard (sm_hash m)); [exact I2|].
    intros i Hi. apply I4. lia.
Qed.

(* IterCb. *)
Record cinv (h : key -> Z) (past : list (smap V)) (s : cbs V) : Prop := {
  bi_now : In (cb_map s) past;
  bi_past : forall m, In m past -> minv m /\ sm_hash m = h;
  bi_done : forall i, i < cb_i s -> exists m, In m past /\ Permutation (mine fst h i (cb_got s)) (shard m i);
  bi_cur : match cb_seen s with
           | None => mine fst h (cb_i s) (cb_got s) = []
           | Some seen => Permutation (rest (shard (cb_map s) (cb_i s)) seen ++ mine fst h (cb_i s) (cb_got s)) (shard (cb_map s) (cb_i s))
           end;
  bi_not : forall i, cb_i s < i -> mine fst h i (cb_got s) = []
}.
Lemma cinv_map h past (s : cbs V) o (s' : cbs V) : cinv h past s -> may (cb_map s) (cb_held s) o = true ->
  cb_map s' = after (cb_map s) o -> cb_i s' = cb_i s -> cb_seen s' = cb_seen s -> cb_got s' = cb_got s ->
  cinv h (past ++ [cb_map s']) s'.
Proof.
  intros [I1 I2 I3 I4 I5] Hm Em Ei Es Eg. destruct (I2 _ I1) as [Im Eh]. split; rewrite ?Ei, ?Es, ?Eg; auto.
  - apply in_or_app; right; now left.
  - intros m Hin. apply in_app_or in Hin as [Hin|[<-|[]]]; [auto|]. rewrite Em, after_hash. split; [now apply after_inv|exact Eh].
  - intros i Hi. destruct (I3 i Hi) as [m [Q1 Q2]]. exists m. split; [apply in_or_app; now left|exact Q2].
  - destruct (cb_seen s) eqn:E; [|exact I4]. rewrite Em, (after_shard _ _ _ _ Hm); [exact I4|]. unfold cb_held. rewrite E. apply Nat.eqb_refl.
Qed.
Lemma cinv_keep h past (s s' : cbs V) : cinv h past s -> cb_map s' = cb_map s -> cb_i s' = cb_i s -> cb_seen s' = cb_seen s -> cb_got s' = cb_got s ->
  cinv h (past ++ [cb_map s']) s'.
Proof.
  intros [I1 I2 I3 I4 I5] Em Ei Es Eg. destruct (I2 _ I1) as [Im Eh]. split; rewrite ?Em, ?Ei, ?Es, ?Eg; auto.
  - apply in_or_app; now left.
  - intros m Hin. apply in_app_or in Hin as [Hin|[<-|[]]]; auto.
  - intros i Hi. destruct (I3 i Hi) as [m [Q1 Q2]]. exists m. split; [apply in_or_app; now left|exact Q2].
Qed.
Lemma cb_step_inv cb h past (s : cbs V) lb : cinv h past s -> cinv h (past ++ [cb_map (cb_step cb s lb)]) (cb_step cb s lb).
Proof.
  intros I. assert (Same : cinv h (past ++ [cb_map s]) s) by (apply (cinv_keep _ _ s); auto).
  destruct lb as [o|n| |n| |]; cbn [cb_step].
  - destruct (may _ _ o) eqn:Hm; [eapply cinv_map; eauto; reflexivity|eapply cinv_keep; eauto].
  - destruct (nth_error (cb_wait s) n) as [o|]; [|exact Same]. destruct (may _ _ o) eqn:Hm; [eapply cinv_map; eauto; reflexivity|exact Same].
  - destruct (cb_seen s) eqn:Es; [exact Same|]. destruct (_ && _); [|exact Same]. destruct Same as [I1 I2 I3 I4 I5].
    split; cbn [cb_map cb_i cb_seen cb_got]; auto. rewrite Es in I4. rewrite I4, rest_nil, app_nil_r. reflexivity.
  - destruct (cb_seen s) as [seen|] eqn:Es; [|exact Same]. destruct (cb_calls s) eqn:Ec; [|exact Same]. destruct (nth_error (rest _ _) n) as [e|] eqn:En; [|exact Same].
    destruct Same as [I1 I2 I3 I4 I5]. destruct (I2 _ I1) as [Im Eh]. rewrite Es in I4.
    assert (He : shard_of h (fst e) = cb_i s).
    { rewrite <- Eh. apply shard_home; [exact Im|]. eapply rest_in. eapply nth_error_In; eauto. }
    assert (Hm : forall i, mine fst h i (cb_got s ++ [e]) = if i =? cb_i s then mine fst h i (cb_got s) ++ [e] else mine fst h i (cb_got s)).
    { intros i. rewrite mine_app, mine_one, He, (Nat.eqb_sym (cb_i s)). destruct (i =? cb_i s); [reflexivity|apply app_nil_r]. }
    split; cbn [cb_map cb_i cb_seen cb_got]; auto.
    + intros i Hi. rewrite Hm. destruct (Nat.eqb_spec i (cb_i s)); [lia|auto].
    + rewrite Hm, Nat.eqb_refl. rewrite <- I4 at 2. rewrite (rest_take _ _ _ _ (shard_nodup _ _ Im) En).
      rewrite (Permutation_app_comm (mine fst h (cb_i s) (cb_got s)) [e]). cbn. symmetry. apply Permutation_middle.
    + intros i Hi. rewrite Hm. destruct (Nat.eqb_spec i (cb_i s)); [lia|auto].
  - destruct (cb_calls s) as [|o os]; [exact Same|]. destruct (cb_may s o) eqn:Hm; [|exact Same]. unfold cb_may in Hm. apply andb_true_iff in Hm as [Hm _].
    eapply cinv_map; eauto; reflexivity.
  - destruct (cb_seen s) as [seen|] eqn:Es; [|exact Same]. destruct (cb_calls s) eqn:Ec; [|exact Same]. destruct (rest _ _) eqn:Er; [|exact Same].
    destruct Same as [I1 I2 I3 I4 I5]. rewrite Es, Er in I4. cbn in I4. split; cbn [cb_map cb_i cb_seen cb_got]; auto.
    + intros i Hi. destruct (Nat.eq_dec i (cb_i s)) as [->|N]; [|apply I3; lia]. exists (cb_map s). split; [exact I1|exact I4].
    + intros i Hi. apply I5. lia.
Qed.
Lemma cb_run_inv cb h ls : forall past (s : cbs V), cinv h (past ++ [cb_map s]) s ->
  cinv h (past ++ map cb_map (cb_trace cb s ls)) (cb_run cb s ls).
Proof.
  induction ls as [|l ls IH]; intros past s I; [exact I|]. cbn [cb_trace map cb_run fold_left].
  change (cb_map s :: map cb_map (cb_trace cb (cb_step cb s l) ls)) with ([cb_map s] ++ map cb_map (cb_trace cb (cb_step cb s l) ls)).
  rewrite app_assoc. apply IH. now apply cb_step_inv.
Qed.
Lemma cb_init_inv (m : smap V) : minv m -> cinv (sm_hash m) [m] (cb_start m).
Proof. intros I. split; cbn [cb_start cb_map cb_i cb_seen cb_got]; auto; [now left|intros m' [<-|[]]; auto|lia]. Qed.
Lemma cb_whole cb (m : smap V) ls : minv m -> cb_end (cb_run cb (cb_start m) ls) = true ->
  each_key_as_once (map sm_get (map cb_map (cb_trace cb (cb_start m) ls))) (cb_got (cb_run cb (cb_start m) ls)).
Proof.
  intros I E. destruct (cb_run_inv cb _ ls [] (cb_start m) (cb_init_inv m I)) as [I1 I2 I3 I4 I5].
  unfold cb_end in E. apply Nat.leb_le in E. apply (by_shard (sm_hash m)); [exact I2|]. intros i Hi. apply I3. lia.
Qed.

(* Without calls in the callback IterCb can always finish. *)
Definition quiet (k : key) (v : V) : list (mop V) := [].
Lemma quiet_calls ls : forall s : cbs V, cb_calls s = [] -> cb_calls (cb_run quiet s ls) = [].
Proof.
  induction ls as [|l ls IH]; intros s H; [exact H|]. cbn [cb_run fold_left]. apply IH. clear IH.
  destruct l as [o|n| |n| |]; cbn [cb_step].
  - destruct (may _ _ o); exact H.
  - destruct (nth_error (cb_wait s) n) as [o|]; [|exact H]. destruct (may _ _ o); exact H.
  - destruct (cb_seen s); [exact H|]. destruct (_ && _); [reflexivity|exact H].
  - destruct (cb_seen s); [|exact H]. rewrite H. destruct (nth_error _ n); [reflexivity|exact H].
  - rewrite H. exact H.
  - destruct (cb_seen s); [|exact H]. rewrite H. destruct (rest _ _); [reflexivity|exact H].
Qed.
Lemma cb_run_app cb (s : cbs V) a b : cb_run cb s (a ++ b) = cb_run cb (cb_run cb s a) b.
Proof. apply fold_left_app. Qed.
Lemma read_shard n : forall (s : cbs V) seen, minv (cb_map s) -> cb_calls s = [] -> cb_seen s = Some seen -> length (rest (shard (cb_map s) (cb_i s)) seen) <= n ->
  exists ls, Forall nobody_else ls /\ let s' := cb_run quiet s ls in
    cb_calls s' = [] /\ cb_seen s' = None /\ cb_i s' = S (cb_i s) /\ minv (cb_map s').
Proof.
  induction n as [|n IH]; intros s seen Im C E H; destruct (rest (shard (cb_map s) (cb_i s)) seen) as [|e r] eqn:Er; try (cbn in H; lia).
  1,2: exists [QUnlock]; split; [repeat constructor|]; cbv zeta; cbn [cb_run fold_left cb_step]; rewrite E, C, Er; cbn; auto.
  assert (En : nth_error (rest (shard (cb_map s) (cb_i s)) seen) 0 = Some e) by (rewrite Er; reflexivity).
  pose proof (rest_take _ _ _ _ (shard_nodup _ _ Im) En) as P. apply Permutation_length in P. rewrite Er in P. cbn [length] in P, H.
  destruct (IH (Cbs (cb_map s) (cb_i s) (Some (fst e :: seen)) [] (cb_got s ++ [e]) (cb_wait s)) (fst e :: seen)) as [ls [Ho Hr]]; cbn; auto; [lia|].
  exists (QCall 0 :: ls). split; [constructor; [exact Logic.I|exact Ho]|]. cbn [cb_run fold_left cb_step]. rewrite E, C, Er. exact Hr.
Qed.
Lemma wake_all n : forall (s : cbs V), minv (cb_map s) -> cb_calls s = [] -> cb_seen s = None -> length (cb_wait s) = n ->
  exists ls, Forall nobody_else ls /\ let s' := cb_run quiet s ls in
    cb_calls s' = [] /\ cb_seen s' = None /\ cb_i s' = cb_i s /\ minv (cb_map s') /\ cb_wait s' = [].
Proof.
  induction n as [|n IH]; intros s Im C E H; destruct (cb_wait s) as [|o w] eqn:Ew; try discriminate.
  - exists []. split; [constructor|]. cbn. auto.
  - destruct (IH (Cbs (after (cb_map s) o) (cb_i s) (cb_seen s) (cb_calls s) (cb_got s) w)) as [ls [Ho Hr]]; cbn; auto; [now apply after_inv|].
    exists (QWake 0 :: ls). split; [constructor; [exact Logic.I|exact Ho]|]. cbn [cb_run fold_left cb_step]. rewrite Ew. cbn [nth_error remove_nth].
    assert (M : may (cb_map s) (cb_held s) o = true).
    { unfold may. destruct (writes o); [|reflexivity]. unfold cb_held. now rewrite E. }
    rewrite M. exact Hr.
Qed.
Lemma cb_finish n : forall (s : cbs V), minv (cb_map s) -> cb_calls s = [] -> shard_count - cb_i s <= n ->
  exists ls, Forall nobody_else ls /\ cb_end (cb_run quiet s ls) = true.
Proof.
  induction n as [|n IH]; intros s Im C H; destruct (cb_end s) eqn:Ee; try (exists []; split; [constructor|exact Ee]);
    unfold cb_end in Ee; apply Nat.leb_gt in Ee; [lia|].
  assert (L : exists ls, Forall nobody_else ls /\ let s' := cb_run quiet s ls in
    cb_calls s' = [] /\ (exists seen, cb_seen s' = Some seen) /\ cb_i s' = cb_i s /\ minv (cb_map s')).
  { destruct (cb_seen s) as [seen|] eqn:Es; [exists []; split; [constructor|]; cbn; eauto|].
    destruct (wake_all _ s Im C Es eq_refl) as [l1 [O1 [C1 [E1 [I1 [M1 W1]]]]]]. exists (l1 ++ [QLock]).
    split; [apply Forall_app; split; [exact O1|repeat constructor]|]. rewrite cb_run_app. cbn [cb_run fold_left cb_step]. fold (cb_run quiet s l1).
    rewrite E1, I1. unfold waited. rewrite W1. destruct (Nat.ltb_spec (cb_i s) shard_count); [|lia]. cbn. eauto. }
  destruct L as [l1 [O1 [C1 [[seen E1] [I1 M1]]]]]. destruct (read_shard _ _ seen M1 C1 E1 (Nat.le_refl _)) as [l2 [O2 [C2 [E2 [I2 M2]]]]].
  rewrite <- cb_run_app in *. destruct (IH (cb_run quiet s (l1 ++ l2)) M2 C2 ltac:(lia)) as [l3 [O3 R3]].
  exists ((l1 ++ l2) ++ l3). split; [rewrite !Forall_app; auto|]. rewrite cb_run_app. exact R3.
Qed.

(* A callback that writes to the shard it is called for. *)
Definition removing (k : key) (v : V) : list (mop V) := [MRemove k].
Definition stuck_inv (m : smap V) (s : cbs V) : Prop :=
  cb_map s = m /\ cb_wait s = [] /\ cb_i s <= shard_count /\
  ((cb_calls s = [] /\ (cb_seen s = None \/ (cb_seen s = Some [] /\ cb_i s < shard_count)) /\ forall j, j < cb_i s -> shard m j = []) \/
   (cb_i s < shard_count /\ exists k seen, cb_calls s = [MRemove k] /\ cb_seen s = Some seen /\ shard_of (sm_hash m) k = cb_i s)).
Lemma stuck_step m (s : cbs V) l : minv m -> nobody_else l -> stuck_inv m s -> stuck_inv m (cb_step removing s l).
Proof.
  intros Im O I. pose proof I as Same. destruct I as [Em [Ew [Ei [[C [S J]]|[Hi [k [seen [C [S K]]]]]]]]].
  - destruct l as [o|n| |n| |]; cbn [cb_step].
    + destruct O.
    + rewrite Ew. destruct n; exact Same.
    + destruct (cb_seen s) eqn:Es; [exact Same|]. destruct (Nat.ltb_spec (cb_i s) shard_count); cbn [andb]; [|exact Same].
      destruct (negb _); [|exact Same]. repeat split; auto. left. cbn. auto.
    + destruct S as [S|[S Hlt]]; rewrite S; [exact Same|]. rewrite C. destruct (nth_error (rest _ _) n) as [e|] eqn:En; [|exact Same].
      repeat split; auto. right. cbn. split; [exact Hlt|]. exists (fst e), [fst e]. split; [reflexivity|]. split; [reflexivity|].
      rewrite <- Em in *. apply shard_home; [exact Im|]. eapply rest_in, nth_error_In, En.
    + rewrite C. exact Same.
    + destruct S as [S|[S Hlt]]; rewrite S; [exact Same|]. rewrite C, rest_nil. destruct (shard (cb_map s) (cb_i s)) eqn:Eg; [|exact Same].
      repeat split; cbn; auto; try lia. left. split; [reflexivity|]. split; [now left|]. intros j Hj.
      destruct (Nat.eq_dec j (cb_i s)) as [->|]; [rewrite <- Em; exact Eg|apply J; lia].
  - destruct l as [o|n| |n| |]; cbn [cb_step].
    + destruct O.
    + rewrite Ew. destruct n; exact Same.
    + rewrite S. exact Same.
    + rewrite S, C. exact Same.
    + rewrite C. unfold cb_may, may. cbn [writes]. rewrite Em, K. unfold cb_held. rewrite S, Nat.eqb_refl. exact Same.
    + rewrite S, C. exact Same.
Qed.
Lemma stuck_run m ls : minv m -> forall s : cbs V, Forall nobody_else ls -> stuck_inv m s -> stuck_inv m (cb_run removing s ls).
Proof.
  intros Im. induction ls as [|l ls IH]; intros s H I; [exact I|]. inversion H; subst. cbn [cb_run fold_left]. apply IH; [assumption|]. now apply stuck_step.
Qed.
Lemma stuck_no_end m (s : cbs V) k : minv m -> sm_get m k <> None -> stuck_inv m s -> cb_end s = false.
Proof.
  intros Im Hk [_ [_ [_ [[_ [_ J]]|[Hi _]]]]]; unfold cb_end; apply Nat.leb_gt; [|exact Hi].
  destruct (Nat.lt_ge_cases (cb_i s) shard_count) as [|Hge]; [assumption|]. exfalso. apply Hk.
  unfold sm_get, get_shard. fold (shard m (shard_of (sm_hash m) k)). rewrite J; [reflexivity|]. pose proof (shard_of_lt (sm_hash m) k). lia.
Qed.

(* A callback that reads that shard while a writer waits for it. *)
Lemma get_stuck cb ls k : forall s : cbs V, cb_calls s = [MGet k] -> cb_held s (shard_of (sm_hash (cb_map s)) k) = true ->
  waited s (shard_of (sm_hash (cb_map s)) k) = true -> cb_end (cb_run cb s ls) = false.
Proof.
  induction ls as [|l ls IH]; intros s C H W.
  - cbn [cb_run fold_left]. unfold cb_end. apply Nat.leb_gt. unfold cb_held in H. destruct (cb_seen s); [|discriminate]. apply Nat.eqb_eq in H. rewrite <- H. apply shard_of_lt.
  - cbn [cb_run fold_left]. assert (Hs : exists seen, cb_seen s = Some seen).
    { unfold cb_held in H. destruct (cb_seen s); [eauto|discriminate]. }
    destruct Hs as [seen Hs].
    assert (G : cb_calls (cb_step cb s l) = [MGet k] /\ cb_seen (cb_step cb s l) = Some seen /\ cb_i (cb_step cb s l) = cb_i s /\
                sm_hash (cb_map (cb_step cb s l)) = sm_hash (cb_map s) /\ waited (cb_step cb s l) (shard_of (sm_hash (cb_map s)) k) = true).
    { destruct l as [o|n| |n| |]; cbn [cb_step]; try (rewrite ?Hs, ?C; now auto).
      - destruct (may (cb_map s) (cb_held s) o) eqn:M; cbn; rewrite ?after_hash; repeat split; auto.
        unfold waited in *. cbn. rewrite existsb_app, W. reflexivity.
      - destruct (nth_error (cb_wait s) n) as [o|] eqn:En; [|now auto].
        destruct (may (cb_map s) (cb_held s) o) eqn:M; [|now auto]. cbn. rewrite ?after_hash; repeat split; auto.
        unfold waited in *. cbn. rewrite ?after_hash. apply existsb_exists in W as [o' [Hin W]]. apply existsb_exists. exists o'. split; [|exact W].
        assert (No : o' <> o).
        { intros ->. unfold may in M. destruct (writes o); [|discriminate]. apply Nat.eqb_eq in W. rewrite W, H in M. discriminate. }
        clear - Hin No En. revert n En. induction (cb_wait s) as [|x w IHw]; intros [|n] En; cbn in *; try contradiction.
        + injection En as ->. destruct Hin; [congruence|assumption].
        + destruct Hin; [left; assumption|right; eauto].
      - rewrite C. unfold cb_may. cbn [reads]. rewrite W, andb_false_r. auto. }
    destruct G as [G1 [G2 [G3 [G4 G5]]]]. apply IH; [exact G1| |rewrite G4; exact G5].
    unfold cb_held in *. rewrite G2, G3, G4. rewrite Hs in H. exact H.
Qed.
End P.

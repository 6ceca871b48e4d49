(* Proofs for C98: several iterations can always finish, if callbacks leave the map alone. *)
From Coq Require Import ZArith List Bool Arith Lia Permutation.
From Verif Require Import Bytes GoSlice ShardMap Spec_Map ShardMap_proofs ShardIter Spec_ShardIter ShardIter_proofs ShardIter2_proofs ShardIter3_proofs ShardIter4_proofs ShardMany Spec_ShardMany ShardMany_proofs.
Import ListNotations.

Section P.
Context {V : Type}.
(* What an iteration still has to do. *)
Fixpoint tail_w (m : smap V) (n i : nat) : nat := match n with 0 => 0 | S n' => length (shard m i) + 2 + tail_w m n' (S i) end.
Definition p_todo (p : part V) : nat :=
  match p with
  | PItems s => 2 * todo s + length (ir_out s) + (if ir_end s then 0 else 1)
  | PKeys s => ktodo s
  | PCount s => shard_count - ct_i s
  | PCb _ s _ => match cb_seen s with
                 | None => tail_w (cb_map s) (shard_count - cb_i s) (cb_i s)
                 | Some seen => length (rest (shard (cb_map s) (cb_i s)) seen) + 1 + tail_w (cb_map s) (shard_count - S (cb_i s)) (S (cb_i s))
                 end
  end.
Definition all_todo (s : many V) : nat := list_sum (map p_todo (mn_parts s)).
Lemma put_todo s j p p' : nth_error (mn_parts s) j = Some p -> p_todo p' < p_todo p -> all_todo (put_part s j p') < all_todo s.
Proof.
  unfold all_todo. cbn [put_part mn_parts]. generalize (mn_parts s). intros l. revert j. induction l as [|a l IH]; intros [|j] E H; try discriminate; cbn [set_nth map list_sum fold_right nth_error] in *; unfold list_sum in *; cbn.
  - injection E as ->. lia.
  - specialize (IH j E H). lia.
Qed.

(* Beyond pinv: Keys locks only after counting, quiet callbacks have no calls, locks are for shards there are. *)
Definition pquiet (p : part V) : Prop :=
  match p with
  | PKeys s => (exists l, In l (ks_lanes s) /\ l <> FStart) -> shard_count <= ks_i s
  | PCb cb s _ => (forall k v, cb k v = []) /\ cb_calls s = [] /\ cb_wait s = []
  | _ => True
  end.
Lemma keys_quiet s l : pquiet (PKeys s) -> pquiet (PKeys (keys_step s l)).
Proof.
  cbn [pquiet]. intros Q.
  assert (G : forall i x p, nth_error (ks_lanes s) i = Some x -> x <> FStart -> (exists l0, In l0 (set_nth i p (ks_lanes s)) /\ l0 <> FStart) -> shard_count <= ks_i s).
  { intros i x p E N _. apply Q. exists x. split; [eapply nth_error_In; eauto|exact N]. }
  destruct l as [o| |i|i n|i n|i| |]; cbn [keys_step].
  - destruct (may _ _ o); exact Q.
  - destruct (Nat.leb_spec shard_count (ks_i s)); [exact Q|]. cbn [ks_lanes ks_i]. intros H'. specialize (Q H'). lia.
  - destruct (nth_error (ks_lanes s) i) as [[|seen|]|] eqn:E; try exact Q. destruct (Nat.leb_spec shard_count (ks_i s)); [|exact Q]. cbn. auto.
  - destruct (nth_error (ks_lanes s) i) as [[|seen|]|] eqn:E; try exact Q. destruct (nth_error _ n); [|exact Q]. destruct (_ <? _); [|exact Q]. cbn [ks_lanes ks_i]. now apply (G i (FFill seen)).
  - destruct (nth_error (ks_lanes s) i) as [[|seen|]|] eqn:E; try exact Q. destruct (ks_out s); [|exact Q]. destruct (nth_error _ n); [|exact Q]. cbn [ks_lanes ks_i]. now apply (G i (FFill seen)).
  - destruct (nth_error (ks_lanes s) i) as [[|seen|]|] eqn:E; try exact Q. destruct (rest _ _); [|exact Q]. cbn [ks_lanes ks_i kw_lane]. now apply (G i (FFill seen)).
  - destruct (forallb _ _); exact Q.
  - destruct (ks_out s); [|exact Q]. destruct (ks_closed s); exact Q.
Qed.
Lemma cb_quiet cb s w w' l : pquiet (PCb cb s w) -> (match l with QLock | QCall _ | QUnlock => True | _ => False end) -> pquiet (PCb cb (cb_step cb s l) w').
Proof.
  cbn [pquiet]. intros (A & B & C) H. destruct l as [o|n| |n| |]; try contradiction; cbn [cb_step].
  - destruct (cb_seen s); [auto|]. destruct (_ && _); auto.
  - destruct (cb_seen s); [|auto]. rewrite B. destruct (nth_error _ n); cbn; auto.
  - destruct (cb_seen s); [|auto]. rewrite B. destruct (rest _ _); cbn; auto.
Qed.
Lemma on_map_quiet m p : pquiet p -> pquiet (on_map m p). Proof. destruct p; cbn; auto. Qed.
Definition quietm (s : many V) : Prop := forall p, In p (mn_parts s) -> pquiet p.
Lemma quiet_step s lb : quiet_label lb -> quietm s -> quietm (many_step s lb).
Proof.
  intros L Q. assert (Set_ : forall j p', pquiet p' -> quietm (put_part s j p')).
  { intros j p' H q Hq. cbn [put_part mn_parts] in Hq. apply in_set in Hq as [->|Hq]; auto. }
  assert (Aft : forall o w, quietm (m_after s o w)).
  { intros o w q Hq. cbn [m_after mn_parts] in Hq. apply in_map_iff in Hq as (q' & <- & Hq). apply on_map_quiet. auto. }
  destruct lb as [k|o|n|j l|j l|j|j l|j]; cbn [many_step].
  - intros q Hq. cbn [mn_parts] in Hq. apply in_app_or in Hq as [Hq|[<-|[]]]; [auto|]. destruct k; cbn [begin pquiet]; auto.
    cbn. intros (l & Hl & N). repeat (destruct Hl as [<-|Hl]; [congruence|]). destruct Hl.
  - destruct (may _ _ o); auto.
  - destruct (nth_error (mn_wait s) n) as [o|]; [|exact Q]. destruct (may _ _ o); auto.
  - destruct (nth_error (mn_parts s) j) as [[p|p|p|cb p w]|] eqn:E; try exact Q. destruct l; try (apply Set_; exact I); [exact Q|]. destruct (m_waited s i); [exact Q|]. now apply Set_.
  - destruct (nth_error (mn_parts s) j) as [[p|p|p|cb p w]|] eqn:E; try exact Q. pose proof (Q _ (nth_error_In _ _ E)) as Qp.
    destruct l; try exact Q; try (destruct (m_waited s _); [exact Q|]); apply Set_; now apply keys_quiet.
  - destruct (nth_error (mn_parts s) j) as [[p|p|p|cb p w]|] eqn:E; try exact Q. destruct (m_waited s _); [exact Q|]. now apply Set_.
  - destruct (nth_error (mn_parts s) j) as [[p|p|p|cb p w]|] eqn:E; try exact Q. pose proof (Q _ (nth_error_In _ _ E)) as Qp.
    destruct l; try exact Q; try (destruct (m_waited s _); [exact Q|]); try (apply Set_; now apply (cb_quiet cb p w)).
    destruct Qp as (_ & B & _). rewrite B. exact Q.
  - destruct (nth_error (mn_parts s) j) as [[p|p|p|cb p w]|] eqn:E; try exact Q. pose proof (Q _ (nth_error_In _ _ E)) as (_ & B & _). rewrite B. exact Q.
Qed.

(* A part that holds a lock can go on without taking one. *)
Lemma items_held h past s i : iinv h past s -> held (ir_lanes s) i = true -> exists l, (match l with ISend _ _ | IUnlock _ => True | _ => False end) /\ p_todo (PItems (iter_step s l)) < p_todo (PItems s).
Proof.
  intros I H. unfold held in H. destruct (nth_error (ir_lanes s) i) as [[[|seen|] cap ch f]|] eqn:E; try discriminate.
  pose proof (nth_lt _ _ _ E) as Hi. pose proof (ii_len _ _ _ I) as Len. destruct (ii_past _ _ _ I _ (ii_now _ _ _ I)) as [Im Eh].
  pose proof (ii_lane _ _ _ I _ _ E) as L. unfold lane_ok in L. cbn [ln_pc ln_cap ln_ch ln_fan] in L.
  destruct (rest (shard (ir_map s) i) seen) as [|e r] eqn:Er.
  - exists (IUnlock i). split; [exact Logic.I|]. cbn [iter_step]. rewrite E, Er.
    assert (T : todo (iw_lane s i (Lane FEnd cap ch f)) < todo s). { eapply (todo_lane _ _ i _ _ Hi Len E); try reflexivity. unfold lane_w. cbn [ln_pc ln_ch ln_fan]. destruct f; cbn; lia. }
    change (p_todo (PItems (iw_lane s i (Lane FEnd cap ch f)))) with (2 * todo (iw_lane s i (Lane FEnd cap ch f)) + length (ir_out s) + (if ir_end s then 0 else 1)).
    unfold p_todo. lia.
  - exists (ISend i 0). split; [exact Logic.I|]. cbn [iter_step]. rewrite E, Er. cbn [nth_error].
    destruct L as [Hc [Hf P]]. apply Permutation_length in P. rewrite app_length in P. cbn in P. rewrite app_length in P.
    destruct (Nat.ltb_spec (length ch) cap); [|lia].
    assert (T : todo (iw_lane s i (Lane (FFill (fst e :: seen)) cap (ch ++ [e]) f)) < todo s).
    { eapply (todo_lane _ _ i _ _ Hi Len E); try reflexivity.
      unfold lane_w. cbn [ln_pc ln_ch ln_fan]. rewrite app_length. cbn [length].
      assert (En : nth_error (rest (shard (ir_map s) i) seen) 0 = Some e) by (rewrite Er; reflexivity).
      pose proof (rest_take _ _ _ _ (shard_nodup _ i Im) En) as P2. apply Permutation_length in P2. cbn in P2. lia. }
    change (p_todo (PItems (iw_lane s i (Lane (FFill (fst e :: seen)) cap (ch ++ [e]) f)))) with (2 * todo (iw_lane s i (Lane (FFill (fst e :: seen)) cap (ch ++ [e]) f)) + length (ir_out s) + (if ir_end s then 0 else 1)).
    unfold p_todo. lia.
Qed.
Lemma items_own h past s : iinv h past s -> ir_end s = false -> exists l, (match l with IOther _ => False | _ => True end) /\ p_todo (PItems (iter_step s l)) < p_todo (PItems s).
Proof.
  intros I Ee. destruct (ir_closed s) eqn:C.
  - exists INext. split; [exact Logic.I|]. cbn [iter_step]. destruct (ir_total s) as [t|] eqn:T.
    2: { destruct (ii_none _ _ _ I T) as [_ [_ [Q _]]]. congruence. }
    destruct (ir_out s) as [|e o] eqn:Eo; [rewrite C|]; cbn [p_todo ir_out ir_end]; rewrite Ee, Eo; unfold todo; cbn [ir_lanes ir_map ir_total ir_closed]; rewrite ?T, ?C; cbn [length]; lia.
  - destruct (own_step _ _ _ I C) as (l & O & D). exists l. split; [now destruct l|]. cbn [p_todo].
    assert (B : length (ir_out (iter_step s l)) <= S (length (ir_out s)) /\ ir_end (iter_step s l) = ir_end s).
    { destruct l as [o|i|i n|i| |i|i|i| |]; try contradiction; cbn [iter_step].
      - destruct (nth_error _ i) as [[[] ? ? ?]|]; cbn [iw_lane ir_out ir_end]; auto.
      - destruct (nth_error _ i) as [[[] ? ? ?]|]; cbn [iw_lane ir_out ir_end]; auto. destruct (nth_error _ n); auto. destruct (_ <? _); cbn [iw_lane ir_out ir_end]; auto.
      - destruct (nth_error _ i) as [[[] ? ? ?]|]; cbn [iw_lane ir_out ir_end]; auto. destruct (rest _ _); cbn [iw_lane ir_out ir_end]; auto.
      - destruct (ir_total s); auto. destruct (forallb _ _); cbn [iw_lane ir_out ir_end]; auto.
      - destruct (ir_total s); auto. destruct (nth_error _ i) as [[? ? [|e ch] []]|]; cbn [iw_lane ir_out ir_end]; auto.
      - destruct (ir_total s); auto. destruct (nth_error _ i) as [[? ? ? []]|]; cbn [iw_lane ir_out ir_end]; auto. destruct (_ <? _); cbn [iw_lane ir_out ir_end]; auto. cbn [iw_out iw_lane ir_out ir_end]. rewrite app_length. cbn. split; [lia|reflexivity].
      - destruct (ir_total s); auto. destruct (nth_error _ i) as [[[] ? [|] []]|]; cbn [iw_lane ir_out ir_end]; auto.
      - destruct (ir_total s); auto. destruct (forallb _ _); cbn [iw_lane ir_out ir_end]; auto. }
    destruct B as (B1 & B2). rewrite B2. lia.
Qed.
Lemma keys_held h past s i : kinv h past s -> pquiet (PKeys s) -> kheld (ks_lanes s) i = true ->
  exists l, (match l with KNext | KPass _ _ | KUnlock _ => True | _ => False end) /\ ktodo (keys_step s l) < ktodo s.
Proof.
  intros I Q H. unfold kheld in H. destruct (nth_error (ks_lanes s) i) as [[|seen|]|] eqn:E; try discriminate.
  destruct (ki_past _ _ _ I _ (ki_now _ _ _ I)) as [Im Eh]. pose proof (ki_len _ _ _ I) as Len.
  destruct (ks_out s) as [|k o] eqn:Eo.
  2:{ exists KNext. split; [exact Logic.I|]. cbn [keys_step]. rewrite Eo. unfold ktodo, kbase. cbn [ks_map ks_i ks_lanes ks_out ks_closed ks_end]. rewrite Eo. cbn. lia. }
  destruct (rest (shard (ks_map s) i) seen) as [|e r] eqn:Er.
  - exists (KUnlock i). split; [exact Logic.I|]. cbn [keys_step]. rewrite E, Er. eapply (ktodo_lane _ _ i _ _ Len E); try reflexivity. unfold klane_w. lia.
  - exists (KPass i 0). split; [exact Logic.I|]. cbn [keys_step]. rewrite E, Eo, Er. cbn [nth_error].
    apply (ktodo_lane s _ i _ (FFill (fst e :: seen)) Len E); try reflexivity.
    + unfold kbase. cbn. now rewrite Eo.
    + unfold klane_w. assert (En : nth_error (rest (shard (ks_map s) i) seen) 0 = Some e) by (rewrite Er; reflexivity).
      pose proof (rest_take _ _ _ _ (shard_nodup _ i Im) En) as P2. apply Permutation_length in P2. cbn [length] in P2. lia.
Qed.
Lemma cb_held_step cb s w seen : minv (cb_map s) -> pquiet (PCb cb s w) -> cb_seen s = Some seen ->
  exists l, (match l with QCall _ | QUnlock => True | _ => False end) /\ p_todo (PCb cb (cb_step cb s l) w) < p_todo (PCb cb s w).
Proof.
  intros Im (A & B & C) E. destruct (rest (shard (cb_map s) (cb_i s)) seen) as [|e r] eqn:Er.
  - exists QUnlock. split; [exact I|]. cbn [cb_step]. rewrite E, B, Er. cbn [p_todo cb_seen cb_map cb_i]. rewrite E, Er. cbn [length]. lia.
  - exists (QCall 0). split; [exact I|]. cbn [cb_step]. rewrite E, B, Er. cbn [nth_error p_todo cb_seen cb_map cb_i]. rewrite E.
    assert (En : nth_error (rest (shard (cb_map s) (cb_i s)) seen) 0 = Some e) by (rewrite Er; reflexivity).
    pose proof (rest_take _ _ _ _ (shard_nodup _ _ Im) En) as P2. apply Permutation_length in P2. cbn [length] in P2. lia.
Qed.

(* The state of every reachable system. *)
Definition ginv (s : many V) : Prop := sync s /\ quietm s /\ minv (mn_map s) /\ forall p, In p (mn_parts s) -> exists h past, pinv h past p.
Lemma ginv_step s lb : quiet_label lb -> ginv s -> ginv (many_step s lb).
Proof.
  intros L (S & Q & M & P). split; [now apply sync_step|]. split; [now apply quiet_step|]. split; [now apply step_minv|]. intros q Hq.
  apply In_nth_error in Hq as (j & Ej). destruct (nth_error (mn_parts s) j) as [p|] eqn:E.
  - destruct (P p (nth_error_In _ _ E)) as (h & past & I). destruct (part_step s lb j p h past S E I) as (p' & E' & I' & _). rewrite Ej in E'. injection E' as <-. eauto.
  - (* new *)
    destruct (step_moved s lb) as [i q0 q' Eq Ep Em K Iq Mq|o parts Mo Em Ep H Ln|k Ep Em|Ep Em]; rewrite Ep in Ej.
    + apply nth_set_or in Ej as [(-> & ->)|Ej]; congruence.
    + rewrite nth_error_map in Ej. destruct (nth_error parts j) as [x|] eqn:Ex; [|discriminate]. destruct (H _ _ Ex) as (p0 & E0 & _). congruence.
    + apply nth_error_None in E. rewrite nth_error_app2 in Ej by exact E. destruct (j - length (mn_parts s)) as [|[|]]; cbn in Ej; try discriminate. injection Ej as <-. exists (sm_hash (mn_map s)), [mn_map s]. now apply begin_inv.
    + congruence.
Qed.
Lemma not_waited s i : quietm s -> mn_wait s = [] -> m_waited s i = false.
Proof.
  intros Q W. unfold m_waited. rewrite W. cbn [existsb orb]. destruct (existsb _ (mn_parts s)) eqn:E; [|reflexivity]. apply existsb_exists in E as (p & Hp & F). pose proof (Q p Hp) as Qp. destruct p as [?|?|?|cb c [|]]; try discriminate. destruct Qp as (_ & B & _). now rewrite B in F.
Qed.
Lemma progress s : ginv s -> (all_over s) \/ exists lb, no_new lb /\ quiet_label lb /\
  (length (mn_wait (many_step s lb)) < length (mn_wait s) \/ (mn_wait (many_step s lb) = mn_wait s /\ all_todo (many_step s lb) < all_todo s)).
Proof.
  intros (Sy & Q & M & P). destruct (mn_wait s) as [|o0 w0] eqn:W.
  - (* nobody waits *)
    destruct (forallb p_end (mn_parts s)) eqn:F.
    { left. split; [exact W|]. now apply forallb_forall. }
    right. destruct (forallb_false _ _ F) as (j & p & E & Ee). destruct (P p (nth_error_In _ _ E)) as (h & past & I).
    assert (NW : forall i, m_waited s i = false) by (intros i; now apply not_waited).
    destruct p as [c|c|c|cb c w]; cbn [pinv p_end] in *.
    + destruct (items_own _ _ _ I Ee) as (l & O & D). exists (MItems j l). split; [exact Logic.I|]. split; [exact Logic.I|]. right.
      assert (X : many_step s (MItems j l) = put_part s j (PItems (iter_step c l))) by (cbn [many_step]; rewrite E; destruct l; try reflexivity; [contradiction|now rewrite NW]).
      rewrite X. split; [exact W|]. now apply (put_todo s j (PItems c)).
    + destruct (kown_step _ _ _ I Ee) as (l & O & D). exists (MKeys j l). split; [exact Logic.I|]. split; [exact Logic.I|]. right.
      assert (X : many_step s (MKeys j l) = put_part s j (PKeys (keys_step c l))) by (cbn [many_step]; rewrite E; destruct l; try reflexivity; [contradiction|now rewrite NW|now rewrite NW]).
      rewrite X. split; [exact W|]. now apply (put_todo s j (PKeys c)).
    + exists (MCount j). split; [exact Logic.I|]. split; [exact Logic.I|]. right. cbn [many_step]. rewrite E, NW. split; [exact W|]. apply (put_todo s j (PCount c)); [exact E|].
      unfold count_end in Ee. apply Nat.leb_gt in Ee. cbn [count_step]. replace (ct_i c <? shard_count) with true by (symmetry; now apply Nat.ltb_lt). cbn [p_todo ct_i]. lia.
    + pose proof (Q _ (nth_error_In _ _ E)) as Qp. unfold cb_end in Ee. apply Nat.leb_gt in Ee. destruct (cb_seen c) as [seen|] eqn:Es.
      * destruct (cb_held_step cb c w seen) as (l & O & D); auto. { apply (bi_past _ _ _ I), (bi_now _ _ _ I). }
        exists (MCb j l). split; [exact Logic.I|]. split; [exact Logic.I|]. right.
        assert (X : many_step s (MCb j l) = put_part s j (PCb cb (cb_step cb c l) w)) by (cbn [many_step]; rewrite E; destruct l; try reflexivity; contradiction).
        rewrite X. split; [exact W|]. now apply (put_todo s j (PCb cb c w)).
      * exists (MCb j QLock). split; [exact Logic.I|]. split; [exact Logic.I|]. right. cbn [many_step]. rewrite E, NW. split; [exact W|]. apply (put_todo s j (PCb cb c w)); [exact E|].
        cbn [cb_step]. rewrite Es. replace (cb_i c <? shard_count) with true by (symmetry; now apply Nat.ltb_lt). assert (Wc : waited c (cb_i c) = false) by (unfold waited; destruct Qp as (_ & _ & ->); reflexivity).
        rewrite Wc. cbn [andb negb p_todo cb_seen cb_map cb_i]. rewrite Es, rest_nil. replace (shard_count - cb_i c) with (S (shard_count - S (cb_i c))) by lia. cbn [tail_w]. lia.
  - right. destruct (may (mn_map s) (m_held s) o0) eqn:Mo.
    + exists (MWake 0). split; [exact Logic.I|]. split; [exact Logic.I|]. left. cbn [many_step]. rewrite W. cbn [nth_error]. rewrite Mo. cbn. lia.
    + (* somebody holds the lock it waits for *)
      unfold may in Mo. destruct (writes o0) as [k|]; [|discriminate]. apply negb_false_iff in Mo. unfold m_held in Mo. apply existsb_exists in Mo as (p & Hp & Hh).
      destruct (In_nth_error _ _ Hp) as (j & E). destruct (P p Hp) as (h & past & I). pose proof (Q p Hp) as Qp. set (i := shard_of (sm_hash (mn_map s)) k) in *.
      destruct p as [c|c|c|cb c w]; cbn [pinv p_held] in *; [| |discriminate|].
      * destruct (items_held _ _ _ _ I Hh) as (l & O & D). exists (MItems j l). split; [exact Logic.I|]. split; [exact Logic.I|]. right.
        assert (X : many_step s (MItems j l) = put_part s j (PItems (iter_step c l))) by (cbn [many_step]; rewrite E; destruct l; try reflexivity; contradiction).
        rewrite X. split; [exact W|]. now apply (put_todo s j (PItems c)).
      * destruct (keys_held _ _ _ _ I Qp Hh) as (l & O & D). exists (MKeys j l). split; [exact Logic.I|]. split; [exact Logic.I|]. right.
        assert (X : many_step s (MKeys j l) = put_part s j (PKeys (keys_step c l))) by (cbn [many_step]; rewrite E; destruct l; try reflexivity; contradiction).
        rewrite X. split; [exact W|]. now apply (put_todo s j (PKeys c)).
      * unfold cb_held in Hh. destruct (cb_seen c) as [seen|] eqn:Es; [|discriminate].
        destruct (cb_held_step cb c w seen) as (l & O & D); auto. { apply (bi_past _ _ _ I), (bi_now _ _ _ I). }
        exists (MCb j l). split; [exact Logic.I|]. split; [exact Logic.I|]. right.
        assert (X : many_step s (MCb j l) = put_part s j (PCb cb (cb_step cb c l) w)) by (cbn [many_step]; rewrite E; destruct l; try reflexivity; contradiction).
        rewrite X. split; [exact W|]. now apply (put_todo s j (PCb cb c w)).
Qed.

Lemma finish s : ginv s -> exists more, Forall no_new more /\ all_over (many_run s more).
Proof.
  remember (length (mn_wait s)) as n eqn:En. remember (all_todo s) as t eqn:Et. revert t s En Et.
  induction n as [n IHn] using lt_wf_ind. induction t as [t IHt] using lt_wf_ind. intros s En Et G.
  destruct (progress s G) as [O|(lb & N & L & D)].
  - exists []. split; [constructor|exact O].
  - pose proof (ginv_step s lb L G) as G'.
    assert (exists more, Forall no_new more /\ all_over (many_run (many_step s lb) more)) as (more & F & O).
    { destruct D as [D|(D1 & D2)].
      - eapply (IHn (length (mn_wait (many_step s lb)))); [lia|reflexivity|reflexivity|exact G'].
      - eapply (IHt (all_todo (many_step s lb))); [lia|congruence|reflexivity|exact G']. }
    exists (lb :: more). split; [constructor; assumption|exact O].
Qed.
Lemma ginv_run ls : forall s, Forall quiet_label ls -> ginv s -> ginv (many_run s ls).
Proof. induction ls as [|l ls IH]; intros s F G; [exact G|]. inversion F; subst. apply IH; [assumption|]. now apply ginv_step. Qed.
Lemma ginv_start (m : smap V) : minv m -> ginv (Many m [] []).
Proof. intros M. split; [intros p []|]. split; [intros p []|]. split; [exact M|intros p []]. Qed.
End P.

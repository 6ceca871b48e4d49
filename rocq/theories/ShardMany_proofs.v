(* Proofs for C98: each of several iterations is one of ShardIter.v. *)
From Coq Require Import ZArith List Bool Arith Lia Permutation.
From Verif Require Import Bytes GoSlice ShardMap Spec_Map ShardMap_proofs ShardIter Spec_ShardIter ShardIter_proofs ShardIter2_proofs ShardIter3_proofs ShardIter4_proofs ShardMany Spec_ShardMany.
Import ListNotations.

Section P.
Context {V : Type}.
Definition p_map (p : part V) : smap V := match p with PItems s => ir_map s | PKeys s => ks_map s | PCount s => ct_map s | PCb _ s _ => cb_map s end.
Definition pinv (h : key -> Z) (past : list (smap V)) (p : part V) : Prop :=
  match p with PItems s => iinv h past s | PKeys s => kinv h past s | PCount s => exists l, ctinv h past s l | PCb _ s _ => cinv h past s end.
Lemma count_same h past (s : count V) l : ctinv h past s l -> ctinv h (past ++ [ct_map s]) s l.
Proof.
  intros [A B C D E]. split; auto.
  - apply in_or_app; now left.
  - intros m Hin. apply in_app_or in Hin as [Hin|[<-|[]]]; auto.
  - intros i Hi. destruct (D i Hi) as (m & Hm & P). exists m. split; [apply in_or_app; now left|exact P].
Qed.
Lemma pinv_same h past p : pinv h past p -> pinv h (past ++ [p_map p]) p.
Proof.
  destruct p; cbn; intros I.
  - now apply iinv_same.
  - now apply kinv_same.
  - destruct I as (l & I). exists l. now apply count_same.
  - now apply (cinv_keep _ _ s).
Qed.
Lemma pinv_minv h past p : pinv h past p -> minv (p_map p) /\ sm_hash (p_map p) = h.
Proof.
  destruct p; cbn; intros I.
  - apply (ii_past _ _ _ I), (ii_now _ _ _ I).
  - apply (ki_past _ _ _ I), (ki_now _ _ _ I).
  - destruct I as (l & I). apply (ci_past _ _ _ _ I), (ci_now _ _ _ _ I).
  - apply (bi_past _ _ _ I), (bi_now _ _ _ I).
Qed.
Lemma on_other h past p o : pinv h past p -> may (p_map p) (p_held p) o = true -> pinv h (past ++ [after (p_map p) o]) (on_map (after (p_map p) o) p).
Proof.
  destruct p as [s|s|s|cb s w]; cbn [p_map p_held on_map pinv]; intros I M.
  - pose proof (iter_step_inv h past s (IOther o) I) as Q. cbn [iter_step] in Q. change (p_held (PItems s)) with (held (ir_lanes s)) in M. rewrite M in Q. exact Q.
  - pose proof (keys_step_inv h past s (KOther o) I) as Q. cbn [keys_step] in Q. change (p_held (PKeys s)) with (kheld (ks_lanes s)) in M. rewrite M in Q. exact Q.
  - destruct I as (l & I). destruct (count_step_inv h past s l (CtOther o) I) as (l' & Q). exists l'. exact Q.
  - exact (cinv_map h past s o (Cbs (after (cb_map s) o) (cb_i s) (cb_seen s) (cb_calls s) (cb_got s) (cb_wait s)) I M eq_refl eq_refl eq_refl eq_refl).
Qed.
Lemma on_map_map m (p : part V) : p_map (on_map m p) = m. Proof. now destruct p. Qed.
Lemma may_one (s : many V) p o : In p (mn_parts s) -> p_map p = mn_map s -> may (mn_map s) (m_held s) o = true -> may (p_map p) (p_held p) o = true.
Proof.
  intros Hin -> M. unfold may in *. destruct (writes o) as [k|]; [|reflexivity]. apply negb_true_iff in M. apply negb_true_iff.
  destruct (p_held p _) eqn:E; [|reflexivity]. exfalso. unfold m_held in M. rewrite <- not_true_iff_false in M. apply M. apply existsb_exists. eauto.
Qed.

(* All copies agree. *)
Definition sync (s : many V) : Prop := forall p, In p (mn_parts s) -> p_map p = mn_map s.
Lemma iter_map (s : iter V) l : (match l with IOther _ => False | _ => True end) -> ir_map (iter_step s l) = ir_map s.
Proof.
  destruct l as [o|i|i n|i| |i|i|i| |]; cbn [iter_step]; intros H; try contradiction.
  - destruct (nth_error _ i) as [[[] ? ? ?]|]; reflexivity.
  - destruct (nth_error _ i) as [[[] ? ? ?]|]; try reflexivity. destruct (nth_error _ n); [|reflexivity]. destruct (_ <? _); reflexivity.
  - destruct (nth_error _ i) as [[[] ? ? ?]|]; try reflexivity. destruct (rest _ _); reflexivity.
  - destruct (ir_total s); [reflexivity|]. destruct (forallb _ _); reflexivity.
  - destruct (ir_total s); [|reflexivity]. destruct (nth_error _ i) as [[? ? [|e ch] []]|]; reflexivity.
  - destruct (ir_total s); [|reflexivity]. destruct (nth_error _ i) as [[? ? ? []]|]; try reflexivity. destruct (_ <? _); reflexivity.
  - destruct (ir_total s); [|reflexivity]. destruct (nth_error _ i) as [[[] ? [|] []]|]; reflexivity.
  - destruct (ir_total s); [|reflexivity]. destruct (forallb _ _); reflexivity.
  - destruct (ir_total s); [|reflexivity]. destruct (ir_out s); [|reflexivity]. destruct (ir_closed s); reflexivity.
Qed.
Lemma keys_map (s : keys V) l : (match l with KOther _ => False | _ => True end) -> ks_map (keys_step s l) = ks_map s.
Proof.
  destruct l as [o| |i|i n|i n|i| |]; cbn [keys_step]; intros H; try contradiction.
  - destruct (_ <=? _); reflexivity.
  - destruct (nth_error _ i) as [[]|]; try reflexivity. destruct (_ <=? _); reflexivity.
  - destruct (nth_error _ i) as [[]|]; try reflexivity. destruct (nth_error _ n); [|reflexivity]. destruct (_ <? _); reflexivity.
  - destruct (nth_error _ i) as [[]|]; try reflexivity. destruct (ks_out s); [|reflexivity]. destruct (nth_error _ n); reflexivity.
  - destruct (nth_error _ i) as [[]|]; try reflexivity. destruct (rest _ _); reflexivity.
  - destruct (forallb _ _); reflexivity.
  - destruct (ks_out s); [|reflexivity]. destruct (ks_closed s); reflexivity.
Qed.
Lemma count_map (s : count V) : ct_map (count_step s CtNext) = ct_map s.
Proof. cbn [count_step]. destruct (ct_i s <? shard_count); reflexivity. Qed.
Lemma cb_map_own cb (s : cbs V) l : (match l with QLock | QCall _ | QUnlock => True | _ => False end) -> cb_map (cb_step cb s l) = cb_map s.
Proof.
  destruct l as [o|n| |n| |]; cbn [cb_step]; intros H; try contradiction.
  - destruct (cb_seen s); [reflexivity|]. destruct (_ && _); reflexivity.
  - destruct (cb_seen s); [|reflexivity]. destruct (cb_calls s); [|reflexivity]. destruct (nth_error _ n); reflexivity.
  - destruct (cb_seen s); [|reflexivity]. destruct (cb_calls s); [|reflexivity]. destruct (rest _ _); reflexivity.
Qed.

Lemma nth_set_or {A} j (x : A) l i y : nth_error (set_nth j x l) i = Some y -> (i = j /\ y = x) \/ nth_error l i = Some y.
Proof. revert j i. induction l as [|a l IH]; intros [|j] [|i] H; cbn in *; auto; try discriminate. - injection H as <-. auto. - destruct (IH _ _ H) as [(-> & ->)|]; auto. Qed.
Lemma in_set {A} j (x : A) l y : In y (set_nth j x l) -> y = x \/ In y l.
Proof. intros H. apply In_nth_error in H as (i & H). apply nth_set_or in H as [(_ & ->)|H]; [now left|right; eapply nth_error_In; eauto]. Qed.
Lemma nth_set_get {A} j (x : A) l y i : nth_error l j = Some y -> nth_error (set_nth j x l) i = if i =? j then Some x else nth_error l i.
Proof. intros H. apply nth_error_set. apply nth_error_Some. congruence. Qed.

(* What a step does to the parts: itself a single-part step, or the carrying out of a call. *)
Inductive moved (s s' : many V) : Prop :=
| mv_part j p p' : nth_error (mn_parts s) j = Some p -> mn_parts s' = set_nth j p' (mn_parts s) -> mn_map s' = mn_map s ->
    (forall k, kind_of k p -> kind_of k p') -> (forall h past, pinv h past p -> pinv h (past ++ [p_map p']) p') -> p_map p' = p_map p -> moved s s'
| mv_call o parts : may (mn_map s) (m_held s) o = true -> mn_map s' = after (mn_map s) o -> mn_parts s' = map (on_map (mn_map s')) parts ->
    (forall i p', nth_error parts i = Some p' -> exists p, nth_error (mn_parts s) i = Some p /\ p_map p' = p_map p /\ (forall k, kind_of k p -> kind_of k p') /\
      (forall x, p_held p' x = p_held p x) /\ (forall h past, pinv h past p -> pinv h past p')) ->
    length parts = length (mn_parts s) -> moved s s'
| mv_new k : mn_parts s' = mn_parts s ++ [begin (mn_map s) k] -> mn_map s' = mn_map s -> moved s s'
| mv_none : mn_parts s' = mn_parts s -> mn_map s' = mn_map s -> moved s s'.

Lemma call_same (s : many V) o w : may (mn_map s) (m_held s) o = true -> moved s (m_after s o w).
Proof.
  intros M. apply (mv_call s _ o (mn_parts s)); auto. intros i p H. exists p. repeat split; auto.
Qed.
Lemma step_moved s lb : moved s (many_step s lb).
Proof.
  destruct lb as [k|o|n|j l|j l|j|j l|j]; cbn [many_step].
  - now apply (mv_new _ _ k).
  - destruct (may _ _ o) eqn:M; [|now apply mv_none]. now apply call_same.
  - destruct (nth_error (mn_wait s) n) as [o|]; [|now apply mv_none]. destruct (may _ _ o) eqn:M; [|now apply mv_none]. now apply call_same.
  - destruct (nth_error (mn_parts s) j) as [[p|p|p|cb p w]|] eqn:E; try now apply mv_none.
    assert (K : (match l with IOther _ => False | _ => True end) -> moved s (put_part s j (PItems (iter_step p l)))).
    { intros N. apply (mv_part s _ j (PItems p) (PItems (iter_step p l))); auto.
      - intros h past I. cbn [pinv p_map] in *. now apply iter_step_inv.
      - cbn. now apply iter_map. }
    destruct l; try (apply K; exact I); [now apply mv_none|]. destruct (m_waited s i); [now apply mv_none|apply K; exact I].
  - destruct (nth_error (mn_parts s) j) as [[p|p|p|cb p w]|] eqn:E; try now apply mv_none.
    assert (K : (match l with KOther _ => False | _ => True end) -> moved s (put_part s j (PKeys (keys_step p l)))).
    { intros N. apply (mv_part s _ j (PKeys p) (PKeys (keys_step p l))); auto.
      - intros h past I. cbn [pinv p_map] in *. now apply keys_step_inv.
      - cbn. now apply keys_map. }
    destruct l; try (apply K; exact I); [now apply mv_none| |]; (destruct (m_waited s _); [now apply mv_none|apply K; exact I]).
  - destruct (nth_error (mn_parts s) j) as [[p|p|p|cb p w]|] eqn:E; try now apply mv_none. destruct (m_waited s _); [now apply mv_none|].
    apply (mv_part s _ j (PCount p) (PCount (count_step p CtNext))); auto.
    + intros h past (l & I). cbn [p_map]. destruct (count_step_inv _ _ _ _ CtNext I) as (l' & I'). exists l'. exact I'.
    + cbn [p_map]. apply count_map.
  - destruct (nth_error (mn_parts s) j) as [[p|p|p|cb p w]|] eqn:E; try now apply mv_none.
    assert (K : (match l with QLock | QCall _ | QUnlock => True | _ => False end) -> moved s (put_part s j (PCb cb (cb_step cb p l) w))).
    { intros N. apply (mv_part s _ j (PCb cb p w) (PCb cb (cb_step cb p l) w)); auto.
      - intros h past I. cbn [pinv p_map] in *. now apply cb_step_inv.
      - cbn [p_map]. now apply cb_map_own. }
    destruct l as [o|n| |n| |]; try (now apply mv_none); try (apply K; exact I).
    + destruct (m_waited s _); [now apply mv_none|apply K; exact I].
    + destruct (cb_calls p) as [|o os] eqn:C; [now apply mv_none|]. destruct (may _ _ o) eqn:M; cbn [andb]; [|now apply mv_none]. destruct (match reads o with Some _ => _ | None => _ end); [|now apply mv_none].
      set (p' := PCb cb (Cbs (cb_map p) (cb_i p) (cb_seen p) os (cb_got p) (cb_wait p)) false).
      apply (mv_call s _ o (set_nth j p' (mn_parts s))); auto.
      * intros i q H. apply nth_set_or in H as [(-> & ->)|H]; [|exists q; repeat split; auto]. exists (PCb cb p w). split; [exact E|]. split; [reflexivity|]. split; [auto|]. split; [reflexivity|]. intros h past [I1 I2 I3 I4 I5]. split; auto.
      * clear. revert j. induction (mn_parts s) as [|a l IH]; intros [|j]; cbn; auto.
  - destruct (nth_error (mn_parts s) j) as [[p|p|p|cb p w]|] eqn:E; try now apply mv_none. destruct (cb_calls p) as [|o os]; [now apply mv_none|]. destruct (may _ _ o); [now apply mv_none|].
    apply (mv_part s _ j (PCb cb p w) (PCb cb p true)); auto. intros h past I. cbn [pinv p_map] in *. now apply (cinv_keep _ _ p).
Qed.
Lemma begin_map m (k : kind V) : p_map (begin m k) = m. Proof. now destruct k. Qed.
Lemma sync_step s lb : sync s -> sync (many_step s lb).
Proof.
  intros S. destruct (step_moved s lb) as [j p p' E Ep Em K I M|o parts M Em Ep H L|k Ep Em|Ep Em]; intros q Hq; rewrite ?Ep, ?Em in *.
  - apply in_set in Hq as [->|Hq]; [|now apply S]. rewrite M. apply S. eapply nth_error_In; eauto.
  - apply in_map_iff in Hq as (q' & <- & _). apply on_map_map.
  - apply in_app_or in Hq as [Hq|[<-|[]]]; [now apply S|apply begin_map].
  - now apply S.
Qed.
Lemma part_step s lb j p h past : sync s -> nth_error (mn_parts s) j = Some p -> pinv h past p ->
  exists p', nth_error (mn_parts (many_step s lb)) j = Some p' /\ pinv h (past ++ [mn_map (many_step s lb)]) p' /\ forall k, kind_of k p -> kind_of k p'.
Proof.
  intros S E I. pose proof (S p (nth_error_In _ _ E)) as Mp.
  assert (Same : pinv h (past ++ [mn_map s]) p) by (rewrite <- Mp; now apply pinv_same).
  destruct (step_moved s lb) as [i q q' Eq Ep Em K Iq M|o parts M Em Ep H L|k Ep Em|Ep Em]; rewrite Ep.
  - rewrite (nth_set_get i q' _ q) by exact Eq. destruct (Nat.eqb_spec j i) as [->|N].
    + rewrite E in Eq. injection Eq as <-. exists q'. split; [reflexivity|]. split; [|exact K]. rewrite Em, <- Mp, <- M. now apply Iq.
    + exists p. rewrite Em. auto.
  - assert (Hj : j < length parts). { rewrite L. apply nth_error_Some. congruence. }
    destruct (nth_error parts j) as [p'|] eqn:Ej; [|apply nth_error_None in Ej; lia].
    destruct (H _ _ Ej) as (p0 & E0 & Mq & K & Hh & Ip). rewrite E in E0. injection E0 as <-.
    exists (on_map (mn_map (many_step s lb)) p'). rewrite nth_error_map, Ej. split; [reflexivity|]. split.
    + rewrite Em, <- Mp, <- Mq. apply on_other; [now apply Ip|]. rewrite Mq. pose proof (may_one s p o (nth_error_In _ _ E) Mp M) as Q. unfold may in *. destruct (writes o); [|reflexivity]. now rewrite Hh.
    + intros k Hk. specialize (K k Hk). now destruct k, p'.
  - exists p. rewrite nth_error_app1 by (apply nth_error_Some; congruence). rewrite Em. auto.
  - exists p. rewrite Em. auto.
Qed.
Lemma part_run ls : forall s j p h past, sync s -> nth_error (mn_parts s) j = Some p -> pinv h (past ++ [mn_map s]) p ->
  exists p', nth_error (mn_parts (many_run s ls)) j = Some p' /\ pinv h (past ++ map mn_map (many_trace s ls)) p' /\ forall k, kind_of k p -> kind_of k p'.
Proof.
  induction ls as [|l ls IH]; intros s j p h past S E I; [exists p; auto|]. cbn [many_run fold_left many_trace map].
  destruct (part_step s l j p h _ S E I) as (p1 & E1 & I1 & K1). destruct (IH _ j p1 h (past ++ [mn_map s]) (sync_step s l S) E1 I1) as (p2 & E2 & I2 & K2).
  exists p2. split; [exact E2|]. rewrite <- app_assoc in I2. split; [exact I2|auto].
Qed.
Lemma begin_inv m k : minv m -> pinv (sm_hash m) [m] (begin m k).
Proof.
  intros I. destruct k; cbn [begin pinv].
  - exact (iter_reach m [] I).
  - exact (keys_reach m [] I).
  - exists []. split; cbn [ct_map ct_i ct_n]; auto; [now left|intros m' [<-|[]]; auto|lia].
  - now apply cb_init_inv.
Qed.
Lemma run_sync ls : forall s, sync s -> sync (many_run s ls).
Proof. induction ls as [|l ls IH]; intros s S; [exact S|]. cbn. apply IH. now apply sync_step. Qed.
Lemma step_minv (s : many V) lb : minv (mn_map s) -> minv (mn_map (many_step s lb)) /\ sm_hash (mn_map (many_step s lb)) = sm_hash (mn_map s).
Proof. intros I. destruct (step_moved s lb) as [? ? ? _ _ Em _ _ _|o ? _ Em _ _ _|? _ Em|_ Em]; rewrite Em; auto. split; [now apply after_inv|apply after_hash]. Qed.
Lemma run_minv ls : forall s : many V, minv (mn_map s) -> minv (mn_map (many_run s ls)) /\ sm_hash (mn_map (many_run s ls)) = sm_hash (mn_map s).
Proof. induction ls as [|l ls IH]; intros s I; [auto|]. cbn. destruct (step_minv s l I) as (A & B). destruct (IH _ A) as (C & D). split; [exact C|]. unfold many_run in D. congruence. Qed.

Lemma reports_end h past p : pinv h past p -> p_end p = true -> reports (map sm_get past) p.
Proof.
  destruct p as [s|s|s|cb s w]; cbn [pinv p_end reports]; intros I E.
  - now apply (iter_whole h).
  - now apply (keys_whole h).
  - destruct I as (l & [I1 I2 I3 I4 I5]). exists l. split; [|exact I3]. unfold count_end in E. apply Nat.leb_le in E. apply (by_shard h); [exact I2|]. intros i Hi. apply I4. lia.
  - destruct I as [I1 I2 I3 I4 I5]. unfold cb_end in E. apply Nat.leb_le in E. apply (by_shard h); [exact I2|]. intros i Hi. apply I3. lia.
Qed.
End P.

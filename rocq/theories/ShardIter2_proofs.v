From Coq Require Import ZArith List Bool Arith Lia Permutation.
From Verif Require Import Bytes GoSlice ShardMap Spec_Map ShardMap_proofs ShardIter Spec_ShardIter ShardIter_proofs.
Import ListNotations.

Section P.
Context {V : Type}.

Lemma iter_init_inv (m : smap V) : minv m -> iinv (sm_hash m) [m] (iter_start m).
Proof.
  intros I. split; cbn [iter_start ir_map ir_lanes ir_total ir_out ir_closed ir_got ir_end]; try discriminate.
  - now left.
  - intros m' [<-|[]]. auto.
  - apply repeat_length.
  - intros i l E. apply nth_error_In, repeat_spec in E. subst l. cbn. auto.
  - intros _. split; [reflexivity|]. split; [reflexivity|]. split; [reflexivity|].
    intros i l E. apply nth_error_In, repeat_spec in E. now subst l.
Qed.
Lemma iter_run_inv h ls : forall past (s : iter V), iinv h (past ++ [ir_map s]) s ->
  iinv h (past ++ map ir_map (iter_trace s ls)) (iter_run s ls).
Proof.
  induction ls as [|l ls IH]; intros past s I; [exact I|]. cbn [iter_trace map iter_run fold_left].
  change (ir_map s :: map ir_map (iter_trace (iter_step s l) ls)) with ([ir_map s] ++ map ir_map (iter_trace (iter_step s l) ls)).
  rewrite app_assoc. apply IH. now apply iter_step_inv.
Qed.
Lemma iter_reach (m : smap V) ls : minv m ->
  iinv (sm_hash m) (map ir_map (iter_trace (iter_start m) ls)) (iter_run (iter_start m) ls).
Proof. intros I. apply (iter_run_inv _ ls []). now apply iter_init_inv. Qed.

(* From shard by shard to key by key. *)
Lemma mine_over {A} (f : A -> key) h i l : shard_count <= i -> mine f h i l = [].
Proof.
  intros Hi. unfold mine. induction l as [|e l IH]; [reflexivity|]. cbn [filter]. pose proof (shard_of_lt h (f e)).
  destruct (Nat.eqb_spec (shard_of h (f e)) i); [lia|exact IH].
Qed.
Lemma by_shard (h : key -> Z) (past : list (smap V)) (l : gomap V) :
  (forall m, In m past -> minv m /\ sm_hash m = h) ->
  (forall i, i < shard_count -> exists m, In m past /\ Permutation (mine fst h i l) (shard m i)) ->
  each_key_as_once (map sm_get past) l.
Proof.
  intros Hp H. split.
  - apply (mine_nodup fst h). intros i. destruct (Nat.lt_ge_cases i shard_count) as [Hi|Hi].
    + destruct (H i Hi) as [m [Hm P]]. destruct (Hp _ Hm) as [Im _]. eapply Permutation_NoDup; [apply Permutation_map, Permutation_sym, P|].
      now apply shard_nodup.
    + rewrite mine_over by exact Hi. constructor.
  - intros k. destruct (H (shard_of h k) (shard_of_lt h k)) as [m [Hm P]]. destruct (Hp _ Hm) as [Im Eh]. exists (sm_get m).
    split; [now apply in_map|]. intros v. rewrite <- shard_get by exact Im. rewrite Eh.
    split; intros Hin.
    + apply (Permutation_in _ P). apply filter_In. split; [exact Hin|]. apply Nat.eqb_refl.
    + apply Permutation_sym in P. apply (Permutation_in _ P) in Hin. now apply filter_In in Hin.
Qed.
Lemma perm_nil_r {A} (l : list A) : Permutation l [] -> l = [].
Proof. intros P. now apply Permutation_nil, Permutation_sym. Qed.

Lemma nodup_app_r {A} (a b : list A) : NoDup (a ++ b) -> NoDup b.
Proof. induction a as [|x a IH]; cbn; intros H; [exact H|]. inversion H; auto. Qed.

Lemma iter_whole h past (s : iter V) : iinv h past s -> ir_end s = true -> each_key_as_once (map sm_get past) (ir_got s).
Proof.
  intros I E. destruct (ii_end _ _ _ I E) as [Ec Eo]. destruct (ii_past _ _ _ I _ (ii_now _ _ _ I)) as [_ Eh].
  apply (by_shard h); [exact (ii_past _ _ _ I)|]. intros i Hi.
  destruct (nth_error (ir_lanes s) i) as [l|] eqn:El; [|apply nth_error_None in El; rewrite (ii_len _ _ _ I) in El; lia].
  pose proof (ii_closed _ _ _ I Ec _ _ El) as Fd. pose proof (ii_lane _ _ _ I _ _ El) as L. unfold lane_ok, fan_done, seen_of in *.
  rewrite Eo, Eh in L. cbn [app] in L. destruct l as [p cap ch f]; cbn [ln_pc ln_cap ln_ch ln_fan] in *. destruct f; try discriminate.
  destruct p as [|seen|].
  - destruct L as [_ [_ [Q _]]]; discriminate.
  - destruct L as [_ [Q _]]; congruence.
  - destruct L as [Q [m [Hm [_ P]]]]. rewrite (Q eq_refl) in P. exists m. split; [exact Hm|exact P].
Qed.

(* What the loop has received so far. *)
Lemma iter_part h past (s : iter V) : iinv h past s ->
  NoDup (map fst (ir_got s)) /\ forall k v, In (k, v) (ir_got s) -> exists a, In a (map sm_get past) /\ a k = Some v.
Proof.
  intros I. destruct (ii_past _ _ _ I _ (ii_now _ _ _ I)) as [Im Eh].
  assert (G : forall i, i < shard_count -> exists m x, In m past /\ (seen_of s i = [] \/ Permutation (x ++ seen_of s i) (shard m i))).
  { intros i Hi. destruct (nth_error (ir_lanes s) i) as [l|] eqn:El; [|apply nth_error_None in El; rewrite (ii_len _ _ _ I) in El; lia].
    pose proof (ii_lane _ _ _ I _ _ El) as L. unfold lane_ok in L. destruct (ln_pc l) as [|seen|].
    - exists (ir_map s), []. split; [apply (ii_now _ _ _ I)|]. left. apply L.
    - exists (ir_map s). eexists. split; [apply (ii_now _ _ _ I)|]. right. destruct L as [_ [_ L]]. rewrite !app_assoc in L. exact L.
    - destruct L as [_ [m [Hm [_ P]]]]. exists m. eexists. split; [exact Hm|]. right. rewrite !app_assoc in P. exact P. }
  assert (N : NoDup (map fst (ir_out s ++ ir_got s))).
  { apply (mine_nodup fst (sm_hash (ir_map s))). intros i. fold (seen_of s i). destruct (Nat.lt_ge_cases i shard_count) as [Hi|Hi].
    - destruct (G i Hi) as [m [x [Hm [->|P]]]]; [constructor|]. destruct (ii_past _ _ _ I _ Hm) as [Im' _].
      pose proof (Permutation_NoDup (Permutation_map fst (Permutation_sym P)) (shard_nodup m i Im')) as Q.
      rewrite map_app in Q. now apply nodup_app_r in Q.
    - unfold seen_of. rewrite mine_over by exact Hi. constructor. }
  split; [rewrite map_app in N; now apply nodup_app_r in N|].
  intros k v Hin. destruct (G (shard_of h k) (shard_of_lt h k)) as [m [x [Hm Hs]]].
  assert (Hk : In (k, v) (seen_of s (shard_of h k))).
  { unfold seen_of. rewrite Eh. apply filter_In. split; [apply in_or_app; now right|]. apply Nat.eqb_refl. }
  destruct Hs as [Hs|P]; [rewrite Hs in Hk; destruct Hk|]. destruct (ii_past _ _ _ I _ Hm) as [Im' Eh'].
  exists (sm_get m). split; [now apply in_map|]. rewrite <- (shard_get m k v Im'). rewrite Eh'.
  apply (Permutation_in _ P). apply in_or_app; now right.
Qed.

(* Sums over the shards. *)
Lemma sum_le2 {A} (f g : A -> nat) l : (forall x, In x l -> f x <= g x) -> list_sum (map f l) <= list_sum (map g l).
Proof.
  induction l as [|x l IH]; intros H; [cbn; lia|]. specialize (IH (fun y Hy => H y (or_intror Hy))). specialize (H x (or_introl eq_refl)).
  cbn [map list_sum fold_right] in *. unfold list_sum in *. cbn. lia.
Qed.
Lemma sum_lt2 {A} (f g : A -> nat) l y : (forall x, In x l -> f x <= g x) -> In y l -> f y < g y -> list_sum (map f l) < list_sum (map g l).
Proof.
  unfold list_sum. induction l as [|x l IH]; intros H Hy Hl; [destruct Hy|]. pose proof (H x (or_introl eq_refl)) as Hx.
  pose proof (sum_le2 f g l (fun z Hz => H z (or_intror Hz))) as Hle. unfold list_sum in Hle. cbn. destruct Hy as [->|Hy].
  - lia.
  - specialize (IH (fun z Hz => H z (or_intror Hz)) Hy Hl). lia.
Qed.
Definition at_i {A} (f : A -> nat) (l : list A) (i : nat) : nat := match nth_error l i with Some x => f x | None => 0 end.
Lemma sum_index {A} (f : A -> nat) l : list_sum (map f l) = list_sum (map (at_i f l) (seq 0 (length l))).
Proof.
  induction l as [|x l IH]; [reflexivity|]. cbn [length seq map list_sum fold_right]. rewrite <- seq_shift, map_map. unfold list_sum in *. cbn. now rewrite IH.
Qed.
Lemma sum_mine {A} (f : A -> key) h l : list_sum (map (fun i => length (mine f h i l)) (seq 0 shard_count)) = length l.
Proof.
  induction l as [|x l IH].
  - unfold mine; cbn [filter length]. induction (seq 0 shard_count) as [|i r IH]; [reflexivity|]. unfold list_sum in *; cbn. exact IH.
  - assert (G : forall n k, shard_of h (f x) < k + n ->
      list_sum (map (fun i => length (mine f h i (x :: l))) (seq k n)) =
      (if k <=? shard_of h (f x) then 1 else 0) + list_sum (map (fun i => length (mine f h i l)) (seq k n))).
    { unfold list_sum, mine. induction n as [|n IHn]; intros k Hk; cbn [seq map fold_right filter].
      - destruct (Nat.leb_spec k (shard_of h (f x))); lia.
      - rewrite IHn by lia. cbn [filter]. destruct (Nat.eqb_spec (shard_of h (f x)) k) as [->|N].
        + cbn [length]. destruct (Nat.leb_spec (S k) k); [lia|]. rewrite Nat.leb_refl. lia.
        + destruct (Nat.leb_spec (S k) (shard_of h (f x))), (Nat.leb_spec k (shard_of h (f x))); lia. }
    pose proof (G shard_count 0 (shard_of_lt h (f x))) as Q. cbn [Nat.leb length] in *. unfold mine in *. rewrite Q, IH. reflexivity.
Qed.

(* The iterator's own goroutines always finish. *)
Definition lane_w (m : smap V) (i : nat) (l : lane V) : nat :=
  match ln_pc l with
  | FStart => 3 * length (shard m i) + 3
  | FFill seen => 3 * length (rest (shard m i) seen) + 2 * length (ln_ch l) + length (fanl (ln_fan l)) + 2
  | FEnd => match ln_fan l with NEnd => 0 | _ => 2 * length (ln_ch l) + length (fanl (ln_fan l)) + 1 end
  end.
Definition todo (s : iter V) : nat :=
  list_sum (map (fun i => match nth_error (ir_lanes s) i with Some l => lane_w (ir_map s) i l | None => 0 end) (seq 0 shard_count)) +
  (match ir_total s with None => 1 | _ => 0 end) + (if ir_closed s then 0 else 1).
Lemma todo_lane (s s' : iter V) i l l' : i < length (ir_lanes s) -> length (ir_lanes s) = shard_count ->
  nth_error (ir_lanes s) i = Some l -> ir_lanes s' = set_nth i l' (ir_lanes s) ->
  ir_map s' = ir_map s -> ir_total s' = ir_total s -> ir_closed s' = ir_closed s ->
  lane_w (ir_map s) i l' < lane_w (ir_map s) i l -> todo s' < todo s.
Proof.
  intros Hi Hlen E El Em Et Ec Hw. unfold todo. rewrite Et, Ec, Em, El.
  apply Nat.add_lt_mono_r, Nat.add_lt_mono_r. apply (sum_lt2 _ _ _ i).
  - intros j _. rewrite nth_error_set by exact Hi. destruct (Nat.eqb_spec j i) as [->|N]; [rewrite E; lia|lia].
  - apply in_seq. lia.
  - rewrite nth_error_set, Nat.eqb_refl, E by exact Hi. exact Hw.
Qed.
Lemma room h past (s : iter V) t i l : iinv h past s -> ir_total s = Some t -> nth_error (ir_lanes s) i = Some l ->
  fanl (ln_fan l) <> [] -> length (ir_out s) < t.
Proof.
  intros I T E F. destruct (ii_some _ _ _ I _ T) as [-> Hst]. destruct (ii_past _ _ _ I _ (ii_now _ _ _ I)) as [Im Eh].
  apply Nat.le_lt_trans with (length (ir_out s ++ ir_got s)); [rewrite app_length; lia|].
  rewrite sum_index, (ii_len _ _ _ I), <- (sum_mine fst (sm_hash (ir_map s))).
  assert (G : forall j k, nth_error (ir_lanes s) j = Some k ->
            length (mine fst (sm_hash (ir_map s)) j (ir_out s ++ ir_got s)) + length (fanl (ln_fan k)) <= ln_cap k).
  { intros j k Ek. pose proof (ii_lane _ _ _ I _ _ Ek) as L. unfold lane_ok, seen_of in L. specialize (Hst _ _ Ek). unfold is_start in Hst.
    destruct (ln_pc k); [discriminate| |].
    - destruct L as [-> [_ P]]. rewrite <- (Permutation_length P). rewrite !app_length. lia.
    - destruct L as [_ [m [_ [-> P]]]]. rewrite <- (Permutation_length P). rewrite !app_length. lia. }
  pose proof (nth_lt _ _ _ E) as Hi. rewrite (ii_len _ _ _ I) in Hi. apply (sum_lt2 _ _ _ i).
  - intros j Hj. apply in_seq in Hj. unfold at_i. destruct (nth_error (ir_lanes s) j) as [k|] eqn:Ek.
    + specialize (G _ _ Ek). lia.
    + apply nth_error_None in Ek. rewrite (ii_len _ _ _ I) in Ek. lia.
  - apply in_seq. lia.
  - unfold at_i. rewrite E. specialize (G _ _ E). destruct (fanl (ln_fan l)); [congruence|cbn in G; lia].
Qed.
Lemma forallb_false {A} (p : A -> bool) l : forallb p l = false -> exists i x, nth_error l i = Some x /\ p x = false.
Proof.
  induction l as [|x l IH]; cbn; [discriminate|]. destruct (p x) eqn:E; cbn.
  - intros H. destruct (IH H) as [i [y Hy]]. exists (S i), y. exact Hy.
  - intros _. exists 0, x. auto.
Qed.
Lemma own_step h past (s : iter V) : iinv h past s -> ir_closed s = false -> exists l, own l /\ todo (iter_step s l) < todo s.
Proof.
  intros I C. destruct (ii_past _ _ _ I _ (ii_now _ _ _ I)) as [Im Eh]. pose proof (ii_len _ _ _ I) as Len.
  destruct (ir_total s) as [t|] eqn:T.
  - destruct (forallb fan_done (ir_lanes s)) eqn:F.
    + exists IClose. split; [exact Logic.I|]. cbn [iter_step]. rewrite T, F. unfold todo. cbn. rewrite T, C. lia.
    + destruct (forallb_false _ _ F) as [i [[p cap ch f] [E Fd]]]. pose proof (nth_lt _ _ _ E) as Hi. cbn in Fd.
      pose proof (ii_lane _ _ _ I _ _ E) as L. destruct (ii_some _ _ _ I _ T) as [_ Hst]. specialize (Hst _ _ E). unfold lane_ok in L.
      unfold is_start in Hst. cbn [ln_pc ln_cap ln_ch ln_fan] in *. destruct p as [|seen|]; [discriminate| |].
      * destruct (rest (shard (ir_map s) i) seen) as [|e r] eqn:Er.
        -- exists (IUnlock i). split; [exact Logic.I|]. cbn [iter_step]. rewrite E, Er. eapply (todo_lane _ _ i _ _ Hi Len E); try reflexivity.
           unfold lane_w. cbn [ln_pc ln_ch ln_fan]. destruct f; cbn; lia.
        -- exists (ISend i 0). split; [exact Logic.I|]. cbn [iter_step]. rewrite E, Er. cbn [nth_error].
           destruct L as [Hc [Hf P]]. apply Permutation_length in P. rewrite app_length in P. cbn in P. rewrite app_length in P.
           destruct (Nat.ltb_spec (length ch) cap); [|lia]. eapply (todo_lane _ _ i _ _ Hi Len E); try reflexivity.
           unfold lane_w. cbn [ln_pc ln_ch ln_fan]. rewrite app_length. cbn [length].
           assert (En : nth_error (rest (shard (ir_map s) i) seen) 0 = Some e) by (rewrite Er; reflexivity).
           pose proof (rest_take _ _ _ _ (shard_nodup _ i Im) En) as P2. apply Permutation_length in P2. cbn in P2. lia.
      * destruct f as [|e|]; [| |discriminate].
        -- destruct ch as [|e ch].
           ++ exists (IFanEnd i). split; [exact Logic.I|]. cbn [iter_step]. rewrite T, E. eapply (todo_lane _ _ i _ _ Hi Len E); try reflexivity.
              unfold lane_w. cbn. lia.
           ++ exists (IFanRecv i). split; [exact Logic.I|]. cbn [iter_step]. rewrite T, E. eapply (todo_lane _ _ i _ _ Hi Len E); try reflexivity.
              unfold lane_w. cbn. lia.
        -- exists (IFanSend i). split; [exact Logic.I|]. cbn [iter_step]. rewrite T, E.
           pose proof (room _ _ _ _ _ _ I T E) as R. cbn in R. destruct (Nat.ltb_spec (length (ir_out s)) t) as [Q|Q]; [|exfalso; specialize (R ltac:(discriminate)); lia].
           eapply (todo_lane _ _ i _ _ Hi Len E); try reflexivity. unfold lane_w. cbn. lia.
  - destruct (forallb (fun l => negb (is_start l)) (ir_lanes s)) eqn:F.
    + exists IReturn. split; [exact Logic.I|]. cbn [iter_step]. rewrite T, F. unfold todo. cbn. rewrite T. lia.
    + destruct (forallb_false _ _ F) as [i [[p cap ch f] [E Fd]]]. pose proof (nth_lt _ _ _ E) as Hi. cbn in Fd. destruct p; try discriminate.
      exists (ILock i). split; [exact Logic.I|]. cbn [iter_step]. rewrite E. eapply (todo_lane _ _ i _ _ Hi Len E); try reflexivity.
      pose proof (ii_lane _ _ _ I _ _ E) as L. cbn in L. destruct L as [_ [_ [-> _]]]. unfold lane_w. cbn [ln_pc ln_ch ln_fan fanl length]. rewrite rest_nil. lia.
Qed.
Lemma own_run h n : forall past (s : iter V), todo s <= n -> iinv h (past ++ [ir_map s]) s ->
  exists ls, Forall own ls /\ ir_closed (iter_run s ls) = true /\ exists past', iinv h past' (iter_run s ls).
Proof.
  induction n as [|n IH]; intros past s Hn I; destruct (ir_closed s) eqn:C;
    try (exists []; split; [constructor|]; split; [exact C|]; eexists; exact I).
  - destruct (own_step _ _ _ I C) as [l [_ Hl]]. lia.
  - destruct (own_step _ _ _ I C) as [l [Ol Hl]]. pose proof (iter_step_inv _ _ _ l I) as I'.
    destruct (IH _ (iter_step s l) ltac:(lia) I') as [ls [Ho [Hc Hp]]]. exists (l :: ls). split; [constructor; assumption|]. split; assumption.
Qed.
Lemma closed_unlocked h past (s : iter V) : iinv h past s -> ir_closed s = true -> ~ locked s.
Proof.
  intros I C [i Hi]. unfold held in Hi. destruct (nth_error (ir_lanes s) i) as [[[|seen|] cap ch f]|] eqn:E; try discriminate.
  pose proof (ii_closed _ _ _ I C _ _ E) as F. pose proof (ii_lane _ _ _ I _ _ E) as L. unfold fan_done in F. cbn in F, L. destruct L as [_ [L _]]. destruct f; [discriminate|discriminate|now apply L].
Qed.
Lemma drain h past (s : iter V) : iinv h past s -> ir_closed s = true -> ir_end (iter_run s (repeat INext (S (length (ir_out s))))) = true.
Proof.
  intros I C. assert (T : ir_total s <> None).
  { intros T. destruct (ii_none _ _ _ I T) as [_ [_ [Q _]]]. congruence. }
  clear I. remember (ir_out s) as o eqn:Eo. revert s C T Eo. induction o as [|e o IH]; intros s C T Eo; cbn [length repeat iter_run fold_left iter_step].
  - destruct (ir_total s); [|congruence]. rewrite <- Eo, C. reflexivity.
  - destruct (ir_total s) as [t|] eqn:Et; [|congruence]. rewrite <- Eo.
    apply (IH (Iter (ir_map s) (ir_lanes s) (Some t) o (ir_closed s) (ir_got s ++ [e]) (ir_end s))); cbn; [exact C|discriminate|reflexivity].
Qed.
End P.

(* C74: iterating over the sharded map while other goroutines change it. *)
From Coq Require Import ZArith List Bool Arith Lia Permutation.
From Verif Require Import Bytes GoSlice ShardMap Spec_Map ShardMap_proofs ShardConc_proofs ShardIter Spec_ShardIter
  ShardIter_proofs ShardIter2_proofs ShardIter3_proofs.
Import ListNotations.

(* C74, IterBuffered, hence Items, Clear and ClearConn.  When the loop has ended it
   has reported every key as it was at some moment of the call. *)
Theorem C74_items (V : Type) hash (h : list (mop V * mret V)) m ls :
  sm_calls (sm_new hash) h m -> Forall (fun c => op_ok (fst c)) h ->
  let s := iter_run (iter_start m) ls in
  ir_end s = true -> each_key_as_once (iter_during (iter_trace (iter_start m) ls)) (ir_got s).
Proof.
  intros C F s E. unfold iter_during. rewrite <- (map_map ir_map sm_get).
  apply (iter_whole (sm_hash m)); [|exact E]. apply iter_reach. exact (reach_inv hash h m C F).
Qed.
Print Assumptions C74_items.
(* At any point of the loop: no key twice, and each entry was in the map at some moment. *)
Theorem C74_items_partway (V : Type) hash (h : list (mop V * mret V)) m ls :
  sm_calls (sm_new hash) h m -> Forall (fun c => op_ok (fst c)) h ->
  let s := iter_run (iter_start m) ls in
  NoDup (map fst (ir_got s)) /\
  forall k v, In (k, v) (ir_got s) -> exists a, In a (iter_during (iter_trace (iter_start m) ls)) /\ a k = Some v.
Proof.
  intros C F s. unfold iter_during. rewrite <- (map_map ir_map sm_get).
  apply (iter_part (sm_hash m)). apply iter_reach. exact (reach_inv hash h m C F).
Qed.
Print Assumptions C74_items_partway.
(* So entries nobody touches are reported exactly once, and keys that are never there not at all. *)
Theorem C74_items_stable (V : Type) hash (h : list (mop V * mret V)) m ls k :
  sm_calls (sm_new hash) h m -> Forall (fun c => op_ok (fst c)) h ->
  let s := iter_run (iter_start m) ls in
  let during := iter_during (iter_trace (iter_start m) ls) in
  ir_end s = true ->
  (forall v, (forall a, In a during -> a k = Some v) -> filter (fun e => key_eqb (fst e) k) (ir_got s) = [(k, v)]) /\
  ((forall a, In a during -> a k = None) -> ~ In k (map fst (ir_got s))).
Proof.
  intros C F s during E. destruct (C74_items V hash h m ls C F E) as [N H]. fold s in N, H. fold during in H.
  destruct (H k) as [a [Ha Hk]]. split.
  - intros v Hv. rewrite (Hv a Ha) in Hk. assert (Hin : In (k, v) (ir_got s)) by now apply Hk.
    clear - N Hin Hk. assert (U : forall w, In (k, w) (ir_got s) -> w = v) by (intros w Hw; apply Hk in Hw; congruence). clear Hk.
    induction (ir_got s) as [|[k' w] g IH]; [destruct Hin|]. cbn in *. inversion N as [|? ? N1 N2]; subst.
    destruct (key_eqb k' k) eqn:Ek.
    + apply key_eqb_eq in Ek; subst k'. rewrite (U w) by now left. f_equal.
      clear - N1. induction g as [|[k' w] g IH]; [reflexivity|]. cbn in *. destruct (key_eqb k' k) eqn:Ek.
      * apply key_eqb_eq in Ek; subst. exfalso. apply N1. now left.
      * apply IH. intros Q. apply N1. now right.
    + apply IH; auto. destruct Hin as [Hin|Hin]; [|exact Hin]. injection Hin as -> _. rewrite key_eqb_refl in Ek. discriminate.
  - intros Hn Hin. apply in_map_iff in Hin as [[k' v] [Ek Hin]]. cbn in Ek; subst k'. apply Hk in Hin. rewrite (Hn a Ha) in Hin. discriminate.
Qed.
Print Assumptions C74_items_stable.
(* The goroutines behind the iterator never wait for the loop: from every state, by
   their own steps alone, they end and hold no lock, so a loop may be left early; and
   a loop that goes on ends. *)
Theorem C74_items_finish (V : Type) hash (h : list (mop V * mret V)) m ls :
  sm_calls (sm_new hash) h m -> Forall (fun c => op_ok (fst c)) h ->
  exists more, Forall own more /\
    let s := iter_run (iter_start m) (ls ++ more) in
    ir_closed s = true /\ ~ locked s /\ exists n, ir_end (iter_run s (repeat INext n)) = true.
Proof.
  intros C F. pose proof (iter_reach m ls (reach_inv hash h m C F)) as I.
  destruct (own_run (sm_hash m) _ _ _ (Nat.le_refl _) (iinv_same _ _ _ I)) as [more [O [Cl [past' I']]]].
  exists more. split; [exact O|]. cbv zeta. unfold iter_run in *. rewrite fold_left_app. split; [exact Cl|].
  split; [exact (closed_unlocked _ _ _ I' Cl)|]. eexists. exact (drain _ _ _ I' Cl).
Qed.
Print Assumptions C74_items_finish.

(* C74, Keys, hence GetAllConnID and GetAllConnIdStr. *)
Theorem C74_keys (V : Type) hash (h : list (mop V * mret V)) m ls :
  sm_calls (sm_new hash) h m -> Forall (fun c => op_ok (fst c)) h ->
  let s := keys_run (keys_start m) ls in
  ks_end s = true -> each_key_as_once_keys (keys_during (keys_trace (keys_start m) ls)) (ks_got s).
Proof.
  intros C F s E. unfold keys_during. rewrite <- (map_map ks_map sm_get).
  apply (keys_whole (sm_hash m)); [|exact E]. apply keys_reach. exact (reach_inv hash h m C F).
Qed.
Print Assumptions C74_keys.
(* Though its channel may be smaller than what is sent, Keys can always finish. *)
Theorem C74_keys_finish (V : Type) hash (h : list (mop V * mret V)) m ls :
  sm_calls (sm_new hash) h m -> Forall (fun c => op_ok (fst c)) h ->
  exists more, Forall kown more /\ ks_end (keys_run (keys_start m) (ls ++ more)) = true.
Proof.
  intros C F. pose proof (keys_reach m ls (reach_inv hash h m C F)) as I.
  destruct (kown_run (sm_hash m) _ _ _ (Nat.le_refl _) (kinv_same _ _ _ I)) as [more [O E]].
  exists more. split; [exact O|]. unfold keys_run in *. now rewrite fold_left_app.
Qed.
Print Assumptions C74_keys_finish.

(* C74, Count, hence ConnManager.Len: the size of such a list of entries. *)
Theorem C74_count (V : Type) hash (h : list (mop V * mret V)) m ls :
  sm_calls (sm_new hash) h m -> Forall (fun c => op_ok (fst c)) h ->
  let s := count_run (Count m 0 0) ls in
  count_end s = true ->
  exists l, each_key_as_once (count_during (count_trace (Count m 0 0) ls)) l /\ ct_n s = length l.
Proof.
  intros C F s E. unfold count_during. rewrite <- (map_map ct_map sm_get). apply count_whole; [|exact E]. exact (reach_inv hash h m C F).
Qed.
Print Assumptions C74_count.

(* C74, IterCb, hence Range and Range2, whatever the callback does. *)
Theorem C74_itercb (V : Type) hash (h : list (mop V * mret V)) m cb ls :
  sm_calls (sm_new hash) h m -> Forall (fun c => op_ok (fst c)) h ->
  let s := cb_run cb (cb_start m) ls in
  cb_end s = true -> each_key_as_once (cb_during (cb_trace cb (cb_start m) ls)) (cb_got s).
Proof.
  intros C F s E. unfold cb_during. rewrite <- (map_map cb_map sm_get). apply cb_whole; [|exact E]. exact (reach_inv hash h m C F).
Qed.
Print Assumptions C74_itercb.
(* It can always finish when the callback does not use the map. *)
Theorem C74_itercb_finish_partial (V : Type) hash (h : list (mop V * mret V)) m ls :
  sm_calls (sm_new hash) h m -> Forall (fun c => op_ok (fst c)) h ->
  let cb := fun (_ : key) (_ : V) => [] in
  exists more, Forall nobody_else more /\ cb_end (cb_run cb (cb_start m) (ls ++ more)) = true.
Proof.
  intros C F cb. pose proof (cb_run_inv cb (sm_hash m) ls [] (cb_start m) (cb_init_inv m (reach_inv hash h m C F))) as I.
  assert (M : minv (cb_map (cb_run cb (cb_start m) ls))) by (apply (bi_past _ _ _ I); apply (bi_now _ _ _ I)).
  assert (Q : cb_calls (cb_run cb (cb_start m) ls) = []) by (apply quiet_calls; reflexivity).
  destruct (cb_finish _ _ M Q (Nat.le_refl _)) as [more [O E]].
  exists more. split; [exact O|]. rewrite cb_run_app. exact E.
Qed.
Print Assumptions C74_itercb_finish_partial.
(* Refuted for callbacks that use the map (F63): one that removes the entry it is
   given blocks for ever on every non-empty map. *)
Theorem C74_itercb_remove_refuted (V : Type) hash (h : list (mop V * mret V)) m k ls :
  sm_calls (sm_new hash) h m -> Forall (fun c => op_ok (fst c)) h -> sm_get m k <> None -> Forall nobody_else ls ->
  cb_end (cb_run (fun k v => [MRemove k]) (cb_start m) ls) = false.
Proof.
  intros C F Hk Hl. pose proof (reach_inv hash h m C F) as I. apply (stuck_no_end m _ k I Hk). apply (stuck_run m ls I); [exact Hl|].
  split; [reflexivity|]. split; [reflexivity|]. split; [cbn; lia|]. left. split; [reflexivity|]. split; [now left|]. cbn. lia.
Qed.
Print Assumptions C74_itercb_remove_refuted.
(* One that only looks up its own key blocks for ever if somebody wants to write there
   in the meantime. *)
Theorem C74_itercb_get_refuted :
  exists (m : smap nat) ls, (exists h, sm_calls (sm_new fnv32) h m /\ Forall (fun c => op_ok (fst c)) h) /\
    forall more, cb_end (cb_run (fun k _ => [MGet k]) (cb_start m) (ls ++ more)) = false.
Proof.
  pose (k := [x30]). pose (m := sm_set (sm_new fnv32) k 1).
  pose (ls := flat_map (fun _ => [QLock; QUnlock]) (seq 0 (shard_of fnv32 k)) ++ [QLock; QCall 0; QOther (MSet1 k 2)]).
  exists m, ls. split.
  - exists [(MSet1 k 1, RUnit)]. split; [|repeat constructor]. eapply SMCons; [apply SMSet|apply SMNil].
  - intros more. rewrite cb_run_app. apply (get_stuck _ _ k).
    + vm_compute. reflexivity.
    + vm_compute. reflexivity.
    + vm_compute. reflexivity.
Qed.
Print Assumptions C74_itercb_get_refuted.

(* Refuted: the report need not be the whole map at any one moment (F64).  The map
   holds key 0; during the call key 1 is added and then key 0 removed; it is never
   empty, yet Items finds nothing. *)
Definition quiet_lane (i : nat) : list (ilabel nat) := [ILock i; IUnlock i].
Definition k0 : key := [x30].
Definition k1 : key := [x31].
Definition one : smap nat := sm_set (sm_new fnv32) k0 1.
Definition moved : list (ilabel nat) :=
  flat_map quiet_lane (filter (fun i => negb (i =? shard_of fnv32 k0)) (seq 0 shard_count)) ++
  [IOther (MSet1 k1 2); IOther (MRemove k0)] ++ quiet_lane (shard_of fnv32 k0) ++
  [IReturn] ++ map IFanEnd (seq 0 shard_count) ++ [IClose; INext].
Theorem C74_items_whole_refuted :
  (exists h, sm_calls (sm_new fnv32) h one /\ Forall (fun c => op_ok (fst c)) h) /\
  let s := iter_run (iter_start one) moved in
  let during := iter_during (iter_trace (iter_start one) moved) in
  ir_end s = true /\ ir_got s = [] /\ ~ as_a_whole during (ir_got s).
Proof.
  split; [exists [(MSet1 k0 1, RUnit)]; split; [eapply SMCons; [apply SMSet|apply SMNil]|repeat constructor]|].
  cbv zeta. assert (G : ir_got (iter_run (iter_start one) moved) = []) by (vm_compute; reflexivity).
  split; [vm_compute; reflexivity|]. split; [exact G|]. rewrite G. intros [a [Ha [_ L]]].
  assert (Q : forallb (fun a : amap nat => match a k0, a k1 with None, None => false | _, _ => true end)
                (iter_during (iter_trace (iter_start one) moved)) = true) by (vm_compute; reflexivity).
  rewrite forallb_forall in Q. specialize (Q _ Ha). clear Ha G.
  destruct (a k0) as [v|] eqn:E0; [apply L in E0; exact E0|]. destruct (a k1) as [v|] eqn:E1; [apply L in E1; exact E1|discriminate].
Qed.
Print Assumptions C74_items_whole_refuted.
(* In the same way Count, and with it Len and IsEmpty, finds an empty map although it
   never is: the shard of key 1 is read first.  (Key [x31] has the smaller shard.) *)
Theorem C74_count_refuted :
  exists (m : smap nat) ls, (exists h, sm_calls (sm_new fnv32) h m /\ Forall (fun c => op_ok (fst c)) h) /\
  let s := count_run (Count m 0 0) ls in
  count_end s = true /\ ct_n s = 0 /\ forall a, In a (count_during (count_trace (Count m 0 0) ls)) -> exists k, a k <> None.
Proof.
  pose (lo := if shard_of fnv32 k0 <? shard_of fnv32 k1 then k0 else k1). pose (hi := if shard_of fnv32 k0 <? shard_of fnv32 k1 then k1 else k0).
  exists (sm_set (sm_new fnv32) hi 1), (repeat CtNext (S (shard_of fnv32 lo)) ++ [CtOther (MSet1 lo 2); CtOther (MRemove hi)] ++ repeat CtNext shard_count).
  split; [exists [(MSet1 hi 1, RUnit)]; split; [eapply SMCons; [apply SMSet|apply SMNil]|repeat constructor]|].
  cbv zeta. split; [vm_compute; reflexivity|]. split; [vm_compute; reflexivity|]. intros a Ha.
  assert (Q : forallb (fun a : amap nat => match a lo, a hi with None, None => false | _, _ => true end)
    (count_during (count_trace (Count (sm_set (sm_new fnv32) hi 1) 0 0)
      (repeat CtNext (S (shard_of fnv32 lo)) ++ [CtOther (MSet1 lo 2); CtOther (MRemove hi)] ++ repeat CtNext shard_count))) = true)
    by (vm_compute; reflexivity).
  rewrite forallb_forall in Q. specialize (Q _ Ha). clear Ha.
  destruct (a lo) eqn:E0; [exists lo; congruence|]. destruct (a hi) eqn:E1; [exists hi; congruence|discriminate].
Qed.
Print Assumptions C74_count_refuted.

(* A loop with two entries, one of them removed while it runs, that ends. *)
Definition fill (i n : nat) : list (ilabel nat) := [ILock i] ++ repeat (ISend i 0) n ++ [IUnlock i].
Definition two : smap nat := sm_set one k1 7.
Definition full_run : list (ilabel nat) :=
  flat_map (fun i => fill i (length (shard two i))) (seq 0 shard_count) ++ [IReturn; IOther (MRemove k0)] ++
  flat_map (fun i => flat_map (fun _ => [IFanRecv i; IFanSend i]) (shard two i) ++ [IFanEnd i]) (seq 0 shard_count) ++ [IClose; INext; INext; INext].
Definition keys_full : list (klabel nat) :=
  repeat KCount shard_count ++ flat_map (fun i => [KLock i] ++ map (fun _ => KSend i 0) (shard two i) ++ [KUnlock i]) (seq 0 shard_count) ++
  [KClose; KNext; KNext; KNext].
Definition cb_full : list (cblabel nat) := flat_map (fun i => [QLock] ++ map (fun _ => QCall 0) (shard two i) ++ [QUnlock]) (seq 0 shard_count).
Example C74_case :
  (exists h, sm_calls (sm_new fnv32) h two /\ Forall (fun c => op_ok (fst c)) h) /\
  (let s := iter_run (iter_start two) full_run in
   ir_end s = true /\ length (ir_got s) = 2 /\ sm_get (ir_map s) k0 = None /\ sm_get (ir_map s) k1 = Some 7) /\
  (let s := keys_run (keys_start two) keys_full in ks_end s = true /\ length (ks_got s) = 2) /\
  (let s := count_run (Count two 0 0) (repeat CtNext shard_count) in count_end s = true /\ ct_n s = 2) /\
  (let s := cb_run (fun _ _ => []) (cb_start two) cb_full in cb_end s = true /\ length (cb_got s) = 2).
Proof.
  split; [exists [(MSet1 k0 1, RUnit); (MSet1 k1 7, RUnit)]; split; [eapply SMCons; [apply SMSet|eapply SMCons; [apply SMSet|apply SMNil]]|repeat constructor]|].
  split; [cbv zeta; split; [vm_compute; reflexivity|]; split; [vm_compute; reflexivity|]; split; vm_compute; reflexivity|].
  split; [cbv zeta; split; vm_compute; reflexivity|]. split; [cbv zeta; split; vm_compute; reflexivity|]. cbv zeta; split; vm_compute; reflexivity.
Qed.

(* C98: several iterations of the sharded map at the same time. *)
From Coq Require Import ZArith List Bool Arith Lia.
From Verif Require Import Bytes GoSlice ShardMap Spec_Map ShardMap_proofs ShardConc_proofs ShardIter Spec_ShardIter ShardIter_proofs ShardIter2_proofs ShardIter3_proofs ShardIter4_proofs ShardMany Spec_ShardMany ShardMany_proofs ShardMany2_proofs ShardMany3_proofs.
Import ListNotations.

(* Whatever other iterations are under way and whatever other goroutines call, an iteration that
   ends has reported every key as it was at one moment of its own call, no key twice. *)
Theorem C98_reports (V : Type) hash (h : list (mop V * mret V)) m before k ls :
  sm_calls (sm_new hash) h m -> Forall (fun c => op_ok (fst c)) h ->
  let s1 := many_run (Many m [] []) before in
  let s2 := many_step s1 (MStart k) in
  exists p, nth_error (mn_parts (many_run s2 ls)) (length (mn_parts s1)) = Some p /\ kind_of k p /\
    (p_end p = true -> reports (many_during (many_trace s2 ls)) p).
Proof.
  intros C F s1 s2. pose proof (reach_inv hash h m C F) as I0.
  assert (Sy : sync s1) by (apply run_sync; intros p []).
  destruct (run_minv before (Many m [] []) I0) as (I1 & _). fold s1 in I1.
  assert (E : nth_error (mn_parts s2) (length (mn_parts s1)) = Some (begin (mn_map s1) k)).
  { unfold s2. cbn [many_step mn_parts]. now rewrite nth_error_app2, Nat.sub_diag by lia. }
  destruct (part_run ls s2 _ _ (sm_hash (mn_map s1)) [] (sync_step s1 (MStart k) Sy) E (begin_inv _ k I1)) as (p & E' & Ip & K).
  exists p. split; [exact E'|]. split; [apply K; now destruct k|]. intros En. unfold many_during. rewrite <- (map_map mn_map sm_get). exact (reports_end _ _ _ Ip En).
Qed.
Print Assumptions C98_reports.

(* If the callbacks of IterCb do not use the map, everything can always end: the
   iterations and the waiting calls. *)
Theorem C98_finish_partial (V : Type) hash (h : list (mop V * mret V)) m ls :
  sm_calls (sm_new hash) h m -> Forall (fun c => op_ok (fst c)) h -> Forall quiet_label ls ->
  exists more, Forall no_new more /\ all_over (many_run (Many m [] []) (ls ++ more)).
Proof.
  intros C F Q. destruct (finish _ (ginv_run ls _ Q (ginv_start m (reach_inv hash h m C F)))) as (more & N & O).
  exists more. split; [exact N|]. now rewrite many_run_app.
Qed.
Print Assumptions C98_finish_partial.

(* Two keys of different shards. *)
Definition ka : key := [x61].
Definition kb : key := [x62].
Definition ab : smap nat := sm_set (sm_set (sm_new fnv32) ka 1) kb 2.
Lemma ab_reach : exists h, sm_calls (sm_new fnv32) h ab /\ Forall (fun c => op_ok (fst c)) h.
Proof. exists [(MSet1 ka 1, RUnit); (MSet1 kb 2, RUnit)]. split; [|repeat constructor]. eapply SMCons; [apply SMSet|]. eapply SMCons; [apply SMSet|apply SMNil]. Qed.

(* Items and Count at the same time, a Set in between: both end. *)
Definition items_all (j : nat) : list (mlabel nat) :=
  map (MItems j) (flat_map (fun i => [ILock i; ISend i 0; IUnlock i]) (seq 0 shard_count) ++ [IReturn] ++
  flat_map (fun i => [IFanRecv i; IFanSend i; IFanEnd i]) (seq 0 shard_count) ++ [IClose; INext; INext; INext]).
Definition both : list (mlabel nat) :=
  [MStart KItems; MStart KCountAll] ++ map (fun _ => MCount 1) (seq 0 (shard_of fnv32 ka)) ++ [MItems 0 (ILock (shard_of fnv32 ka)); MCall (MSet1 ka 7)] ++
  items_all 0 ++ [MWake 0] ++ map (fun _ => MCount 1) (seq 0 shard_count).
Example C98_finish_case :
  Forall quiet_label both /\ all_over (many_run (Many ab [] []) both) /\
  map (fun p => match p with PItems s => length (ir_got s) | PCount s => ct_n s | _ => 0 end) (mn_parts (many_run (Many ab [] []) both)) = [2; 2] /\
  sm_get (mn_map (many_run (Many ab [] []) both)) ka = Some 7.
Proof.
  split. { unfold both. repeat (apply Forall_app; split); try (repeat constructor; fail); unfold items_all; rewrite ?Forall_forall; intros x Hx; apply in_map_iff in Hx as (? & <- & _); exact I. }
  split; [split; [vm_compute; reflexivity|]|]. { apply forallb_forall. vm_compute. reflexivity. }
  split; vm_compute; reflexivity.
Qed.

(* Refuted for callbacks that use other shards only, with which a single IterCb always can end
   (C74_itercb_elsewhere_partial): two at the same time block each other for ever (F103). *)
Definition cross (k : key) (v : nat) : list (mop nat) := if shard_of fnv32 k =? shard_of fnv32 ka then [MSet1 kb v] else [MSet1 ka v].
Lemma cross_elsewhere : elsewhere fnv32 cross.
Proof.
  intros k v o. unfold cross. destruct (Nat.eqb_spec (shard_of fnv32 k) (shard_of fnv32 ka)) as [E|N]; intros [<-|[]].
  - exists kb. split; [now left|]. rewrite E. vm_compute. discriminate.
  - exists ka. split; [now left|congruence].
Qed.
(* The j-th iteration goes through the shards before i. *)
Definition walk_to (j a i : nat) : list (mlabel nat) := flat_map (fun _ => [MCb j QLock; MCb j (QCall 0); MCb j QIn; MCb j QUnlock]) (seq a (i - a)).
Definition first_second (i i' : nat) : list (mlabel nat) := walk_to 1 0 (Nat.max i i') ++ [MCb 1 QLock; MCb 1 (QCall 0)] ++ walk_to 0 0 (Nat.min i i') ++ [MCb 0 QLock; MCb 0 (QCall 0)].
Theorem C98_writes_refuted : exists (m : smap nat) cb ls,
  (exists h, sm_calls (sm_new fnv32) h m /\ Forall (fun c => op_ok (fst c)) h) /\ elsewhere (sm_hash m) cb /\
  Forall (fun l => match l with MCall _ => False | _ => True end) ls /\
  forall more, let s := many_run (Many m [] []) ([MStart (KCb cb); MStart (KCb cb)] ++ ls ++ more) in
  (exists p, nth_error (mn_parts s) 0 = Some p /\ p_end p = false) /\ (exists p, nth_error (mn_parts s) 1 = Some p /\ p_end p = false).
Proof.
  pose (ls := first_second (shard_of fnv32 ka) (shard_of fnv32 kb)). exists ab, cross, ls. split; [exact ab_reach|]. split; [exact cross_elsewhere|]. split.
  { apply Forall_forall. intros l Hl. unfold ls, first_second, walk_to in Hl. rewrite !in_app_iff, !in_flat_map in Hl. cbn [In] in Hl. intuition; subst; try exact I; match goal with H : exists _, _ |- _ => destruct H as (? & _ & H); cbn [In] in H; intuition; subst; exact I end. }
  intros more s. unfold s. rewrite app_assoc, many_run_app. set (s0 := many_run _ (_ ++ ls)).
  assert (A0 : where_at s0 0 = Some (shard_of fnv32 kb, MSet1 ka 2)) by (vm_compute; reflexivity).
  assert (A1 : where_at s0 1 = Some (shard_of fnv32 ka, MSet1 kb 2)) by (vm_compute; reflexivity).
  assert (Hh : sm_hash (mn_map s0) = fnv32) by (unfold s0; destruct ab_reach as (h & C & F); apply (run_minv _ (Many ab [] []) (reach_inv fnv32 h ab C F))).
  destruct ab_reach as (h & C & F).
  destruct (run_minv ([MStart (KCb cross); MStart (KCb cross)] ++ ls) (Many ab [] []) (reach_inv fnv32 h ab C F)) as (M & _). fold s0 in M.
  destruct (dead_writes (shard_of fnv32 kb) (shard_of fnv32 ka) _ _ ka kb more s0 M (stuck_where _ _ _ _ A0) (stuck_where _ _ _ _ A1) eq_refl eq_refl) as (D0 & D1); [now rewrite Hh|now rewrite Hh|].
  split; eapply stuck_open; try eassumption; apply shard_of_lt.
Qed.
Print Assumptions C98_writes_refuted.

(* Callbacks that only read block each other too, once two calls of others wait for the shards (F103). *)
Definition peek (k : key) (v : nat) : list (mop nat) := if shard_of fnv32 k =? shard_of fnv32 ka then [MGet kb] else [MGet ka].
Lemma peek_elsewhere : elsewhere fnv32 peek.
Proof.
  intros k v o. unfold peek. destruct (Nat.eqb_spec (shard_of fnv32 k) (shard_of fnv32 ka)) as [E|N]; intros [<-|[]].
  - exists kb. split; [now right|]. rewrite E. vm_compute. discriminate.
  - exists ka. split; [now right|congruence].
Qed.
Theorem C98_reads_refuted : exists (m : smap nat) cb ls,
  (exists h, sm_calls (sm_new fnv32) h m /\ Forall (fun c => op_ok (fst c)) h) /\ elsewhere (sm_hash m) cb /\
  (forall k v o, In o (cb k v) -> writes o = None) /\
  forall more, let s := many_run (Many m [] []) ([MStart (KCb cb); MStart (KCb cb)] ++ ls ++ more) in
  (exists p, nth_error (mn_parts s) 0 = Some p /\ p_end p = false) /\ (exists p, nth_error (mn_parts s) 1 = Some p /\ p_end p = false) /\
  mn_wait s <> [].
Proof.
  pose (ls := first_second (shard_of fnv32 ka) (shard_of fnv32 kb) ++ [MCall (MSet1 ka 3); MCall (MSet1 kb 4)]). exists ab, peek, ls. split; [exact ab_reach|]. split; [exact peek_elsewhere|]. split.
  { intros k v o. unfold peek. destruct (_ =? _); intros [<-|[]]; reflexivity. }
  intros more s. unfold s. rewrite app_assoc, many_run_app. set (s0 := many_run _ (_ ++ ls)).
  assert (Wt : mn_wait s0 = [MSet1 ka 3; MSet1 kb 4]) by (vm_compute; reflexivity).
  assert (A0 : where_at s0 0 = Some (shard_of fnv32 kb, MGet ka)) by (vm_compute; reflexivity).
  assert (A1 : where_at s0 1 = Some (shard_of fnv32 ka, MGet kb)) by (vm_compute; reflexivity).
  assert (Hh : sm_hash (mn_map s0) = fnv32) by (unfold s0; destruct ab_reach as (h & C & F); apply (run_minv _ (Many ab [] []) (reach_inv fnv32 h ab C F))).
  destruct ab_reach as (h & C & F).
  destruct (run_minv ([MStart (KCb peek); MStart (KCb peek)] ++ ls) (Many ab [] []) (reach_inv fnv32 h ab C F)) as (M & _). fold s0 in M.
  assert (N0 : In (MSet1 kb 4) (mn_wait s0)) by (rewrite Wt; right; left; reflexivity). assert (N1 : In (MSet1 ka 3) (mn_wait s0)) by (rewrite Wt; left; reflexivity).
  assert (E : forall k, shard_of (sm_hash (mn_map s0)) k = shard_of fnv32 k) by (intros k; rewrite Hh; reflexivity). clearbody s0.
  destruct (dead_reads (shard_of fnv32 kb) (shard_of fnv32 ka) _ _ ka kb (MSet1 kb 4) (MSet1 ka 3) kb ka more s0 M (stuck_where _ _ _ _ A0) (stuck_where _ _ _ _ A1) eq_refl eq_refl (E ka) (E kb) N0 N1 eq_refl eq_refl (E kb) (E ka)) as (D0 & D1 & D2 & _).
  split; [eapply stuck_open; [apply shard_of_lt|exact D0]|]. split; [eapply stuck_open; [apply shard_of_lt|exact D1]|]. intros E'. rewrite E' in D2. destruct D2.
Qed.
Print Assumptions C98_reads_refuted.

(* C86: concurrent calls on the shard map come back. *)
From Coq Require Import ZArith List Bool Arith Lia.
From Verif Require Import Bytes ShardMap Spec_Map ShardMap_proofs ShardConc Spec_ShardLive ShardLive_proofs.
Import ListNotations.

(* A call waits only for a call on the same shard that is inside, and of the two at least one
   may change the map: Get and Has wait for no Get and no Has, and nobody waits for another shard. *)
Theorem C86_waits_for_conflict (V : Type) (m : smap V) sched t o :
  let s := fst (crun (conc_init m) sched) in
  waiting s t o -> waiting (fst (cstep s (LStep t))) t o ->
  exists u o', u <> t /\ inside s u o' /\ same_shard (sm_hash m) o o' /\ (changes o \/ changes o').
Proof. exact (conflict (sm_hash m) _ t o (linv_run _ sched _ (linv_init m))). Qed.
Print Assumptions C86_waits_for_conflict.

(* A call that is inside waits for nobody: four turns and it has returned, whatever the
   others do in between. *)
Theorem C86_inside_returns (V : Type) (m : smap V) sched t o more :
  let s := fst (crun (conc_init m) sched) in
  inside s t o -> 4 <= turns t more -> exists r, In (CRet t r) (snd (crun s more)).
Proof.
  intros s U Ht. assert (I : linv (sm_hash m) s) by exact (linv_run _ sched _ (linv_init m)). apply (comes_back (sm_hash m)); [exact I|]. apply inside_holds in U. destruct (cs_thr s t); cbn in *; try discriminate; lia.
Qed.
Print Assumptions C86_inside_returns.

(* There is no deadlock: whatever has happened, the calls in progress can all go on to let a
   given one return, without new calls. *)
Theorem C86_no_deadlock (V : Type) (m : smap V) sched t o :
  let s := fst (crun (conc_init m) sched) in
  waiting s t o -> exists more r, Forall no_new_calls more /\ In (CRet t r) (snd (crun s more)).
Proof. exact (no_deadlock (sm_hash m) _ t o (linv_run _ sched _ (linv_init m))). Qed.
Print Assumptions C86_no_deadlock.

(* One goroutine inside Set, one inside Get on another shard, and three waiting or about to. *)
Example C86_case :
  let m := sm_new fnv32 in
  let s := fst (crun (conc_init m) [LCall 0 (MSet1 [x61] 7); LStep 0; LCall 1 (MGet [x61]); LCall 2 (MGet [x62]); LStep 2; LCall 3 (MHas [x62])]) in
  inside s 0 (MSet1 [x61] 7) /\ waiting s 1 (MGet [x61]) /\ waiting (fst (cstep s (LStep 1))) 1 (MGet [x61]) /\
  inside s 2 (MGet [x62]) /\ waiting s 3 (MHas [x62]) /\ inside (fst (cstep s (LStep 3))) 3 (MHas [x62]) /\ turns 0 [LStep 0; LStep 0; LStep 1; LStep 0; @LStep nat 0] = 4.
Proof. cbv zeta. repeat split; vm_compute; reflexivity. Qed.

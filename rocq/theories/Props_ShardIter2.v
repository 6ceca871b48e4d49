(* C74, further: callbacks of IterCb that use the map. *)
From Coq Require Import ZArith List Bool Arith Lia.
From Verif Require Import Bytes ShardMap Spec_Map ShardMap_proofs ShardConc_proofs ShardIter Spec_ShardIter ShardIter_proofs ShardIter2_proofs ShardIter3_proofs ShardIter4_proofs.
Import ListNotations.

(* IterCb, hence Range and Range2, can always finish when the callback, called for a key, reads
   and changes only keys of other shards, whatever the other goroutines did before. *)
Theorem C74_itercb_elsewhere_partial (V : Type) hash (h : list (mop V * mret V)) m cb ls :
  sm_calls (sm_new hash) h m -> Forall (fun c => op_ok (fst c)) h -> elsewhere (sm_hash m) cb ->
  exists more, Forall nobody_else more /\ cb_end (cb_run cb (cb_start m) (ls ++ more)) = true.
Proof.
  intros C F El. assert (I : ainv (sm_hash m) (cb_run cb (cb_start m) ls)).
  { apply ainv_run; [exact El|]. split; cbn; auto; [exact (reach_inv hash h m C F)|easy]. }
  destruct (finish (sm_hash m) cb El _ _ I (Nat.le_refl _)) as (more & O & E). exists more. split; [exact O|]. now rewrite cb_run_app.
Qed.
Print Assumptions C74_itercb_elsewhere_partial.

(* A callback that keeps a list of the keys seen under a key of another shard. *)
Definition note (k : key) (v : nat) : list (mop nat) :=
  if shard_of fnv32 k =? shard_of fnv32 [x61] then [MGet [x62]; MSet1 [x62] v] else [MPop [x61]; MSetNX [x61] v].
Lemma C74_itercb_elsewhere_case : elsewhere fnv32 note.
Proof.
  intros k v o. unfold note. destruct (Nat.eqb_spec (shard_of fnv32 k) (shard_of fnv32 [x61])) as [E|N]; intros [<-|[<-|[]]].
  - exists [x62]. split; [now right|]. rewrite E. vm_compute. discriminate.
  - exists [x62]. split; [now left|]. rewrite E. vm_compute. discriminate.
  - exists [x61]. split; [now left|congruence].
  - exists [x61]. split; [now left|congruence].
Qed.

(* An iteration that has ended leaves no lock: the call of another goroutine goes through at once. *)
Theorem C74_items_unlocked (V : Type) hash (h : list (mop V * mret V)) m ls o :
  sm_calls (sm_new hash) h m -> Forall (fun c => op_ok (fst c)) h ->
  let s := iter_run (iter_start m) ls in
  ir_end s = true -> ir_map (iter_step s (IOther o)) = after (ir_map s) o.
Proof.
  intros C F s E. pose proof (iter_reach m ls (reach_inv hash h m C F)) as I. fold s in I. cbn [iter_step].
  assert (U : ~ locked s) by (eapply closed_unlocked; [exact I|]; now apply (ii_end _ _ _ I)).
  unfold may. destruct (writes o) as [k|]; [|reflexivity]. destruct (held (ir_lanes s) _) eqn:Hh; [|reflexivity]. exfalso. apply U. eexists; exact Hh.
Qed.
Print Assumptions C74_items_unlocked.
Theorem C74_keys_unlocked (V : Type) hash (h : list (mop V * mret V)) m ls o :
  sm_calls (sm_new hash) h m -> Forall (fun c => op_ok (fst c)) h ->
  let s := keys_run (keys_start m) ls in
  ks_end s = true -> ks_map (keys_step s (KOther o)) = after (ks_map s) o.
Proof.
  intros C F s E. pose proof (keys_reach m ls (reach_inv hash h m C F)) as I. fold s in I. cbn [keys_step].
  unfold may. destruct (writes o) as [k|]; [|reflexivity]. destruct (kheld (ks_lanes s) _) eqn:Hh; [|reflexivity]. exfalso.
  unfold kheld in Hh. pose proof (proj1 (ki_end _ _ _ I E)) as Ec.
  destruct (nth_error (ks_lanes s) (shard_of (sm_hash (ks_map s)) k)) as [p|] eqn:En; [|discriminate]. rewrite (ki_closed _ _ _ I Ec _ _ En) in Hh. discriminate.
Qed.
Print Assumptions C74_keys_unlocked.
Theorem C74_itercb_unlocked (V : Type) (m : smap V) cb ls o :
  let s := cb_run cb (cb_start m) ls in
  cb_end s = true -> cb_map (cb_step cb s (QOther o)) = after (cb_map s) o.
Proof.
  intros s E. cbn [cb_step]. unfold may. destruct (writes o) as [k|]; [|reflexivity]. destruct (cb_held s _) eqn:Hh; [|reflexivity]. exfalso.
  unfold cb_held in Hh. destruct (cb_seen s); [|discriminate]. apply Nat.eqb_eq in Hh. unfold cb_end in E. apply Nat.leb_le in E.
  pose proof (shard_of_lt (sm_hash (cb_map s)) k). lia.
Qed.
Print Assumptions C74_itercb_unlocked.
(* Before a shard is read, too (C74_case: the loops end). *)
Example C74_keys_other_case :
  let m := sm_set (sm_new fnv32) [x61] 1 in
  let s := keys_run (keys_start m) [KCount; KOther (MSet1 [x62] 2)] in
  sm_get (ks_map s) [x62] = Some 2 /\ ks_end s = false.
Proof. split; vm_compute; reflexivity. Qed.

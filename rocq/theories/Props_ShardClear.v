(* C87: Clear and MSet while other goroutines use the map. *)
From Coq Require Import ZArith List Bool Arith Lia.
From Verif Require Import Bytes GoSlice ShardMap Spec_Map ShardMap_proofs ShardConc_proofs ShardIter Spec_ShardIter
  ShardIter_proofs ShardIter2_proofs ShardClear Spec_ShardClear ShardClear_proofs.
Import ListNotations.

(* C87.  When Clear has returned, every key was absent at some moment of the call. *)
Theorem C87_clear (V : Type) hash (h : list (mop V * mret V)) m ls :
  sm_calls (sm_new hash) h m -> Forall (fun c => op_ok (fst c)) h ->
  cl_end (clear_run (clear_start m) ls) = true ->
  forall k, exists a, In a (clear_during (clear_trace (clear_start m) ls)) /\ a k = None.
Proof.
  intros C F E k. destruct (clear_gone _ _ _ k (clear_reach m ls (reach_inv hash h m C F)) E) as [m' [H1 H2]].
  exists (sm_get m'). split; [|exact H2]. unfold clear_during. rewrite <- (map_map cl_map sm_get). now apply in_map.
Qed.
Print Assumptions C87_clear.
(* A key that nobody else writes during the call is absent when it returns. *)
Theorem C87_clear_key (V : Type) hash (h : list (mop V * mret V)) m ls k :
  sm_calls (sm_new hash) h m -> Forall (fun c => op_ok (fst c)) h ->
  Forall (spares k) ls -> let s := clear_run (clear_start m) ls in
  cl_end s = true -> sm_get (cl_map s) k = None.
Proof.
  intros C F Fk s E. pose proof (reach_inv hash h m C F) as I.
  apply (absent_stays (sm_hash m) k ls []); [exact (clear_reach m [] I)|exact Fk|]. exact (clear_gone _ _ _ k (clear_reach m ls I) E).
Qed.
Print Assumptions C87_clear_key.
(* A key that Clear has removed it does not remove again: what others put there stays. *)
Theorem C87_clear_once (V : Type) hash (h : list (mop V * mret V)) m ls more k :
  sm_calls (sm_new hash) h m -> Forall (fun c => op_ok (fst c)) h ->
  let s := clear_run (clear_start m) ls in
  cleared k s -> Forall (spares k) more -> sm_get (cl_map (clear_run s more)) k = sm_get (cl_map s) k.
Proof.
  intros C F s Ck Fk. pose proof (clear_reach m ls (reach_inv hash h m C F)) as [J1 J2 J3 J4]. fold s in J1, J2, J3, J4.
  apply (cleared_run (sm_hash m) k more (map cl_map (clear_trace (clear_start m) ls))); auto.
  split; auto; [now apply iinv_same|]. intros k' Hk. destruct (J3 k' Hk) as [H|[m' [H1 H2]]]; [now left|].
  right. exists m'. split; [apply in_or_app; now left|exact H2].
Qed.
Print Assumptions C87_clear_once.
(* Clear can always finish, whatever the others have done: its Remove never waits for its own
   iteration for ever. *)
Theorem C87_clear_finish (V : Type) hash (h : list (mop V * mret V)) m ls :
  sm_calls (sm_new hash) h m -> Forall (fun c => op_ok (fst c)) h ->
  exists more, Forall clear_only more /\ cl_end (clear_run (clear_start m) (ls ++ more)) = true.
Proof.
  intros C F. pose proof (clear_reach m ls (reach_inv hash h m C F)) as [J1 J2 J3 J4].
  destruct (clear_finish (sm_hash m) (map cl_map (clear_trace (clear_start m) ls)) (clear_run (clear_start m) ls)) as [more [O E]].
  - split; auto; [now apply iinv_same|]. intros k' Hk. destruct (J3 k' Hk) as [H|[m' [H1 H2]]]; [now left|].
    right. exists m'. split; [apply in_or_app; now left|exact H2].
  - exists more. split; [exact O|]. unfold clear_run in *. now rewrite fold_left_app.
Qed.
Print Assumptions C87_clear_finish.

Definition quiet_lane (i : nat) : list (clabel nat) := [CIter (ILock i); CIter (IUnlock i)].
Definition kA : key := [x30].
Definition kB : key := [x31].
Definition one : smap nat := sm_set (sm_new fnv32) kA 1.
Definition fill (i n : nat) : list (clabel nat) := [CIter (ILock i)] ++ repeat (CIter (ISend i 0)) n ++ [CIter (IUnlock i)].
Definition snap : list (clabel nat) := flat_map (fun i => fill i (length (shard one i))) (seq 0 shard_count) ++ [CIter IReturn] ++
  flat_map (fun i => flat_map (fun _ => [CIter (IFanRecv i); CIter (IFanSend i)]) (shard one i) ++ [CIter (IFanEnd i)]) (seq 0 shard_count) ++ [CIter IClose].
(* Refuted (F86): the map need not be empty at any moment of the call, though Clear returns.  It holds
   key A; key B is added after its shard was read and before A is removed. *)
Theorem C87_clear_whole_refuted :
  let ls := snap ++ [CIter (IOther (MSet1 kB 2)); CNext; CRemove; CNext] in
  (exists h, sm_calls (sm_new fnv32) h one /\ Forall (fun c => op_ok (fst c)) h) /\
  cl_end (clear_run (clear_start one) ls) = true /\
  forall a, In a (clear_during (clear_trace (clear_start one) ls)) -> exists k, a k <> None.
Proof.
  cbv zeta. split; [exists [(MSet1 kA 1, RUnit)]; split; [eapply SMCons; [apply SMSet|apply SMNil]|repeat constructor]|].
  split; [vm_compute; reflexivity|]. intros a Ha.
  assert (Q : forallb (fun a : amap nat => match a kA, a kB with None, None => false | _, _ => true end)
                (clear_during (clear_trace (clear_start one) (snap ++ [CIter (IOther (MSet1 kB 2)); CNext; CRemove; CNext]))) = true) by (vm_compute; reflexivity).
  rewrite forallb_forall in Q. specialize (Q _ Ha). clear Ha.
  destruct (a kA) eqn:E0; [exists kA; congruence|]. destruct (a kB) eqn:E1; [exists kB; congruence|discriminate].
Qed.
Print Assumptions C87_clear_whole_refuted.
(* Key A is removed, put back by somebody else, and stays. *)
Example C87_clear_case :
  (exists h, sm_calls (sm_new fnv32) h one /\ Forall (fun c => op_ok (fst c)) h) /\
  (let s := clear_run (clear_start one) (snap ++ [CNext; CRemove]) in cleared kA s /\ sm_get (cl_map s) kA = None) /\
  let s := clear_run (clear_start one) (snap ++ [CNext; CRemove; CIter (IOther (MSet1 kA 5)); CNext]) in
  cl_end s = true /\ sm_get (cl_map s) kA = Some 5.
Proof.
  split; [exists [(MSet1 kA 1, RUnit)]; split; [eapply SMCons; [apply SMSet|apply SMNil]|repeat constructor]|].
  cbv zeta. split; [|split; vm_compute; reflexivity].
  split; [|vm_compute; reflexivity].
  assert (G : map fst (ir_got (cl_iter (clear_run (clear_start one) (snap ++ [CNext; CRemove])))) = [kA]) by (vm_compute; reflexivity).
  assert (D : cl_del (clear_run (clear_start one) (snap ++ [CNext; CRemove])) = None) by (vm_compute; reflexivity).
  unfold cleared. rewrite G, D. split; [now left|discriminate].
Qed.

(* C87, MSet: when it has returned each of its entries was in the map at some moment. *)
Theorem C87_mset (V : Type) hash (h : list (mop V * mret V)) m data ls :
  sm_calls (sm_new hash) h m -> Forall (fun c => op_ok (fst c)) h -> NoDup (map fst data) ->
  ms_rest (mset_run (MS m data) ls) = [] ->
  forall k v, In (k, v) data -> exists a, In a (mset_during (mset_trace (MS m data) ls)) /\ a k = Some v.
Proof.
  intros C F N E k v Hin. destruct (mset_done ls (MS m data) k v (reach_inv hash h m C F) N Hin E) as [s' [H1 H2]].
  eexists. split; [apply in_map; exact H1|exact H2].
Qed.
Print Assumptions C87_mset.
(* Under a key nobody else writes it leaves its own value, or what was there if it has none; also
   what others write there before it starts or after it is past that key is not undone. *)
Theorem C87_mset_key (V : Type) hash (h : list (mop V * mret V)) m data ls more k :
  sm_calls (sm_new hash) h m -> Forall (fun c => op_ok (fst c)) h -> NoDup (map fst data) -> Forall (mspares k) more ->
  let s := mset_run (MS m data) ls in let s' := mset_run s more in
  (forall v, In (k, v) (ms_rest s) -> ms_rest s' = [] -> sm_get (ms_map s') k = Some v) /\
  (~ In k (map fst (ms_rest s)) -> sm_get (ms_map s') k = sm_get (ms_map s) k).
Proof.
  intros C F N Fk s s'.
  assert (G : minv (ms_map s) /\ NoDup (map fst (ms_rest s))).
  { subst s s'. pose proof (reach_inv hash h m C F) as I. change m with (ms_map (MS m data)) in I. change data with (ms_rest (MS m data)) in N. revert I N. generalize (MS m data) as t. induction ls as [|l ls IH]; intros t I N; [auto|]. cbn [mset_run fold_left]. apply IH; [now apply mset_inv|].
    destruct l as [o|n]; cbn; [exact N|]. destruct (nth_error (ms_rest t) n) as [[k' v']|] eqn:En; [|exact N]. cbn. exact (proj1 (take_out_nodup fst n _ _ N En)). }
  destruct G as [I N1]. destruct (mset_key k more s I N1 Fk) as [H1 H2]. split; [|exact H2].
  intros v Hv E. destruct (H1 v Hv) as [H|H]; [|exact H]. fold s' in H. rewrite E in H. destruct H.
Qed.
Print Assumptions C87_mset_key.
(* Refuted (F86): the entries do not appear together.  Two keys hold 1; while MSet makes them 2 a reader
   finds one old and one new. *)
Theorem C87_mset_whole_refuted :
  let m := sm_set one kB 1 in let data := [(kA, 2); (kB, 2)] in
  (exists h, sm_calls (sm_new fnv32) h m /\ Forall (fun c => op_ok (fst c)) h) /\ NoDup (map fst data) /\
  let ls := [MsSet 0; MsSet 0] in ms_rest (mset_run (MS m data) ls) = [] /\
  exists a, In a (mset_during (mset_trace (MS m data) ls)) /\ a kA = Some 2 /\ a kB = Some 1.
Proof.
  cbv zeta. split; [exists [(MSet1 kA 1, RUnit); (MSet1 kB 1, RUnit)]; split; [eapply SMCons; [apply SMSet|eapply SMCons; [apply SMSet|apply SMNil]]|repeat constructor]|].
  split; [constructor; [intros [H|[]]; discriminate|constructor; [intros []|constructor]]|]. split; [vm_compute; reflexivity|].
  exists (sm_get (sm_set (sm_set one kB 1) kA 2)). split; [right; now left|]. split; vm_compute; reflexivity.
Qed.
Print Assumptions C87_mset_whole_refuted.

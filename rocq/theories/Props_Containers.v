(* C32, C33: connection manager.  C37: close callbacks.  C40: accept back-off.
   C41, C42: sharded map. *)
From Coq Require Import ZArith List Bool Arith Lia Permutation.
From Verif Require Import Bytes GoSlice ShardMap Spec_Map ShardMap_proofs ShardConc Spec_Lin ShardConc_proofs
  Callbacks Spec_Callbacks Callbacks_proofs Decimal ConnManager Spec_ConnManager ConnManager_proofs
  AcceptDelay AcceptDelay_proofs.
Import ListNotations.

(* C32. After any sequence of calls every answer is the one determined by which
   connections were added and not since removed. *)
Theorem C32_manager_is_a_map h m :
  cm_calls cm_new h m -> Forall (fun x => cmop_ok (fst x)) h ->
  forall pre o r post, h = pre ++ (o, r) :: post -> answer_ok (map fst pre) o r.
Proof. intros C Hf. exact (proj2 (cm_calls_inv h [] cm_new m cm_new_inv Hf C)). Qed.
Print Assumptions C32_manager_is_a_map.

(* Three adds (the last under an ID already used), one removal, then look-ups. *)
Example C32_case :
  let c1 := Conn 1 7 in let c2 := Conn 2 (2^64 - 1) in let c3 := Conn 3 7 in
  let h := [(CmAdd c1, CrUnit); (CmAdd c2, CrUnit); (CmAdd c3, CrUnit); (CmLen, CrNat 2);
            (CmGet 7, CrConn (Some c3)); (CmRemove c2, CrUnit); (CmGet (2^64 - 1), CrConn None);
            (CmAllIDs, CrIDs [7%Z]); (CmClear, CrStopped [c3])] in
  (exists m, cm_calls cm_new h m) /\ Forall (fun x => cmop_ok (fst x)) h.
Proof.
  cbv zeta. split.
  - eexists.
    eapply CMCons; [apply CMAdd|]. eapply CMCons; [apply CMAdd|]. eapply CMCons; [apply CMAdd|].
    eapply CMCons; [match goal with |- cm_call ?m _ _ _ => replace 2%nat with (cm_len m) by (vm_compute; reflexivity) end; apply CMLen|].
    eapply CMCons; [match goal with |- cm_call ?m _ (CrConn ?x) _ => replace x with (cm_get m 7) by (vm_compute; reflexivity) end; apply CMGet|].
    eapply CMCons; [apply CMRemove|].
    eapply CMCons; [match goal with |- cm_call ?m _ (CrConn ?x) _ => replace x with (cm_get m (2^64 - 1)) by (vm_compute; reflexivity) end; apply CMGet|].
    eapply CMCons; [match goal with |- cm_call ?m _ (CrIDs ?x) _ => replace x with (cm_ids (map fst (sm_entries m))) by (vm_compute; reflexivity) end; apply CMAllIDs, Permutation_refl|].
    eapply CMCons; [match goal with |- cm_call ?m _ (CrStopped ?x) _ => replace x with (map snd (sm_entries m)) by (vm_compute; reflexivity) end; apply CMClear, Permutation_refl|].
    apply CMNil.
  - repeat constructor; cbn; unfold uint64; lia.
Qed.

(* C33. Full statement: whenever the callback fails for some connection, Range
   (Range2) returns an error.  Proved: the error returned is the one of the last
   connection visited; so an error is never invented, but it can be lost. *)
Theorem C33_range_partial m cb r m1 :
  cm_call m (CmRange cb) r m1 ->
  exists calls err, r = CrRange calls err /\ err = last_failed cb 0 calls /\ (err = true -> some_failed cb 0 calls = true).
Proof.
  intros C. inversion C; subst. do 2 eexists. split; [reflexivity|]. split; [apply range_last|].
  rewrite range_last. apply last_some.
Qed.
Print Assumptions C33_range_partial.
Theorem C33_range2_partial m cb r m1 :
  cm_call m (CmRange2 cb) r m1 ->
  exists calls err, r = CrRange2 calls err /\ err = last_failed cb 0 calls /\ (err = true -> some_failed cb 0 calls = true).
Proof.
  intros C. inversion C; subst. do 2 eexists. split; [reflexivity|]. split; [apply range2_last|].
  rewrite range2_last. apply last_some.
Qed.
Print Assumptions C33_range2_partial.

(* Finding: for every manager holding two or more connections there is a
   callback that fails for one of them while Range returns no error. *)
Theorem C33_range_refuted m :
  (2 <= cm_len m)%nat ->
  exists cb calls, cm_call m (CmRange cb) (CrRange calls false) m /\ some_failed cb 0 calls = true.
Proof.
  intros Hl. unfold cm_len in Hl. rewrite count_entries in Hl.
  assert (Ho : iter_order m (sm_entries m)).
  { exists (sm_shards m). split; [|reflexivity]. induction (sm_shards m); constructor; auto. }
  set (cb := fun (n : nat) (_ : Z) (_ : conn) => Nat.eqb n 0).
  exists cb, (fst (cm_range cb (sm_entries m))).
  assert (E : snd (cm_range cb (sm_entries m)) = false /\ some_failed cb 0 (fst (cm_range cb (sm_entries m))) = true).
  { destruct (sm_entries m) as [|[k1 c1] [|[k2 c2] l]]; cbn in Hl; try lia. unfold cm_range.
    assert (G : forall l n e, (1 <= n)%nat -> e = false -> snd (range_loop cb n e l) = false).
    { clear. induction l as [|[k c] l IH]; intros n e Hn He; cbn [range_loop]; [exact He|].
      specialize (IH (S n) (cb n (fst (parse_uint k)) c)). destruct (range_loop cb (S n) _ l). cbn [snd] in *. apply IH; [lia|].
      unfold cb. apply Nat.eqb_neq. lia. }
    split.
    - cbn [range_loop]. specialize (G l 2%nat (cb 1%nat (fst (parse_uint k2)) c2) ltac:(lia) eq_refl).
      destruct (range_loop cb 2 _ l). exact G.
    - cbn [range_loop]. destruct (range_loop cb 2 _ l). reflexivity. }
  destruct E as [E1 E2]. split; [|exact E2]. rewrite <- E1. now apply CMRange.
Qed.
Print Assumptions C33_range_refuted.
Example C33_case : (2 <= cm_len (cm_add (cm_add cm_new (Conn 1 1)) (Conn 2 2)))%nat.
Proof. vm_compute. lia. Qed.

(* C37. Every sequence of registry operations answers as the plain list does. *)
Theorem C37_callbacks os : snd (cb_run cb_new os) = snd (list_run [] os).
Proof. exact (run_rep os cb_new [] new_rep). Qed.
Print Assumptions C37_callbacks.
Lemma called_all l : (forall e, In e l -> cf_panics (snd e) = false) -> called l = (map (fun e => cf_id (snd e)) l, false).
Proof.
  induction l as [|e l IH]; cbn; intros H; [reflexivity|]. rewrite H by now left. rewrite IH; auto.
Qed.
(* When no callback panics, Invoke runs all of them, in order. *)
Theorem C37_invoke_all os l :
  fst (list_run [] os) = l -> (forall e, In e l -> cf_panics (snd e) = false) ->
  exists rs, snd (cb_run cb_new (os ++ [CbInvoke])) = rs ++ [CbCalled (map (fun e => cf_id (snd e)) l) false].
Proof.
  intros E Hp. rewrite C37_callbacks. exists (snd (list_run [] os)).
  assert (G : forall os l0, snd (list_run l0 (os ++ [CbInvoke])) =
    snd (list_run l0 os) ++ [CbCalled (fst (called (fst (list_run l0 os)))) (snd (called (fst (list_run l0 os))))]).
  { clear. induction os as [|o os IH]; intros l0; cbn [app list_run]; [reflexivity|].
    destruct (list_step l0 o) as [l1 r]. specialize (IH l1).
    destruct (list_run l1 (os ++ [CbInvoke])), (list_run l1 os). cbn [fst snd] in *. now rewrite IH. }
  rewrite G, E, called_all by exact Hp. reflexivity.
Qed.
Print Assumptions C37_invoke_all.
Example C37_case :
  let f i := Some (Cbfun i false) in
  snd (cb_run cb_new [CbAdd 1 1 (f 10); CbAdd 1 2 (f 11); CbAdd 1 1 (f 12); CbAdd 3 3 None; CbCount;
                      CbRemove 1 1; CbInvoke; CbRemove 1 1; CbAdd 5 5 (f 13); CbInvoke; CbRemove 1 2; CbRemove 5 5;
                      CbAdd 6 6 (f 14); CbInvoke]) =
  [CbUnit; CbUnit; CbUnit; CbUnit; CbNum 3; CbUnit; CbCalled [11; 12] false; CbUnit; CbUnit; CbCalled [11; 13] false;
   CbUnit; CbUnit; CbUnit; CbCalled [14] false].
Proof. reflexivity. Qed.
(* Finding: one panicking callback keeps the later ones from running. *)
Example C37_panic_case :
  snd (cb_run cb_new [CbAdd 1 1 (Some (Cbfun 1 true)); CbAdd 2 2 (Some (Cbfun 2 false)); CbInvoke]) =
  [CbUnit; CbUnit; CbCalled [1] true].
Proof. reflexivity. Qed.

(* C40. The k-th consecutive failure sleeps min(5 ms * 2^(k-1), 1 s). *)
Theorem C40_backoff pre k post :
  (pre = [] \/ exists p, pre = p ++ [DOk]) -> (1 <= k)%nat ->
  nth_error (delays 0 (pre ++ repeat DFail k ++ post)) (length pre + k - 1) =
  Some (Z.min (5000000 * 2 ^ (Z.of_nat k - 1)) 1000000000).
Proof.
  intros Hp Hk. destruct k as [|k]; [lia|].
  replace (repeat DFail (S k) ++ post) with (repeat DFail k ++ DFail :: post).
  2:{ clear. induction k; cbn; [reflexivity|]. now rewrite IHk. }
  rewrite app_assoc. replace (length pre + S k - 1)%nat with (length (pre ++ repeat DFail k)) by (rewrite app_length, repeat_length; lia).
  change 0%Z with (after 0). rewrite delays_after. rewrite !trailing_app.
  assert (E : trailing 0 pre = 0%nat) by (destruct Hp as [->|(p & ->)]; [reflexivity|now rewrite trailing_app]).
  rewrite E, trailing_fails. cbn [trailing]. unfold after. do 4 f_equal. lia.
Qed.
Print Assumptions C40_backoff.
Theorem C40_reset pre post : nth_error (delays 0 (pre ++ DOk :: post)) (length pre) = Some 0%Z.
Proof. change 0%Z with (after 0) at 1. rewrite delays_after, trailing_app. reflexivity. Qed.
Print Assumptions C40_reset.
Example C40_case :
  delays 0 (repeat DFail 10 ++ [DOk; DFail; DFail]) =
  map (Z.mul 1000000) [5; 10; 20; 40; 80; 160; 320; 640; 1000; 1000; 0; 5; 10]%Z.
Proof. reflexivity. Qed.

(* C41. Whatever the hash function, every history of the sharded map is a
   history of one plain map. *)
Theorem C41_refines_map (V : Type) hash (h : list (mop V * mret V)) m :
  sm_calls (sm_new hash) h m -> Forall (fun c => op_ok (fst c)) h ->
  exists a, a_calls a_empty h a /\ forall k, sm_get m k = a k.
Proof. exact (refines hash h m). Qed.
Print Assumptions C41_refines_map.
(* Two keys of the same shard and one of another. *)
Example C41_case :
  shard_of fnv32 [x30] = shard_of fnv32 [x50] /\ shard_of fnv32 [x30] <> shard_of fnv32 [x31] /\
  exists m, sm_calls (sm_new fnv32)
    [(MSet1 [x30] 1, RUnit); (MSet1 [x50] 2, RUnit); (MSetNX [x30] 3, RBool false); (MSetNX [x31] 4, RBool true);
     (MGet [x50], RVal (Some 2)); (MCount, RNat 3); (MPop [x30], RVal (Some 1)); (MHas [x30], RBool false);
     (MClear, RUnit); (MIsEmpty, RBool true)]%nat m.
Proof.
  split; [reflexivity|]. split; [vm_compute; discriminate|]. eexists.
  eapply SMCons; [apply SMSet|]. eapply SMCons; [apply SMSet|].
  eapply SMCons; [exact (SMSetNX _ _ _)|]. eapply SMCons; [exact (SMSetNX _ _ _)|].
  eapply SMCons; [exact (SMGet _ _)|].
  eapply SMCons; [exact (SMCount _)|]. eapply SMCons; [exact (SMPop _ _)|]. eapply SMCons; [exact (SMHas _ _)|].
  eapply SMCons; [apply SMClear, Permutation_refl|]. eapply SMCons; [exact (SMIsEmpty _)|]. apply SMNil.
Qed.

(* C42. Every schedule of concurrent single-key calls gives a linearizable history. *)
Theorem C42_linearizable (V : Type) hash (h : list (mop V * mret V)) m sched :
  sm_calls (sm_new hash) h m -> Forall (fun c => op_ok (fst c)) h ->
  linearizable (sm_get m) (snd (crun (conc_init m) sched)).
Proof. intros C Hf. apply linearizable_run. exact (reach_inv hash h m C Hf). Qed.
Print Assumptions C42_linearizable.
(* Of any number of concurrent SetNX on one absent key, at most one returns true
   at any time, and exactly one once all have returned. *)
Theorem C42_setnx_one_winner (V : Type) hash (h : list (mop V * mret V)) m sched k :
  sm_calls (sm_new hash) h m -> Forall (fun c => op_ok (fst c)) h -> sm_get m k = None ->
  let hist := snd (crun (conc_init m) sched) in
  (forall o, In o (calls_of hist) -> exists v, o = MSetNX k v) ->
  winners hist <= 1 /\
  (length (answers hist) = length (calls_of hist) -> 0 < length (calls_of hist) -> winners hist = 1).
Proof.
  intros C Hf Hk hist Ho. apply (winners_of_points (sm_get m)); [exact (C42_linearizable V hash h m sched C Hf)|].
  intros pts a Ha Hc Hl. rewrite (setnx_points k pts _ _ Ha) by (intros o r Hin; apply Ho; eapply Hc; eauto).
  unfold a_has. rewrite Hk. destruct pts; [cbn in Hl; lia|reflexivity].
Qed.
Print Assumptions C42_setnx_one_winner.
(* The same for RemoveCb with a callback that agrees to remove a present value. *)
Theorem C42_removecb_one_winner (V : Type) hash (h : list (mop V * mret V)) m sched k v :
  sm_calls (sm_new hash) h m -> Forall (fun c => op_ok (fst c)) h -> sm_get m k = Some v ->
  let hist := snd (crun (conc_init m) sched) in
  (forall o, In o (calls_of hist) -> o = MRemoveCb k when_present) ->
  winners hist <= 1 /\
  (length (answers hist) = length (calls_of hist) -> 0 < length (calls_of hist) -> winners hist = 1).
Proof.
  intros C Hf Hk hist Ho. apply (winners_of_points (sm_get m)); [exact (C42_linearizable V hash h m sched C Hf)|].
  intros pts a Ha Hc Hl. rewrite (removecb_points k pts _ _ Ha) by (intros o r Hin; apply Ho; eapply Hc; eauto).
  unfold a_has. rewrite Hk. destruct pts; [cbn in Hl; lia|reflexivity].
Qed.
Print Assumptions C42_removecb_one_winner.
(* Two goroutines interleaved instruction by instruction; the second wins. *)
Example C42_case :
  let k := [x61] in
  let hist := snd (crun (conc_init (sm_new fnv32))
    [LCall 0 (MSetNX k 5); LCall 1 (MSetNX k 6); LStep 1; LStep 0; LStep 1; LStep 0; LStep 1; LStep 1; LStep 0;
     LStep 1; LStep 0; LStep 0; LStep 0; LStep 0]) in
  hist = [CCall 0 (MSetNX k 5); CCall 1 (MSetNX k 6); CRet 1 (RBool true); CRet 0 (RBool false)] /\ winners hist = 1.
Proof. cbv zeta. split; vm_compute; reflexivity. Qed.

(* C55, C56: the notifier. *)
From Coq Require Import ZArith List Bool Permutation Lia.
From Verif Require Import Bytes ShardMap Notify Spec_Notify Notify_proofs.
Import ListNotations.
Local Open Scope Z_scope.

(* C55: every history of calls on a fresh notifier, its answers and what it sent are those
   of a plain map from IDs to connections. *)
Theorem C55_map : forall h m, n_calls new_notify h m -> Forall (fun x => nop_ok (fst (fst x))) h -> exists a, s_calls (fun _ => None) h a.
Proof. intros h m C F. destruct (n_refines h _ _ _ n_new F C) as (a & S & _). eauto. Qed.
Print Assumptions C55_map.

(* Connection 1 under IDs 7 and 2^64-1, connection 2 under 8, 7 replaced and 8 deleted. *)
Definition two_left : list (nop * nret * list send) :=
  [(NSet 7 (Some 1), NUnit, []); (NSet (2^64-1) (Some 1), NUnit, []); (NSet 8 (Some 2), NUnit, []); (NNums, NNat 3, []);
   (NSet 7 (Some 3), NUnit, []); (NDel 8, NUnit, []); (NHas 8, NBool false, []); (NGet 7, NConn (Some 3), []);
   (NTo false 7 5 [] false, NErr true, [Send 3 false 5 [] false]); (NTo true 8 5 [] true, NErr true, []);
   (NAll true 6 [] [true; false], NErr false, [Send 3 true 6 [] true; Send 1 true 6 [] false])].
Example C55_case : (exists m, n_calls new_notify two_left m) /\ Forall (fun x => nop_ok (fst (fst x))) two_left.
Proof.
  split.
  - eexists. unfold two_left.
    repeat (eapply CCons; [first [apply CSet|apply CDel|exact (CHas _ 8)|exact (CNums _)|exact (CGet _ 7)|exact (CTo _ false 7 5 [] false)|exact (CTo _ true 8 5 [] true)|idtac]|]); [|apply CNil].
    lazymatch goal with |- n_call ?m _ _ _ _ => exact (CAll m true 6 [] [true; false] (sm_entries m) (Permutation_refl _)) end.
  - unfold two_left. repeat constructor; cbn [nop_ok]; try lia; congruence.
Qed.

(* C56 is false: NotifyAll and NotifyBuffAll return nil whatever happens; here the only
   registered connection fails. *)
Theorem C56_refuted : forall buff, exists h m m1 msg data ev, n_calls new_notify h m /\ n_call m (NAll buff msg data [false]) (NErr false) ev m1 /\ exists s, In s ev /\ se_ok s = false.
Proof.
  intros buff. exists [(NSet 7 (Some 1), NUnit, [])]. eexists _, _, 5, [], [Send 1 buff 5 [] false]. split; [eapply CCons; [apply CSet|apply CNil]|]. split; [|eexists; split; [now left|reflexivity]].
  lazymatch goal with |- n_call ?m _ _ _ _ => exact (CAll m buff 5 [] [false] (sm_entries m) (Permutation_refl _)) end.
Qed.
Print Assumptions C56_refuted.

(* Never an error. *)
Theorem C56_always_nil_refuted : forall m buff msg data oks r ev m1, n_call m (NAll buff msg data oks) r ev m1 -> r <> NErr true.
Proof. intros m buff msg data oks r ev m1 C. destruct (all_nil _ _ _ _ _ _ _ _ C) as [->| ->]; discriminate. Qed.
Print Assumptions C56_always_nil_refuted.

(* A nil connection registered by mistake makes Get panic instead of answering. *)
Example C55_nil : exists m, n_calls new_notify [(NSet 7 None, NUnit, []); (NGet 7, NPanic, [])] m.
Proof. eexists. eapply CCons; [apply CSet|]. eapply CCons; [exact (CGet _ 7)|apply CNil]. Qed.

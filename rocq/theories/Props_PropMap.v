(* C75: connection properties. *)
From Coq Require Import List Bool Arith.
From Verif Require Import Bytes ShardMap Spec_Map ShardConc Spec_Lin PropMap Spec_PropMap ShardConc_proofs PropMap_proofs.
Import ListNotations.

(* C75. Under every schedule of any goroutines the calls on one connection are a
   linearizable history of a plain map that is empty at first, whatever is called on
   the other connections. *)
Theorem C75_linearizable (V : Type) (ls : list (plabel V)) c : linearizable a_empty (on_conn c (snd (prop_run prop_init ls))).
Proof.
  destruct (run_pinv c ls _ _ linv_init (pinv_init c)) as [w [[[a [A _]] T] H]]. exists w.
  split; [exact H|]. split; [intros t; eapply pmatches_ok; apply T|eauto].
Qed.
Print Assumptions C75_linearizable.
(* No call panics, and from every state every call can return. *)
Theorem C75_returns (V : Type) (ls : list (plabel V)) t :
  pt_thr (fst (prop_run prop_init ls)) t <> QPanic /\
  exists more, Forall (fun l => exists u, l = PlStep u) more /\ pt_thr (fst (prop_run prop_init (ls ++ more))) t = QIdle.
Proof.
  pose proof (run_linv ls _ linv_init) as L. split; [apply (pl_panic _ L)|].
  destruct (can_return _ t L) as [more H]. exists more. now rewrite run_app.
Qed.
Print Assumptions C75_returns.
(* Goroutine 1 sets while 0 gets and waits for the lock; a key of another connection stays absent. *)
Example C75_case :
  let k := [x61] in
  let ls := [PlCall 1 0 (PSet k 5); PlStep 1; PlCall 0 0 (PGet k); PlStep 0; PlStep 1; PlStep 1; PlStep 1; PlStep 1;
             PlStep 0; PlStep 0; PlStep 0; PlStep 0; PlCall 0 1 (PGet k); PlStep 0; PlStep 0; PlStep 0; PlStep 0] in
  snd (prop_run prop_init ls) =
    [PevCall 1 0 (PSet k 5); PevCall 0 0 (PGet k); PevRet 1 0 (PSet k 5) PaUnit; PevRet 0 0 (PGet k) (PaVal 5);
     PevCall 0 1 (PGet k); PevRet 0 1 (PGet k) PaNone].
Proof. vm_compute. reflexivity. Qed.

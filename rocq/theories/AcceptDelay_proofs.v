From Coq Require Import ZArith List Lia Arith.
From Verif Require Import AcceptDelay.
Import ListNotations.
Local Open Scope Z_scope.

(* Failures at the end of a history. *)
Fixpoint trailing (n : nat) (os : list dop) : nat :=
  match os with [] => n | DFail :: os' => trailing (S n) os' | DOk :: os' => trailing 0 os' end.
Definition after (k : nat) : Z := match k with O => 0 | S k => Z.min (5000000 * 2 ^ Z.of_nat k) 1000000000 end.

Lemma up_after k : delay_up (after k) = after (S k).
Proof.
  destruct k as [|k].
  - reflexivity.
  - unfold after, delay_up, max_delay. rewrite Nat2Z.inj_succ, Z.pow_succ_r by lia.
    pose proof (Z.pow_pos_nonneg 2 (Z.of_nat k) ltac:(lia) ltac:(lia)) as P. set (x := 2 ^ Z.of_nat k) in *.
    destruct (Z.eqb_spec (Z.min (5000000 * x) 1000000000) 0); [lia|].
    rewrite Z.gtb_ltb. destruct (Z.ltb_spec 1000000000 (2 * Z.min (5000000 * x) 1000000000)); lia.
Qed.

Lemma delays_after : forall pre k o post, 
  nth_error (delays (after k) (pre ++ o :: post)) (length pre) = Some (after (trailing k (pre ++ [o]))).
Proof.
  induction pre as [|p pre IH]; intros k o post.
  - destruct o; cbn [app delays length nth_error trailing]; [now rewrite up_after|reflexivity].
  - destruct p; cbn [app delays length nth_error trailing].
    + rewrite up_after. apply IH.
    + change (delay_reset (after k)) with (after 0). apply IH.
Qed.

Lemma trailing_fails j : forall n, trailing n (repeat DFail j) = (n + j)%nat.
Proof. induction j; intros n; cbn; [lia|]. rewrite IHj. lia. Qed.
Lemma trailing_app a b : forall n, trailing n (a ++ b) = trailing (trailing n a) b.
Proof. induction a as [|[] a IH]; intros; cbn; auto. Qed.

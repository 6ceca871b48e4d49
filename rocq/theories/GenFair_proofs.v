(* Infinite executions of any step function. *)
From Coq Require Import List Arith Lia.
From Verif Require Import Spec_Fair.
Import ListNotations.

Lemma first_S {L} (sch : nat -> L) n : first sch (S n) = first sch n ++ [sch n].
Proof. unfold first. now rewrite seq_S, map_app. Qed.
  (* What holds stays until something happens. *)
  Lemma until (P D : nat -> Prop) n : P n -> (forall k, n <= k -> P k -> P (S k) \/ D (S k)) -> forall m, n <= m -> P m \/ exists j, n < j <= m /\ D j.
  Proof.
    intros Pn H m. induction m as [|m IH]; intros L1; [left; replace 0 with n by lia; exact Pn|]. destruct (Nat.eq_dec n (S m)) as [<-|N]; [now left|].
    destruct IH as [Pm|(j & Lj & Dj)]; [lia| |right; exists j; split; [lia|exact Dj]]. destruct (H m ltac:(lia) Pm) as [Q|Q]; [now left|right; exists (S m); split; [lia|exact Q]].
  Qed.
  (* A count that goes up whenever it is below a bound reaches the bound. *)
  Lemma climb (f : nat -> nat) N n : (forall m, n <= m -> f m < N -> exists j, m < j /\ f m < f j) -> exists m, n <= m /\ N <= f m.
  Proof.
    intros H. assert (G : forall d m, n <= m -> N <= f m + d -> exists j, m <= j /\ N <= f j).
    { induction d as [|d IH]; intros m Lm E; [exists m; split; lia|]. destruct (le_lt_dec N (f m)) as [Q|Q]; [exists m; split; lia|].
      destruct (H m Lm Q) as (j & Lj & Fj). destruct (IH j ltac:(lia) ltac:(lia)) as (i & Li & Fi). exists i. split; lia. }
    destruct (G N n (le_n _) ltac:(lia)) as (m & Lm & Q). exists m. split; lia.
  Qed.
Section Fair.
  Context {S L : Type} (step : S -> L -> S) (s0 : S) (sch : nat -> L).
  Definition at_ (n : nat) : S := fold_left step (first sch n) s0.
  Lemma at_S n : at_ (Datatypes.S n) = step (at_ n) (sch n).
  Proof. unfold at_. now rewrite first_S, fold_left_app. Qed.

  (* If every step does nothing or brings the end nearer, and some step that does something is
     always to come, the end is reached. *)
  Lemma drain (mu : S -> nat) (Done : S -> Prop) :
    (forall n, step (at_ n) (sch n) = at_ n \/ mu (step (at_ n) (sch n)) < mu (at_ n)) ->
    (forall n, Done (at_ n) \/ exists m, n <= m /\ step (at_ n) (sch m) <> at_ n) ->
    forall n, exists m, n <= m /\ Done (at_ m).
  Proof.
    intros Hs Hd n. remember (mu (at_ n)) as k eqn:E. revert n E. induction k as [k IH] using lt_wf_ind. intros n E.
    destruct (Hd n) as [Dn|(m & L1 & Go)]; [exists n; split; [lia|exact Dn]|].
    destruct (until (fun j => at_ j = at_ n) (fun j => mu (at_ j) < k) n eq_refl) with (m := Datatypes.S m) as [Q|(j & Lj & Dj)].
    - intros j Lj Ej. rewrite at_S. destruct (Hs j) as [Q|Q]; [left; congruence|right; rewrite Ej in Q at 2; lia].
    - lia.
    - exfalso. rewrite at_S in Q. destruct (until (fun j => at_ j = at_ n) (fun j => mu (at_ j) < k) n eq_refl) with (m := m) as [Q'|(j & Lj & Dj)]; [|exact L1| |].
      + intros j Lj Ej. rewrite at_S. destruct (Hs j) as [Q1|Q1]; [left; congruence|right; rewrite Ej in Q1 at 2; lia].
      + rewrite Q' in Q. contradiction.
      + assert (Dec : forall i, j <= i -> mu (at_ i) < k). { intros i Li. induction Li as [|i Li IHi]; [exact Dj|]. rewrite at_S. destruct (Hs i) as [-> |Q1]; lia. }
        specialize (Dec (Datatypes.S m) ltac:(lia)). rewrite at_S, Q in Dec. lia.
    - destruct (IH (mu (at_ j)) ltac:(lia) j eq_refl) as (i & Li & Di). exists i. split; [lia|exact Di].
  Qed.
End Fair.

(* C92: what a log hook is given. *)
From Coq Require Import String List Arith Lia.
From Verif Require Import Bytes GoSlice LogBuf LogBuf_proofs LogCore Spec_LogCore Props_LogCore.
Import ListNotations.

(* The logger's buffer after the records [rs], each written in pieces. *)
Definition after (grow : nat -> nat -> nat) (rs : list (list (list byte))) : lbuf := fold_left (fun b r => fst (lb_record grow b r)) rs new_lbuf.
Lemma after_wf grow rs : wf (after grow rs).
Proof.
  unfold after. assert (H : forall b, wf b -> wf (fold_left (fun b r => fst (lb_record grow b r)) rs b)).
  { induction rs as [|r rs IH]; intros b W; [exact W|]. cbn [fold_left]. apply IH. pose proof (record_ok grow b r W) as R. destruct (lb_record grow b r) as [b' s]. exact (proj1 R). }
  apply H, new_wf.
Qed.

(* C92. Full statement: the bytes a hook is given are the record's, and stay so.  Proved for the
   time until the next record: whatever was logged before and however the buffer grows, the slice
   reads the whole record, and so does what a hook copies before it returns. *)
Theorem C92_given_partial grow rs r : let (b, s) := lb_record grow (after grow rs) r in sl_read (lb_heap b) s = concat r.
Proof. pose proof (record_ok grow (after grow rs) r (after_wf grow rs)) as H. destruct (lb_record grow (after grow rs) r) as [b s]. apply H. Qed.
Print Assumptions C92_given_partial.

(* C92 is false of a hook that keeps the slice: the next record is written over it.  If that is no
   longer than the buffer's array, the slice begins with the new record, followed by what the old
   one had beyond it. *)
Theorem C92_kept_refuted grow rs r r' : let (b, s) := lb_record grow (after grow rs) r in (length (concat r') <= sl_cap s)%nat ->
  let (b', _) := lb_record grow b r' in sl_read (lb_heap b') s = firstn (length (concat r)) (concat r' ++ skipn (length (concat r')) (concat r)).
Proof.
  pose proof (record_ok grow (after grow rs) r (after_wf grow rs)) as H. destruct (lb_record grow (after grow rs) r) as [b s]. destruct H as (W & E & R). intros F.
  pose proof (kept_fit grow b s r' W E F) as K. destruct (lb_record grow b r') as [b' s']. subst s. rewrite K. rewrite text_read in R by exact W. rewrite R.
  f_equal. rewrite <- R. symmetry. now apply text_len.
Qed.
Print Assumptions C92_kept_refuted.
(* "one" then "two", with room for 64 bytes at first: what was given as the first line reads "two". *)
Example C92_case : let g := fun c n => if Nat.leb n 64 then (64 - n)%nat else n in
  let (b, s) := lb_record g (after g [[str "zero"; [nl]]]) [str "one"; [nl]] in let (b', s') := lb_record g b [str "two"; [nl]] in
  sl_read (lb_heap b) s = str "one" ++ [nl] /\ sl_read (lb_heap b') s = str "two" ++ [nl] /\ (length (concat [str "two"; [nl]]) <= sl_cap s)%nat.
Proof. vm_compute. repeat split; lia. Qed.

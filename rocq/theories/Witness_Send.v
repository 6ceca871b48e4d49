(* Concrete runs of the TCP send path with its 16 KiB buffer. *)
From Coq Require Import List Bool Arith Lia.
From Verif Require Import Bytes SendQueue Spec_Send SendQueue_proofs SendQueue2_proofs SendQueue3_proofs SendQueue4_proofs.
Import ListNotations.

Definition real_cfg : qcfg := Qcfg (2 ^ 10) (2 ^ 14).    (* MaxMsgChanLen default 1024, bufio 16 KiB *)
Definition small : msg := [x01].
Definition large : msg := repeat x02 (2 ^ 14).
Definition other : msg := [x03].

(* Goroutine 0 sends a short and a long message through the buffer; the long one fills the
   buffer, which is flushed with the long message cut. *)
Definition cut_run : list qlabel :=
  QStart :: first_send 0 small ++ [QWriter ChTimer NetOk] ++ to_buffer ++ next_send 0 large ++ to_buffer ++ [QWriter ChTimer NetOk].
(* Goroutine 1 then sends directly. *)
Definition mixed_run : list qlabel :=
  cut_run ++ [QCall 1 true other; QSend 1 ChTimer NetOk; QSend 1 ChTimer NetOk] ++ flush_now.

Lemma mixed_wire : q_wire (fst (q_run real_cfg q_new mixed_run)) = small ++ repeat x02 (2 ^ 14 - 1) ++ other ++ [x02].
Proof. vm_compute. reflexivity. Qed.
Lemma mixed_oks : oks (snd (q_run real_cfg q_new mixed_run)) = [(0, small); (0, large); (1, other)].
Proof. vm_compute. reflexivity. Qed.

Lemma run_differs n m : m < n -> forall r r', repeat x02 n ++ r <> repeat x02 m ++ x03 :: r'.
Proof.
  revert n. induction m as [|m IH]; intros n Hn r r'; destruct n; cbn; try lia; [discriminate|].
  intros E. injection E as E. exact (IH n ltac:(lia) _ _ E).
Qed.
Lemma not_whole n l : 0 < n -> (forall x, In x l -> In x [[x01]; repeat x02 (S n); [x03]]) ->
  concat l <> [x01] ++ repeat x02 n ++ [x03] ++ [x02].
Proof.
  intros Hn H. destruct n as [|n]; [lia|].
  destruct l as [|x l]; [discriminate|]. destruct (H x (or_introl eq_refl)) as [<-|[<-|[<-|[]]]]; cbn [concat app]; try discriminate.
  intros E. injection E as E. destruct l as [|y l]; [discriminate|].
  destruct (H y (or_intror (or_introl eq_refl))) as [<-|[<-|[<-|[]]]]; try discriminate.
  cbn [concat] in E. exact (run_differs (S (S n)) (S n) ltac:(lia) (concat l) [x02] E).
Qed.

(* No sequence of the three messages, in any order and number, gives these bytes. *)
Lemma mixed_not_whole : forall l, (forall x, In x l -> In x [small; large; other]) ->
  concat l <> q_wire (fst (q_run real_cfg q_new mixed_run)).
Proof.
  intros l H. rewrite mixed_wire. apply not_whole; [apply Nat.ltb_lt; vm_compute; reflexivity|].
  intros x Hx. specialize (H x Hx). unfold large in H. replace (S (2 ^ 14 - 1)) with (2 ^ 14) by (vm_compute; reflexivity). exact H.
Qed.

(* After Stop the rest of the long message is never written, though the network works. *)
Lemma cut_by_stop : forall more,
  q_wire (fst (q_run real_cfg q_new (cut_run ++ QStop :: more))) = small ++ repeat x02 (2 ^ 14 - 1).
Proof.
  intros more. change (cut_run ++ QStop :: more) with (cut_run ++ [QStop] ++ more). rewrite app_assoc, q_run_app. cbn [fst].
  assert (S : silent (small ++ repeat x02 (2 ^ 14 - 1)) (fst (q_run real_cfg q_new (cut_run ++ [QStop])))).
  { split; [vm_compute; reflexivity|]. split; [vm_compute; reflexivity|]. split; [vm_compute; reflexivity|].
    split; [vm_compute; reflexivity|]. intros [|[|t]]; vm_compute; reflexivity. }
  destruct (silent_run real_cfg _ more _ S) as (_ & _ & X & _). exact X.
Qed.

Lemma cut_buffered : buffered_only cut_run.
Proof.
  assert (B : forallb (fun l => match l with QCall _ true _ => false | _ => true end) cut_run = true) by (vm_compute; reflexivity).
  rewrite forallb_forall in B. intros t m H. apply B in H. discriminate.
Qed.
Lemma cut_fine : network_fine cut_run.
Proof.
  assert (B : forallb (fun l => match l with QSend _ _ (NetFail _) | QWriter _ (NetFail _) => false | _ => true end) cut_run = true) by (vm_compute; reflexivity).
  rewrite forallb_forall in B. split; intros; intros H; apply B in H; discriminate.
Qed.
Lemma firstn_large n k : k <= n -> firstn k (repeat x02 n) = repeat x02 k.
Proof. revert n. induction k as [|k IH]; intros [|n] H; cbn; auto; [lia|]. rewrite IH; auto. lia. Qed.

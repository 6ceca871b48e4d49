From Coq Require Import ZArith List Bool Arith Lia.
From Verif Require Import Bytes Pack Request Request_proofs RequestHeap GoSlice Spec_RequestHeap Router_proofs RequestHeap_proofs ReqCopy Spec_ReqCopy.
Import ListNotations.
Local Open Scope Z_scope.

Definition quiet (e : hev) : Prop := match e with HvStart _ | HvEnd _ => False | _ => True end.

Lemma use_quiet mode a : forall s, Forall quiet (fst (run_hact mode next_without_handlers a s)).
Proof.
  induction a as [| |a IH|n a IH|a IH|k v a IH|k a IH|v a IH|a IH|a IH]; intros s; cbn [run_hact].
  - constructor.
  - repeat constructor.
  - specialize (IH (abort mode s)). destruct (run_hact _ _ a _). constructor; [exact I|exact IH].
  - specialize (IH (goto n s)). destruct (run_hact _ _ a _). constructor; [exact I|exact IH].
  - unfold next_without_handlers at 1. destruct (s8 (rs_index s + 1) <? 0); [repeat constructor|].
    specialize (IH (set_index s (s8 (rs_index s + 1)))). destruct (run_hact _ _ a _). constructor; [exact I|exact IH].
  - specialize (IH (set_keys s (kv_put k v (rs_keys s)))). destruct (run_hact _ _ a _). constructor; [exact I|exact IH].
  - specialize (IH (kv_get k (rs_keys s)) s). destruct (run_hact _ _ (a _) _). constructor; [exact I|exact IH].
  - specialize (IH (set_rresp s (Some v))). destruct (run_hact _ _ a _). constructor; [exact I|exact IH].
  - specialize (IH (rs_resp s) s). destruct (run_hact _ _ (a _) _). constructor; [exact I|exact IH].
  - specialize (IH (rs_msg s) s). destruct (run_hact _ _ (a _) _). constructor; [exact I|exact IH].
Qed.

Lemma use_ends mode a : forall s es o, run_hact mode next_without_handlers a s = (es, o) ->
  o <> HFuel /\ (o = HPanicked -> In HvPanic es \/ In HvNext es).
Proof.
  induction a as [| |a IH|n a IH|a IH|k v a IH|k a IH|v a IH|a IH|a IH]; intros s es o; cbn [run_hact].
  - intros [= <- <-]. split; discriminate.
  - intros [= <- <-]. split; [discriminate|]. intros _. left. now left.
  - destruct (run_hact _ _ a _) as [e1 o1] eqn:E. intros [= <- <-]. destruct (IH _ _ _ E) as (A & B). split; [exact A|]. intros P. destruct (B P); [left|right]; now right.
  - destruct (run_hact _ _ a _) as [e1 o1] eqn:E. intros [= <- <-]. destruct (IH _ _ _ E) as (A & B). split; [exact A|]. intros P. destruct (B P); [left|right]; now right.
  - unfold next_without_handlers at 1. destruct (s8 (rs_index s + 1) <? 0).
    + intros [= <- <-]. split; [discriminate|]. intros _. right. now left.
    + destruct (run_hact _ _ a _) as [e1 o1] eqn:E. intros [= <- <-]. destruct (IH _ _ _ E) as (A & B). split; [exact A|]. intros P. right. now left.
  - destruct (run_hact _ _ a _) as [e1 o1] eqn:E. intros [= <- <-]. destruct (IH _ _ _ E) as (A & B). split; [exact A|]. intros P. destruct (B P); [left|right]; now right.
  - destruct (run_hact _ _ (a _) _) as [e1 o1] eqn:E. intros [= <- <-]. destruct (IH _ _ _ _ E) as (A & B). split; [exact A|]. intros P. destruct (B P); [left|right]; now right.
  - destruct (run_hact _ _ a _) as [e1 o1] eqn:E. intros [= <- <-]. destruct (IH _ _ _ E) as (A & B). split; [exact A|]. intros P. destruct (B P); [left|right]; now right.
  - destruct (run_hact _ _ (a _) _) as [e1 o1] eqn:E. intros [= <- <-]. destruct (IH _ _ _ _ E) as (A & B). split; [exact A|]. intros P. destruct (B P); [left|right]; now right.
  - destruct (run_hact _ _ (a _) _) as [e1 o1] eqn:E. intros [= <- <-]. destruct (IH _ _ _ _ E) as (A & B). split; [exact A|]. intros P. destruct (B P); [left|right]; now right.
Qed.

(* ---- other handles ---- *)
Lemma nth_set_other {A} (d x : A) l n m : n <> m -> nth m (set_nth n x l) d = nth m l d.
Proof.
  revert n m. induction l as [|y l IH]; intros [|n] [|m] N; cbn; try reflexivity; try congruence. apply IH. congruence.
Qed.


Definition same_at (s s' : qstate) (h r : nat) (o : robj) : Prop :=
  live s' h = Some r /\ nth_error (w_objs (q_world s')) r = Some o /\ forall key, req_get (q_world s') r key = req_get (q_world s) r key.

Lemma live_nth s h r : live s h = Some r <-> nth_error (q_handles s) h = Some (r, true).
Proof. unfold live. destruct (nth_error (q_handles s) h) as [[r0 [|]]|]; split; intros H; try discriminate; congruence. Qed.

Lemma step_apart pooled s l p h r o :
  qsim pooled false s l -> live s h = Some r -> nth_error (w_objs (q_world s)) r = Some o -> ~ writes_to h p ->
  same_at s (fst (qstep pooled s p)) h r o.
Proof.
  intros Q Lv Eo Nw. pose proof (proj1 (live_nth s h r) Lv) as Hh.
  assert (Hlt : (r < length (w_objs (q_world s)))%nat) by (apply nth_error_Some; congruence).
  destruct (qs_pool _ _ _ _ Q) as (P1 & P2 & P3). specialize (P3 _ _ Hh) as P3h.
  destruct (nth_error l h) as [v|] eqn:Ev.
  2:{ apply nth_error_None in Ev. rewrite <- (qs_len _ _ _ _ Q) in Ev. apply nth_error_None in Ev. congruence. }
  destruct (qs_obj _ _ _ _ Q h r v Hh Ev) as (o0 & E0 & _ & _ & Mp & _). assert (o0 = o) by congruence. subst o0.
  assert (Hnew : forall x : nat * bool, nth_error (q_handles s ++ [x]) h = Some (r, true)).
  { intros x. rewrite nth_error_app1; [exact Hh|]. apply nth_error_Some. congruence. }
  assert (Sm : same_at s s h r o) by (split; [exact Lv|]; split; [exact Eo|reflexivity]).
  assert (Add : forall ob x, same_at s {| q_world := fst (add_obj (q_world s) ob); q_handles := q_handles s ++ [x] |} h r o).
  { intros ob x. split; [apply live_nth; cbn; apply Hnew|]. cbn. rewrite nth_error_app1 by exact Hlt. split; [exact Eo|].
    intros key. unfold req_get. cbn. rewrite nth_error_app1 by exact Hlt. rewrite Eo. reflexivity. }
  destruct p as [pick conn m|h'|h' key x|h' key|h' x|h'|h' a b c|h']; cbn [qstep writes_to] in *.
  - unfold get_request. destruct pooled; [|apply Add]. destruct pick as [i|]; [|apply Add].
    destruct (nth_error (w_pool (q_world s)) i) as [r1|] eqn:Ei; [|apply Add].
    destruct (nth_error (w_objs (q_world s)) r1) as [o1|] eqn:E1; [|apply Add].
    assert (Ne : r1 <> r) by (intros ->; apply P3h; eapply nth_error_In; eauto).
    cbn [fst]. split; [apply live_nth; cbn; apply Hnew|]. cbn. rewrite nth_error_set_nth_other by congruence. split; [exact Eo|].
    intros key. unfold req_get. cbn. rewrite nth_error_set_nth_other by congruence. rewrite Eo. reflexivity.
  - destruct (live s h') as [r'|] eqn:L'; [|exact Sm]. cbn [fst]. split; [apply live_nth; cbn; rewrite nth_error_set_nth_other by congruence; exact Hh|].
    unfold put_request. destruct pooled; cbn; split; try exact Eo; reflexivity.
  - destruct (live s h') as [r'|] eqn:L'; [|exact Sm]. apply live_nth in L'. cbn [fst].
    assert (Ne : r' <> r) by (apply (qs_distinct _ _ _ _ Q h' h r' r); auto).
    split; [apply live_nth; cbn; exact Hh|]. unfold req_set. cbn [q_world].
    destruct (nth_error (w_objs (q_world s)) r') as [o'|] eqn:E'; [|split; [exact Eo|reflexivity]].
    destruct (o_keys o') as [a|] eqn:Ek.
    + cbn. split; [exact Eo|]. intros key0. unfold req_get. cbn. rewrite Eo. unfold obj_keys. cbn. destruct (o_keys o) as [a0|] eqn:Ek0; [|reflexivity].
      f_equal. assert (a <> a0) by (intros <-; apply (qs_maps _ _ _ _ Q h' h r' r o' o a ltac:(auto) L' Hh E' Eo Ek); exact Ek0).
      now apply nth_set_other.
    + cbn. rewrite nth_error_set_nth_other by congruence. split; [exact Eo|]. intros key0. unfold req_get. cbn. rewrite nth_error_set_nth_other by congruence. rewrite Eo.
      unfold obj_keys. cbn. destruct (o_keys o) as [a0|] eqn:Ek0; [|reflexivity]. rewrite app_nth1 by (apply Mp; reflexivity). reflexivity.
  - destruct (live s h'); exact Sm.
  - destruct (live s h') as [r'|] eqn:L'; [|exact Sm]. apply live_nth in L'. cbn [fst].
    assert (Ne : r' <> r) by (apply (qs_distinct _ _ _ _ Q h' h r' r); auto).
    split; [apply live_nth; cbn; exact Hh|]. unfold req_set_resp. cbn [q_world]. destruct (nth_error (w_objs (q_world s)) r') as [o'|]; [|split; [exact Eo|reflexivity]].
    cbn. rewrite nth_error_set_nth_other by congruence. split; [exact Eo|]. intros key. unfold req_get. cbn. rewrite nth_error_set_nth_other by congruence. rewrite Eo. reflexivity.
  - destruct (live s h'); exact Sm.
  - destruct (live s h') as [r'|] eqn:L'; [|exact Sm]. apply live_nth in L'.
    assert (Ne : r' <> r) by (apply (qs_distinct _ _ _ _ Q h' h r' r); auto).
    destruct (nth_error (w_objs (q_world s)) r') as [o'|]; [|exact Sm]. cbn [fst].
    split; [apply live_nth; cbn; exact Hh|]. cbn. rewrite nth_error_set_nth_other by congruence. split; [exact Eo|]. intros key. unfold req_get. cbn. rewrite nth_error_set_nth_other by congruence. rewrite Eo. reflexivity.
  - destruct (live s h') as [r'|] eqn:L'; [|exact Sm]. unfold req_copy. destruct (nth_error (w_objs (q_world s)) r') as [o'|].
    + cbn [add_obj fst]. split; [apply live_nth; cbn; apply Hnew|]. cbn. rewrite nth_error_app1 by exact Hlt. split; [exact Eo|].
      intros key. unfold req_get. cbn. rewrite nth_error_app1 by exact Hlt. rewrite Eo. unfold obj_keys. cbn. destruct (o_keys o) as [a0|] eqn:Ek0; [|reflexivity].
      rewrite app_nth1 by (apply Mp; reflexivity). reflexivity.
    + cbn [fst]. split; [apply live_nth; cbn; apply Hnew|]. split; [exact Eo|reflexivity].
Qed.

Lemma run_apart pooled os h r o : forall s l,
  qsim pooled false s l -> live s h = Some r -> nth_error (w_objs (q_world s)) r = Some o -> (forall p, In p os -> ~ writes_to h p) ->
  same_at s (fst (qrun pooled s os)) h r o.
Proof.
  induction os as [|p os IH]; intros s l Q Lv Eo Nw; cbn [qrun].
  - split; [exact Lv|]. split; [exact Eo|reflexivity].
  - destruct (step_apart pooled s l p h r o Q Lv Eo (Nw p ltac:(now left))) as (A & B & C).
    destruct (qstep_sim pooled false s l p Q ltac:(discriminate)) as (Q1 & _).
    destruct (qstep pooled s p) as [s1 x]. destruct (vstep l p) as [l1 y]. cbn [fst] in *.
    destruct (IH s1 l1 Q1 A B (fun p I => Nw p (or_intror I))) as (A' & B' & C').
    destruct (qrun pooled s1 os) as [s2 xs]. cbn [fst] in *. split; [exact A'|]. split; [exact B'|]. intros key. now rewrite C', C.
Qed.

Lemma reach_qsim pooled os : exists l, qsim pooled false (fst (qrun pooled qinit os)) l.
Proof. destruct (qrun_sim pooled false os _ _ (qsim_init pooled false) ltac:(discriminate)) as [H _]. eexists. exact H. Qed.

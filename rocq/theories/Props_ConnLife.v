(* C28, C38, further: the reader runs, a closed connection gets no heartbeat, a crash is the end. *)
From Coq Require Import List Bool Arith Lia.
From Verif Require Import ConnLife Spec_ConnLife.
Import ListNotations.

Definition mains (ls : list llabel) : nat := length (filter (fun l => match l with LMain => true | _ => false end) ls).
Lemma run_snoc c ls : forall s l, fst (life_run c s (ls ++ [l])) = fst (life_step c (fst (life_run c s ls)) l) /\
  snd (life_run c s (ls ++ [l])) = snd (life_run c s ls) ++ snd (life_step c (fst (life_run c s ls)) l).
Proof.
  induction ls as [|x ls IH]; intros s l; cbn [app life_run].
  - cbn [fst snd]. destruct (life_step c s l) as [s1 e]. cbn [fst snd app]. rewrite app_nil_r. now split.
  - destruct (life_step c s x) as [s1 e]. specialize (IH s1 l). destruct (life_run c s1 (ls ++ [l])) as [s2 es]. destruct (life_run c s1 ls) as [s3 es']. cbn [fst snd] in *. destruct IH as (-> & ->). now rewrite app_assoc.
Qed.

(* The first six statements of the connection's goroutine. *)
Definition before_wait (n : nat) (c : lcfg) (s : life) : Prop :=
  lf_todo s = skipn n start_prog ++ final_prog (lc_kind c) /\ lf_dead s = false.
(* Once Start has started the reader (its sixth statement), the reader runs until it ends,
   whatever else happens. *)
Theorem C28_reader_runs c ls : lc_start_panics c = false -> 6 <= mains ls -> ~ In LReaderEnd ls ->
  lf_reader (fst (life_run c (life_new c) ls)) = true.
Proof.
  intros P. assert (G : ~ In LReaderEnd ls -> let s := fst (life_run c (life_new c) ls) in
    (exists n, n = mains ls /\ n < 6 /\ before_wait n c s) \/ (6 <= mains ls /\ lf_reader s = true)).
  { induction ls as [|l ls IH] using rev_ind; intros N; cbv zeta.
    - left. exists 0. repeat split. lia.
    - assert (N' : ~ In LReaderEnd ls) by (intros H; apply N, in_or_app; now left).
      assert (Nl : l <> LReaderEnd) by (intros ->; apply N, in_or_app; right; now left).
      specialize (IH N'). cbv zeta in IH. destruct (run_snoc c ls (life_new c) l) as (-> & _). set (s := fst (life_run c (life_new c) ls)) in *.
      assert (M : mains (ls ++ [l]) = mains ls + match l with LMain => 1 | _ => 0 end).
      { unfold mains. rewrite filter_app, app_length. now destruct l. }
      rewrite M. destruct IH as [(n & -> & Hn & T & D)|(H6 & R)].
      + destruct l; try congruence.
        * unfold life_step. rewrite D. unfold main_step. rewrite T. destruct (mains ls) as [|[|[|[|[|[|]]]]]] eqn:Em; try lia; cbn [skipn start_prog app];
          try (left; eexists; split; [reflexivity|]; split; [lia|]; split; [|]; cbn; rewrite ?P; destruct (lc_hc c); cbn; auto; fail).
          right. split; [lia|reflexivity].
        * left. exists (mains ls). split; [lia|]. split; [exact Hn|]. unfold life_step. rewrite D. unfold stop_call. destruct (lf_ctx s); split; assumption.
        * left. exists (mains ls). split; [lia|]. split; [exact Hn|]. unfold life_step. rewrite D. destruct (lf_hb s); try (split; assumption).
          destruct (fresh && _); [split; assumption|]. unfold stop_call. destruct (lf_ctx s); split; assumption.
        * left. exists (mains ls). split; [lia|]. split; [exact Hn|]. unfold life_step. rewrite D. destruct (lf_hb s); try (split; assumption). destruct (lf_lock s); split; assumption.
      + right. split; [lia|]. unfold life_step. destruct (lf_dead s); [exact R|]. destruct l; try congruence.
        * unfold main_step. destruct (lf_todo s) as [|i r]; [exact R|]. destruct i; cbn; try exact R; try (destruct (lc_start_panics c)); try (destruct (lc_stop_panics c)); try (unfold hook_panic; destruct (lc_kind c)); cbn; try exact R;
          try (destruct (lc_hc c)); try (destruct (lf_hb s)); try (destruct (lf_cancelled s)); try (destruct (lf_closed s)); try (destruct (lf_lock s)); cbn; try exact R; try reflexivity.
        * unfold stop_call. destruct (lf_ctx s); exact R.
        * destruct (lf_hb s); try exact R. destruct (fresh && _); [exact R|]. unfold stop_call. destruct (lf_ctx s); exact R.
        * destruct (lf_hb s); try exact R. destruct (lf_lock s); exact R. }
  intros H6 N. destruct (G N) as [(n & -> & H & _)|(_ & R)]; [lia|exact R].
Qed.
Print Assumptions C28_reader_runs.
Example C28_reader_case :
  let c := Lcfg KTcp true false false in let ls := [LMain; LMain; LMain; LMain; LTick true; LMain; LMain; LBeat] in
  6 <= mains ls /\ ~ In LReaderEnd ls /\ lf_reader (fst (life_run c (life_new c) ls)) = true /\
  lf_cancelled (fst (life_run c (life_new c) (ls ++ [LReaderEnd]))) = true.
Proof. cbv zeta. split; [cbn; lia|]. split; [cbn; intuition discriminate|]. split; reflexivity. Qed.

(* A hook that panics without anything that recovers ends the process: nothing happens any more. *)
Theorem C28_crash_is_end c ls more : In EvCrash (snd (life_run c (life_new c) ls)) ->
  snd (life_run c (life_new c) (ls ++ more)) = snd (life_run c (life_new c) ls).
Proof.
  assert (D : forall ls, In EvCrash (snd (life_run c (life_new c) ls)) -> lf_dead (fst (life_run c (life_new c) ls)) = true).
  { clear ls more. induction ls as [|l ls IH] using rev_ind; [intros []|]. destruct (run_snoc c ls (life_new c) l) as (-> & ->). set (s := fst (life_run c (life_new c) ls)) in *. intros H. apply in_app_or in H as [H|H].
    - specialize (IH H). unfold life_step. now rewrite IH.
    - unfold life_step in *. destruct (lf_dead s) eqn:D; [destruct H|]. destruct l.
      + unfold main_step in *. destruct (lf_todo s) as [|i r]; [destruct H|]. destruct i; cbn in *; try (intuition discriminate);
        try (destruct (lc_start_panics c)); try (destruct (lc_stop_panics c)); try (unfold hook_panic in *; destruct (lc_kind c)); cbn in *; try (intuition discriminate); try reflexivity;
        try (destruct (lc_hc c)); try (destruct (lf_hb s)); try (destruct (lf_cancelled s)); try (destruct (lf_closed s)); try (destruct (lf_lock s)); cbn in *; intuition discriminate.
      + unfold stop_call in *. destruct (lf_ctx s); cbn in H; intuition discriminate.
      + destruct (lf_reader s); destruct H.
      + destruct (lf_hb s); try (destruct H; fail). destruct (fresh && _); [destruct H|]. unfold stop_call in *. destruct (lf_ctx s); cbn in H; intuition discriminate.
      + destruct (lf_hb s); try (destruct H; fail). destruct (lf_lock s); destruct H. }
  intros H. specialize (D ls H). induction more as [|l more IH] using rev_ind; [now rewrite app_nil_r|].
  rewrite app_assoc. destruct (run_snoc c (ls ++ more) (life_new c) l) as (_ & ->). rewrite IH.
  assert (D' : lf_dead (fst (life_run c (life_new c) (ls ++ more))) = true).
  { clear IH. induction more as [|x more IH] using rev_ind; [now rewrite app_nil_r|]. rewrite app_assoc. destruct (run_snoc c (ls ++ more) (life_new c) x) as (-> & _). unfold life_step. now rewrite IH. }
  unfold life_step. rewrite D'. apply app_nil_r.
Qed.
Print Assumptions C28_crash_is_end.
Example C28_crash_case : In EvCrash (snd (life_run (Lcfg KWs false true false) (life_new (Lcfg KWs false true false)) [LMain; LMain; LMain])).
Proof. vm_compute. auto. Qed.

(* C38: a check of a connection that is closed sends no heartbeat: closed means Stop was called
   (Tcp) or the flag is set (Ws, Kcp). *)
Definition shut (c : lcfg) (s : life) : bool := match lc_kind c with KTcp => lf_cancelled s | KWs | KKcp => lf_closed s end.
Theorem C38_closed_no_beat c ls fresh : let s := fst (life_run c (life_new c) ls) in
  shut c s = true -> lf_hb (fst (life_step c s (LTick fresh))) = lf_hb s.
Proof.
  intros s H. unfold life_step. destruct (lf_dead s); [reflexivity|]. destruct (lf_hb s) eqn:E; try exact E.
  assert (is_closed c s = true) as ->. { unfold is_closed, shut in *. destruct (lc_kind c); [rewrite H; apply orb_true_r|exact H|exact H]. }
  rewrite andb_false_r. unfold stop_call. destruct (lf_ctx s); exact E.
Qed.
Print Assumptions C38_closed_no_beat.
(* An open connection gets one. *)
Example C38_beat_case : let c := Lcfg KTcp true false false in let ls := [LMain; LMain; LMain; LMain] in
  lf_hb (fst (life_run c (life_new c) (ls ++ [LTick true]))) = HbWrite /\
  shut c (fst (life_run c (life_new c) (ls ++ [LStop]))) = true /\ lf_hb (fst (life_run c (life_new c) (ls ++ [LStop; LTick true]))) = HbSelect.
Proof. repeat split. Qed.

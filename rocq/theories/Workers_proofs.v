From Coq Require Import ZArith List Bool Arith Lia Permutation.
From Verif Require Import Bytes Pack Request GoSlice Router Router_proofs Dispatch Workers Spec_Workers.
Import ListNotations.

Lemma handle_no_panic fuel ro j : snd (handle fuel ro j) <> GoPanic.
Proof.
  destruct j as [m|n p]; cbn [handle].
  - destruct (ro_slices_mode ro).
    + unfold do_msg_handler_slices. destruct (find_router _ _) as [hs|]; [|discriminate].
      destruct (run_slices hs _) as [es o]. destruct o; discriminate.
    + unfold do_msg_handler. destruct (find_router _ _) as [r|]; [|discriminate].
      destruct (call fuel _ _) as [es o]. destruct o; discriminate.
  - destruct p; discriminate.
Qed.

Lemma set_nth_split {B} (l : list B) i x y : nth_error l i = Some y ->
  exists a b, l = a ++ y :: b /\ set_nth i x l = a ++ x :: b /\ length a = i.
Proof.
  revert i. induction l as [|z l IH]; intros [|i] E; cbn in E; try discriminate.
  - injection E as ->. exists [], l. repeat split.
  - destruct (IH i E) as (a & b & -> & E2 & E3). exists (z :: a), b. cbn. rewrite E2, E3. repeat split.
Qed.

Lemma flat_map_set_nth {B C} (f : B -> list C) l i x y : nth_error l i = Some y ->
  Permutation (f y ++ flat_map f (set_nth i x l)) (f x ++ flat_map f l).
Proof.
  intros E. destruct (set_nth_split l i x y E) as (a & b & -> & -> & _).
  rewrite !flat_map_app. cbn [flat_map].
  transitivity (f y ++ f x ++ flat_map f a ++ flat_map f b).
  - apply Permutation_app_head. rewrite !app_assoc. apply Permutation_app_tail. apply Permutation_app_comm.
  - rewrite !app_assoc. apply Permutation_app_tail.
    rewrite <- (app_assoc (f x)). rewrite (Permutation_app_comm (f y) (f x)). rewrite <- !app_assoc.
    apply Permutation_app_head. apply Permutation_app_comm.
Qed.

Lemma nth_error_lt {B} (l : list B) i x : nth_error l i = Some x -> i < length l.
Proof. intros E. apply nth_error_Some. congruence. Qed.
Lemma nth_error_ex {B} (l : list B) i : i < length l -> exists x, nth_error l i = Some x.
Proof. intros E. destruct (nth_error l i) eqn:Ex; [eauto|]. apply nth_error_None in Ex. lia. Qed.

Lemma nth_error_set_nth {B} (l : list B) i j x y : nth_error (set_nth i x l) j = Some y ->
  (i = j /\ y = x /\ i < length l) \/ (i <> j /\ nth_error l j = Some y).
Proof.
  intros E. destruct (Nat.eq_dec i j) as [<-|N].
  - pose proof (nth_error_lt _ _ _ E) as H. rewrite set_nth_length in H.
    rewrite nth_error_set_nth_same in E by exact H. left. repeat split; congruence.
  - rewrite nth_error_set_nth_other in E by exact N. now right.
Qed.

Lemma In_remove_id x y l : In y (remove_id x l) <-> In y l /\ y <> x.
Proof.
  unfold remove_id. rewrite filter_In. split; intros [H1 H2]; split; auto.
  - intros ->. rewrite Nat.eqb_refl in H2. discriminate.
  - apply negb_true_iff. apply Nat.eqb_neq. congruence.
Qed.
Lemma In_add_id x y l : In y (add_id x l) <-> y = x \/ In y l.
Proof.
  unfold add_id. destruct (existsb (Nat.eqb x) l) eqn:E; [|cbn; intuition].
  apply existsb_exists in E. destruct E as (z & Hz & Ez). apply Nat.eqb_eq in Ez. subst z. intuition congruence.
Qed.
Lemma pick_one_In l p k : pick_one l p = Some k -> In k l.
Proof. apply nth_error_In. Qed.
Lemma pick_one_none l p : pick_one l p = None -> l = [].
Proof.
  unfold pick_one. intros E. destruct l as [|x l]; [reflexivity|exfalso].
  apply nth_error_None in E. pose proof (Nat.mod_upper_bound p (length (x :: l)) ltac:(discriminate)). lia.
Qed.

Section S.
  Variable cf : wcfg.

  Record uinv (s : wst) (tr : list wev) : Prop := {
    u_len : length (ws_tq s) = queue_len cf;
    u_psize : pool_size cf <= queue_len cf;
    u_tq : forall w i, nth_error (ws_tq s) w = Some (Some i) -> i < length (ws_chans s);
    u_pool : forall w, w < pool_size cf -> exists i, nth_error (ws_tq s) w = Some (Some i);
    u_free : forall w, In w (ws_free s) -> w < pool_size cf;
    u_extra : forall w, In w (ws_extra s) -> w < queue_len cf;
    u_conn : pool_size cf > 0 -> forall c k w, nth_error (ws_conns s) c = Some k -> co_worker k = Some w ->
       exists i, nth_error (ws_tq s) w = Some (Some i);
    u_bound : cf_mode cf <> ModeDynamicBind -> pool_size cf > 0 ->
       forall c k w, nth_error (ws_conns s) c = Some k -> co_worker k = Some w -> w < pool_size cf;
    u_worker : forall w k, nth_error (ws_workers s) w = Some k ->
       exists ch, nth_error (ws_chans s) (wk_chan k) = Some ch /\
         (wk_alive k = false -> wk_cur k = None /\ ch_closed ch = true /\ ch_buf ch = []);
    u_cover : forall i, i < length (ws_chans s) ->
       exists w k, nth_error (ws_workers s) w = Some k /\ wk_chan k = i;
    u_perm : Permutation (all_sent tr) (all_ended tr ++ in_flight s ++ waiting s);
    u_crash : ws_crashed s = false
  }.

  Lemma hash_worker_lt id : pool_size cf > 0 -> hash_worker cf id < pool_size cf.
  Proof.
    intros H. unfold hash_worker. destruct (Nat.eqb_spec (pool_size cf) 0); [lia|].
    pose proof (Z.mod_pos_bound id (Z.of_nat (pool_size cf)) ltac:(lia)). lia.
  Qed.

  Lemma start_pool_inv s : start_pool cf = Some s -> uinv s [].
  Proof.
    unfold start_pool. destruct (Nat.ltb_spec (queue_len cf) (pool_size cf)) as [|Hle]; [discriminate|].
    intros [= <-]. constructor; cbn [ws_chans ws_tq ws_workers ws_free ws_extra ws_conns ws_crashed].
    - rewrite app_length, map_length, seq_length, repeat_length. lia.
    - exact Hle.
    - intros w i E. rewrite repeat_length.
      destruct (Nat.lt_ge_cases w (pool_size cf)) as [H|H].
      + rewrite nth_error_app1 in E by now rewrite map_length, seq_length.
        rewrite nth_error_map in E. destruct (nth_error (seq 0 (pool_size cf)) w) as [j|] eqn:Ej; [|discriminate].
        injection E as ->. apply nth_error_In in Ej. apply in_seq in Ej. lia.
      + rewrite nth_error_app2 in E by (rewrite map_length, seq_length; lia).
        apply nth_error_In in E. apply repeat_spec in E. discriminate.
    - intros w H. rewrite nth_error_app1 by now rewrite map_length, seq_length.
      rewrite nth_error_map. destruct (nth_error_ex (seq 0 (pool_size cf)) w) as [j ->]; [now rewrite seq_length|].
      now exists j.
    - intros w H. destruct (cf_mode cf); [destruct H| |]; apply in_seq in H; lia.
    - intros w H. unfold queue_len. destruct (cf_mode cf); [destruct H|destruct H|]. apply in_seq in H.
      unfold queue_len in Hle. destruct (cf_mode cf); lia.
    - intros _ [|c] k w E; discriminate.
    - intros _ _ [|c] k w E; discriminate.
    - intros w k E. rewrite nth_error_map in E. destruct (nth_error (seq 0 (pool_size cf)) w) as [j|] eqn:Ej; [|discriminate].
      injection E as <-. cbn. apply nth_error_In in Ej. apply in_seq in Ej.
      destruct (nth_error_ex (repeat {| ch_buf := []; ch_closed := false |} (pool_size cf)) j) as [ch Ech].
      { rewrite repeat_length. lia. }
      exists ch. split; [exact Ech|discriminate].
    - intros i H. rewrite repeat_length in H. exists i. eexists. rewrite nth_error_map.
      replace (nth_error (seq 0 (pool_size cf)) i) with (Some i); [split; reflexivity|].
      symmetry. rewrite nth_error_nth' with (d := 0) by now rewrite seq_length. now rewrite seq_nth.
    - cbn. unfold in_flight, waiting. cbn.
      assert (E1 : forall n k, flat_map (fun k => match wk_cur k with Some x => [x] | None => [] end)
         (map (fun i => {| wk_chan := i; wk_cur := None; wk_alive := true |}) (seq k n)) = []).
      { induction n; intros k; cbn; auto. }
      assert (E2 : forall n, flat_map ch_buf (repeat {| ch_buf := []; ch_closed := false |} n) = []).
      { induction n; cbn; auto. }
      rewrite E1, E2. constructor.
    - reflexivity.
  Qed.

  Lemma all_sent_app a b : all_sent (a ++ b) = all_sent a ++ all_sent b.
  Proof. apply flat_map_app. Qed.
  Lemma all_ended_app a b : all_ended (a ++ b) = all_ended a ++ all_ended b.
  Proof. apply flat_map_app. Qed.

  (* only the connection list changes, keeping worker IDs *)
  Lemma uinv_conns s tr cs :
    uinv s tr ->
    (forall c k w, nth_error cs c = Some k -> co_worker k = Some w ->
       exists c' k', nth_error (ws_conns s) c' = Some k' /\ co_worker k' = Some w) ->
    uinv {| ws_chans := ws_chans s; ws_tq := ws_tq s; ws_workers := ws_workers s; ws_free := ws_free s;
            ws_extra := ws_extra s; ws_conns := cs; ws_crashed := ws_crashed s |} tr.
  Proof.
    intros [] H. constructor; cbn; auto.
    - intros Hp c k w E Ew. destruct (H c k w E Ew) as (c' & k' & E' & Ew'). eauto.
    - intros Hm Hp c k w E Ew. destruct (H c k w E Ew) as (c' & k' & E' & Ew'). eauto.
  Qed.

  Lemma uinv_silent s tr es : uinv s tr -> all_sent es = [] -> all_ended es = [] -> uinv s (tr ++ es).
  Proof.
    intros [] H1 H2. constructor; auto. rewrite all_sent_app, all_ended_app, H1, H2, !app_nil_r. auto.
  Qed.

  (* a connection gets a valid worker *)
  Lemma uinv_assign s tr c k w :
    uinv s tr -> nth_error (ws_conns s) c = Some k ->
    (pool_size cf > 0 -> exists i, nth_error (ws_tq s) w = Some (Some i)) ->
    (cf_mode cf <> ModeDynamicBind -> pool_size cf > 0 -> w < pool_size cf) ->
    forall k', co_worker k' = Some w -> uinv (with_conn s c k') tr.
  Proof.
    intros H E Hq Hb k' Ek'. destruct H. constructor; cbn; auto.
    - intros Hp d k0 w0 E0 Ew. destruct (nth_error_set_nth _ _ _ _ _ E0) as [(-> & -> & _)|(N & E1)].
      + assert (w0 = w) as -> by congruence. auto.
      + eauto.
    - intros Hm Hp d k0 w0 E0 Ew. destruct (nth_error_set_nth _ _ _ _ _ E0) as [(-> & -> & _)|(N & E1)].
      + assert (w0 = w) as -> by congruence. auto.
      + eauto.
  Qed.

  Lemma uinv_spawn s tr ch es :
    uinv s tr -> all_ended es = [] -> Permutation (all_sent es) (ch_buf ch) ->
    uinv (fst (spawn s ch)) (tr ++ es).
  Proof.
    intros [] He Hs. constructor; cbn; auto.
    - intros w i E. rewrite app_length. specialize (u_tq0 w i E). cbn. lia.
    - intros w k E. rewrite nth_error_snoc in E. destruct (Nat.eqb_spec w (length (ws_workers s))).
      + injection E as <-. cbn. exists ch. rewrite nth_error_snoc, Nat.eqb_refl. split; [reflexivity|discriminate].
      + destruct (u_worker0 w k E) as (ch0 & E0 & H0). exists ch0. split; [|exact H0].
        rewrite nth_error_app1; [exact E0|]. eapply nth_error_lt; eauto.
    - intros i Hi. rewrite app_length in Hi. cbn in Hi. destruct (Nat.eq_dec i (length (ws_chans s))) as [->|N].
      + exists (length (ws_workers s)). eexists. rewrite nth_error_snoc, Nat.eqb_refl. split; reflexivity.
      + destruct (u_cover0 i ltac:(lia)) as (w & k & E & Ek). exists w, k. split; [|exact Ek].
        rewrite nth_error_app1; [exact E|]. eapply nth_error_lt; eauto.
    - rewrite all_sent_app, all_ended_app, He, app_nil_r. unfold in_flight, waiting. cbn.
      rewrite !flat_map_app. cbn [flat_map wk_cur]. rewrite !app_nil_r.
      rewrite !app_assoc. apply Permutation_app; [|exact Hs]. rewrite <- app_assoc. exact u_perm0.
  Qed.

  Lemma uinv_with_tq s tr w i : uinv s tr -> i < length (ws_chans s) -> uinv (with_tq s w i) tr.
  Proof.
    intros [] Hi. constructor; cbn; auto.
    - rewrite set_nth_length. exact u_len0.
    - intros w0 i0 E. destruct (nth_error_set_nth _ _ _ _ _ E) as [(-> & [= ->] & _)|(N & E1)]; [exact Hi|eauto].
    - intros w0 H0. destruct (Nat.eq_dec w w0) as [<-|N].
      + exists i. apply nth_error_set_nth_same. lia.
      + rewrite nth_error_set_nth_other by exact N. auto.
    - intros Hp c k w0 E Ew. destruct (Nat.eq_dec w w0) as [<-|N].
      + exists i. destruct (u_conn0 Hp c k w E Ew) as [i0 E0]. apply nth_error_set_nth_same.
        eapply nth_error_lt; eauto.
      + rewrite nth_error_set_nth_other by exact N. eauto.
  Qed.

  Lemma uinv_with_free s tr l : uinv s tr -> (forall w, In w l -> w < pool_size cf) -> uinv (with_free s l) tr.
  Proof. intros [] H. constructor; cbn; auto. Qed.
  Lemma uinv_with_extra s tr l : uinv s tr -> (forall w, In w l -> w < queue_len cf) -> uinv (with_extra s l) tr.
  Proof. intros [] H. constructor; cbn; auto. Qed.

  (* a channel changes: contents reported in the trace, never reopened *)
  Lemma uinv_chan s tr es i ch ch' :
    uinv s tr -> nth_error (ws_chans s) i = Some ch -> all_ended es = [] ->
    ch_buf ch' = ch_buf ch ++ all_sent es ->
    (ch_closed ch = true -> ch_closed ch' = true /\ all_sent es = []) ->
    uinv (with_chan s i ch') (tr ++ es).
  Proof.
    intros [] E He Hb Hc. constructor; cbn; auto; rewrite ?set_nth_length; auto.
    - intros w k Ek. destruct (u_worker0 w k Ek) as (ch0 & E0 & H0).
      destruct (Nat.eq_dec i (wk_chan k)) as [->|N].
      + exists ch'. rewrite nth_error_set_nth_same by (eapply nth_error_lt; eauto). split; [reflexivity|].
        intros Hd. destruct (H0 Hd) as (? & ? & ?). assert (ch0 = ch) as -> by congruence.
        destruct (Hc H1) as [H3 H4]. split; [assumption|]. split; [assumption|].
        now rewrite Hb, H4, H2.
      + exists ch0. rewrite nth_error_set_nth_other by exact N. auto.
    - rewrite all_sent_app, all_ended_app, He, app_nil_r. unfold in_flight, waiting in *. cbn.
      pose proof (flat_map_set_nth ch_buf (ws_chans s) i ch' ch E) as Hp. rewrite Hb in Hp.
      rewrite <- app_assoc in Hp. apply Permutation_app_inv_l in Hp.
      rewrite Hp. rewrite (Permutation_app_comm (all_sent es)). rewrite !app_assoc.
      apply Permutation_app_tail. rewrite <- app_assoc. exact u_perm0.
  Qed.

  Lemma use_worker_inv s tr id pick s1 w b :
    uinv s tr -> use_worker cf s id pick = (s1, w, b) ->
    uinv s1 tr /\ ws_conns s1 = ws_conns s /\
    (pool_size cf > 0 -> exists i, nth_error (ws_tq s1) w = Some (Some i)) /\
    (cf_mode cf <> ModeDynamicBind -> pool_size cf > 0 -> w < pool_size cf).
  Proof.
    intros H E. unfold use_worker in E.
    assert (Hhash : forall s0, uinv s0 tr -> (pool_size cf > 0 -> exists i, nth_error (ws_tq s0) (hash_worker cf id) = Some (Some i)) /\ (pool_size cf > 0 -> hash_worker cf id < pool_size cf)).
    { intros s0 H0. split; intros Hp; [apply (u_pool _ _ H0)|]; apply hash_worker_lt; exact Hp. }
    assert (Hfree : forall k, pick_one (ws_free s) pick = Some k ->
       uinv (with_free s (remove_id k (ws_free s))) tr /\ k < pool_size cf).
    { intros k Ek. apply pick_one_In in Ek. pose proof (u_free _ _ H k Ek). split; [|assumption].
      apply uinv_with_free; [exact H|]. intros x Hx. apply In_remove_id in Hx. apply (u_free _ _ H). tauto. }
    destruct (cf_mode cf) eqn:Em.
    - injection E as <- <- <-. destruct (Hhash s H). auto.
    - destruct (pick_one (ws_free s) pick) as [k|] eqn:Ek.
      + injection E as <- <- <-. destruct (Hfree k eq_refl) as [H1 H2]. split; [exact H1|]. split; [reflexivity|].
        split; [|auto]. intros _. apply (u_pool _ _ H1). exact H2.
      + injection E as <- <- <-. destruct (Hhash s H). auto.
    - destruct (pick_one (ws_free s) pick) as [k|] eqn:Ek.
      + injection E as <- <- <-. destruct (Hfree k eq_refl) as [H1 H2]. split; [exact H1|]. split; [reflexivity|].
        split; [|auto]. intros _. apply (u_pool _ _ H1). exact H2.
      + destruct (pick_one (ws_extra s) pick) as [k|] eqn:Ek2.
        * cbn [spawn] in E. injection E as <- <- <-.
          pose proof (uinv_spawn s tr {| ch_buf := []; ch_closed := false |} [] H eq_refl ltac:(constructor)) as Hs.
          rewrite app_nil_r in Hs. cbn [spawn fst] in Hs.
          split; [apply uinv_with_tq; [exact Hs|cbn; rewrite app_length; cbn; lia]|].
          split; [reflexivity|]. split; [|congruence]. intros _. eexists. cbn. apply nth_error_set_nth_same.
          rewrite (u_len _ _ H). apply (u_extra _ _ H). eapply pick_one_In; eauto.
        * injection E as <- <- <-. destruct (Hhash s H) as [H1 H2]. auto.
  Qed.

  Lemma free_worker_inv s tr w s1 b :
    uinv s tr -> (pool_size cf > 0 -> cf_mode cf <> ModeDynamicBind -> w < pool_size cf) ->
    (cf_mode cf = ModeBind -> pool_size cf > 0) ->
    free_worker cf s w = (s1, b) -> uinv s1 tr /\ ws_conns s1 = ws_conns s.
  Proof.
    intros H Hw Hb E. unfold free_worker in E.
    assert (Hf : w < pool_size cf -> uinv (with_free s (add_id w (ws_free s))) tr).
    { intros Hl. apply uinv_with_free; [exact H|]. intros x Hx. apply In_add_id in Hx. destruct Hx as [->|Hx]; [exact Hl|]. now apply (u_free _ _ H). }
    destruct (cf_mode cf) eqn:Em.
    - injection E as <- <-. auto.
    - injection E as <- <-. split; [|reflexivity]. apply Hf. apply Hw; [auto|congruence].
    - destruct (Nat.ltb_spec w (pool_size cf)) as [Hl|Hl].
      + injection E as <- <-. split; [now apply Hf|reflexivity].
      + destruct (nth_error (ws_tq s) w) as [[i|]|] eqn:Eq; try (injection E as <- <-; split; [exact H|reflexivity]).
        destruct (nth_error (ws_chans s) i) as [ch|] eqn:Ec; [|injection E as <- <-; split; [exact H|reflexivity]].
        destruct (ch_closed ch) eqn:Ecl; injection E as <- <-; [split; [exact H|reflexivity]|].
        split; [|reflexivity].
        pose proof (uinv_chan s tr [] i ch {| ch_buf := ch_buf ch; ch_closed := true |} H Ec eq_refl) as H1.
        rewrite (app_nil_r tr) in H1. apply uinv_with_extra.
        * apply H1; [cbn; now rewrite app_nil_r|]. intros _. split; reflexivity.
        * cbn. intros x Hx. apply In_add_id in Hx. destruct Hx as [->|Hx]; [|now apply (u_extra _ _ H)].
          rewrite <- (u_len _ _ H). eapply nth_error_lt; eauto.
  Qed.

  Lemma wstep_inv s tr l s' es :
    uinv s tr -> (cf_max cf = 0 -> ws_conns s = []) -> wstep cf s l = (s', es) ->
    uinv s' (tr ++ es) /\ (cf_max cf = 0 -> ws_conns s' = []).
  Proof.
    intros H Hz E. unfold wstep in E. rewrite (u_crash _ _ H) in E.
    assert (Hnop : (s, []) = (s', es) -> uinv s' (tr ++ es) /\ (cf_max cf = 0 -> ws_conns s' = [])).
    { intros [= <- <-]. rewrite app_nil_r. auto. }
    assert (Hz' : forall c k, nth_error (ws_conns s) c = Some k -> cf_max cf <> 0).
    { intros c k Ek E0. rewrite (Hz E0) in Ek. destruct c; discriminate. }
    destruct l as [|c pick|c j|w|w fuel|c|c].
    - (* LAccept *)
      destruct (Nat.ltb_spec (in_manager s) (cf_max cf)) as [Hl|Hl]; [|auto].
      injection E as <- <-. rewrite app_nil_r. split; [|cbn; lia].
      rewrite <- (u_crash _ _ H). apply uinv_conns; [exact H|].
      intros c k w0 Ek Ew. rewrite nth_error_snoc in Ek. destruct (Nat.eqb_spec c (length (ws_conns s))).
      + injection Ek as <-. discriminate.
      + eauto.
    - (* LStart *)
      destruct (nth_error (ws_conns s) c) as [k|] eqn:Ek; [|auto].
      destruct (co_worker k) as [w|] eqn:Ew; [auto|].
      destruct (use_worker cf s (co_id k) pick) as [[s1 w] b] eqn:Eu.
      injection E as <- <-. destruct (use_worker_inv s tr _ _ _ _ _ H Eu) as (H1 & Hcs & Hq & Hbd).
      split.
      + destruct b.
        * apply uinv_silent; [|reflexivity|reflexivity]. apply uinv_assign with (k := k) (w := w); [exact H1|rewrite Hcs; exact Ek|exact Hq|exact Hbd|reflexivity].
        * rewrite app_nil_r. apply uinv_assign with (k := k) (w := w); [exact H1|rewrite Hcs; exact Ek|exact Hq|exact Hbd|reflexivity].
      + intros E0. now specialize (Hz' _ _ Ek E0).
    - (* LSend *)
      destruct (nth_error (ws_conns s) c) as [k|] eqn:Ek; [|auto].
      destruct (co_worker k) as [w|] eqn:Ew; [|auto].
      unfold send_task in E. destruct (Nat.eqb_spec (pool_size cf) 0).
      { injection E as <- <-. split; [|cbn; intros E0; now specialize (Hz' _ _ Ek E0)].
        apply (uinv_spawn s tr {| ch_buf := [(c, j)]; ch_closed := true |}); [exact H|reflexivity|]. cbn. constructor. constructor. }
      destruct (nth_error (ws_tq s) w) as [[i|]|] eqn:Eq.
      + destruct (nth_error (ws_chans s) i) as [ch|] eqn:Ec; [|auto].
        destruct (ch_closed ch) eqn:Ecl.
        * injection E as <- <-. split; [|exact Hz]. now apply uinv_silent.
        * injection E as <- <-. split; [|exact Hz].
          apply (uinv_chan s tr [EvSend c j] i ch); auto. congruence.
      + injection E as <- <-. split; [|exact Hz]. now apply uinv_silent.
      + injection E as <- <-. split; [|exact Hz]. now apply uinv_silent.
    - (* LTake *)
      destruct (nth_error (ws_workers s) w) as [k|] eqn:Ek; [|auto].
      destruct (wk_alive k) eqn:Ea; [|auto]. destruct (wk_cur k) as [x|] eqn:Ecur; [auto|].
      destruct (nth_error (ws_chans s) (wk_chan k)) as [ch|] eqn:Ec; [|auto].
      destruct (ch_buf ch) as [|x rest] eqn:Eb.
      + destruct (ch_closed ch) eqn:Ecl; [|auto]. injection E as <- <-. rewrite app_nil_r. split; [|exact Hz].
        destruct H. constructor; cbn; auto.
        * intros w0 k0 E0. destruct (nth_error_set_nth _ _ _ _ _ E0) as [(-> & -> & _)|(N & E1)].
          -- cbn. exists ch. auto.
          -- eauto.
        * intros i Hi. destruct (u_cover0 i Hi) as (w0 & k0 & E0 & E1).
          destruct (Nat.eq_dec w w0) as [<-|N].
          -- exists w. eexists. rewrite nth_error_set_nth_same by (eapply nth_error_lt; eauto). split; [reflexivity|].
             cbn. congruence.
          -- exists w0, k0. rewrite nth_error_set_nth_other by exact N. auto.
        * unfold in_flight, waiting in *. cbn.
          pose proof (flat_map_set_nth (fun k => match wk_cur k with Some x => [x] | None => [] end) (ws_workers s) w
            {| wk_chan := wk_chan k; wk_cur := None; wk_alive := false |} k Ek) as Hp.
          cbn beta in Hp. rewrite Ecur in Hp. cbn [wk_cur app] in Hp.
          rewrite u_perm0. apply Permutation_app_head. apply Permutation_app_tail. now apply Permutation_sym.
      + injection E as <- <-. split; [|exact Hz].
        destruct H. constructor; cbn; auto; rewrite ?set_nth_length; auto.
        * intros w0 k0 E0. destruct (nth_error_set_nth _ _ _ _ _ E0) as [(-> & -> & _)|(N & E1)].
          -- cbn. eexists. rewrite nth_error_set_nth_same by (eapply nth_error_lt; eauto). split; [reflexivity|discriminate].
          -- destruct (u_worker0 w0 k0 E1) as (ch0 & Ec0 & Hd).
             destruct (Nat.eq_dec (wk_chan k) (wk_chan k0)) as [Eq|Nq].
             ++ rewrite <- Eq in *. eexists. rewrite nth_error_set_nth_same by (eapply nth_error_lt; eauto).
                split; [reflexivity|]. intros Ha. destruct (Hd Ha) as (_ & _ & Hbuf).
                assert (ch0 = ch) as -> by congruence. rewrite Eb in Hbuf. discriminate.
             ++ exists ch0. rewrite nth_error_set_nth_other by exact Nq. auto.
        * intros i Hi. destruct (u_cover0 i Hi) as (w0 & k0 & E0 & E1).
          destruct (Nat.eq_dec w w0) as [<-|N].
          -- exists w. eexists. rewrite nth_error_set_nth_same by (eapply nth_error_lt; eauto). split; [reflexivity|].
             cbn. congruence.
          -- exists w0, k0. rewrite nth_error_set_nth_other by exact N. auto.
        * rewrite all_sent_app, all_ended_app. cbn [all_sent all_ended flat_map]. rewrite !app_nil_r.
          unfold in_flight, waiting in *. cbn.
          pose proof (flat_map_set_nth (fun k => match wk_cur k with Some x => [x] | None => [] end) (ws_workers s) w
            {| wk_chan := wk_chan k; wk_cur := Some x; wk_alive := true |} k Ek) as Hp.
          cbn beta in Hp. rewrite Ecur in Hp. cbn [wk_cur app] in Hp.
          pose proof (flat_map_set_nth ch_buf (ws_chans s) (wk_chan k)
            {| ch_buf := rest; ch_closed := ch_closed ch |} ch Ec) as Hq.
          rewrite Eb in Hq. cbn [ch_buf] in Hq. change (x :: rest) with ([x] ++ rest) in Hq.
          rewrite (Permutation_app_comm [x] rest), <- app_assoc in Hq. apply Permutation_app_inv_l in Hq.
          rewrite Hp, u_perm0. apply Permutation_app_head. rewrite <- Hq. cbn.
          symmetry. apply Permutation_middle.
    - (* LFinish *)
      destruct (nth_error (ws_workers s) w) as [k|] eqn:Ek; [|auto].
      destruct (wk_cur k) as [[c j]|] eqn:Ecur; [|auto].
      pose proof (handle_no_panic fuel (cf_routes cf) j) as Hnp.
      destruct (handle fuel (cf_routes cf) j) as [hs r]. destruct r; [|now elim Hnp|auto].
      injection E as <- <-. split; [|exact Hz].
      destruct H. constructor; cbn; auto.
      + intros w0 k0 E0. destruct (nth_error_set_nth _ _ _ _ _ E0) as [(-> & -> & _)|(N & E1)].
        * cbn. destruct (u_worker0 w0 k Ek) as (ch & Ec & Hd). exists ch. split; [exact Ec|].
          intros Ha. destruct (Hd Ha) as (Hcur & _). congruence.
        * eauto.
      + intros i Hi. destruct (u_cover0 i Hi) as (w0 & k0 & E0 & E1).
        destruct (Nat.eq_dec w w0) as [<-|N].
        * exists w. eexists. rewrite nth_error_set_nth_same by (eapply nth_error_lt; eauto). split; [reflexivity|].
          cbn. congruence.
        * exists w0, k0. rewrite nth_error_set_nth_other by exact N. auto.
      + rewrite all_sent_app, all_ended_app. cbn [all_sent all_ended flat_map app]. rewrite !app_nil_r.
        unfold in_flight, waiting in *. cbn.
        pose proof (flat_map_set_nth (fun k => match wk_cur k with Some x => [x] | None => [] end) (ws_workers s) w
            {| wk_chan := wk_chan k; wk_cur := None; wk_alive := wk_alive k |} k Ek) as Hp.
        cbn beta in Hp. rewrite Ecur in Hp. cbn [wk_cur app] in Hp.
        rewrite u_perm0, <- app_assoc. apply Permutation_app_head. cbn [app].
        rewrite <- Hp. reflexivity.
    - (* LRemove *)
      destruct (nth_error (ws_conns s) c) as [k|] eqn:Ek; [|auto].
      destruct (co_worker k) as [w|] eqn:Ew; [|auto]. injection E as <- <-. rewrite app_nil_r. split.
      + unfold with_conn. apply uinv_conns; [exact H|]. intros d k0 w0 E0 Ew0.
        destruct (nth_error_set_nth _ _ _ _ _ E0) as [(-> & -> & _)|(N & E1)]; [|eauto].
        cbn in Ew0. exists d, k. split; [exact Ek|congruence].
      + intros E0. now specialize (Hz' _ _ Ek E0).
    - (* LFree *)
      destruct (nth_error (ws_conns s) c) as [k|] eqn:Ek; [|auto].
      destruct (co_worker k) as [w|] eqn:Ew; [|auto]. destruct (co_mgr k); [auto|]. destruct (co_freed k); [auto|].
      destruct (free_worker cf s w) as [s1 p] eqn:Ef. injection E as <- <-.
      destruct (free_worker_inv s tr w s1 p H) as [H1 Hcs]; auto.
      { intros Hp Hm. eapply (u_bound _ _ H); eauto. }
      { intros Em. specialize (Hz' _ _ Ek). unfold pool_size. rewrite Em. lia. }
      split.
      + assert (Hu : uinv (with_conn s1 c {| co_id := co_id k; co_worker := co_worker k; co_mgr := false; co_freed := true |}) tr).
        { unfold with_conn. apply uinv_conns; [exact H1|]. intros d k0 w0 E0 Ew0.
          destruct (nth_error_set_nth _ _ _ _ _ E0) as [(-> & -> & _)|(N & E1)]; [|eauto].
          cbn in Ew0. exists d, k. rewrite Hcs. split; [exact Ek|congruence]. }
        rewrite Ew in Hu. destruct p; [now apply uinv_silent|now rewrite app_nil_r].
      + intros E0. now specialize (Hz' _ _ Ek E0).
  Qed.

  Lemma wrun_app s l1 l2 :
    wrun cf s (l1 ++ l2) =
    (fst (wrun cf (fst (wrun cf s l1)) l2), snd (wrun cf s l1) ++ snd (wrun cf (fst (wrun cf s l1)) l2)).
  Proof.
    revert s. induction l1 as [|l l1 IH]; intros s; cbn [app wrun].
    - cbn. now destruct (wrun cf s l2).
    - destruct (wstep cf s l) as [s1 e1]. specialize (IH s1).
      destruct (wrun cf s1 (l1 ++ l2)) as [s2 e2]. destruct (wrun cf s1 l1) as [s3 e3]. cbn [fst snd] in *.
      injection IH as -> ->. now rewrite app_assoc.
  Qed.

  Lemma wrun_uinv ls : forall s tr, uinv s tr -> (cf_max cf = 0 -> ws_conns s = []) ->
    uinv (fst (wrun cf s ls)) (tr ++ snd (wrun cf s ls)).
  Proof.
    induction ls as [|l ls IH]; intros s tr H Hz; cbn [wrun].
    - cbn. now rewrite app_nil_r.
    - destruct (wstep cf s l) as [s1 e1] eqn:E1. destruct (wstep_inv s tr l s1 e1 H Hz E1) as [H1 Hz1].
      specialize (IH s1 _ H1 Hz1). destruct (wrun cf s1 ls) as [s2 e2]. cbn [fst snd] in *. now rewrite app_assoc.
  Qed.

  Lemma server_uinv ls s tr : server_run cf ls = Some (s, tr) -> uinv s tr.
  Proof.
    unfold server_run. destruct (start_pool cf) as [s0|] eqn:E0; [|discriminate]. intros [= E].
    pose proof (wrun_uinv ls s0 [] (start_pool_inv s0 E0)) as H. rewrite E in H. apply H.
    intros _. unfold start_pool in E0. destruct (_ <? _); [discriminate|]. now injection E0 as <-.
  Qed.
End S.

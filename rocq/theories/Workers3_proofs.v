From Coq Require Import ZArith List Bool Arith Lia Permutation.
From Verif Require Import Bytes Pack Request GoSlice Router Router_proofs Dispatch Workers Spec_Workers Workers_proofs Workers2_proofs.
Import ListNotations.

(* ---- distinct workers in Bind and DynamicBind mode ---- *)

Definition held (k : wconn) : list nat :=
  match co_worker k with Some w => if co_freed k then [] else [w] | None => [] end.
Definition holders (s : wst) : list nat := flat_map held (ws_conns s).

Lemma holders_length s : length (holders s) = holding s.
Proof.
  unfold holders, holding. induction (ws_conns s) as [|k l IH]; [reflexivity|]. cbn. rewrite app_length, IH.
  unfold held, holds. destruct (co_worker k); [destruct (co_freed k)|]; reflexivity.
Qed.

Lemma NoDup_flat_map_nth {B C} (f : B -> list C) l i j x y v :
  NoDup (flat_map f l) -> i <> j -> nth_error l i = Some x -> nth_error l j = Some y -> In v (f x) -> ~ In v (f y).
Proof.
  assert (Hlt : forall i j x y, i < j -> NoDup (flat_map f l) -> nth_error l i = Some x -> nth_error l j = Some y ->
            In v (f x) -> In v (f y) -> False).
  { clear i j x y. induction l as [|z l IH]; intros i j x y Hij Hnd Ei Ej Hx Hy; [destruct i; discriminate|].
    destruct j as [|j]; [lia|]. cbn in Hnd, Ej. destruct i as [|i]; cbn in Ei.
    - injection Ei as ->. assert (Hin : In v (flat_map f l)).
      { apply in_flat_map. exists y. split; [eapply nth_error_In; eauto|exact Hy]. }
      clear - Hnd Hx Hin. induction (f x) as [|a r IH]; [destruct Hx|]. cbn in Hnd. inversion Hnd; subst.
      destruct Hx as [->|Hx]; [apply H1; apply in_or_app; now right|now apply IH].
    - apply (IH i j x y); auto; [lia|]. clear - Hnd. induction (f z) as [|a r IH]; [exact Hnd|]. inversion Hnd; auto. }
  intros Hnd N Ei Ej Hx Hy. destruct (Nat.lt_gt_cases i j) as [H _]. destruct (H N) as [Hl|Hl].
  - exact (Hlt i j x y Hl Hnd Ei Ej Hx Hy).
  - exact (Hlt j i y x Hl Hnd Ej Ei Hy Hx).
Qed.

Lemma remove_id_perm k l : NoDup l -> In k l -> Permutation l (k :: remove_id k l).
Proof.
  intros Hnd Hin. apply NoDup_Permutation; [exact Hnd| |].
  - constructor; [intros H; apply In_remove_id in H; tauto|]. now apply NoDup_filter.
  - intros x. cbn. rewrite In_remove_id. destruct (Nat.eq_dec x k) as [->|N]; [tauto|]. split; [auto|]. intros [E|[E _]]; [congruence|exact E].
Qed.

Lemma filter_set_nth_len {B} (f : B -> bool) l i x y : nth_error l i = Some y -> f x = f y ->
  length (filter f (set_nth i x l)) = length (filter f l).
Proof.
  intros E Ef. destruct (set_nth_split l i x y E) as (a & b & -> & -> & _).
  rewrite !filter_app, !app_length. cbn. rewrite Ef. destruct (f y); reflexivity.
Qed.

Section S.
  Variable cf : wcfg.
  Let P := pool_size cf.

  Record hinv (s : wst) : Prop := {
    h_perm : Permutation (holders s ++ ws_free s) (seq 0 P);
    h_mgr : forall k, In k (ws_conns s) -> co_mgr k = true -> co_freed k = false;
    h_started : forall k, In k (ws_conns s) -> co_worker k = None -> co_mgr k = true;
    h_limit : in_manager s <= cf_max cf
  }.

  Lemma h_start s : cf_mode cf <> ModeHash -> start_pool cf = Some s -> hinv s.
  Proof.
    intros Hm. unfold start_pool. fold P. destruct (queue_len cf <? P); [discriminate|]. intros [= <-].
    constructor; cbn; try contradiction.
    - destruct (cf_mode cf); [congruence|reflexivity|reflexivity].
    - lia.
  Qed.

  Lemma hinv_same s s' : hinv s -> ws_conns s' = ws_conns s -> ws_free s' = ws_free s -> hinv s'.
  Proof. intros [] E1 E2. constructor; unfold holders, in_manager in *; rewrite ?E1, ?E2; auto. Qed.

  Lemma h_nodup s : hinv s -> NoDup (holders s ++ ws_free s).
  Proof. intros H. eapply Permutation_NoDup; [apply Permutation_sym, h_perm; exact H|apply seq_NoDup]. Qed.

  Lemma In_set_nth {B} (l : list B) i x y : In y (set_nth i x l) -> y = x \/ In y l.
  Proof.
    intros H. apply In_nth_error in H. destruct H as [n E]. destruct (nth_error_set_nth _ _ _ _ _ E) as [(_ & -> & _)|(_ & E1)]; [now left|].
    right. eapply nth_error_In; eauto.
  Qed.

  Lemma filter_set_nth_le {B} (f : B -> bool) l i x y : nth_error l i = Some y -> (f x = true -> f y = true) ->
    length (filter f (set_nth i x l)) <= length (filter f l).
  Proof.
    intros E Ef. destruct (set_nth_split l i x y E) as (a & b & -> & -> & _).
    rewrite !filter_app, !app_length. cbn. destruct (f x); [rewrite Ef by reflexivity; cbn; lia|]. destruct (f y); cbn; lia.
  Qed.

  Lemma wstep_h s tr l s' es :
    uinv cf s tr -> hinv s -> cf_mode cf <> ModeHash ->
    (forall c pick k, l = LStart c pick -> nth_error (ws_conns s) c = Some k -> co_worker k = None -> holding s < P) ->
    wstep cf s l = (s', es) -> hinv s' /\ (forall c, ~ In (EvExtra c) es).
  Proof.
    intros HU H Hm Hroom E. unfold wstep in E. rewrite (u_crash _ _ _ HU) in E.
    assert (Hnop : (s, []) = (s', es) -> hinv s' /\ (forall c, ~ In (EvExtra c) es)).
    { intros [= <- <-]. auto. }
    destruct l as [|c pick|c j|w|w fuel|c|c].
    - destruct (Nat.ltb_spec (in_manager s) (cf_max cf)) as [Hl|]; [|auto]. injection E as <- <-.
      split; [|auto]. constructor.
      + unfold holders. cbn. rewrite flat_map_app. cbn. rewrite app_nil_r. apply (h_perm _ H).
      + cbn. intros k Hk. apply in_app_or in Hk. destruct Hk as [Hk|[<-|[]]]; [now apply (h_mgr _ H)|reflexivity].
      + cbn. intros k Hk. apply in_app_or in Hk. destruct Hk as [Hk|[<-|[]]]; [now apply (h_started _ H)|reflexivity].
      + unfold in_manager in *. cbn. rewrite filter_app, app_length. cbn. lia.
    - destruct (nth_error (ws_conns s) c) as [k|] eqn:Ek; [|auto].
      destruct (co_worker k) as [w|] eqn:Ew; [auto|].
      specialize (Hroom c pick k eq_refl Ek Ew).
      assert (Hfree : ws_free s <> []).
      { intros E0. pose proof (Permutation_length (h_perm _ H)) as Hl.
        rewrite app_length, holders_length, E0, seq_length in Hl. cbn in Hl. lia. }
      destruct (use_worker cf s (co_id k) pick) as [[s1 w] b] eqn:Eu. injection E as <- <-.
      assert (Hu : exists w, In w (ws_free s) /\ use_worker cf s (co_id k) pick = (with_free s (remove_id w (ws_free s)), w, false)).
      { unfold use_worker. destruct (pick_one (ws_free s) pick) as [w0|] eqn:Ep; [|apply pick_one_none in Ep; congruence].
        exists w0. split; [eapply pick_one_In; eauto|]. destruct (cf_mode cf); [congruence|reflexivity|reflexivity]. }
      destruct Hu as (w0 & Hin & Hu). rewrite Hu in Eu. injection Eu as <- <- <-. split; [|auto].
      destruct (set_nth_split (ws_conns s) c
        {| co_id := co_id k; co_worker := Some w0; co_mgr := co_mgr k; co_freed := co_freed k |} k Ek) as (a & b & E1 & E2 & _).
      assert (Hm' : co_mgr k = true) by (apply (h_started _ H); [eapply nth_error_In; eauto|exact Ew]).
      assert (Hf : co_freed k = false) by (apply (h_mgr _ H); [eapply nth_error_In; eauto|exact Hm']).
      constructor.
      + cbn. unfold holders. cbn [ws_conns with_conn with_free]. rewrite E2.
        rewrite flat_map_app. cbn [flat_map held co_worker co_freed].
        unfold held at 2. cbn [co_worker co_freed]. rewrite Hf.
        pose proof (h_perm _ H) as Hp. unfold holders in Hp. rewrite E1, flat_map_app in Hp. cbn [flat_map] in Hp.
        unfold held at 2 in Hp. rewrite Ew in Hp. cbn [app] in Hp.
        assert (Hnd : NoDup (ws_free s)).
        { pose proof (h_nodup _ H) as Hn. clear - Hn. induction (holders s); [exact Hn|]. inversion Hn; auto. }
        pose proof (remove_id_perm w0 (ws_free s) Hnd Hin) as Hr. rewrite Hr in Hp. rewrite <- Hp.
        rewrite <- !app_assoc. apply Permutation_app_head. cbn. apply Permutation_middle.
      + cbn. intros k0 Hk0. apply In_set_nth in Hk0. destruct Hk0 as [->|Hk0]; [cbn; auto|now apply (h_mgr _ H)].
      + cbn. intros k0 Hk0. apply In_set_nth in Hk0. destruct Hk0 as [->|Hk0]; [discriminate|now apply (h_started _ H)].
      + unfold in_manager. cbn. pose proof (filter_set_nth_le co_mgr (ws_conns s) c
          {| co_id := co_id k; co_worker := Some w0; co_mgr := co_mgr k; co_freed := co_freed k |} k Ek (fun e => e)) as Hl. cbn in Hl.
        pose proof (h_limit _ H). unfold in_manager in *. lia.
    - destruct (nth_error (ws_conns s) c) as [k|] eqn:Ek; [|auto].
      destruct (co_worker k) as [w|] eqn:Ew; [|auto].
      unfold send_task in E.
      destruct (_ =? _); [injection E as <- <-; split; [apply (hinv_same s); auto|intros d [|[]]; discriminate]|].
      destruct (nth_error (ws_tq s) w) as [[i|]|]; [|injection E as <- <-; split; [auto|intros d [|[]]; discriminate]..].
      destruct (nth_error (ws_chans s) i) as [ch|]; [|auto].
      destruct (ch_closed ch); injection E as <- <-; (split; [apply (hinv_same s); auto|intros d [|[]]; discriminate]).
    - destruct (nth_error (ws_workers s) w) as [k|]; [|auto]. destruct (wk_alive k); [|auto]. destruct (wk_cur k); [auto|].
      destruct (nth_error (ws_chans s) (wk_chan k)) as [ch|]; [|auto].
      destruct (ch_buf ch); [destruct (ch_closed ch); [|auto]|]; injection E as <- <-.
      + split; [apply (hinv_same s); auto|auto].
      + split; [apply (hinv_same s); auto|intros d [|[]]; discriminate].
    - destruct (nth_error (ws_workers s) w) as [k|]; [|auto]. destruct (wk_cur k) as [[c j]|]; [|auto].
      destruct (handle fuel (cf_routes cf) j) as [hs r]. destruct r; [| |auto]; injection E as <- <-.
      + split; [apply (hinv_same s); auto|intros d [|[]]; discriminate].
      + split; [apply (hinv_same s); auto|auto].
    - destruct (nth_error (ws_conns s) c) as [k|] eqn:Ek; [|auto].
      destruct (co_worker k) as [w|] eqn:Ew; [|auto]. injection E as <- <-. split; [|auto].
      destruct (set_nth_split (ws_conns s) c
        {| co_id := co_id k; co_worker := Some w; co_mgr := false; co_freed := co_freed k |} k Ek) as (a & b & E1 & E2 & _).
      constructor.
      + unfold holders. cbn [ws_conns with_conn ws_free]. pose proof (h_perm _ H) as Hp. unfold holders in Hp.
        rewrite E2. rewrite E1 in Hp. rewrite flat_map_app in *. cbn [flat_map] in *.
        unfold held at 2. unfold held at 2 in Hp. rewrite Ew in Hp. exact Hp.
      + cbn. intros k0 Hk0. apply In_set_nth in Hk0. destruct Hk0 as [->|Hk0]; [discriminate|now apply (h_mgr _ H)].
      + cbn. intros k0 Hk0. apply In_set_nth in Hk0. destruct Hk0 as [->|Hk0]; [discriminate|now apply (h_started _ H)].
      + unfold in_manager. cbn. pose proof (filter_set_nth_le co_mgr (ws_conns s) c
          {| co_id := co_id k; co_worker := Some w; co_mgr := false; co_freed := co_freed k |} k Ek ltac:(discriminate)) as Hl.
        pose proof (h_limit _ H). unfold in_manager in *. lia.
    - destruct (nth_error (ws_conns s) c) as [k|] eqn:Ek; [|auto].
      destruct (co_worker k) as [w|] eqn:Ew; [|auto]. destruct (co_mgr k) eqn:Emg; [auto|]. destruct (co_freed k) eqn:Efr; [auto|].
      assert (Hinh : In w (holders s)).
      { unfold holders. apply in_flat_map. exists k. split; [eapply nth_error_In; eauto|]. unfold held. rewrite Ew, Efr. now left. }
      assert (HwP : w < P).
      { assert (Hin : In w (seq 0 P)) by (eapply Permutation_in; [apply (h_perm _ H)|apply in_or_app; now left]).
        apply in_seq in Hin. lia. }
      assert (Ef : free_worker cf s w = (with_free s (add_id w (ws_free s)), false)).
      { unfold free_worker. fold P. replace (w <? P) with true by (symmetry; apply Nat.ltb_lt; exact HwP).
        destruct (cf_mode cf); [congruence|reflexivity|reflexivity]. }
      rewrite Ef in E. injection E as <- <-. split; [|auto].
      assert (Hnf : ~ In w (ws_free s)).
      { pose proof (h_nodup _ H) as Hn. intros Hin. clear - Hn Hinh Hin.
        induction (holders s) as [|y l IH]; [destruct Hinh|]. cbn in Hn. inversion Hn; subst.
        destruct Hinh as [->|Hinh]; [apply H1; apply in_or_app; now right|auto]. }
      destruct (set_nth_split (ws_conns s) c
        {| co_id := co_id k; co_worker := Some w; co_mgr := false; co_freed := true |} k Ek) as (a & b & E1 & E2 & _).
      constructor.
      + unfold holders. cbn [ws_conns with_conn with_free ws_free]. pose proof (h_perm _ H) as Hp. unfold holders in Hp.
        rewrite E2. rewrite E1 in Hp. rewrite flat_map_app in *. cbn [flat_map] in *.
        unfold held at 2. unfold held at 2 in Hp. rewrite Ew, Efr in Hp. cbn [co_worker co_freed app] in *.
        assert (Ea : add_id w (ws_free s) = w :: ws_free s).
        { unfold add_id. destruct (existsb (Nat.eqb w) (ws_free s)) eqn:Ee; [|reflexivity].
          apply existsb_exists in Ee. destruct Ee as (y & Hy & Ey). apply Nat.eqb_eq in Ey. congruence. }
        rewrite Ea. rewrite <- Hp. rewrite <- !app_assoc. apply Permutation_app_head. cbn. symmetry. apply Permutation_middle.
      + cbn. intros k0 Hk0. apply In_set_nth in Hk0. destruct Hk0 as [->|Hk0]; [discriminate|now apply (h_mgr _ H)].
      + cbn. intros k0 Hk0. apply In_set_nth in Hk0. destruct Hk0 as [->|Hk0]; [discriminate|now apply (h_started _ H)].
      + unfold in_manager. cbn. pose proof (filter_set_nth_le co_mgr (ws_conns s) c
          {| co_id := co_id k; co_worker := Some w; co_mgr := false; co_freed := true |} k Ek ltac:(discriminate)) as Hl.
        pose proof (h_limit _ H). unfold in_manager in *. lia.
  Qed.

  (* in Bind mode a starting connection leaves room if no close is in progress *)
  Lemma room_in_bind s c k : hinv s -> no_close_in_progress s ->
    nth_error (ws_conns s) c = Some k -> co_worker k = None -> holding s < cf_max cf.
  Proof.
    intros H Hc Ek Ew. pose proof (h_limit _ H) as Hl. unfold holding, in_manager in *.
    assert (Hmk : co_mgr k = true) by (apply (h_started _ H); [eapply nth_error_In; eauto|exact Ew]).
    destruct (set_nth_split (ws_conns s) c k k Ek) as (a & b & E1 & _ & _).
    assert (Hle : forall l, (forall x, In x l -> In x (ws_conns s)) -> length (filter holds l) <= length (filter co_mgr l)).
    { induction l as [|x l IH]; intros Hi; [cbn; lia|]. specialize (IH (fun y Hy => Hi y (or_intror Hy))).
      cbn. specialize (Hc x (Hi x (or_introl eq_refl))). unfold holds at 1. destruct (co_worker x), (co_freed x), (co_mgr x); cbn; try lia;
      specialize (Hc eq_refl); discriminate. }
    rewrite E1 in Hl |- *. rewrite !filter_app, !app_length in *. cbn in *. rewrite Hmk in Hl. unfold holds at 2. rewrite Ew.
    pose proof (Hle a) as H1. pose proof (Hle b) as H2. rewrite E1 in H1, H2.
    specialize (H1 (fun x Hx => in_or_app _ _ _ (or_introl Hx))).
    assert (H3 : forall x, In x b -> In x (a ++ k :: b)) by (intros x Hx; apply in_or_app; right; now right).
    specialize (H2 H3). cbn in Hl. lia.
  Qed.

  Lemma wrun_h (Q : wst -> Prop) ls :
    cf_mode cf <> ModeHash ->
    (forall s c k, hinv s -> Q s -> nth_error (ws_conns s) c = Some k -> co_worker k = None -> holding s < P) ->
    forall s tr, uinv cf s tr -> hinv s -> (cf_max cf = 0 -> ws_conns s = []) ->
    at_every_start cf s ls Q ->
    hinv (fst (wrun cf s ls)) /\ (forall c, ~ In (EvExtra c) (snd (wrun cf s ls))).
  Proof.
    intros Hm HQ. induction ls as [|l ls IH]; intros s tr HU H Hz Hat; cbn [wrun]; [auto|].
    destruct (wstep cf s l) as [s1 e1] eqn:E1. destruct (wstep_inv cf s tr l s1 e1 HU Hz E1) as [HU1 Hz1].
    destruct (wstep_h s tr l s1 e1 HU H Hm) as [H1 Hx1]; [|exact E1|].
    { intros c pick k -> Ek Ew. apply (HQ s c k H); auto. apply (Hat [] c pick ls eq_refl). }
    destruct (IH s1 _ HU1 H1 Hz1) as [H2 Hx2].
    { intros l1 c pick l2 ->. specialize (Hat (l :: l1) c pick l2 eq_refl). cbn [wrun] in Hat. rewrite E1 in Hat.
      destruct (wrun cf s1 l1) as [s3 e3]. exact Hat. }
    destruct (wrun cf s1 ls) as [s2 e2]. cbn [fst snd] in *. split; [exact H2|].
    intros c Hin. apply in_app_or in Hin. destruct Hin; [eapply Hx1; eauto|eapply Hx2; eauto].
  Qed.

  Lemma distinct_of_hinv s c d w : hinv s -> c <> d -> live_worker s c w -> ~ live_worker s d w.
  Proof.
    intros H N (k & Ek & Hk & Ew) (k' & Ek' & Hk' & Ew').
    pose proof (h_nodup _ H) as Hn.
    assert (Hn' : NoDup (holders s)).
    { clear - Hn. induction (holders s); [constructor|]. cbn in Hn. inversion Hn; subst.
      constructor; [intros Hi; apply H1; apply in_or_app; now left|auto]. }
    assert (Hf : forall c k, nth_error (ws_conns s) c = Some k -> co_mgr k = true -> co_worker k = Some w -> In w (held k)).
    { intros c0 k0 E0 M0 W0. unfold held. rewrite W0, (h_mgr _ H k0); [now left| |exact M0]. eapply nth_error_In; eauto. }
    eapply (NoDup_flat_map_nth held (ws_conns s) c d k k' w Hn' N Ek Ek'); eauto.
  Qed.
End S.

Lemma server_hinv cf (Q : wst -> Prop) ls s tr s0 :
  cf_mode cf <> ModeHash -> start_pool cf = Some s0 ->
  (forall s c k, hinv cf s -> Q s -> nth_error (ws_conns s) c = Some k -> co_worker k = None -> holding s < pool_size cf) ->
  at_every_start cf s0 ls Q -> server_run cf ls = Some (s, tr) ->
  hinv cf s /\ (forall c, ~ In (EvExtra c) tr).
Proof.
  intros Hm E0 HQ Hat E. unfold server_run in E. rewrite E0 in E. injection E as E.
  pose proof (wrun_h cf Q ls Hm HQ s0 [] (start_pool_inv cf s0 E0) (h_start cf s0 Hm E0)) as H.
  rewrite E in H. apply H; [|exact Hat].
  intros _. unfold start_pool in E0. destruct (_ <? _); [discriminate|]. now injection E0 as <-.
Qed.

Lemma bind_distinct cf s0 ls s tr c d w :
  cf_mode cf = ModeBind -> start_pool cf = Some s0 -> server_run cf ls = Some (s, tr) ->
  at_every_start cf s0 ls no_close_in_progress ->
  c <> d -> live_worker s c w -> ~ live_worker s d w.
Proof.
  intros Hm E0 E Hat N. assert (Hm' : cf_mode cf <> ModeHash) by congruence.
  destruct (server_hinv cf no_close_in_progress ls s tr s0 Hm' E0) as [H _]; auto.
  - intros s1 c1 k1 H1 Hc Ek Ew. unfold pool_size. rewrite Hm. eapply room_in_bind; eauto.
  - eapply distinct_of_hinv; eauto.
Qed.

Lemma pool_distinct cf s0 ls s tr :
  cf_mode cf <> ModeHash -> start_pool cf = Some s0 -> server_run cf ls = Some (s, tr) ->
  at_every_start cf s0 ls (fun s => holding s < pool_size cf) ->
  (forall c d w, c <> d -> live_worker s c w -> ~ live_worker s d w) /\ (forall c, ~ In (EvExtra c) tr).
Proof.
  intros Hm E0 E Hat.
  destruct (server_hinv cf (fun s => holding s < pool_size cf) ls s tr s0 Hm E0) as [H Hx]; auto.
  split; [|exact Hx]. intros c d w N. eapply distinct_of_hinv; eauto.
Qed.

(* no queue is ever closed in such runs *)
Lemma pool_open cf s0 ls s tr :
  cf_mode cf <> ModeHash -> pool_size cf > 0 -> start_pool cf = Some s0 -> server_run cf ls = Some (s, tr) ->
  at_every_start cf s0 ls (fun s => holding s < pool_size cf) ->
  forall w ch, queue_of s w = Some ch -> ch_closed ch = false.
Proof.
  intros Hm Hp E0 E Hat w ch Hq. destruct (pool_distinct cf s0 ls s tr Hm E0 E Hat) as [_ Hx].
  unfold server_run in E. rewrite E0 in E. injection E as E.
  assert (Hz : cf_max cf = 0 -> ws_conns s0 = []).
  { intros _. unfold start_pool in E0. destruct (_ <? _); [discriminate|]. now injection E0 as <-. }
  pose proof (wrun_v cf Hp ls s0 [] (start_pool_inv cf s0 E0) (v_start cf Hp s0 E0) Hz) as H.
  rewrite E in H. cbn [fst snd app] in H. specialize (H Hx).
  unfold queue_of in Hq. destruct (nth_error (ws_tq s) w) as [[i|]|]; try discriminate. eapply v_open; eauto.
Qed.

(* the worker index is valid in every mode *)
Lemma index_valid cf ls s tr : pool_size cf > 0 -> server_run cf ls = Some (s, tr) ->
  (forall c k w, nth_error (ws_conns s) c = Some k -> co_worker k = Some w -> exists ch, queue_of s w = Some ch).
Proof.
  intros Hp E c k w Ek Ew. pose proof (server_uinv cf ls s tr E) as HU.
  destruct (u_conn _ _ _ HU Hp c k w Ek Ew) as [i Ei]. unfold queue_of. rewrite Ei.
  apply nth_error_ex. eapply u_tq; eauto.
Qed.

Lemma no_index_panic cf ls s tr : server_run cf ls = Some (s, tr) ->
  forall c, ~ In (EvIndexPanic c) tr /\ ~ In (EvNilQueue c) tr.
Proof.
  unfold server_run. destruct (start_pool cf) as [s0|] eqn:E0; [|discriminate]. intros [= E].
  assert (Hz : cf_max cf = 0 -> ws_conns s0 = []).
  { intros _. unfold start_pool in E0. destruct (_ <? _); [discriminate|]. now injection E0 as <-. }
  pose proof (start_pool_inv cf s0 E0) as HU. clear E0.
  enough (Hg : forall ls s0 t0, uinv cf s0 t0 -> (cf_max cf = 0 -> ws_conns s0 = []) ->
            forall c, ~ In (EvIndexPanic c) (snd (wrun cf s0 ls)) /\ ~ In (EvNilQueue c) (snd (wrun cf s0 ls))).
  { specialize (Hg ls s0 [] HU Hz). rewrite E in Hg. exact Hg. }
  clear. induction ls as [|l ls IH]; intros s tr HU Hz c; cbn [wrun]; [split; cbn; auto|].
  destruct (wstep cf s l) as [s1 e1] eqn:E1. destruct (wstep_inv cf s tr l s1 e1 HU Hz E1) as [HU1 Hz1].
  specialize (IH s1 _ HU1 Hz1 c). destruct (wrun cf s1 ls) as [s2 e2]. cbn [snd] in *.
  enough (He : ~ In (EvIndexPanic c) e1 /\ ~ In (EvNilQueue c) e1).
  { split; intros Hin; apply in_app_or in Hin; destruct Hin; tauto. }
  unfold wstep in E1. rewrite (u_crash _ _ _ HU) in E1.
  assert (Hnil : e1 = [] -> ~ In (EvIndexPanic c) e1 /\ ~ In (EvNilQueue c) e1) by (intros ->; auto).
  destruct l as [|d pick|d j|w|w fuel|d|d].
  - destruct (_ <? _); injection E1 as <- <-; auto.
  - destruct (nth_error (ws_conns s) d) as [k|]; [|injection E1 as <- <-; auto].
    destruct (co_worker k); [injection E1 as <- <-; auto|].
    destruct (use_worker cf s (co_id k) pick) as [[s3 w] b]. injection E1 as <- <-. destruct b; [|auto].
    split; intros [|[]]; discriminate.
  - destruct (nth_error (ws_conns s) d) as [k|] eqn:Ek; [|injection E1 as <- <-; auto].
    destruct (co_worker k) as [w|] eqn:Ew; [|injection E1 as <- <-; auto]. unfold send_task in E1.
    destruct (Nat.eqb_spec (pool_size cf) 0) as [|Np]; [injection E1 as <- <-; split; intros [|[]]; discriminate|].
    destruct (u_conn _ _ _ HU ltac:(lia) d k w Ek Ew) as [i Ei]. rewrite Ei in E1.
    destruct (nth_error (ws_chans s) i) as [ch|]; [|injection E1 as <- <-; auto].
    destruct (ch_closed ch); injection E1 as <- <-; split; intros [|[]]; discriminate.
  - destruct (nth_error (ws_workers s) w) as [k|]; [|injection E1 as <- <-; auto].
    destruct (wk_alive k); [|injection E1 as <- <-; auto]. destruct (wk_cur k); [injection E1 as <- <-; auto|].
    destruct (nth_error (ws_chans s) (wk_chan k)) as [ch|]; [|injection E1 as <- <-; auto].
    destruct (ch_buf ch); [destruct (ch_closed ch); injection E1 as <- <-; auto|].
    injection E1 as <- <-. split; intros [|[]]; discriminate.
  - destruct (nth_error (ws_workers s) w) as [k|]; [|injection E1 as <- <-; auto].
    destruct (wk_cur k) as [[c0 j]|]; [|injection E1 as <- <-; auto].
    destruct (handle fuel (cf_routes cf) j) as [hs r]. destruct r; injection E1 as <- <-; auto.
    split; intros [|[]]; discriminate.
  - destruct (nth_error (ws_conns s) d) as [k|]; [|injection E1 as <- <-; auto].
    destruct (co_worker k); injection E1 as <- <-; auto.
  - destruct (nth_error (ws_conns s) d) as [k|]; [|injection E1 as <- <-; auto].
    destruct (co_worker k); [|injection E1 as <- <-; auto].
    destruct (co_mgr k); [injection E1 as <- <-; auto|]. destruct (co_freed k); [injection E1 as <- <-; auto|].
    destruct (free_worker cf s n) as [s3 p]. injection E1 as <- <-. destruct p; [|auto].
    split; intros [|[]]; discriminate.
Qed.

(* checking [at_every_start] on a concrete schedule *)
Fixpoint starts_ok (cf : wcfg) (s : wst) (ls : list wlabel) (f : wst -> bool) : bool :=
  match ls with
  | [] => true
  | l :: ls' => (match l with LStart _ _ => f s | _ => true end) && starts_ok cf (fst (wstep cf s l)) ls' f
  end.
Lemma starts_ok_spec cf f (Q : wst -> Prop) : (forall s, f s = true -> Q s) ->
  forall ls s, starts_ok cf s ls f = true -> at_every_start cf s ls Q.
Proof.
  intros Hf. induction ls as [|l ls IH]; intros s H l1 c pick l2 E; [destruct l1; discriminate|].
  cbn [starts_ok] in H. apply andb_true_iff in H. destruct H as [H1 H2].
  destruct l1 as [|l0 l1]; injection E as -> E.
  - now apply Hf.
  - cbn [wrun]. specialize (IH _ H2 l1 c pick l2 E). destruct (wstep cf s l0) as [s1 e1]. cbn [fst] in IH.
    destruct (wrun cf s1 l1). exact IH.
Qed.
Definition closes_done (s : wst) : bool := forallb (fun k => co_mgr k || co_freed k) (ws_conns s).
Lemma closes_done_spec s : closes_done s = true -> no_close_in_progress s.
Proof.
  intros H k Hk Hm. unfold closes_done in H. rewrite forallb_forall in H. specialize (H k Hk). rewrite Hm in H. exact H.
Qed.

(* A request that arrives on a started connection is queued, unless an extra
   worker's queue was closed under it. *)
Lemma accepted cf ls s tr c k w j : server_run cf ls = Some (s, tr) ->
  nth_error (ws_conns s) c = Some k -> co_worker k = Some w ->
  (snd (wstep cf s (LSend c j)) = [EvSend c j] \/ snd (wstep cf s (LSend c j)) = [EvClosedPanic c]) /\
  ((forall d, ~ In (EvExtra d) tr) -> snd (wstep cf s (LSend c j)) = [EvSend c j]).
Proof.
  intros E Ek Ew. assert (Hcr : ws_crashed s = false) by apply (accounting cf ls s tr E).
  unfold wstep. rewrite Hcr, Ek, Ew. unfold send_task.
  destruct (Nat.eqb_spec (pool_size cf) 0) as [Hz|Hz]; [cbn [snd]; auto|].
  assert (Hp : pool_size cf > 0) by lia.
  destruct (index_valid cf ls s tr Hp E c k w Ek Ew) as [ch Hq].
  pose proof Hq as Hq0. unfold queue_of in Hq.
  destruct (nth_error (ws_tq s) w) as [[i|]|]; try discriminate. rewrite Hq.
  destruct (ch_closed ch) eqn:Ecl; cbn [snd]; [|auto]. split; [auto|]. intros Hx. exfalso.
  unfold server_run in E. destruct (start_pool cf) as [s0|] eqn:E0; [|discriminate]. injection E as E.
  assert (Hz0 : cf_max cf = 0 -> ws_conns s0 = []).
  { intros _. unfold start_pool in E0. destruct (_ <? _); [discriminate|]. now injection E0 as <-. }
  pose proof (wrun_v cf Hp ls s0 [] (start_pool_inv cf s0 E0) (v_start cf Hp s0 E0) Hz0) as H.
  rewrite E in H. cbn [fst snd app] in H. specialize (H Hx).
  rewrite (v_open _ _ _ H i ch Hq) in Ecl. discriminate.
Qed.

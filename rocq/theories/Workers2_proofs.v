From Coq Require Import ZArith List Bool Arith Lia Permutation.
From Verif Require Import Bytes Pack Request GoSlice Router Router_proofs Dispatch Workers Spec_Workers Workers_proofs.
Import ListNotations.

(* ---- order of one connection's requests ---- *)

Definition of_conn (c : nat) (l : list work) : list job :=
  flat_map (fun x => if Nat.eqb (fst x) c then [snd x] else []) l.
Definition cur_list (k : worker) : list work := match wk_cur k with Some x => [x] | None => [] end.
Definition brackets (js : list job) : list act := flat_map (fun j => [ABegin j; AEnd j]) js.

Lemma sent_app c a b : sent c (a ++ b) = sent c a ++ sent c b.
Proof. apply flat_map_app. Qed.
Lemma activity_app c a b : activity c (a ++ b) = activity c a ++ activity c b.
Proof. apply flat_map_app. Qed.
Lemma of_conn_app c a b : of_conn c (a ++ b) = of_conn c a ++ of_conn c b.
Proof. apply flat_map_app. Qed.
Lemma brackets_app a b : brackets (a ++ b) = brackets a ++ brackets b.
Proof. apply flat_map_app. Qed.

Lemma of_conn_none c l : (forall x, In x l -> fst x <> c) -> of_conn c l = [].
Proof.
  induction l as [|x l IH]; intros H; [reflexivity|]. cbn.
  destruct (Nat.eqb_spec (fst x) c); [elim (H x); [now left|assumption]|]. apply IH. intros y Hy. apply H. now right.
Qed.

Lemma one_at_a_time_of done cur rest :
  length cur <= 1 -> one_at_a_time (done ++ cur ++ rest) (brackets done ++ map ABegin cur).
Proof.
  intros Hl. induction done as [|j done IH]; cbn; [|now constructor].
  destruct cur as [|j [|]]; cbn in *; [constructor|constructor|lia].
Qed.

Section S.
  Variable cf : wcfg.
  Let P := pool_size cf.
  Hypothesis Ppos : P > 0.

  Definition wid_of (s : wst) (c : nat) : option nat :=
    match nth_error (ws_conns s) c with Some k => co_worker k | None => None end.

  Record vinv (s : wst) (tr : list wev) : Prop := {
    v_chans : length (ws_chans s) = P;
    v_workers : length (ws_workers s) = P;
    v_wk : forall w k, nth_error (ws_workers s) w = Some k -> wk_chan k = w;
    v_tq : forall w i, nth_error (ws_tq s) w = Some (Some i) -> i = w;
    v_open : forall i ch, nth_error (ws_chans s) i = Some ch -> ch_closed ch = false;
    v_wid : forall c w, wid_of s c = Some w -> w < P;
    v_place_buf : forall i ch x, nth_error (ws_chans s) i = Some ch -> In x (ch_buf ch) -> wid_of s (fst x) = Some i;
    v_place_cur : forall i k x, nth_error (ws_workers s) i = Some k -> wk_cur k = Some x -> wid_of s (fst x) = Some i;
    v_order : forall c i ch k, wid_of s c = Some i ->
       nth_error (ws_chans s) i = Some ch -> nth_error (ws_workers s) i = Some k ->
       exists done, sent c tr = done ++ of_conn c (cur_list k) ++ of_conn c (ch_buf ch) /\
                    activity c tr = brackets done ++ map ABegin (of_conn c (cur_list k));
    v_none : forall c, wid_of s c = None -> sent c tr = [] /\ activity c tr = []
  }.

  Lemma v_start s : start_pool cf = Some s -> vinv s [].
  Proof.
    unfold start_pool. fold P. destruct (queue_len cf <? P); [discriminate|]. intros [= <-].
    assert (Hw : forall c w, wid_of {| ws_chans := repeat {| ch_buf := []; ch_closed := false |} P;
            ws_tq := map Some (seq 0 P) ++ repeat None (queue_len cf - P);
            ws_workers := map (fun i => {| wk_chan := i; wk_cur := None; wk_alive := true |}) (seq 0 P);
            ws_free := match cf_mode cf with ModeHash => [] | _ => seq 0 P end;
            ws_extra := match cf_mode cf with ModeDynamicBind => seq P (cf_max cf - P) | _ => [] end;
            ws_conns := []; ws_crashed := false |} c = Some w -> False).
    { intros [|c] w; discriminate. }
    constructor; cbn [ws_chans ws_tq ws_workers].
    - apply repeat_length.
    - now rewrite map_length, seq_length.
    - intros w k E. rewrite nth_error_map in E. destruct (nth_error (seq 0 P) w) as [j|] eqn:Ej; [|discriminate].
      injection E as <-. cbn. pose proof (nth_error_lt _ _ _ Ej) as Hl. rewrite seq_length in Hl.
      rewrite nth_error_nth' with (d := 0) in Ej by now rewrite seq_length. rewrite seq_nth in Ej by exact Hl. injection Ej as <-. reflexivity.
    - intros w i E. destruct (Nat.lt_ge_cases w P) as [H|H].
      + rewrite nth_error_app1 in E by now rewrite map_length, seq_length.
        rewrite nth_error_map in E. rewrite nth_error_nth' with (d := 0) in E by now rewrite seq_length.
        rewrite seq_nth in E by exact H. cbn in E. congruence.
      + rewrite nth_error_app2 in E by (rewrite map_length, seq_length; lia).
        apply nth_error_In in E. apply repeat_spec in E. discriminate.
    - intros i ch E. apply nth_error_In in E. apply repeat_spec in E. now subst.
    - intros c w E. elim (Hw _ _ E).
    - intros i ch x E Hx. apply nth_error_In in E. apply repeat_spec in E. subst. destruct Hx.
    - intros i k x E Ex. rewrite nth_error_map in E. destruct (nth_error (seq 0 P) i); [|discriminate]. injection E as <-. discriminate.
    - intros c i ch k E. elim (Hw _ _ E).
    - intros c _. split; reflexivity.
  Qed.

  Lemma v_silent s tr es : vinv s tr -> (forall c, sent c es = [] /\ activity c es = []) -> vinv s (tr ++ es).
  Proof.
    intros [] H. constructor; auto.
    - intros c i ch k E1 E2 E3. destruct (v_order0 c i ch k E1 E2 E3) as (d & H1 & H2). exists d.
      destruct (H c) as [Hs Ha]. now rewrite sent_app, activity_app, Hs, Ha, !app_nil_r.
    - intros c E. destruct (H c) as [Hs Ha]. destruct (v_none0 c E) as [H1 H2]. rewrite sent_app, activity_app, Hs, Ha, H1, H2. auto.
  Qed.

  (* changes that keep channels, workers, queue table and worker IDs *)
  Lemma v_same s s' tr : vinv s tr ->
    ws_chans s' = ws_chans s -> ws_workers s' = ws_workers s -> ws_tq s' = ws_tq s ->
    (forall c, wid_of s' c = wid_of s c) -> vinv s' tr.
  Proof.
    intros [] E1 E2 E3 E4. constructor; rewrite ?E1, ?E2, ?E3; auto.
    - intros c w. rewrite E4. exact (v_wid0 c w).
    - intros i ch x. rewrite E4. exact (v_place_buf0 i ch x).
    - intros i k x. rewrite E4. exact (v_place_cur0 i k x).
    - intros c i ch k. rewrite E4. exact (v_order0 c i ch k).
    - intros c. rewrite E4. auto.
  Qed.

  (* a connection that had no worker gets one *)
  Lemma v_assign s s' tr c w : vinv s tr ->
    ws_chans s' = ws_chans s -> ws_workers s' = ws_workers s -> ws_tq s' = ws_tq s ->
    wid_of s c = None -> w < P -> wid_of s' c = Some w ->
    (forall d, d <> c -> wid_of s' d = wid_of s d) -> vinv s' tr.
  Proof.
    intros [] E1 E2 E3 Hn Hw Hc Ho. constructor; rewrite ?E1, ?E2, ?E3; auto.
    - intros d x E. destruct (Nat.eq_dec d c) as [->|N]; [congruence|]. rewrite Ho in E by exact N. eauto.
    - intros i ch x E Hx. destruct (Nat.eq_dec (fst x) c) as [Ex|N].
      + pose proof (v_place_buf0 i ch x E Hx). congruence.
      + rewrite Ho by exact N. exact (v_place_buf0 i ch x E Hx).
    - intros i k x E Hx. destruct (Nat.eq_dec (fst x) c) as [Ex|N].
      + pose proof (v_place_cur0 i k x E Hx). congruence.
      + rewrite Ho by exact N. exact (v_place_cur0 i k x E Hx).
    - intros d i ch k E Ech Ek. destruct (Nat.eq_dec d c) as [->|N].
      + destruct (v_none0 c Hn) as [H1 H2]. exists [].
        assert (Hcur : of_conn c (cur_list k) = []).
        { apply of_conn_none. intros x Hx Ex. unfold cur_list in Hx. destruct (wk_cur k) as [y|] eqn:Ey; [|destruct Hx].
          destruct Hx as [<-|[]]. pose proof (v_place_cur0 i k y Ek Ey). congruence. }
        assert (Hbuf : of_conn c (ch_buf ch) = []).
        { apply of_conn_none. intros x Hx Ex. pose proof (v_place_buf0 i ch x Ech Hx). congruence. }
        now rewrite Hcur, Hbuf, H1, H2.
      + rewrite Ho in E by exact N. eauto.
    - intros d E. destruct (Nat.eq_dec d c) as [->|N]; [congruence|]. rewrite Ho in E by exact N. auto.
  Qed.

  Lemma wid_of_set s c k d : nth_error (ws_conns s) c <> None ->
    wid_of (with_conn s c k) d = if Nat.eqb d c then co_worker k else wid_of s d.
  Proof.
    intros H. unfold wid_of. cbn. destruct (Nat.eqb_spec d c) as [->|N].
    - rewrite nth_error_set_nth_same; [reflexivity|]. now apply nth_error_Some.
    - rewrite nth_error_set_nth_other by congruence. reflexivity.
  Qed.

  Lemma use_worker_stable s tr id pick s1 w : uinv cf s tr -> use_worker cf s id pick = (s1, w, false) ->
    ws_chans s1 = ws_chans s /\ ws_workers s1 = ws_workers s /\ ws_tq s1 = ws_tq s /\ ws_conns s1 = ws_conns s /\ w < P.
  Proof.
    intros H E. unfold use_worker in E.
    assert (Hh : hash_worker cf id < P) by (apply hash_worker_lt; exact Ppos).
    assert (Hf : forall k, pick_one (ws_free s) pick = Some k -> k < P).
    { intros k Ek. apply pick_one_In in Ek. apply (u_free _ _ _ H k Ek). }
    destruct (cf_mode cf); [injection E as <- <-; auto 10| |]; destruct (pick_one (ws_free s) pick) as [k|] eqn:Ek.
    - injection E as <- <-. cbn. auto 10.
    - injection E as <- <-. auto 10.
    - injection E as <- <-. cbn. auto 10.
    - destruct (pick_one (ws_extra s) pick) as [k|]; [cbn in E; discriminate|]. injection E as <- <-. auto 10.
  Qed.

  Lemma free_worker_stable s w : w < P ->
    let s1 := fst (free_worker cf s w) in
    ws_chans s1 = ws_chans s /\ ws_workers s1 = ws_workers s /\ ws_tq s1 = ws_tq s /\ ws_conns s1 = ws_conns s.
  Proof.
    intros Hw s1. unfold s1, free_worker. clear s1. fold P.
    replace (w <? P) with true by (symmetry; apply Nat.ltb_lt; exact Hw).
    destruct (cf_mode cf); repeat split; reflexivity.
  Qed.

  Lemma of_conn_one c x : of_conn c [x] = if Nat.eqb (fst x) c then [snd x] else [].
  Proof. cbn. destruct (Nat.eqb (fst x) c); reflexivity. Qed.

  Lemma wstep_v s tr l s' es :
    uinv cf s tr -> vinv s tr -> wstep cf s l = (s', es) -> (forall c, ~ In (EvExtra c) es) -> vinv s' (tr ++ es).
  Proof.
    intros HU H E Hx. unfold wstep in E. rewrite (u_crash _ _ _ HU) in E.
    assert (Hnop : (s, []) = (s', es) -> vinv s' (tr ++ es)).
    { intros [= <- <-]. now rewrite app_nil_r. }
    destruct l as [|c pick|c j|w|w fuel|c|c].
    - destruct (in_manager s <? cf_max cf); [|auto]. injection E as <- <-. rewrite app_nil_r.
      apply (v_same s); auto. intros c. unfold wid_of. cbn. rewrite nth_error_snoc.
      destruct (Nat.eqb_spec c (length (ws_conns s))) as [->|]; [|reflexivity]. cbn.
      now replace (nth_error (ws_conns s) (length (ws_conns s))) with (@None wconn) by (symmetry; apply nth_error_None; lia).
    - destruct (nth_error (ws_conns s) c) as [k|] eqn:Ek; [|auto].
      destruct (co_worker k) as [w|] eqn:Ew; [auto|].
      destruct (use_worker cf s (co_id k) pick) as [[s1 w] b] eqn:Eu. injection E as <- <-.
      destruct b; [exfalso; apply (Hx c); now left|]. rewrite app_nil_r.
      destruct (use_worker_stable s tr _ _ _ _ HU Eu) as (E1 & E2 & E3 & E4 & E5).
      assert (Hex : nth_error (ws_conns s1) c <> None) by (rewrite E4; congruence).
      apply (v_assign s _ _ c w H); auto.
      + unfold wid_of. now rewrite Ek.
      + rewrite wid_of_set by exact Hex. rewrite Nat.eqb_refl. reflexivity.
      + intros d N. rewrite wid_of_set by exact Hex. destruct (Nat.eqb_spec d c); [congruence|].
        unfold wid_of. now rewrite E4.
    - destruct (nth_error (ws_conns s) c) as [k|] eqn:Ek; [|auto].
      destruct (co_worker k) as [w|] eqn:Ew; [|auto].
      assert (Hwid : wid_of s c = Some w) by (unfold wid_of; now rewrite Ek).
      unfold send_task in E. fold P in E. destruct (Nat.eqb_spec P 0); [lia|].
      destruct (nth_error (ws_tq s) w) as [[i|]|] eqn:Eq;
        [|injection E as <- <-; apply v_silent; auto|injection E as <- <-; apply v_silent; auto].
      assert (i = w) as -> by (eapply v_tq; eauto).
      destruct (nth_error (ws_chans s) w) as [ch|] eqn:Ec; [|auto].
      rewrite (v_open _ _ H _ _ Ec) in E. injection E as <- <-.
      destruct H. constructor; cbn; rewrite ?set_nth_length; auto.
      + intros i ch0 E0. destruct (nth_error_set_nth _ _ _ _ _ E0) as [(-> & -> & _)|(N & E1)]; [reflexivity|eauto].
      + intros i ch0 x E0 Hin. destruct (nth_error_set_nth _ _ _ _ _ E0) as [(-> & -> & _)|(N & E1)]; [|exact (v_place_buf0 i ch0 x E1 Hin)].
        cbn in Hin. apply in_app_or in Hin. destruct Hin as [Hin|[<-|[]]]; [|exact Hwid]. exact (v_place_buf0 i ch x Ec Hin).
      + intros d i ch0 k0 Ed E0 E1. change (wid_of s d = Some i) in Ed. rewrite sent_app, activity_app. cbn [activity flat_map]. rewrite app_nil_r.
        destruct (nth_error_set_nth _ _ _ _ _ E0) as [(<- & -> & _)|(N & E2)].
        * destruct (v_order0 d w ch k0 Ed Ec E1) as (done & H1 & H2). exists done. split; [|exact H2].
          cbn [ch_buf]. rewrite of_conn_app, H1. cbn. rewrite app_nil_r. now rewrite <- !app_assoc.
        * destruct (v_order0 d i ch0 k0 Ed E2 E1) as (done & H1 & H2). exists done. split; [|exact H2].
          cbn. destruct (Nat.eqb_spec c d); [congruence|]. cbn. now rewrite app_nil_r.
      + intros d Ed. change (wid_of s d = None) in Ed. destruct (v_none0 d Ed) as [H1 H2].
        rewrite sent_app, activity_app, H1, H2. cbn. destruct (Nat.eqb_spec c d); [congruence|]. auto.
    - destruct (nth_error (ws_workers s) w) as [k|] eqn:Ek; [|auto].
      destruct (wk_alive k) eqn:Ea; [|auto]. destruct (wk_cur k) as [x|] eqn:Ecur; [auto|].
      pose proof (v_wk _ _ H _ _ Ek) as Hwk. rewrite Hwk in *.
      destruct (nth_error (ws_chans s) w) as [ch|] eqn:Ec; [|auto].
      destruct (ch_buf ch) as [|x rest] eqn:Eb.
      { rewrite (v_open _ _ H _ _ Ec) in E. auto. }
      injection E as <- <-.
      assert (Hplace : wid_of s (fst x) = Some w).
      { eapply v_place_buf; eauto. rewrite Eb. now left. }
      destruct H. constructor; cbn; rewrite ?set_nth_length; auto.
      + intros w0 k0 E0. destruct (nth_error_set_nth _ _ _ _ _ E0) as [(-> & -> & _)|(N & E1)]; [reflexivity|eauto].
      + intros i ch0 E0. destruct (nth_error_set_nth _ _ _ _ _ E0) as [(-> & -> & _)|(N & E1)]; [|eauto]. cbn. eapply v_open0; eauto.
      + intros i ch0 y E0 Hin. destruct (nth_error_set_nth _ _ _ _ _ E0) as [(-> & -> & _)|(N & E1)]; [|exact (v_place_buf0 i ch0 y E1 Hin)].
        cbn in Hin. apply (v_place_buf0 i ch y Ec). rewrite Eb. now right.
      + intros i k0 y E0 Hy. destruct (nth_error_set_nth _ _ _ _ _ E0) as [(-> & -> & _)|(N & E1)]; [|exact (v_place_cur0 i k0 y E1 Hy)].
        cbn in Hy. injection Hy as <-. exact Hplace.
      + intros d i ch0 k0 Ed E0 E1. change (wid_of s d = Some i) in Ed. rewrite sent_app, activity_app. cbn [sent flat_map]. rewrite app_nil_r.
        destruct (nth_error_set_nth _ _ _ _ _ E0) as [(<- & -> & _)|(N & E2)].
        * destruct (nth_error_set_nth _ _ _ _ _ E1) as [(_ & -> & _)|(N & _)]; [|congruence].
          destruct (v_order0 d w ch k Ed Ec Ek) as (done & H1 & H2). exists done.
          unfold cur_list in *. rewrite Ecur in *. cbn [wk_cur ch_buf] in *. rewrite Eb in H1.
          rewrite H1, H2. cbn. destruct (Nat.eqb_spec (fst x) d); cbn; rewrite ?app_nil_r; auto.
        * destruct (nth_error_set_nth _ _ _ _ _ E1) as [(-> & _ & _)|(_ & E3)]; [congruence|].
          destruct (v_order0 d i ch0 k0 Ed E2 E3) as (done & H1 & H2). exists done.
          cbn. destruct (Nat.eqb_spec (fst x) d); [congruence|]. cbn. rewrite app_nil_r. auto.
      + intros d Ed. change (wid_of s d = None) in Ed. destruct (v_none0 d Ed) as [H1 H2].
        rewrite sent_app, activity_app, H1, H2. cbn. destruct (Nat.eqb_spec (fst x) d); [congruence|]. auto.
    - destruct (nth_error (ws_workers s) w) as [k|] eqn:Ek; [|auto].
      destruct (wk_cur k) as [[c j]|] eqn:Ecur; [|auto].
      pose proof (handle_no_panic fuel (cf_routes cf) j) as Hnp.
      destruct (handle fuel (cf_routes cf) j) as [hs r]. destruct r; [|now elim Hnp|auto].
      injection E as <- <-.
      assert (Hplace : wid_of s c = Some w) by (apply (v_place_cur _ _ H w k (c, j)); auto).
      destruct H. constructor; cbn; rewrite ?set_nth_length; auto.
      + intros w0 k0 E0. destruct (nth_error_set_nth _ _ _ _ _ E0) as [(-> & -> & _)|(N & E1)]; [cbn; eauto|eauto].
      + intros i k0 y E0 Hy. destruct (nth_error_set_nth _ _ _ _ _ E0) as [(-> & -> & _)|(N & E1)]; [discriminate|exact (v_place_cur0 i k0 y E1 Hy)].
      + intros d i ch0 k0 Ed E0 E1. change (wid_of s d = Some i) in Ed. rewrite sent_app, activity_app. cbn [sent flat_map]. rewrite app_nil_r.
        destruct (nth_error_set_nth _ _ _ _ _ E1) as [(<- & -> & _)|(N & E3)].
        * destruct (v_order0 d w ch0 k Ed E0 Ek) as (done & H1 & H2).
          unfold cur_list in *. rewrite Ecur in *. cbn [wk_cur] in *. cbn in H1, H2 |- *.
          destruct (Nat.eqb_spec c d) as [->|N].
          -- exists (done ++ [j]). rewrite brackets_app. cbn in *. rewrite H1, H2, <- !app_assoc. auto.
          -- exists done. cbn in *. rewrite H1, H2. cbn. rewrite ?app_nil_r. auto.
        * destruct (v_order0 d i ch0 k0 Ed E0 E3) as (done & H1 & H2). exists done. split; [exact H1|].
          cbn. destruct (Nat.eqb_spec c d); [congruence|]. cbn. rewrite app_nil_r. auto.
      + intros d Ed. change (wid_of s d = None) in Ed. destruct (v_none0 d Ed) as [H1 H2].
        rewrite sent_app, activity_app, H1, H2. cbn. destruct (Nat.eqb_spec c d); [congruence|]. auto.
    - destruct (nth_error (ws_conns s) c) as [k|] eqn:Ek; [|auto].
      destruct (co_worker k) as [w|] eqn:Ew; [|auto]. injection E as <- <-. rewrite app_nil_r.
      apply (v_same s); auto. intros d. rewrite wid_of_set by congruence.
      destruct (Nat.eqb_spec d c) as [->|]; [|reflexivity]. unfold wid_of. now rewrite Ek.
    - destruct (nth_error (ws_conns s) c) as [k|] eqn:Ek; [|auto].
      destruct (co_worker k) as [w|] eqn:Ew; [|auto]. destruct (co_mgr k); [auto|]. destruct (co_freed k); [auto|].
      assert (Hw : w < P) by (apply (v_wid _ _ H c); unfold wid_of; now rewrite Ek).
      pose proof (free_worker_stable s w Hw) as (E1 & E2 & E3 & E4).
      destruct (free_worker cf s w) as [s1 p] eqn:Ef. cbn [fst] in *. injection E as <- <-.
      apply v_silent; [|destruct p; auto].
      apply (v_same s); auto. intros d. rewrite wid_of_set by (rewrite E4; congruence).
      destruct (Nat.eqb_spec d c) as [->|]; unfold wid_of; [now rewrite Ek|now rewrite E4].
  Qed.

  Lemma wrun_v ls : forall s tr, uinv cf s tr -> vinv s tr -> (cf_max cf = 0 -> ws_conns s = []) ->
    (forall c, ~ In (EvExtra c) (snd (wrun cf s ls))) ->
    vinv (fst (wrun cf s ls)) (tr ++ snd (wrun cf s ls)).
  Proof.
    induction ls as [|l ls IH]; intros s tr HU H Hz Hx; cbn [wrun] in *.
    - cbn. now rewrite app_nil_r.
    - destruct (wstep cf s l) as [s1 e1] eqn:E1. destruct (wstep_inv cf s tr l s1 e1 HU Hz E1) as [HU1 Hz1].
      specialize (IH s1 _ HU1).
      destruct (wrun cf s1 ls) as [s2 e2]. cbn [fst snd] in *. rewrite app_assoc. apply IH; auto.
      + apply (wstep_v s tr l s1 e1 HU H E1). intros c Hc. apply (Hx c). apply in_or_app. now left.
      + intros c Hc. apply (Hx c). apply in_or_app. now right.
  Qed.

  Lemma order_of_run ls s tr : server_run cf ls = Some (s, tr) -> (forall c, ~ In (EvExtra c) tr) ->
    forall c, one_at_a_time (sent c tr) (activity c tr).
  Proof.
    unfold server_run. destruct (start_pool cf) as [s0|] eqn:E0; [|discriminate]. intros [= E] Hx.
    assert (Hz : cf_max cf = 0 -> ws_conns s0 = []).
    { intros _. unfold start_pool in E0. destruct (_ <? _); [discriminate|]. now injection E0 as <-. }
    pose proof (wrun_v ls s0 [] (start_pool_inv cf s0 E0) (v_start s0 E0) Hz) as H. rewrite E in H.
    cbn [fst snd app] in H. specialize (H Hx). intros c.
    destruct (wid_of s c) as [i|] eqn:Ei.
    - pose proof (v_wid _ _ H _ _ Ei) as Hi.
      destruct (nth_error_ex (ws_chans s) i) as [ch Ech]; [rewrite (v_chans _ _ H); exact Hi|].
      destruct (nth_error_ex (ws_workers s) i) as [k Ek]; [rewrite (v_workers _ _ H); exact Hi|].
      destruct (v_order _ _ H c i ch k Ei Ech Ek) as (done & -> & ->).
      apply one_at_a_time_of. unfold cur_list. destruct (wk_cur k) as [x|]; [|cbn; lia].
      rewrite of_conn_one. destruct (Nat.eqb (fst x) c); cbn; lia.
    - destruct (v_none _ _ H c Ei) as [-> ->]. constructor.
  Qed.
End S.

Lemma extra_only_dynamic cf ls : cf_mode cf <> ModeDynamicBind -> forall s c, ~ In (EvExtra c) (snd (wrun cf s ls)).
Proof.
  intros Hm. induction ls as [|l ls IH]; intros s c; cbn [wrun]; [cbn; auto|].
  destruct (wstep cf s l) as [s1 e1] eqn:E1. specialize (IH s1 c). destruct (wrun cf s1 ls) as [s2 e2]. cbn [snd] in *.
  intros Hin. apply in_app_or in Hin. destruct Hin as [Hin|Hin]; [|now apply IH].
  unfold wstep in E1. destruct (ws_crashed s); [injection E1 as <- <-; destruct Hin|].
  destruct l as [|d pick|d j|w|w fuel|d|d].
  - destruct (_ <? _); injection E1 as <- <-; destruct Hin.
  - destruct (nth_error (ws_conns s) d) as [k|]; [|injection E1 as <- <-; destruct Hin].
    destruct (co_worker k); [injection E1 as <- <-; destruct Hin|].
    destruct (use_worker cf s (co_id k) pick) as [[s3 w] b] eqn:Eu. injection E1 as <- <-.
    unfold use_worker in Eu. destruct (cf_mode cf); [|destruct (pick_one _ _)|congruence];
      injection Eu as <- <- <-; destruct Hin.
  - destruct (nth_error (ws_conns s) d) as [k|]; [|injection E1 as <- <-; destruct Hin].
    destruct (co_worker k); [|injection E1 as <- <-; destruct Hin]. unfold send_task in E1.
    destruct (_ =? _); [injection E1 as <- <-; destruct Hin as [|[]]; discriminate|].
    destruct (nth_error (ws_tq s) n) as [[i|]|]; [|injection E1 as <- <-; destruct Hin as [|[]]; discriminate|injection E1 as <- <-; destruct Hin as [|[]]; discriminate].
    destruct (nth_error (ws_chans s) i) as [ch|]; [|injection E1 as <- <-; destruct Hin].
    destruct (ch_closed ch); injection E1 as <- <-; destruct Hin as [|[]]; discriminate.
  - destruct (nth_error (ws_workers s) w) as [k|]; [|injection E1 as <- <-; destruct Hin].
    destruct (wk_alive k); [|injection E1 as <- <-; destruct Hin].
    destruct (wk_cur k); [injection E1 as <- <-; destruct Hin|].
    destruct (nth_error (ws_chans s) (wk_chan k)) as [ch|]; [|injection E1 as <- <-; destruct Hin].
    destruct (ch_buf ch); [destruct (ch_closed ch); injection E1 as <- <-; destruct Hin|].
    injection E1 as <- <-; destruct Hin as [|[]]; discriminate.
  - destruct (nth_error (ws_workers s) w) as [k|]; [|injection E1 as <- <-; destruct Hin].
    destruct (wk_cur k) as [[c0 j]|]; [|injection E1 as <- <-; destruct Hin].
    destruct (handle fuel (cf_routes cf) j) as [hs r]. destruct r; injection E1 as <- <-; [destruct Hin as [|[]]; discriminate|destruct Hin|destruct Hin].
  - destruct (nth_error (ws_conns s) d) as [k|]; [|injection E1 as <- <-; destruct Hin].
    destruct (co_worker k); injection E1 as <- <-; destruct Hin.
  - destruct (nth_error (ws_conns s) d) as [k|]; [|injection E1 as <- <-; destruct Hin].
    destruct (co_worker k); [|injection E1 as <- <-; destruct Hin].
    destruct (co_mgr k); [injection E1 as <- <-; destruct Hin|]. destruct (co_freed k); [injection E1 as <- <-; destruct Hin|].
    destruct (free_worker cf s n) as [s3 p]. injection E1 as <- <-. destruct p; [destruct Hin as [|[]]; discriminate|destruct Hin].
Qed.

Lemma order_no_dynamic cf ls s tr : cf_mode cf <> ModeDynamicBind -> pool_size cf > 0 ->
  server_run cf ls = Some (s, tr) -> forall c, one_at_a_time (sent c tr) (activity c tr).
Proof.
  intros Hm Hp E. apply (order_of_run cf Hp ls s tr E).
  unfold server_run in E. destruct (start_pool cf) as [s0|]; [|discriminate]. injection E as E.
  intros c. pose proof (extra_only_dynamic cf ls Hm s0 c) as H. now rewrite E in H.
Qed.

(* ---- accounting and progress ---- *)

Lemma accounting cf ls s tr : server_run cf ls = Some (s, tr) ->
  Permutation (all_sent tr) (all_ended tr ++ in_flight s ++ waiting s) /\ ws_crashed s = false.
Proof. intros E. pose proof (server_uinv cf ls s tr E) as []. auto. Qed.

Lemma flat_map_ne {B C} (f : B -> list C) l : flat_map f l <> [] -> exists i x, nth_error l i = Some x /\ f x <> [].
Proof.
  induction l as [|x l IH]; cbn; intros H; [congruence|]. destruct (f x) eqn:Ef.
  - destruct (IH H) as (i & y & E & Hy). now exists (S i), y.
  - exists 0, x. cbn. rewrite Ef. split; [reflexivity|discriminate].
Qed.

Lemma progress cf ls s tr : server_run cf ls = Some (s, tr) ->
  in_flight s ++ waiting s <> [] -> (forall x, In x (in_flight s) -> returns (cf_routes cf) (snd x)) ->
  exists l s' c j, (wstep cf s l = (s', [EvBegin c j]) \/ exists es, wstep cf s l = (s', [EvEnd c j es])).
Proof.
  intros E Hne Hret. pose proof (server_uinv cf ls s tr E) as HU.
  assert (Hfin : forall w k x, nth_error (ws_workers s) w = Some k -> wk_cur k = Some x ->
            exists l s' c j, (wstep cf s l = (s', [EvBegin c j]) \/ exists es, wstep cf s l = (s', [EvEnd c j es]))).
  { intros w k [c j] Ek Ex. destruct (Hret (c, j)) as [fuel Hf].
    { unfold in_flight. apply in_flat_map. exists k. split; [eapply nth_error_In; eauto|]. rewrite Ex. now left. }
    cbn [snd] in Hf. pose proof (handle_no_panic fuel (cf_routes cf) j) as Hnp.
    destruct (handle fuel (cf_routes cf) j) as [es r] eqn:Eh. cbn [snd] in *.
    exists (LFinish w fuel). do 3 eexists. right. exists es. unfold wstep. rewrite (u_crash _ _ _ HU), Ek, Ex, Eh.
    destruct r; [reflexivity|congruence|congruence]. }
  destruct (in_flight s) as [|x fl] eqn:Efl.
  - cbn [app] in Hne. destruct (flat_map_ne _ _ Hne) as (i & ch & Ech & Hb).
    destruct (u_cover _ _ _ HU i) as (w & k & Ek & Ew); [eapply nth_error_lt; eauto|].
    destruct (u_worker _ _ _ HU w k Ek) as (ch' & Ech' & Hd). rewrite Ew in Ech'.
    assert (ch' = ch) as -> by congruence.
    destruct (wk_alive k) eqn:Ea; [|destruct (Hd eq_refl) as (_ & _ & ?); congruence].
    destruct (wk_cur k) as [x|] eqn:Ecur; [eapply Hfin; eauto|].
    destruct (ch_buf ch) as [|[c j] rest] eqn:Eb; [congruence|].
    exists (LTake w). do 3 eexists. left. unfold wstep. rewrite (u_crash _ _ _ HU), Ek, Ea, Ecur, Ew, Ech, Eb. reflexivity.
  - destruct (flat_map_ne (fun k => match wk_cur k with Some x => [x] | None => [] end) (ws_workers s)) as (w & k & Ek & Hk).
    { unfold in_flight in Efl. rewrite Efl. discriminate. }
    destruct (wk_cur k) as [y|] eqn:Ey; [|congruence]. eapply Hfin; eauto.
Qed.

(* what user code did for each request that ended *)
Lemma ended_handled cf ls : forall s c j es, In (EvEnd c j es) (snd (wrun cf s ls)) ->
  exists fuel, handle fuel (cf_routes cf) j = (es, GoRet).
Proof.
  induction ls as [|l ls IH]; intros s c j es; cbn [wrun]; [cbn; tauto|].
  destruct (wstep cf s l) as [s1 e1] eqn:E1. specialize (IH s1 c j es). destruct (wrun cf s1 ls) as [s2 e2]. cbn [snd] in *.
  intros Hin. apply in_app_or in Hin. destruct Hin as [Hin|Hin]; [|now apply IH].
  unfold wstep in E1. destruct (ws_crashed s); [injection E1 as <- <-; destruct Hin|].
  destruct l as [|d pick|d j0|w|w fuel|d|d].
  - destruct (_ <? _); injection E1 as <- <-; destruct Hin.
  - destruct (nth_error (ws_conns s) d) as [k|]; [|injection E1 as <- <-; destruct Hin].
    destruct (co_worker k); [injection E1 as <- <-; destruct Hin|].
    destruct (use_worker cf s (co_id k) pick) as [[s3 w] b] eqn:Eu. injection E1 as <- <-.
    destruct b; [destruct Hin as [|[]]; discriminate|destruct Hin].
  - destruct (nth_error (ws_conns s) d) as [k|]; [|injection E1 as <- <-; destruct Hin].
    destruct (co_worker k); [|injection E1 as <- <-; destruct Hin]. unfold send_task in E1.
    destruct (_ =? _); [injection E1 as <- <-; destruct Hin as [|[]]; discriminate|].
    destruct (nth_error (ws_tq s) n) as [[i|]|]; [|injection E1 as <- <-; destruct Hin as [|[]]; discriminate|injection E1 as <- <-; destruct Hin as [|[]]; discriminate].
    destruct (nth_error (ws_chans s) i) as [ch|]; [|injection E1 as <- <-; destruct Hin].
    destruct (ch_closed ch); injection E1 as <- <-; destruct Hin as [|[]]; discriminate.
  - destruct (nth_error (ws_workers s) w) as [k|]; [|injection E1 as <- <-; destruct Hin].
    destruct (wk_alive k); [|injection E1 as <- <-; destruct Hin].
    destruct (wk_cur k); [injection E1 as <- <-; destruct Hin|].
    destruct (nth_error (ws_chans s) (wk_chan k)) as [ch|]; [|injection E1 as <- <-; destruct Hin].
    destruct (ch_buf ch); [destruct (ch_closed ch); injection E1 as <- <-; destruct Hin|].
    injection E1 as <- <-; destruct Hin as [|[]]; discriminate.
  - destruct (nth_error (ws_workers s) w) as [k|]; [|injection E1 as <- <-; destruct Hin].
    destruct (wk_cur k) as [[c0 j1]|]; [|injection E1 as <- <-; destruct Hin].
    destruct (handle fuel (cf_routes cf) j1) as [hs r] eqn:Eh.
    destruct r; injection E1 as <- <-; [|destruct Hin|destruct Hin].
    destruct Hin as [Hin|[]]. injection Hin as -> -> ->. now exists fuel.
  - destruct (nth_error (ws_conns s) d) as [k|]; [|injection E1 as <- <-; destruct Hin].
    destruct (co_worker k); injection E1 as <- <-; destruct Hin.
  - destruct (nth_error (ws_conns s) d) as [k|]; [|injection E1 as <- <-; destruct Hin].
    destruct (co_worker k); [|injection E1 as <- <-; destruct Hin].
    destruct (co_mgr k); [injection E1 as <- <-; destruct Hin|]. destruct (co_freed k); [injection E1 as <- <-; destruct Hin|].
    destruct (free_worker cf s n) as [s3 p]. injection E1 as <- <-. destruct p; [destruct Hin as [|[]]; discriminate|destruct Hin].
Qed.

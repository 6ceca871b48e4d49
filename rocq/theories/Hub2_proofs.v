(* A server with many connections: a connection goes on if its own worker does. *)
From Coq Require Import ZArith List Bool Arith Lia.
From Verif Require Import Bytes Pack FrameDecoder Chain Decoders Reader GoSlice Request Dispatch Workers Spec_Workers Payload Hub Spec_Hub Spec_Send.
From Verif Require Spec_EndToEnd.
From Verif Require Import Router_proofs Workers_proofs Workers2_proofs Props_Workers EndToEnd_proofs EndToEnd2_proofs Hub_proofs.
Import ListNotations.
Local Open Scope nat_scope.

Section S.
  Variable cf : wcfg.
  Variable d : dec.
  Hypothesis M : cf_mode cf <> ModeDynamicBind.
  Hypothesis P : pool_size cf > 0.

  (* Connection c's worker, and its queue. *)
  Lemma worker_there s tr c w : hinv cf d s tr -> uses s c w -> exists k ch,
    nth_error (ws_workers (hb_pool s)) w = Some k /\ nth_error (ws_chans (hb_pool s)) w = Some ch /\ wk_chan k = w /\ wk_alive k = true /\ ch_closed ch = false /\
    nth_error (ws_tq (hb_pool s)) w = Some (Some w) /\ ws_crashed (hb_pool s) = false.
  Proof.
    intros H (y & Y & W). destruct (hi_pool _ _ _ _ H) as (ls & R). assert (V := server_vinv cf ls _ _ M P R). assert (U := server_uinv cf ls _ _ R).
    assert (Wd : wid_of (hb_pool s) c = Some w) by (unfold wid_of; now rewrite Y). assert (Lt := v_wid _ _ _ V _ _ Wd).
    destruct (nth_error_ex (ws_chans (hb_pool s)) w) as (ch & Ch); [now rewrite (v_chans _ _ _ V)|]. destruct (nth_error_ex (ws_workers (hb_pool s)) w) as (k & K); [now rewrite (v_workers _ _ _ V)|].
    exists k, ch. assert (E := v_wk _ _ _ V _ _ K). assert (O := v_open _ _ _ V _ _ Ch). destruct (u_pool _ _ _ U w Lt) as (i & Ti). assert (i = w) by exact (v_tq _ _ _ V _ _ Ti). subst i.
    split; [exact K|]. split; [exact Ch|]. split; [exact E|]. split; [|split; [exact O|split; [exact Ti|exact (u_crash _ _ _ U)]]].
    destruct (u_worker _ _ _ U w k K) as (ch' & Ch' & D). rewrite E in Ch'. destruct (wk_alive k); [reflexivity|]. destruct (D eq_refl) as (_ & D2 & _). congruence.
  Qed.

  Definition left (s : hub) (c w : nat) : nat :=
    3 * length (to_queue s c) +
    match nth_error (ws_workers (hb_pool s)) w with Some k => length (cur_list k) | None => 0 end +
    2 * match nth_error (ws_chans (hb_pool s)) w with Some ch => length (ch_buf ch) | None => 0 end.

  Lemma own_step s tr c w : hinv cf d s tr -> sinv s tr -> hb_dead s = false -> uses s c w ->
    Forall (returns (cf_routes cf)) (at_worker s w ++ to_queue s c) -> left s c w <> 0 ->
    exists l s' e, of_conn_and_worker c w l /\ h_step cf d s l = (s', e) /\ hb_dead s' = false /\ uses s' c w /\
      Forall (returns (cf_routes cf)) (at_worker s' w ++ to_queue s' c) /\ left s' c w < left s c w /\ reads c e = [].
  Proof.
    intros H Hs A U F Hl. destruct (worker_there s tr c w H U) as (k & ch & K & Ch & E & Al & Cl & Tq & Cr). destruct U as (y & Y & W).
    unfold left, at_worker in *. rewrite K, Ch in *.
    destruct (to_queue s c) as [|j js] eqn:Q; [destruct (wk_cur k) as [[c0 j]|] eqn:Cu; [|destruct (ch_buf ch) as [|[c0 j] rest] eqn:B]|].
    - assert (Rj : returns (cf_routes cf) j) by now inversion F. destruct Rj as (fuel & Hf). assert (Np := handle_no_panic fuel (cf_routes cf) j). destruct (handle fuel (cf_routes cf) j) as [es r] eqn:Hd. cbn [snd] in *.
      exists (HPool (LFinish w fuel)). do 2 eexists. split; [reflexivity|]. unfold h_step. rewrite A. unfold wstep. rewrite Cr, K, Cu, Hd. split; [destruct r; [reflexivity|congruence|congruence]|].
      cbn [hb_dead hb_pool hb_conns with_worker ws_workers ws_chans ws_conns to_queue]. unfold to_queue in *. cbn [hb_conns]. rewrite nth_error_set_nth_same by (eapply nth_error_lt; eauto). rewrite Ch, Q.
      split; [reflexivity|]. split; [exists y; auto|]. split; [now inversion F|]. split; [|reflexivity]. unfold cur_list. rewrite Cu. cbn. lia.
    - exfalso. unfold cur_list in Hl. rewrite Cu in Hl. now apply Hl.
    - exists (HPool (LTake w)). do 2 eexists. split; [reflexivity|]. unfold h_step. rewrite A. unfold wstep. rewrite Cr, K, Al, Cu, E, Ch, B. split; [reflexivity|].
      cbn [hb_dead hb_pool hb_conns with_worker with_chan ws_workers ws_chans ws_conns]. unfold to_queue in *. cbn [hb_conns]. rewrite !nth_error_set_nth_same by (eapply nth_error_lt; eauto). rewrite Q.
      split; [reflexivity|]. split; [exists y; auto|]. cbn [wk_cur ch_buf map snd app] in *. split; [exact F|]. split; [|reflexivity]. unfold cur_list. rewrite Cu. cbn [wk_cur length]. lia.
    - unfold to_queue in Q. destruct (nth_error (hb_conns s) c) as [[lk r nx st gn]|] eqn:X; [|discriminate]. cbn [hc_next] in Q. subst nx.
      assert (gn = false). { destruct gn; [|reflexivity]. destruct (si_gone _ _ Hs c _ X eq_refl) as (Z & _). discriminate. } subst gn.
      exists (HPass c). do 2 eexists. split; [reflexivity|]. unfold h_step. rewrite A, X. unfold wstep. rewrite Cr, Y, W. unfold send_task. destruct (Nat.eqb_spec (pool_size cf) 0); [lia|]. rewrite Tq, Ch, Cl. split; [reflexivity|].
      cbn [hb_dead hb_pool hb_conns with_worker with_chan ws_workers ws_chans ws_conns]. unfold to_queue in *. cbn [hb_conns]. rewrite !nth_error_set_nth_same by (eapply nth_error_lt; eauto). rewrite K. cbn [hc_next ch_buf].
      split; [reflexivity|]. split; [exists y; auto|]. split; [rewrite map_app; cbn [map snd]; rewrite <- app_assoc in *; cbn [app]; rewrite <- !app_assoc; exact F|]. split; [|reflexivity]. rewrite app_length. cbn [length]. lia.
  Qed.

  Lemma goes_on : forall n s tr c w, hinv cf d s tr -> sinv s tr -> hb_dead s = false -> uses s c w ->
    Forall (returns (cf_routes cf)) (at_worker s w ++ to_queue s c) -> left s c w <= n ->
    exists more s' e, Forall (of_conn_and_worker c w) more /\ h_run cf d s more = (s', e) /\ reads c e = [] /\
      begun c (tr ++ e) = made d (reads c tr) /\ done c (tr ++ e) = made d (reads c tr).
  Proof.
    induction n as [|n IH]; intros s tr c w H Hs A U F Ln.
    - exists [], s, []. split; [constructor|]. split; [reflexivity|]. split; [reflexivity|]. rewrite app_nil_r. destruct (worker_there s tr c w H U) as (k & ch & K & Ch & _). unfold left in Ln. rewrite K, Ch in Ln.
      assert (Q : to_queue s c = []) by (destruct (to_queue s c); [reflexivity|cbn in Ln; lia]). assert (Cu : cur_list k = []) by (destruct (cur_list k); [reflexivity|cbn in Ln; lia]). assert (B : ch_buf ch = []) by (destruct (ch_buf ch); [reflexivity|cbn in Ln; lia]).
      destruct U as (y & Y & W). destruct (hi_pool _ _ _ _ H) as (ls & R). assert (V := server_vinv cf ls _ _ M P R). assert (Wd : wid_of (hb_pool s) c = Some w) by (unfold wid_of; now rewrite Y).
      destruct (v_order _ _ _ V c w ch k Wd Ch K) as (dn & S1 & S2). rewrite Cu, B in *. cbn [of_conn flat_map map] in *. rewrite !app_nil_r in *.
      assert (Ln' := nth_error_lt _ _ _ Y). rewrite <- (hi_len _ _ _ _ H) in Ln'. destruct (nth_error_ex _ _ Ln') as (x & X). destruct (hi_conn _ _ _ _ H c x X) as [(qs & r & R1 & R2 & _) _ _]. unfold to_queue in Q. rewrite X in Q. rewrite Q, app_nil_r in R2.
      unfold begun, done, made. rewrite begun_activity, done_activity, R1. cbn [fst]. rewrite R2, S1, S2. clear. induction dn as [|j dn (I1 & I2)]; [auto|]. cbn [brackets flat_map app ends map] in *. split; f_equal; assumption.
    - destruct (Nat.eq_dec (left s c w) 0) as [Z|Z]; [apply (IH s tr c w); auto; lia|].
      destruct (own_step s tr c w H Hs A U F Z) as (l & s1 & e1 & Ol & S1 & A1 & U1 & F1 & L1 & R1).
      destruct (IH s1 (tr ++ e1) c w (hinv_step cf d M _ _ _ _ _ H S1) (sinv_step _ _ _ _ _ _ _ Hs S1) A1 U1 F1 ltac:(lia)) as (more & s' & e & Fm & Rm & Re & B & D).
      exists (l :: more), s', (e1 ++ e). split; [now constructor|]. cbn [h_run]. rewrite S1, Rm. split; [reflexivity|]. rewrite !reads_app, R1 in *. rewrite app_nil_r in B, D. rewrite <- app_assoc in B, D. auto.
  Qed.

  (* A worker whose handler never returns serves nobody any more. *)
  Definition in_hand (s : hub) (w : nat) (x : work) : Prop := exists k, nth_error (ws_workers (hb_pool s)) w = Some k /\ wk_cur k = Some x.
  Lemma stuck_step s tr l s' e w x : hinv cf d s tr -> in_hand s w x -> ~ returns (cf_routes cf) (snd x) -> h_step cf d s l = (s', e) ->
    in_hand s' w x /\ forall c, uses s c w -> uses s' c w /\ begun c e = [].
  Proof.
    intros H (k & K & Cu) Nr. assert (Idle : (s, []) = (s', e) -> in_hand s' w x /\ forall c, uses s c w -> uses s' c w /\ begun c e = []) by (intros [= <- <-]; split; [now exists k|auto]).
    destruct (hi_pool _ _ _ _ H) as (ls & R). assert (V := server_vinv cf ls _ _ M P R). assert (U := server_uinv cf ls _ _ R). assert (Cr := u_crash _ _ _ U).
    assert (Pool : forall l p e0 conns b, wstep cf (hb_pool s) l = (p, e0) -> in_hand (Hub conns p b) w x /\ forall c, uses s c w -> uses (Hub conns p b) c w /\ begun c (map BPool e0) = []).
    { intros l0 p e0 conns b W. assert (Wk : exists k', nth_error (ws_workers p) w = Some k' /\ wk_cur k' = Some x).
      { unfold wstep in W. rewrite Cr in W. destruct l0 as [|c pick|c j|v|v fuel|c|c].
        - destruct (_ <? _); injection W as <- <-; cbn; eauto.
        - destruct (nth_error (ws_conns (hb_pool s)) c) as [y|]; [|injection W as <- <-; eauto]. destruct (co_worker y); [injection W as <- <-; eauto|]. destruct (use_worker cf (hb_pool s) (co_id y) pick) as [[s1 wid] b0] eqn:Us. injection W as <- <-. cbn [with_conn ws_workers].
          unfold use_worker in Us. destruct (cf_mode cf); [injection Us as <- <- <-; eauto| |congruence]. destruct (pick_one _ _); injection Us as <- <- <-; cbn; eauto.
        - destruct (nth_error (ws_conns (hb_pool s)) c) as [y|]; [|injection W as <- <-; eauto]. destruct (co_worker y) as [v|]; [|injection W as <- <-; eauto]. unfold send_task in W. destruct (Nat.eqb_spec (pool_size cf) 0); [lia|]. destruct (nth_error (ws_tq (hb_pool s)) v) as [[i|]|]; [|injection W as <- <-; eauto..]. destruct (nth_error (ws_chans (hb_pool s)) i) as [ch|]; [|injection W as <- <-; eauto]. destruct (ch_closed ch); injection W as <- <-; cbn; eauto.
        - destruct (nth_error (ws_workers (hb_pool s)) v) as [k'|] eqn:K'; [|injection W as <- <-; eauto]. destruct (Nat.eq_dec v w) as [->|Hn].
          + assert (k' = k) by congruence. subst k'. rewrite Cu in W. destruct (wk_alive k); injection W as <- <-; eauto.
          + destruct (wk_alive k'), (wk_cur k'), (nth_error (ws_chans (hb_pool s)) (wk_chan k')) as [ch|]; try (injection W as <- <-; eauto). destruct (ch_buf ch); [destruct (ch_closed ch)|]; injection W as <- <-; cbn [with_chan with_worker ws_workers]; rewrite ?nth_error_set_nth_other by exact Hn; eauto.
        - destruct (nth_error (ws_workers (hb_pool s)) v) as [k'|] eqn:K'; [|injection W as <- <-; eauto]. destruct (wk_cur k') as [[c j]|] eqn:Cu'; [|injection W as <- <-; eauto]. destruct (handle fuel (cf_routes cf) j) as [es r] eqn:Hd. destruct (Nat.eq_dec v w) as [->|Hn].
          + assert (k' = k) by congruence. subst k'. rewrite Cu in Cu'. injection Cu' as ->. destruct r; [|injection W as <- <-; eauto..]; elim Nr; exists fuel; cbn [snd]; rewrite Hd; discriminate.
          + destruct r; injection W as <- <-; cbn [with_worker ws_workers]; rewrite ?nth_error_set_nth_other by exact Hn; eauto.
        - destruct (nth_error (ws_conns (hb_pool s)) c) as [y|]; [|injection W as <- <-; eauto]. destruct (co_worker y); injection W as <- <-; cbn; eauto.
        - destruct (nth_error (ws_conns (hb_pool s)) c) as [y|]; [|injection W as <- <-; eauto]. destruct (co_worker y) as [v|]; [|injection W as <- <-; eauto]. destruct (co_mgr y); [injection W as <- <-; eauto|]. destruct (co_freed y); [injection W as <- <-; eauto|]. destruct (free_worker cf (hb_pool s) v) as [s1 p0] eqn:Fr. injection W as <- <-. cbn [with_conn ws_workers].
          unfold free_worker in Fr. destruct (cf_mode cf); [injection Fr as <- <-; eauto|injection Fr as <- <-; cbn; eauto|congruence]. }
      split; [exact Wk|]. intros c (y & Y & Wy). assert (Wd : wid_of (hb_pool s) c = Some w) by (unfold wid_of; now rewrite Y). split.
      - destruct (match l0 with LAccept => true | _ => false end) eqn:La.
        + destruct l0; try discriminate. unfold wstep in W. rewrite Cr in W. destruct (_ <? _); injection W as <- <-; [|exists y; auto]. exists y. cbn [hb_pool ws_conns]. rewrite nth_error_app1 by (eapply nth_error_lt; eauto). auto.
        + destruct (conns_kept cf _ _ _ _ W) as (_ & Kp); [intros ->; discriminate|]. destruct (Kp c y w Y Wy) as (y' & ? & ?). now exists y'.
      - unfold begun. rewrite pool_events_map. clear R Wk. unfold wstep in W. rewrite Cr in W. destruct l0 as [|c0 pick|c0 j|v|v fuel|c0|c0].
        + destruct (_ <? _); now injection W as <- <-.
        + destruct (nth_error (ws_conns (hb_pool s)) c0) as [y0|]; [|now injection W as <- <-]. destruct (co_worker y0); [now injection W as <- <-|]. destruct (use_worker cf (hb_pool s) (co_id y0) pick) as [[s1 wid] b0]. injection W as <- <-. now destruct b0.
        + destruct (nth_error (ws_conns (hb_pool s)) c0) as [y0|]; [|now injection W as <- <-]. destruct (co_worker y0) as [v|]; [|now injection W as <- <-]. unfold send_task in W. destruct (Nat.eqb_spec (pool_size cf) 0); [lia|]. destruct (nth_error (ws_tq (hb_pool s)) v) as [[i|]|]; [|now injection W as <- <-..]. destruct (nth_error (ws_chans (hb_pool s)) i) as [ch|]; [|now injection W as <- <-]. destruct (ch_closed ch); now injection W as <- <-.
        + destruct (nth_error (ws_workers (hb_pool s)) v) as [k'|] eqn:K'; [|now injection W as <- <-]. destruct (wk_alive k'); [|now injection W as <- <-]. destruct (wk_cur k') eqn:Cu'; [now injection W as <- <-|]. destruct (nth_error (ws_chans (hb_pool s)) (wk_chan k')) as [ch|] eqn:Ch; [|now injection W as <- <-].
          destruct (ch_buf ch) as [|[c1 j] rest] eqn:B; [destruct (ch_closed ch); now injection W as <- <-|]. injection W as <- <-. assert (Pl := v_place_buf _ _ _ V _ _ (c1, j) Ch). rewrite B in Pl. specialize (Pl (or_introl eq_refl)). cbn [fst] in Pl. rewrite (v_wk _ _ _ V _ _ K') in Pl.
          cbn. destruct (Nat.eqb_spec c1 c) as [->|]; [|reflexivity]. assert (v = w) by congruence. subst v. congruence.
        + destruct (nth_error (ws_workers (hb_pool s)) v) as [k'|]; [|now injection W as <- <-]. destruct (wk_cur k') as [[c1 j]|]; [|now injection W as <- <-]. destruct (handle fuel (cf_routes cf) j) as [es r]. destruct r; now injection W as <- <-.
        + destruct (nth_error (ws_conns (hb_pool s)) c0) as [y0|]; [|now injection W as <- <-]. destruct (co_worker y0); now injection W as <- <-.
        + destruct (nth_error (ws_conns (hb_pool s)) c0) as [y0|]; [|now injection W as <- <-]. destruct (co_worker y0) as [v|]; [|now injection W as <- <-]. destruct (co_mgr y0); [now injection W as <- <-|]. destruct (co_freed y0); [now injection W as <- <-|]. destruct (free_worker cf (hb_pool s) v) as [s1 p0]. injection W as <- <-. now destruct p0. }
    unfold h_step. destruct (hb_dead s); [exact Idle|]. destruct l as [lk|c chunk|c|c|l].
    - destruct (wstep cf (hb_pool s) LAccept) as [p e0] eqn:W. destruct (_ <? _); [|exact Idle]. intros [= <- <-]. now apply (Pool LAccept).
    - destruct (nth_error (hb_conns s) c) as [[k0 r [|] [] []]|] eqn:X; try exact Idle. destruct (nth_error (ws_conns (hb_pool s)) c) as [y|] eqn:Y; [|exact Idle]. destruct (co_worker y) as [v|] eqn:Wk; [|exact Idle].
      destruct (read_chunk r chunk) as [[qs st] r'] eqn:Rc. intros [= <- <-]. split; [now exists k|]. intros c' Uc. now split.
    - destruct (nth_error (hb_conns s) c) as [[k0 r [|j js] st []]|] eqn:X; try exact Idle. destruct (wstep cf (hb_pool s) (LSend c j)) as [p e0] eqn:W. intros [= <- <-]. now apply (Pool (LSend c j)).
    - destruct (nth_error (hb_conns s) c) as [[k0 r [|] [] []]|] eqn:X; try exact Idle. destruct k0; intros [= <- <-]; (split; [now exists k|intros c' Uc; now split]).
    - destruct l as [|c pick|c j|v|v fuel|c|c]; try exact Idle.
      + destruct (wstep cf (hb_pool s) (LStart c pick)) as [p e0] eqn:W. intros [= <- <-]. now apply (Pool _ _ _ _ _ W).
      + destruct (wstep cf (hb_pool s) (LTake v)) as [p e0] eqn:W. intros [= <- <-]. now apply (Pool _ _ _ _ _ W).
      + destruct (wstep cf (hb_pool s) (LFinish v fuel)) as [p e0] eqn:W. intros [= <- <-]. now apply (Pool _ _ _ _ _ W).
      + destruct (wstep cf (hb_pool s) (LRemove c)) as [p e0] eqn:W. intros [= <- <-]. now apply (Pool _ _ _ _ _ W).
      + destruct (wstep cf (hb_pool s) (LFree c)) as [p e0] eqn:W. intros [= <- <-]. now apply (Pool _ _ _ _ _ W).
  Qed.
  Lemma begun_app c a b : begun c (a ++ b) = begun c a ++ begun c b.
  Proof. unfold begun. rewrite pool_events_app. apply flat_map_app. Qed.
  Lemma stuck w x : forall more s tr s' e, hinv cf d s tr -> in_hand s w x -> ~ returns (cf_routes cf) (snd x) -> h_run cf d s more = (s', e) ->
    forall c, uses s c w -> begun c e = [].
  Proof.
    induction more as [|l more IH]; intros s tr s' e H I Nr R c U; cbn [h_run] in R.
    - now injection R as <- <-.
    - destruct (h_step cf d s l) as [s1 e1] eqn:S1. destruct (h_run cf d s1 more) as [s2 e2] eqn:R2. injection R as <- <-. destruct (stuck_step s tr l s1 e1 w x H I Nr S1) as (I1 & Q). destruct (Q c U) as (U1 & B1).
      rewrite begun_app, B1. exact (IH s1 (tr ++ e1) s2 e2 (hinv_step cf d M _ _ _ _ _ H S1) I1 Nr R2 c U1).
  Qed.
End S.

(* A server with many connections: what holds in every run. *)
From Coq Require Import ZArith List Bool Arith Lia.
From Verif Require Import Bytes Pack FrameDecoder Chain Decoders Reader GoSlice Request Dispatch Workers Spec_Workers Payload Hub Spec_Hub Spec_Send.
From Verif Require Spec_EndToEnd.
From Verif Require Import Router_proofs Workers_proofs Workers2_proofs Props_Workers EndToEnd_proofs EndToEnd2_proofs.
Import ListNotations.
Local Open Scope nat_scope.
Notation content := Spec_EndToEnd.content.

(* With these decoders every request carries a message. *)
Lemma frame_message d f : let '(es, _) := execute (rd_chain (new_reader d)) (IcRequest {| rq_msg := Some (new_message (u32 (zlen f)) f); rq_resp := None |}) in
  Forall (fun q => rq_msg q <> None) (delivered_of es).
Proof.
  unfold execute, new_reader. cbn [rd_chain]. destruct d; cbn.
  - repeat constructor; discriminate.
  - unfold tlv_intercept. cbn [get_imessage rq_msg m_data new_message]. destruct (zlen f <? 8)%Z; [cbn; repeat constructor; discriminate|]. destruct (tlv_decode f) as [[[? ?] ?]|]; cbn; repeat constructor; discriminate.
  - unfold ltv_intercept. cbn [get_imessage rq_msg m_data new_message]. destruct (zlen f <? 8)%Z; [cbn; repeat constructor; discriminate|]. destruct (ltv_decode f) as [[[? ?] ?]|]; cbn; repeat constructor; discriminate.
  - unfold htlv_intercept. cbn [get_imessage rq_msg m_data new_message]. destruct (zlen f <? 5)%Z; [cbn; repeat constructor; discriminate|]. destruct (htlv_decode f); cbn; repeat constructor; discriminate.
Qed.
Lemma frames_message d : forall fs, Forall (fun q => rq_msg q <> None) (fst (dispatch_frames (rd_chain (new_reader d)) fs)).
Proof.
  induction fs as [|f fs IH]; [constructor|]. cbn [dispatch_frames]. assert (M := frame_message d f). destruct (execute _ _) as [es [v|]]; [|exact M].
  destruct (dispatch_frames _ fs) as [ds st]. cbn [fst] in *. now apply Forall_app.
Qed.
Lemma read_message d r chunk : rd_chain r = rd_chain (new_reader d) -> let '(qs, _, r') := read_chunk r chunk in Forall (fun q => rq_msg q <> None) qs /\ rd_chain r' = rd_chain (new_reader d).
Proof.
  intros E. unfold read_chunk. destruct (rd_fd r) as [fd|].
  - destruct (decode fd chunk) as [fs fd'| |]; [|now split; [constructor|]..]. rewrite E. assert (M := frames_message d fs). destruct (dispatch_frames _ fs) as [ds st]. now split.
  - rewrite E. assert (M := frames_message d [chunk]). destruct (dispatch_frames _ [chunk]) as [ds st]. now split.
Qed.
Lemma jobs_seen qs : Forall (fun q => rq_msg q <> None) qs -> map content (jobs_of qs) = map seen qs.
Proof.
  induction 1 as [|q qs M _ IH]; [reflexivity|]. unfold jobs_of in *. cbn [flat_map map]. rewrite map_app, IH. unfold seen at 2. destruct (rq_msg q); [reflexivity|congruence].
Qed.

Lemma run_reader_snoc : forall cs r qs r' c, run_reader r cs = (qs, Running, r') -> run_reader r (cs ++ [c]) = let '(ds, st, r'') := read_chunk r' c in (qs ++ ds, st, r'').
Proof.
  induction cs as [|x cs IH]; intros r qs r' c H; cbn [app run_reader] in *.
  - injection H as <- <-. destruct (read_chunk r c) as [[ds st] r'']. cbn [app]. destruct st; now rewrite ?app_nil_r.
  - destruct (read_chunk r x) as [[ds st] r1]. destruct st; [|discriminate..]. destruct (run_reader r1 cs) as [[ds' st'] r2] eqn:R. injection H as <- -> <-. rewrite (IH r1 ds' r2 c R). destruct (read_chunk r2 c) as [[d2 s2] r3]. now rewrite app_assoc.
Qed.

(* What a step of the pool does to the connections and to what has been queued. *)
Lemma conns_kept cf s l s' e : wstep cf s l = (s', e) -> l <> LAccept ->
  length (ws_conns s') = length (ws_conns s) /\
  (forall c k w, nth_error (ws_conns s) c = Some k -> co_worker k = Some w -> exists k', nth_error (ws_conns s') c = Some k' /\ co_worker k' = Some w).
Proof.
  assert (Same : forall s', ws_conns s' = ws_conns s -> length (ws_conns s') = length (ws_conns s) /\ (forall c k w, nth_error (ws_conns s) c = Some k -> co_worker k = Some w -> exists k', nth_error (ws_conns s') c = Some k' /\ co_worker k' = Some w)) by (intros s0 ->; split; [reflexivity|]; eauto).
  assert (Put : forall s1 c k k', ws_conns s1 = ws_conns s -> nth_error (ws_conns s) c = Some k -> (forall w, co_worker k = Some w -> co_worker k' = Some w) ->
    length (ws_conns (with_conn s1 c k')) = length (ws_conns s) /\ (forall c0 k0 w, nth_error (ws_conns s) c0 = Some k0 -> co_worker k0 = Some w -> exists k'', nth_error (ws_conns (with_conn s1 c k')) c0 = Some k'' /\ co_worker k'' = Some w)).
  { intros s1 c k k' E K W. unfold with_conn. cbn [ws_conns]. rewrite E. split; [apply set_nth_length|]. intros c0 k0 w K0 W0. destruct (Nat.eq_dec c c0) as [<-|Hn].
    - exists k'. rewrite nth_error_set_nth_same by (eapply nth_error_lt; eauto). split; [reflexivity|]. apply W. congruence.
    - exists k0. now rewrite nth_error_set_nth_other. }
  unfold wstep. destruct (ws_crashed s); [intros [= <- <-] _; now apply Same|]. destruct l as [|c pick|c j|w|w fuel|c|c]; [congruence|..]; intros H _.
  - destruct (nth_error (ws_conns s) c) as [k|] eqn:K; [|injection H as <- <-; now apply Same]. destruct (co_worker k) eqn:W; [injection H as <- <-; now apply Same|].
    destruct (use_worker cf s (co_id k) pick) as [[s1 wid] b] eqn:U. injection H as <- <-. apply (Put s1 c k); [|exact K|congruence].
    unfold use_worker in U. destruct (cf_mode cf); [now injection U as <- <- <-|..]; destruct (pick_one (ws_free s) pick); [now injection U as <- <- <-..|now injection U as <- <- <-|]. destruct (pick_one (ws_extra s) pick); now injection U as <- <- <-.
  - destruct (nth_error (ws_conns s) c) as [k|] eqn:K; [|injection H as <- <-; now apply Same]. destruct (co_worker k) eqn:W; [|injection H as <- <-; now apply Same].
    unfold send_task in H. apply Same. destruct (pool_size cf =? 0); [now injection H as <- <-|]. destruct (nth_error (ws_tq s) n) as [[i|]|]; [|now injection H as <- <-..]. destruct (nth_error (ws_chans s) i) as [ch|]; [|now injection H as <- <-]. destruct (ch_closed ch); now injection H as <- <-.
  - apply Same. destruct (nth_error (ws_workers s) w) as [k|]; [|now injection H as <- <-]. destruct (wk_alive k), (wk_cur k), (nth_error (ws_chans s) (wk_chan k)) as [ch|]; try now injection H as <- <-. destruct (ch_buf ch); [destruct (ch_closed ch)|]; now injection H as <- <-.
  - apply Same. destruct (nth_error (ws_workers s) w) as [k|]; [|now injection H as <- <-]. destruct (wk_cur k) as [[c j]|]; [|now injection H as <- <-]. destruct (handle fuel (cf_routes cf) j) as [es r]. destruct r; now injection H as <- <-.
  - destruct (nth_error (ws_conns s) c) as [k|] eqn:K; [|injection H as <- <-; now apply Same]. destruct (co_worker k) eqn:W; [|injection H as <- <-; now apply Same]. injection H as <- <-. apply (Put s c k); [reflexivity|exact K|]. intros v Hv. cbn. congruence.
  - destruct (nth_error (ws_conns s) c) as [k|] eqn:K; [|injection H as <- <-; now apply Same]. destruct (co_worker k) eqn:W; [|injection H as <- <-; now apply Same]. destruct (co_mgr k); [injection H as <- <-; now apply Same|]. destruct (co_freed k); [injection H as <- <-; now apply Same|].
    destruct (free_worker cf s n) as [s1 p] eqn:F. injection H as <- <-. apply (Put s1 c k); [|exact K|intros v Hv; cbn; congruence].
    unfold free_worker in F. destruct (cf_mode cf); [now injection F as <- <-..|]. destruct (n <? pool_size cf); [now injection F as <- <-|]. destruct (nth_error (ws_tq s) n) as [[i|]|]; [|now injection F as <- <-..]. destruct (nth_error (ws_chans s) i) as [ch|]; [|now injection F as <- <-]. destruct (ch_closed ch); now injection F as <- <-.
Qed.
Lemma nothing_sent cf s l s' e : wstep cf s l = (s', e) -> (forall c j, l <> LSend c j) -> forall c, sent c e = [].
Proof.
  unfold wstep. destruct (ws_crashed s); [now intros [= <- <-]|]. intros H N d. destruct l as [|c pick|c j|w|w fuel|c|c]; [..|].
  - destruct (in_manager s <? cf_max cf); now injection H as <- <-.
  - destruct (nth_error (ws_conns s) c) as [k|]; [|now injection H as <- <-]. destruct (co_worker k); [now injection H as <- <-|]. destruct (use_worker cf s (co_id k) pick) as [[s1 wid] b]. injection H as <- <-. now destruct b.
  - now destruct (N c j).
  - destruct (nth_error (ws_workers s) w) as [k|]; [|now injection H as <- <-]. destruct (wk_alive k), (wk_cur k), (nth_error (ws_chans s) (wk_chan k)) as [ch|]; try now injection H as <- <-. destruct (ch_buf ch); [destruct (ch_closed ch)|]; now injection H as <- <-.
  - destruct (nth_error (ws_workers s) w) as [k|]; [|now injection H as <- <-]. destruct (wk_cur k) as [[c j]|]; [|now injection H as <- <-]. destruct (handle fuel (cf_routes cf) j) as [es r]. destruct r; now injection H as <- <-.
  - destruct (nth_error (ws_conns s) c) as [k|]; [|now injection H as <- <-]. destruct (co_worker k); now injection H as <- <-.
  - destruct (nth_error (ws_conns s) c) as [k|]; [|now injection H as <- <-]. destruct (co_worker k); [|now injection H as <- <-]. destruct (co_mgr k); [now injection H as <- <-|]. destruct (co_freed k); [now injection H as <- <-|]. destruct (free_worker cf s n) as [s1 p]. injection H as <- <-. now destruct p.
Qed.

Lemma set_nth_id {A} : forall n (l : list A) x, nth_error l n = Some x -> set_nth n x l = l.
Proof. induction n as [|n IH]; intros [|y l] x H; try discriminate; cbn in *; [congruence|now rewrite IH]. Qed.
Lemma reads_app c a b : reads c (a ++ b) = reads c a ++ reads c b.
Proof. apply flat_map_app. Qed.
Lemma pool_events_app a b : pool_events (a ++ b) = pool_events a ++ pool_events b.
Proof. apply flat_map_app. Qed.
Lemma pool_events_map e : pool_events (map BPool e) = e.
Proof. induction e as [|x e IH]; [reflexivity|]. cbn. now rewrite <- IH at 2. Qed.
Lemma reads_map c e : reads c (map BPool e) = [].
Proof. induction e; [reflexivity|assumption]. Qed.

(* The state of one connection's reader, and everything together. *)
Record cinv (d : dec) (p : wst) (tr : list bev) (c : nat) (x : hconn) : Prop := {
  ci_run : exists qs r, run_reader (new_reader d) (reads c tr) = (qs, hc_then x, r) /\ map seen qs = map content (sent c (pool_events tr)) ++ map content (hc_next x) /\ (hc_then x = Running -> r = hc_reader x);
  ci_chain : rd_chain (hc_reader x) = rd_chain (new_reader d);
  ci_started : reads c tr <> [] -> exists k w, nth_error (ws_conns p) c = Some k /\ co_worker k = Some w }.
Record hinv (cf : wcfg) (d : dec) (s : hub) (tr : list bev) : Prop := {
  hi_pool : exists ls, server_run cf ls = Some (hb_pool s, pool_events tr);
  hi_len : length (hb_conns s) = length (ws_conns (hb_pool s));
  hi_conn : forall c x, nth_error (hb_conns s) c = Some x -> cinv d (hb_pool s) tr c x;
  hi_none : forall c, nth_error (hb_conns s) c = None -> reads c tr = [] /\ sent c (pool_events tr) = [] }.

Section S.
  Variable cf : wcfg.
  Variable d : dec.
  Hypothesis M : cf_mode cf <> ModeDynamicBind.

  Lemma hinv_start p : start_pool cf = Some p -> hinv cf d (Hub [] p false) [].
  Proof.
    intros E. assert (L : ws_conns p = []) by (unfold start_pool in E; destruct (_ <? _); [discriminate|now injection E as <-]). constructor.
    - exists []. unfold server_run. now rewrite E.
    - cbn. now rewrite L.
    - intros [|c] x H; discriminate.
    - now split.
  Qed.

  (* A step of the pool that queues nothing. *)
  Lemma pool_step s tr l p e conns : hinv cf d s tr -> wstep cf (hb_pool s) l = (p, e) -> (forall c j, l <> LSend c j) ->
    (l = LAccept -> (exists k, conns = hb_conns s ++ [Hconn k (new_reader d) [] Running false]) /\ length (ws_conns p) = S (length (ws_conns (hb_pool s)))) ->
    (l <> LAccept -> conns = hb_conns s) -> hinv cf d (Hub conns p false) (tr ++ map BPool e).
  Proof.
    intros [(ls & R) L C N] W Ns Ha Hn. assert (Q := nothing_sent cf _ _ _ _ W Ns).
    assert (Same : forall c x, cinv d (hb_pool s) tr c x -> (forall k w, nth_error (ws_conns (hb_pool s)) c = Some k -> co_worker k = Some w -> exists k', nth_error (ws_conns p) c = Some k' /\ co_worker k' = Some w) -> cinv d p (tr ++ map BPool e) c x).
    { intros c x [(qs & r & R1 & R2 & R3) Ci Cs] K. constructor.
      - exists qs, r. rewrite reads_app, reads_map, app_nil_r, pool_events_app, pool_events_map, sent_app, Q, app_nil_r. auto.
      - exact Ci.
      - rewrite reads_app, reads_map, app_nil_r. intros Hr. destruct (Cs Hr) as (k & w & Hk & Hw). destruct (K k w Hk Hw) as (k' & ? & ?). now exists k', w. }
    assert (Acc : l = LAccept -> forall c k w, nth_error (ws_conns (hb_pool s)) c = Some k -> co_worker k = Some w -> exists k', nth_error (ws_conns p) c = Some k' /\ co_worker k' = Some w).
    { intros -> c k w Hk Hw. exists k. split; [|exact Hw]. unfold wstep in W. destruct (ws_crashed (hb_pool s)); [now injection W as <- <-|]. destruct (in_manager (hb_pool s) <? cf_max cf); injection W as <- <-; [|exact Hk]. cbn [ws_conns]. rewrite nth_error_app1 by (eapply nth_error_lt; eauto). exact Hk. }
    assert (Keep : forall c k w, nth_error (ws_conns (hb_pool s)) c = Some k -> co_worker k = Some w -> exists k', nth_error (ws_conns p) c = Some k' /\ co_worker k' = Some w).
    { destruct l; [now apply Acc|apply (conns_kept cf _ _ _ _ W); discriminate..]. }
    assert (Run : exists ls, server_run cf ls = Some (p, pool_events (tr ++ map BPool e))) by (exists (ls ++ [l]); rewrite pool_events_app, pool_events_map; now apply (server_step cf ls (hb_pool s))).
    destruct (match l with LAccept => true | _ => false end) eqn:La.
    - assert (l = LAccept) as El by (destruct l; [reflexivity|discriminate..]). destruct (Ha El) as ((lk & ->) & Lp). clear Ha Hn. constructor; cbn [hb_pool hb_conns].
      + exact Run.
      + rewrite app_length. cbn. lia.
      + intros c x H. destruct (Nat.lt_ge_cases c (length (hb_conns s))) as [Hc|Hc].
        * rewrite nth_error_app1 in H by exact Hc. apply Same; [now apply C|exact (Keep c)].
        * rewrite nth_error_app2 in H by exact Hc. destruct (c - length (hb_conns s)) as [|n] eqn:En; [|destruct n; discriminate]. cbn in H. injection H as <-. destruct (N c) as (Nr & Nse); [now apply nth_error_None|].
          constructor; cbn [hc_then hc_next hc_reader].
          -- exists [], (new_reader d). rewrite reads_app, reads_map, app_nil_r, Nr, pool_events_app, pool_events_map, sent_app, Q, Nse. auto.
          -- reflexivity.
          -- rewrite reads_app, reads_map, Nr. now intros [].
      + intros c H. destruct (N c) as (Nr & Nse). { apply nth_error_None. apply nth_error_None in H. rewrite app_length in H. lia. }
        now rewrite reads_app, reads_map, app_nil_r, pool_events_app, pool_events_map, sent_app, Q, app_nil_r.
    - assert (l <> LAccept) as Hl by (intros ->; discriminate). rewrite (Hn Hl). constructor; cbn [hb_pool hb_conns].
      + exact Run.
      + rewrite L. symmetry. now apply (conns_kept cf _ _ _ _ W).
      + intros c x H. apply Same; [now apply C|exact (Keep c)].
      + intros c H. destruct (N c H) as (Nr & Nse). now rewrite reads_app, reads_map, app_nil_r, pool_events_app, pool_events_map, sent_app, Q, app_nil_r.
  Qed.

  (* A change to connection c's reader and events that concern no other connection. *)
  Lemma conn_step s tr c x x' p e : hinv cf d s tr -> nth_error (hb_conns s) c = Some x ->
    (exists ls, server_run cf ls = Some (p, pool_events (tr ++ e))) -> ws_conns p = ws_conns (hb_pool s) ->
    (forall c', c' <> c -> reads c' e = [] /\ sent c' (pool_events e) = []) -> cinv d p (tr ++ e) c x' -> forall b,
    hinv cf d (Hub (set_nth c x' (hb_conns s)) p b) (tr ++ e).
  Proof.
    intros [_ L C N] X R E O Cx b. assert (Hc := nth_error_lt _ _ _ X). constructor; cbn [hb_pool hb_conns].
    - exact R.
    - now rewrite set_nth_length, E.
    - intros c' y H. destruct (Nat.eq_dec c c') as [<-|Hn].
      + rewrite nth_error_set_nth_same in H by exact Hc. now injection H as <-.
      + rewrite nth_error_set_nth_other in H by exact Hn. destruct (C c' y H) as [(qs & r & R1 & R2 & R3) Ci Cs]. destruct (O c') as (O1 & O2); [congruence|]. constructor.
        * exists qs, r. rewrite reads_app, O1, app_nil_r, pool_events_app, sent_app, O2, app_nil_r. auto.
        * exact Ci.
        * rewrite reads_app, O1, app_nil_r, E. exact Cs.
    - intros c' H. apply nth_error_None in H. rewrite set_nth_length in H. destruct (N c') as (N1 & N2); [now apply nth_error_None|]. destruct (O c') as (O1 & O2); [lia|].
      now rewrite reads_app, O1, app_nil_r, pool_events_app, sent_app, O2, app_nil_r.
  Qed.

  Lemma hinv_step s tr l s' e : hinv cf d s tr -> h_step cf d s l = (s', e) -> hinv cf d s' (tr ++ e).
  Proof.
    intros H. assert (Idle : (s, []) = (s', e) -> hinv cf d s' (tr ++ e)) by (intros [= <- <-]; now rewrite app_nil_r).
    unfold h_step. destruct (hb_dead s); [exact Idle|]. destruct l as [k|c chunk|c|c|l].
    - destruct (wstep cf (hb_pool s) LAccept) as [p e0] eqn:W. destruct (_ <? _) eqn:Q; [|exact Idle]. intros [= <- <-]. apply Nat.ltb_lt in Q.
      apply (pool_step s tr LAccept p e0 _ H W); [discriminate| |congruence]. intros _. split; [now exists k|]. unfold wstep in W. destruct (ws_crashed (hb_pool s)); [injection W as <- <-; lia|]. destruct (in_manager (hb_pool s) <? cf_max cf); injection W as <- <-; [|lia]. cbn [ws_conns]. rewrite app_length. cbn. lia.
    - destruct (nth_error (hb_conns s) c) as [[k r [|] [] []]|] eqn:X; try exact Idle. destruct (nth_error (ws_conns (hb_pool s)) c) as [y|] eqn:Y; [|exact Idle]. destruct (co_worker y) as [w|] eqn:Wk; [|exact Idle].
      destruct (read_chunk r chunk) as [[qs st] r'] eqn:Rc. intros [= <- <-]. destruct (hi_conn _ _ _ _ H c _ X) as [(q0 & r0 & R1 & R2 & R3) Ci Cs]. cbn [hc_then hc_next hc_reader map] in *. rewrite (R3 eq_refl) in R1.
      assert (Mg := read_message d r chunk Ci). rewrite Rc in Mg. destruct Mg as (Mg & Ch).
      apply (conn_step s tr c _ _ (hb_pool s) [BRead c chunk] H X).
      + destruct (hi_pool _ _ _ _ H) as (ls & R). exists ls. now rewrite pool_events_app, app_nil_r.
      + reflexivity.
      + intros c' Hn. cbn. destruct (Nat.eqb c c') eqn:Q; [apply Nat.eqb_eq in Q; congruence|auto].
      + constructor; cbn [hc_then hc_next hc_reader].
        * exists (q0 ++ qs), r'. rewrite reads_app. cbn [reads flat_map]. rewrite Nat.eqb_refl. cbn [app]. rewrite (run_reader_snoc _ _ _ _ _ R1), Rc. split; [reflexivity|]. rewrite map_app, R2, app_nil_r, pool_events_app, app_nil_r, jobs_seen by exact Mg. auto.
        * exact Ch.
        * intros _. eauto.
    - destruct (nth_error (hb_conns s) c) as [[k r [|j js] st []]|] eqn:X; try exact Idle. destruct (wstep cf (hb_pool s) (LSend c j)) as [p e0] eqn:W. intros [= <- <-].
      destruct (hi_conn _ _ _ _ H c _ X) as [(q0 & r0 & R1 & R2 & R3) Ci Cs]. cbn [hc_then hc_next hc_reader map] in *. destruct (hi_pool _ _ _ _ H) as (ls & R).
      assert (Hr : reads c tr <> []). { intros Hr. rewrite Hr in R1. cbn in R1. injection R1 as <- _ _. destruct (map content (sent c (pool_events tr))); discriminate. }
      destruct (Cs Hr) as (y & w & Hy & Hw). destruct (C24_received cf ls (hb_pool s) _ c y w j R Hy Hw) as (_ & Rcv).
      assert (E0 : e0 = [EvSend c j]). { rewrite W in Rcv. apply Rcv. intros c'. revert R. unfold server_run. destruct (start_pool cf) as [s0|]; [|discriminate]. intros [= R]. assert (Z := extra_only_dynamic cf ls M s0 c'). now rewrite R in Z. }
      assert (K1 : ws_conns p = ws_conns (hb_pool s)). { unfold wstep in W. destruct (ws_crashed (hb_pool s)); [now injection W as <- <-|]. rewrite Hy, Hw in W. unfold send_task in W. destruct (pool_size cf =? 0); [now injection W as <- <-|]. destruct (nth_error (ws_tq (hb_pool s)) w) as [[i|]|]; [|now injection W as <- <-..]. destruct (nth_error (ws_chans (hb_pool s)) i) as [ch|]; [|now injection W as <- <-]. destruct (ch_closed ch); now injection W as <- <-. }
      subst e0. apply (conn_step s tr c _ _ p _ H X).
      + exists (ls ++ [LSend c j]). rewrite pool_events_app, pool_events_map. now apply (server_step cf ls (hb_pool s)).
      + exact K1.
      + intros c' Hn. cbn. destruct (Nat.eqb c c') eqn:Q; [apply Nat.eqb_eq in Q; congruence|auto].
      + constructor; cbn [hc_then hc_next hc_reader].
        * exists q0, r0. rewrite reads_app, reads_map, app_nil_r. split; [exact R1|]. rewrite pool_events_app, pool_events_map, sent_app. cbn [sent flat_map]. rewrite Nat.eqb_refl. cbn [app]. rewrite map_app, <- app_assoc. auto.
        * exact Ci.
        * rewrite reads_app, reads_map, app_nil_r, K1. exact Cs.
    - destruct (nth_error (hb_conns s) c) as [[k r [|] [] []]|] eqn:X; try exact Idle.
      assert (Sh : forall x' b, hc_then x' = StoppedByPanic -> hc_next x' = [] -> hc_reader x' = r -> forall e', (e' = [BDown c] \/ e' = [BCrash c]) -> hinv cf d (Hub (set_nth c x' (hb_conns s)) (hb_pool s) b) (tr ++ e')).
      { intros x' b A1 A2 A3 e' He. assert (Z : (forall c', reads c' e' = []) /\ pool_events e' = []) by (destruct He as [-> | ->]; auto). destruct Z as (Z1 & Z2).
        apply (conn_step s tr c _ _ (hb_pool s) e' H X).
        - destruct (hi_pool _ _ _ _ H) as (ls & R). exists ls. now rewrite pool_events_app, Z2, app_nil_r.
        - reflexivity.
        - intros c' _. now rewrite Z1, Z2.
        - destruct (hi_conn _ _ _ _ H c _ X) as [(q0 & r0 & R1 & R2 & R3) Ci Cs]. constructor; rewrite ?A1, ?A2, ?A3, ?reads_app, ?Z1, ?app_nil_r.
          + exists q0, r0. rewrite pool_events_app, Z2, app_nil_r. split; [exact R1|]. split; [cbn in R2; now rewrite app_nil_r in R2|]. discriminate.
          + exact Ci.
          + exact Cs. }
      destruct k; intros [= <- <-]; [now apply Sh; auto..|].
      assert (Q := Sh _ true (eq_refl StoppedByPanic : hc_then (Hconn Ws r [] StoppedByPanic false) = _) eq_refl eq_refl [BCrash c] (or_intror eq_refl)). now rewrite (set_nth_id _ _ _ X) in Q.
    - destruct l as [|c pick|c j|w|w fuel|c|c]; try exact Idle.
      + destruct (wstep cf (hb_pool s) (LStart c pick)) as [p e0] eqn:W. intros [= <- <-]. apply (pool_step s tr _ p e0 _ H W); [discriminate|discriminate|reflexivity].
      + destruct (wstep cf (hb_pool s) (LTake w)) as [p e0] eqn:W. intros [= <- <-]. apply (pool_step s tr _ p e0 _ H W); [discriminate|discriminate|reflexivity].
      + destruct (wstep cf (hb_pool s) (LFinish w fuel)) as [p e0] eqn:W. intros [= <- <-]. apply (pool_step s tr _ p e0 _ H W); [discriminate|discriminate|reflexivity].
      + destruct (wstep cf (hb_pool s) (LRemove c)) as [p e0] eqn:W. intros [= <- <-]. apply (pool_step s tr _ p e0 _ H W); [discriminate|discriminate|reflexivity].
      + destruct (wstep cf (hb_pool s) (LFree c)) as [p e0] eqn:W. intros [= <- <-]. apply (pool_step s tr _ p e0 _ H W); [discriminate|discriminate|reflexivity].
  Qed.
  Lemma hinv_run : forall ls s tr s' e, hinv cf d s tr -> h_run cf d s ls = (s', e) -> hinv cf d s' (tr ++ e).
  Proof.
    induction ls as [|l ls IH]; intros s tr s' e H R; cbn [h_run] in R.
    - injection R as <- <-. now rewrite app_nil_r.
    - destruct (h_step cf d s l) as [s1 e1] eqn:S1. destruct (h_run cf d s1 ls) as [s2 e2] eqn:R2. injection R as <- <-. rewrite app_assoc. apply (IH s1 _ s2); [|exact R2]. now apply (hinv_step s tr l).
  Qed.
  Lemma hub_inv ls s tr : hub_run cf d ls = Some (s, tr) -> hinv cf d s tr.
  Proof.
    unfold hub_run. destruct (start_pool cf) as [p|] eqn:E; [|discriminate]. cbn. intros [= R]. exact (hinv_run ls _ [] s tr (hinv_start p E) R).
  Qed.
End S.

Lemma server_vinv cf ls s tr : cf_mode cf <> ModeDynamicBind -> pool_size cf > 0 -> server_run cf ls = Some (s, tr) -> vinv cf s tr.
Proof.
  intros M P R. assert (Hx : forall c, ~ In (EvExtra c) tr). { intros c. revert R. unfold server_run. destruct (start_pool cf) as [s0|]; [|discriminate]. intros [= R]. assert (Z := extra_only_dynamic cf ls M s0 c). now rewrite R in Z. }
  revert R. unfold server_run. destruct (start_pool cf) as [s0|] eqn:E0; [|discriminate]. intros [= E].
  assert (Hz : cf_max cf = 0 -> ws_conns s0 = []). { intros _. unfold start_pool in E0. destruct (_ <? _); [discriminate|]. now injection E0 as <-. }
  pose proof (wrun_v cf P ls s0 [] (start_pool_inv cf s0 E0) (v_start cf P s0 E0) Hz) as H. rewrite E in H. cbn [fst snd app] in H. exact (H Hx).
Qed.

(* Readers that are over, and a server that is down. *)
Record sinv (s : hub) (tr : list bev) : Prop := {
  si_gone : forall c x, nth_error (hb_conns s) c = Some x -> hc_gone x = true -> hc_next x = [] /\ hc_then x = StoppedByPanic;
  si_down : forall c, In (BDown c) tr -> exists x, nth_error (hb_conns s) c = Some x /\ hc_then x = StoppedByPanic /\ hc_link x <> Ws;
  si_crash : forall c, In (BCrash c) tr -> exists x, nth_error (hb_conns s) c = Some x /\ hc_then x = StoppedByPanic /\ hc_link x = Ws;
  si_dead : hb_dead s = true <-> exists c, In (BCrash c) tr }.
Definition quiet (e : list bev) : Prop := forall c, ~ In (BDown c) e /\ ~ In (BCrash c) e.
Lemma quiet_pool e : quiet (map BPool e).
Proof. intros c. split; intros H; apply in_map_iff in H as (x & Hx & _); discriminate. Qed.
Lemma sinv_quiet s tr s' e : sinv s tr -> hb_dead s = false -> hb_dead s' = false -> quiet e ->
  (forall c x, nth_error (hb_conns s) c = Some x -> hc_then x = StoppedByPanic -> exists x', nth_error (hb_conns s') c = Some x' /\ hc_then x' = StoppedByPanic /\ hc_link x' = hc_link x) ->
  (forall c x, nth_error (hb_conns s') c = Some x -> hc_gone x = true -> hc_next x = [] /\ hc_then x = StoppedByPanic) -> sinv s' (tr ++ e).
Proof.
  intros [G D C De] A A' Q K G'. constructor.
  - exact G'.
  - intros c H. apply in_app_or in H as [H|H]; [|now destruct (Q c)]. destruct (D c H) as (x & X1 & X2 & X3). destruct (K c x X1 X2) as (x' & Y1 & Y2 & Y3). exists x'. rewrite Y3. auto.
  - intros c H. apply in_app_or in H as [H|H]; [|now destruct (Q c)]. destruct (C c H) as (x & X1 & X2 & X3). destruct (K c x X1 X2) as (x' & Y1 & Y2 & Y3). exists x'. rewrite Y3. auto.
  - rewrite A'. split; [discriminate|]. intros (c & H). apply in_app_or in H as [H|H]; [|now destruct (Q c)]. assert (hb_dead s = true) by (apply De; eauto). congruence.
Qed.
Lemma sinv_conns s tr p e : sinv s tr -> hb_dead s = false -> sinv (Hub (hb_conns s) p false) (tr ++ map BPool e).
Proof.
  intros H A. apply (sinv_quiet s); [exact H|exact A|reflexivity|apply quiet_pool|cbn; eauto|exact (si_gone _ _ H)].
Qed.
Lemma sinv_put s tr p e c x x' : sinv s tr -> hb_dead s = false -> quiet e -> nth_error (hb_conns s) c = Some x -> (hc_then x = StoppedByPanic -> hc_then x' = StoppedByPanic) -> hc_link x' = hc_link x -> hc_gone x' = false ->
  sinv (Hub (set_nth c x' (hb_conns s)) p false) (tr ++ e).
Proof.
  intros H A Q X T L G. apply (sinv_quiet s); [exact H|exact A|reflexivity|exact Q|..]; cbn [hb_conns].
  - intros c' y Y T'. destruct (Nat.eq_dec c c') as [<-|Hn].
    + exists x'. rewrite nth_error_set_nth_same by (eapply nth_error_lt; eauto). assert (y = x) by congruence. subst y. auto.
    + exists y. rewrite nth_error_set_nth_other by exact Hn. auto.
  - intros c' y Y G'. destruct (Nat.eq_dec c c') as [<-|Hn].
    + rewrite nth_error_set_nth_same in Y by (eapply nth_error_lt; eauto). injection Y as <-. congruence.
    + rewrite nth_error_set_nth_other in Y by exact Hn. exact (si_gone _ _ H c' y Y G').
Qed.
Lemma sinv_step cf d s tr l s' e : sinv s tr -> h_step cf d s l = (s', e) -> sinv s' (tr ++ e).
Proof.
  intros H. assert (Idle : (s, []) = (s', e) -> sinv s' (tr ++ e)) by (intros [= <- <-]; now rewrite app_nil_r).
  unfold h_step. destruct (hb_dead s) eqn:A; [exact Idle|]. destruct l as [k|c chunk|c|c|l].
  - destruct (wstep cf (hb_pool s) LAccept) as [p e0] eqn:W. destruct (_ <? _) eqn:Q; [|exact Idle]. intros [= <- <-].
    apply (sinv_quiet s); [exact H|exact A|reflexivity|apply quiet_pool|..]; cbn [hb_conns].
    + intros c x X T. exists x. rewrite nth_error_app1 by (eapply nth_error_lt; eauto). auto.
    + intros c x X G. destruct (Nat.lt_ge_cases c (length (hb_conns s))) as [Hc|Hc].
      * rewrite nth_error_app1 in X by exact Hc. exact (si_gone _ _ H c x X G).
      * rewrite nth_error_app2 in X by exact Hc. destruct (c - length (hb_conns s)) as [|[|n]]; [injection X as <-|discriminate..]. discriminate.
  - destruct (nth_error (hb_conns s) c) as [[k r [|] [] []]|] eqn:X; try exact Idle. destruct (nth_error (ws_conns (hb_pool s)) c) as [y|] eqn:Y; [|exact Idle]. destruct (co_worker y) as [w|] eqn:Wk; [|exact Idle].
    destruct (read_chunk r chunk) as [[qs st] r'] eqn:Rc. intros [= <- <-]. apply (sinv_put s tr _ _ c _ _ H A) with (2 := X); cbn; [|discriminate|reflexivity..]. intros c'. split; intros [|[]]; discriminate.
  - destruct (nth_error (hb_conns s) c) as [[k r [|j js] st []]|] eqn:X; try exact Idle. destruct (wstep cf (hb_pool s) (LSend c j)) as [p e0] eqn:W. intros [= <- <-].
    apply (sinv_put s tr _ _ c _ _ H A) with (2 := X); cbn; auto. apply quiet_pool.
  - destruct (nth_error (hb_conns s) c) as [[k r [|] [] []]|] eqn:X; try exact Idle. destruct H as [G D C De]. assert (Hc := nth_error_lt _ _ _ X).
    assert (Down : k <> Ws -> sinv (Hub (set_nth c (Hconn k r [] StoppedByPanic true) (hb_conns s)) (hb_pool s) false) (tr ++ [BDown c])).
    { intros Hk. constructor; cbn [hb_conns hb_dead].
      - intros c' x Hx Hg. destruct (Nat.eq_dec c c') as [<-|Hn]; [rewrite nth_error_set_nth_same in Hx by exact Hc; now injection Hx as <-|]. rewrite nth_error_set_nth_other in Hx by exact Hn. eauto.
      - intros c' Hi. destruct (Nat.eq_dec c c') as [<-|Hn]; [rewrite nth_error_set_nth_same by exact Hc; eexists; split; [reflexivity|]; auto|]. rewrite nth_error_set_nth_other by exact Hn. apply in_app_or in Hi as [Hi|[Hi|[]]]; [auto|congruence].
      - intros c' Hi. apply in_app_or in Hi as [Hi|[Hi|[]]]; [|discriminate]. assert (hb_dead s = true) by (apply De; eauto). congruence.
      - split; [discriminate|]. intros (c' & Hi). apply in_app_or in Hi as [Hi|[Hi|[]]]; [|discriminate]. assert (hb_dead s = true) by (apply De; eauto). congruence. }
    destruct k; intros [= <- <-]; [apply Down; discriminate..|]. constructor; cbn [hb_conns hb_dead].
    + exact G.
    + intros c' Hi. apply in_app_or in Hi as [Hi|[Hi|[]]]; [auto|discriminate].
    + intros c' Hi. apply in_app_or in Hi as [Hi|[Hi|[]]]; [auto|]. injection Hi as <-. eauto.
    + split; [|auto]. intros _. exists c. apply in_or_app. right. now left.
  - destruct l as [|c pick|c j|w|w fuel|c|c]; try exact Idle.
    + destruct (wstep cf (hb_pool s) (LStart c pick)) as [p e0] eqn:W. intros [= <- <-]. now apply sinv_conns.
    + destruct (wstep cf (hb_pool s) (LTake w)) as [p e0] eqn:W. intros [= <- <-]. now apply sinv_conns.
    + destruct (wstep cf (hb_pool s) (LFinish w fuel)) as [p e0] eqn:W. intros [= <- <-]. now apply sinv_conns.
    + destruct (wstep cf (hb_pool s) (LRemove c)) as [p e0] eqn:W. intros [= <- <-]. now apply sinv_conns.
    + destruct (wstep cf (hb_pool s) (LFree c)) as [p e0] eqn:W. intros [= <- <-]. now apply sinv_conns.
Qed.
Lemma sinv_run cf d : forall ls s tr s' e, sinv s tr -> h_run cf d s ls = (s', e) -> sinv s' (tr ++ e).
Proof.
  induction ls as [|l ls IH]; intros s tr s' e H R; cbn [h_run] in R.
  - injection R as <- <-. now rewrite app_nil_r.
  - destruct (h_step cf d s l) as [s1 e1] eqn:S1. destruct (h_run cf d s1 ls) as [s2 e2] eqn:R2. injection R as <- <-. rewrite app_assoc. apply (IH s1 _ s2); [|exact R2]. now apply (sinv_step cf d s tr l).
Qed.
Lemma hub_sinv cf d ls s tr : hub_run cf d ls = Some (s, tr) -> sinv s tr.
Proof.
  unfold hub_run. destruct (start_pool cf) as [p|] eqn:E; [|discriminate]. cbn. intros [= R]. refine (sinv_run cf d ls _ [] s tr _ R). constructor; cbn; try tauto; [intros [|] ? ?; discriminate|]. split; [discriminate|]. now intros (? & []).
Qed.
Lemma h_run_app cf d : forall l1 s l2, h_run cf d s (l1 ++ l2) = let (s1, e1) := h_run cf d s l1 in let (s2, e2) := h_run cf d s1 l2 in (s2, e1 ++ e2).
Proof.
  induction l1 as [|l l1 IH]; intros s l2; cbn [app h_run]; [now destruct (h_run cf d s l2)|]. destruct (h_step cf d s l) as [s1 e1]. rewrite IH. destruct (h_run cf d s1 l1) as [s2 e2]. destruct (h_run cf d s2 l2) as [s3 e3]. now rewrite app_assoc.
Qed.
Lemma dead_stays cf d s : hb_dead s = true -> forall ls, h_run cf d s ls = (s, []).
Proof. intros D. induction ls as [|l ls IH]; [reflexivity|]. cbn [h_run]. unfold h_step. now rewrite D, IH. Qed.

(* ---- what each connection gets done ---- *)
Lemma own_data cf d ls s tr c : cf_mode cf <> ModeDynamicBind -> pool_size cf > 0 -> hub_run cf d ls = Some (s, tr) ->
  prefix (begun c tr) (made d (reads c tr)) /\ one_at_a_time (sent c (pool_events tr)) (activity c (pool_events tr)).
Proof.
  intros M P R. destruct (hub_inv cf d M ls s tr R) as [(ls0 & R0) L C N]. assert (O := C23_order_partial cf ls0 _ _ M P R0 c). split; [|exact O].
  destruct (begun_prefix c _ O) as (r & B). unfold begun, made, prefix. destruct (nth_error (hb_conns s) c) as [x|] eqn:X.
  - destruct (C c x X) as [(qs & r0 & R1 & R2 & _) _ _]. rewrite R1. cbn [fst]. rewrite R2, B, <- app_assoc. eauto.
  - destruct (N c X) as (N1 & N2). rewrite N2 in B. destruct (Spec_EndToEnd.begun c (pool_events tr)); [|discriminate]. rewrite N1. cbn. eauto.
Qed.
Lemma prefixes {A} (a b l : list A) : prefix a l -> prefix b l -> prefix a b \/ prefix b a.
Proof.
  unfold prefix. intros (x & ->) (y & E). revert b E. induction a as [|h a IH]; intros b E; [left; exists b; reflexivity|]. destruct b as [|k b]; [right; exists (h :: a); reflexivity|]. cbn in E. injection E as <- E. destruct (IH b E) as [(z & ->)|(z & ->)]; [left|right]; exists z; reflexivity.
Qed.

From Coq Require Import ZArith List Bool Lia Permutation.
From Verif Require Import Bytes Pack FrameDecoder Chain Decoders Spec_Codec Reader Request GoSlice Dispatch Workers Spec_Workers SendQueue Spec_Send Spec_EndToEnd.
From Verif Require Import Workers_proofs Workers2_proofs Props_Codec Props_Workers EndToEnd_proofs.
Import ListNotations.
Local Open Scope nat_scope.

Lemma wrun_snoc cf : forall l1 s l2, wrun cf s (l1 ++ l2) = let (s1, e1) := wrun cf s l1 in let (s2, e2) := wrun cf s1 l2 in (s2, e1 ++ e2).
Proof.
  induction l1 as [|l l1 IH]; intros s l2; cbn [wrun app]. { now destruct (wrun cf s l2). }
  destruct (wstep cf s l) as [s1 e1]. rewrite IH. destruct (wrun cf s1 l1) as [s2 e2]. destruct (wrun cf s2 l2). now rewrite app_assoc.
Qed.
Lemma server_step cf ls s tr l s' e : server_run cf ls = Some (s, tr) -> wstep cf s l = (s', e) -> server_run cf (ls ++ [l]) = Some (s', tr ++ e).
Proof.
  unfold server_run. destruct (start_pool cf) as [s0|]; [|discriminate]. intros [= E] W. rewrite wrun_snoc, E. cbn [wrun]. rewrite W. now rewrite app_nil_r.
Qed.
Lemma step_down cf ls s tr : server_run cf ls = Some (s, tr) -> in_flight s ++ waiting s <> [] -> (forall j, returns (cf_routes cf) j) ->
  exists l s' e, wstep cf s l = (s', e) /\ workers_only l /\ all_sent e = [] /\ 2 * length (waiting s') + length (in_flight s') < 2 * length (waiting s) + length (in_flight s).
Proof.
  intros E Hne Hret. pose proof (server_uinv cf ls s tr E) as HU.
  assert (Hfin : forall w k x, nth_error (ws_workers s) w = Some k -> wk_cur k = Some x ->
    exists l s' e, wstep cf s l = (s', e) /\ workers_only l /\ all_sent e = [] /\ 2 * length (waiting s') + length (in_flight s') < 2 * length (waiting s) + length (in_flight s)).
  { intros w k [c j] Ek Ex. destruct (Hret j) as [fuel Hf]. pose proof (handle_no_panic fuel (cf_routes cf) j) as Hnp.
    destruct (handle fuel (cf_routes cf) j) as [es r] eqn:Eh. cbn [snd] in *.
    exists (LFinish w fuel), (with_worker s w (Worker (wk_chan k) None (wk_alive k))), [EvEnd c j es]. split; [unfold wstep; rewrite (u_crash _ _ _ HU), Ek, Ex, Eh; destruct r; [reflexivity|congruence|congruence]|]. split; [exact Logic.I|]. split; [reflexivity|].
    change (waiting (with_worker s w (Worker (wk_chan k) None (wk_alive k)))) with (waiting s). apply Nat.add_lt_mono_l.
    pose proof (flat_map_set_nth (fun k => match wk_cur k with Some x => [x] | None => [] end) (ws_workers s) w (Worker (wk_chan k) None (wk_alive k)) k Ek) as P. apply Permutation_length in P. rewrite !app_length, Ex in P. cbn [length wk_cur app] in P. unfold in_flight, with_worker. cbn [ws_workers]. lia. }
  destruct (in_flight s) as [|x fl] eqn:Efl.
  - cbn [app] in Hne. destruct (flat_map_ne _ _ Hne) as (i & ch & Ech & Hb).
    destruct (u_cover _ _ _ HU i) as (w & k & Ek & Ew); [eapply nth_error_lt; eauto|].
    destruct (u_worker _ _ _ HU w k Ek) as (ch' & Ech' & Hd). rewrite Ew in Ech'.
    assert (ch' = ch) as -> by congruence.
    destruct (wk_alive k) eqn:Ea; [|destruct (Hd eq_refl) as (_ & _ & ?); congruence].
    destruct (wk_cur k) as [x|] eqn:Ecur; [eapply Hfin; eauto|].
    destruct (ch_buf ch) as [|[c j] rest] eqn:Eb; [congruence|].
    exists (LTake w). do 2 eexists. split; [unfold wstep; rewrite (u_crash _ _ _ HU), Ek, Ea, Ecur, Ew, Ech, Eb; reflexivity|]. split; [exact Logic.I|]. split; [reflexivity|].
    unfold waiting, in_flight, with_chan, with_worker. cbn [ws_chans ws_workers].
    pose proof (flat_map_set_nth ch_buf (ws_chans s) i (Chan rest (ch_closed ch)) ch Ech) as P1. apply Permutation_length in P1. rewrite !app_length, Eb in P1. cbn [length ch_buf] in P1.
    pose proof (flat_map_set_nth (fun k => match wk_cur k with Some x => [x] | None => [] end) (ws_workers s) w (Worker i (Some (c, j)) true) k Ek) as P2. apply Permutation_length in P2. rewrite !app_length, Ecur in P2. cbn [length wk_cur app] in P2.
    unfold in_flight in Efl. rewrite Efl in P2. cbn [length] in P2. cbn [fst snd length]. unfold work in *. lia.
  - destruct (flat_map_ne (fun k => match wk_cur k with Some x => [x] | None => [] end) (ws_workers s)) as (w & k & Ek & Hk).
    { unfold in_flight in Efl. rewrite Efl. discriminate. }
    destruct (wk_cur k) as [y|] eqn:Ey; [|congruence]. eapply Hfin; eauto.
Qed.
Lemma drain cf : (forall j, returns (cf_routes cf) j) -> forall n ls s tr, server_run cf ls = Some (s, tr) -> 2 * length (waiting s) + length (in_flight s) <= n ->
  exists more s' tr', Forall workers_only more /\ server_run cf (ls ++ more) = Some (s', tr ++ tr') /\ in_flight s' = [] /\ waiting s' = [] /\ all_sent tr' = [].
Proof.
  intros Hret. induction n as [|n IH]; intros ls s tr E H.
  - exists [], s, []. rewrite !app_nil_r. split; [constructor|]. split; [exact E|]. split; [destruct (in_flight s); [reflexivity|cbn in H; lia]|]. split; [destruct (waiting s); [reflexivity|cbn in H; lia]|reflexivity].
  - destruct (in_flight s ++ waiting s) as [|x r] eqn:Q.
    + apply app_eq_nil in Q as (Q1 & Q2). exists [], s, []. rewrite !app_nil_r. split; [constructor|]. auto.
    + destruct (step_down cf ls s tr E) as (l & s1 & e & W & L & S0 & D); [rewrite Q; discriminate|exact Hret|]. pose proof (server_step _ _ _ _ _ _ _ E W) as E1.
      destruct (IH _ _ _ E1 ltac:(lia)) as (more & s' & tr' & F & R & A & B & C). exists (l :: more), s', (e ++ tr'). split; [now constructor|]. rewrite <- app_assoc in R. cbn [app] in R. rewrite <- app_assoc in R. split; [exact R|]. split; [exact A|]. split; [exact B|]. unfold all_sent in *. now rewrite flat_map_app, S0, C.
Qed.

(* A connection with a worker keeps it; what it sends is queued. *)
Lemma send_steps cf c (js : list job) : cf_mode cf <> ModeDynamicBind -> forall ls s tr k w, server_run cf ls = Some (s, tr) -> nth_error (ws_conns s) c = Some k -> co_worker k = Some w ->
  exists s', server_run cf (ls ++ map (LSend c) js) = Some (s', tr ++ map (EvSend c) js).
Proof.
  intros M. induction js as [|j js IH]; intros ls s tr k w E K W; cbn [map]. { exists s. now rewrite !app_nil_r. }
  assert (X : forall d, ~ In (EvExtra d) tr). { revert E. unfold server_run. destruct (start_pool cf) as [s0|]; [|discriminate]. intros [= E] d. replace tr with (snd (wrun cf s0 ls)) by now rewrite E. now apply extra_only_dynamic. }
  destruct (C24_received cf ls s tr c k w j E K W) as (_ & R). specialize (R X). destruct (wstep cf s (LSend c j)) as [s1 e] eqn:S1. cbn [snd] in R. subst e. pose proof (server_step _ _ _ _ _ _ _ E S1) as E1.
  assert (K1 : ws_conns s1 = ws_conns s).
  { unfold wstep in S1. rewrite K, W in S1. unfold send_task in S1. repeat match type of S1 with context [match ?x with _ => _ end] => destruct x end; inversion S1; subst; reflexivity. }
  rewrite <- K1 in K. destruct (IH _ _ _ k w E1 K W) as (s' & R). exists s'. rewrite <- !app_assoc in R. exact R.
Qed.

(* When nothing is left, everything sent has been begun and ended. *)
Definition of_c (c : nat) (l : list work) : list job := flat_map (fun x => if Nat.eqb (fst x) c then [snd x] else []) l.
Lemma sent_of c tr : sent c tr = of_c c (all_sent tr).
Proof. induction tr as [|e tr IH]; [reflexivity|]. unfold sent, all_sent, of_c in *. cbn [flat_map]. rewrite flat_map_app, IH. destruct e; try reflexivity. cbn. now rewrite app_nil_r. Qed.
Definition ends (a : list act) : list job := flat_map (fun x => match x with AEnd j => [j] | ABegin _ => [] end) a.
Lemma ended_of c tr : ends (activity c tr) = of_c c (all_ended tr).
Proof.
  induction tr as [|e tr IH]; [reflexivity|]. unfold ends, activity, all_ended, of_c in *. cbn [flat_map]. rewrite !flat_map_app, IH. destruct e; try reflexivity; destruct (Nat.eqb c0 c) eqn:Q; cbn; rewrite ?Q; reflexivity.
Qed.
Lemma perm_of c a b : Permutation a b -> Permutation (of_c c a) (of_c c b).
Proof. intros P. unfold of_c. induction P; cbn [flat_map]; [constructor|now apply Permutation_app_head|rewrite !app_assoc; apply Permutation_app_tail, Permutation_app_comm|etransitivity; eassumption]. Qed.
Lemma complete js acts : one_at_a_time js acts -> length (ends acts) = length js -> ends acts = js /\ map content js = flat_map (fun x => match x with ABegin j => [content j] | AEnd _ => [] end) acts.
Proof.
  induction 1 as [js|j js|j js acts _ IH]; intros H.
  - cbn in H. destruct js; [auto|discriminate].
  - cbn in H. discriminate.
  - change (S (length (ends acts)) = S (length js)) in H. injection H as H. destruct (IH H) as (X & Y). change (ends (ABegin j :: AEnd j :: acts)) with (j :: ends acts). split; [now rewrite X|]. cbn [map flat_map app]. now rewrite Y.
Qed.
Lemma done_activity c tr : done c tr = map content (ends (activity c tr)).
Proof.
  induction tr as [|e tr IH]; [reflexivity|]. unfold done, ends, activity in *. cbn [flat_map]. rewrite flat_map_app, map_app, <- IH. destruct e; try reflexivity; destruct (Nat.eqb c0 c); reflexivity.
Qed.
Lemma all_done cf ls s tr c : cf_mode cf <> ModeDynamicBind -> pool_size cf > 0 -> server_run cf ls = Some (s, tr) -> in_flight s = [] -> waiting s = [] ->
  begun c tr = map content (sent c tr) /\ done c tr = map content (sent c tr).
Proof.
  intros M P R I0 W0. pose proof (C23_order_partial cf ls s tr M P R c) as O1. destruct (C24_accounting cf ls s tr R) as (A & _). rewrite I0, W0, !app_nil_r in A.
  assert (L : length (ends (activity c tr)) = length (sent c tr)) by (rewrite ended_of, sent_of; symmetry; apply Permutation_length, perm_of, A).
  destruct (complete _ _ O1 L) as (X & Y). rewrite begun_activity, done_activity, X. split; [symmetry; exact Y|reflexivity].
Qed.
Lemma read_all f msgs chunks : Forall msg_ok msgs -> concat chunks = concat (map (bytes_of (packer f)) msgs) ->
  map seen (fst (fst (run_reader (reader_of f) chunks))) = map Some msgs.
Proof.
  intros F E. change (concat (map (bytes_of (packer f)) msgs)) with (wire (packer f) msgs) in E. destruct f; cbn [packer reader_of] in *.
  - destruct (C01_tlv_stream_roundtrip msgs chunks F E) as (qs & r & -> & S & _). exact S.
  - destruct (C02_ltv_stream_roundtrip msgs chunks F E) as (qs & r & -> & S & _). exact S.
Qed.
Lemma arrives f cf ls s tr c k w msgs chunks rest : cf_mode cf <> ModeDynamicBind -> pool_size cf > 0 -> server_run cf ls = Some (s, tr) ->
  nth_error (ws_conns s) c = Some k -> co_worker k = Some w -> (forall j, returns (cf_routes cf) j) ->
  Forall msg_ok msgs -> concat (chunks ++ rest) = concat (map (bytes_of (packer f)) msgs) -> passed_on (reader_of f) chunks c tr ->
  exists more s' tr', Forall (workers_and c) more /\ server_run cf (ls ++ more) = Some (s', tr ++ tr') /\
    passed_on (reader_of f) (chunks ++ rest) c (tr ++ tr') /\ begun c (tr ++ tr') = map Some msgs /\ done c (tr ++ tr') = map Some msgs.
Proof.
  intros M P R K W Hret F E (r0 & A).
  assert (Wp : prefix (concat chunks) (concat (map (bytes_of (packer f)) msgs))) by (exists (concat rest); rewrite <- E; apply concat_app).
  destruct (read_prefix f msgs chunks F Wp) as (n & S0). rewrite S0 in A.
  assert (X : map Some msgs = map content (sent c tr) ++ r0 ++ map Some (skipn n msgs)) by (rewrite app_assoc, <- A, <- map_app, firstn_skipn; reflexivity).
  assert (J : exists js, map content js = r0 ++ map Some (skipn n msgs)).
  { assert (Q : Forall (fun x => x <> None) (map (@Some (Z * list byte)) msgs)) by (apply Forall_forall; intros x H; apply in_map_iff in H as (y & <- & _); discriminate).
    rewrite X in Q. apply Forall_app in Q as (_ & Q). revert Q. generalize (r0 ++ map Some (skipn n msgs)). clear. intros l. induction l as [|x l IH]; intros Q; [exists []; reflexivity|]. inversion Q as [|? ? Q1 Q2]; subst. destruct (IH Q2) as (js & IH'). destruct x as [[i d]|]; [|congruence]. exists (JMsg (new_msg_package i d) :: js). cbn [map]. now rewrite IH'. }
  destruct J as (js & J). destruct (send_steps cf c js M ls s tr k w R K W) as (s1 & R1). destruct (drain cf Hret _ _ _ _ R1 (le_n _)) as (more & s' & tr' & F' & R2 & I0 & W0 & S').
  exists (map (LSend c) js ++ more), s', (map (EvSend c) js ++ tr'). rewrite <- !app_assoc in R2.
  assert (Sent : sent c (tr ++ map (EvSend c) js ++ tr') = sent c tr ++ js).
  { rewrite !sent_app. f_equal. rewrite (sent_of c tr'), S'. unfold of_c. cbn [flat_map]. rewrite app_nil_r. clear. unfold sent. induction js as [|j js IH]; [reflexivity|]. cbn [map flat_map]. rewrite Nat.eqb_refl. cbn [app]. now rewrite IH. }
  assert (Full : map content (sent c (tr ++ map (EvSend c) js ++ tr')) = map Some msgs) by (rewrite Sent, map_app, J, X; reflexivity).
  split; [apply Forall_app; split; [clear; induction js; constructor; [reflexivity|assumption]|eapply Forall_impl; [|exact F']; intros [] H; cbn in *; tauto]|]. split; [exact R2|].
  split; [exists []; rewrite app_nil_r, Full; apply read_all; assumption|]. rewrite <- Full. exact (all_done _ _ _ _ c M P R2 I0 W0).
Qed.

(* C105: changing the settings of a running server. *)
From Coq Require Import ZArith List Bool Lia.
From Verif Require Import Settings Spec_Settings Settings_proofs.
Import ListNotations.

(* The connection accepted after [before] has at every later time the settings copied then. *)
Lemma conn_like name p d before after : let s := new_server name p d in
  exists x, nth_error (sv_conns (fst (run s (before ++ Accept :: after)))) (accepted before) = Some x /\
  cn_name x = name /\ cn_start x = last_start before /\ cn_stop x = last_stop before /\ cn_pack x = last_packet p before /\ cn_dec x = last_decoder d before.
Proof.
  intros s. replace (before ++ Accept :: after) with ((before ++ [Accept]) ++ after) by now rewrite <- app_assoc.
  induction after as [|o after IH] using rev_ind.
  - rewrite app_nil_r, run_snoc. cbn [step fst with_conns sv_conns]. pose proof (run_length before s) as L. cbn in L. rewrite nth_error_app2 by (rewrite L; lia). rewrite L, Nat.sub_diag. eexists. split; [reflexivity|].
    pose proof (run_sets before s) as (H0 & H1 & H2 & H3 & H4). cbn [new_conn cn_name cn_start cn_stop cn_pack cn_dec]. rewrite H0, H1, H2, H3, H4. repeat split.
  - destruct IH as (x & E & H0 & H1 & H2 & H3 & H4). rewrite app_assoc, run_snoc. destruct (step_conn _ o _ _ E) as (y & E' & (L0 & L1 & L2 & L3 & L4) & _). exists y. split; [exact E'|].
    rewrite L0, L1, L2, L3, L4. auto.
Qed.

(* For all calls and all that happens before and after it is accepted: a connection calls the
   hooks, packs with the packer and cuts frames with the decoder that the server had when the
   connection was accepted. *)
Theorem C105_kept : forall name p d before after, let c := accepted before in
  forall e, In e (snd (run (new_server name p d) (before ++ Accept :: after))) ->
  match e with
  | Started c' h => c' = c -> h = last_start before
  | Stopped c' h => c' = c -> h = last_stop before
  | Packed c' q => c' = c -> q = last_packet p before
  | Cut c' f => c' = c -> f = last_decoder d before
  | _ => True
  end.
Proof.
  intros name p d before after c. set (s := new_server name p d). replace (before ++ Accept :: after) with ((before ++ [Accept]) ++ after) by now rewrite <- app_assoc.
  assert (NoEv : forall b e, In e (snd (run s b)) -> forall k, match e with Started c' _ | Stopped c' _ | Packed c' _ | Cut c' _ => c' = k | _ => False end -> (k < accepted b)%nat).
  { intros b. induction b as [|o b IH] using rev_ind; intros e I k K; [destruct I|]. rewrite run_app in I. pose proof (run_length b s) as L. cbn in L.
    assert (M : (accepted b <= accepted (b ++ [o]))%nat) by (unfold accepted; rewrite filter_app, app_length; lia).
    destruct (run s b) as [s1 e1]. cbn [run] in I. destruct (step s1 o) as [s2 e2] eqn:St. cbn [snd fst] in *. apply in_app_or in I. destruct I as [I|I]; [specialize (IH e I k K); lia|].
    rewrite app_nil_r in I.
    assert (B : forall c0 z, nth_error (sv_conns s1) c0 = Some z -> (c0 < accepted b)%nat) by (intros c0 z E; apply nth_lt in E; lia).
    destruct o; cbn [step] in St; unfold add_router, live, on_conn in St;
      repeat match type of St with context [match nth_error ?l ?c0 with _ => _ end] => destruct (nth_error l c0) eqn:?E | context [match cn_phase ?z with _ => _ end] => destruct (cn_phase z) | context [match cn_hb ?z with _ => _ end] => destruct (cn_hb z)
        | context [match sv_hb ?z with _ => _ end] => destruct (sv_hb z) | context [match route_of ?r ?i with _ => _ end] => destruct (route_of r i) end;
      injection St as <- <-; cbn in I; try contradiction; repeat (destruct I as [<-|I]; [|]); try contradiction; subst; specialize (B _ _ E); lia. }
  induction after as [|o after IH] using rev_ind; intros e I.
  - rewrite app_nil_r, run_app in I. destruct (run s before) as [s1 e1] eqn:R. cbn [run step] in I. rewrite !app_nil_r in I. cbn [snd] in I.
    assert (I' : In e (snd (run s before))) by (rewrite R; exact I).
    destruct e; try exact Logic.I; intros ->; exfalso; exact (Nat.lt_irrefl _ (NoEv before _ I' c eq_refl)).
  - rewrite app_assoc, run_app in I. pose proof (conn_like name p d before after) as (x & E & _ & H1 & H2 & H3 & H4). fold s c in E.
    replace (before ++ Accept :: after) with ((before ++ [Accept]) ++ after) in E by now rewrite <- app_assoc.
    destruct (run s ((before ++ [Accept]) ++ after)) as [s1 e1]. cbn [run] in I. destruct (step s1 o) as [s2 e2] eqn:St. cbn [snd fst] in *. apply in_app_or in I. destruct I as [I|I]; [exact (IH e I)|].
    rewrite app_nil_r in I. clear IH NoEv.
    destruct o; cbn [step] in St; unfold add_router, live, on_conn in St;
      repeat match type of St with context [match nth_error ?l ?c0 with _ => _ end] => destruct (nth_error l c0) eqn:?E | context [match cn_phase ?z with _ => _ end] => destruct (cn_phase z) | context [match cn_hb ?z with _ => _ end] => destruct (cn_hb z)
        | context [match sv_hb ?z with _ => _ end] => destruct (sv_hb z) | context [match route_of ?r ?i with _ => _ end] => destruct (route_of r i) end;
      injection St as <- <-; cbn in I; try contradiction; repeat (destruct I as [<-|I]; [|]); try contradiction; try exact Logic.I; intros ->; congruence.
Qed.
Print Assumptions C105_kept.
(* The connection is there, with the name of its server. *)
Theorem C105_name : forall name p d before after, exists x,
  nth_error (sv_conns (fst (run (new_server name p d) (before ++ Accept :: after)))) (accepted before) = Some x /\ cn_name x = name.
Proof. intros. destruct (conn_like name p d before after) as (x & E & H & _). eauto. Qed.
Print Assumptions C105_name.

(* The heartbeat: that of the server when the connection is started, which is a moment of its
   own after it is accepted.  Partial: only while no message is given a handler twice. *)
Lemma conn_fresh name p d before between : let s := new_server name p d in ~ In (StartConn (accepted before)) between ->
  exists x, nth_error (sv_conns (fst (run s (before ++ Accept :: between)))) (accepted before) = Some x /\ cn_phase x = Fresh.
Proof.
  intros s. replace (before ++ Accept :: between) with ((before ++ [Accept]) ++ between) by now rewrite <- app_assoc.
  induction between as [|o l IH] using rev_ind; intros N.
  - rewrite app_nil_r, run_snoc. cbn [step fst with_conns sv_conns]. pose proof (run_length before s) as L. cbn in L. rewrite nth_error_app2 by (rewrite L; lia). rewrite L, Nat.sub_diag. eexists. split; reflexivity.
  - destruct IH as (x & E & P); [intros I; apply N, in_or_app; now left|]. rewrite app_assoc, run_snoc. destruct (step_conn _ o _ _ E) as (y & E' & _ & [(_ & [H|(H & _)])|(H & _)]).
    + exists y. split; [exact E'|congruence].
    + contradiction.
    + exfalso. apply N, in_or_app. right. left. exact H.
Qed.
Theorem C105_heartbeat_partial : forall name p d before between after, let c := accepted before in let upto := before ++ Accept :: between in
  once upto -> ~ In (StartConn c) between ->
  let started := fst (run (new_server name p d) (upto ++ [StartConn c])) in
  forall e, In e (snd (run started after)) ->
  match e with
  | Beats c' f => c' = c -> option_map bt_make (last_beat upto) = Some f
  | NotAlive c' f => c' = c -> option_map bt_dead (last_beat upto) = Some f
  | _ => True
  end.
Proof.
  intros name p d before between after c upto O N started. set (s := new_server name p d) in *.
  assert (X : forall l, exists x, nth_error (sv_conns (fst (run started l))) c = Some x /\ cn_hb x = last_beat upto /\ cn_phase x <> Fresh).
  { intros l. induction l as [|o' l IH] using rev_ind.
    - cbn [run fst]. unfold started. rewrite run_snoc. destruct (conn_fresh name p d before between N) as (x & E & P). fold s c upto in E. cbn [step]. unfold on_conn. rewrite E, P. cbn [fst with_conns sv_conns]. rewrite upd_same by (apply nth_lt in E; exact E).
      eexists. split; [reflexivity|]. split; [|discriminate]. cbn [cn_hb]. destruct (run_routes upto s) as (_ & H); [exact O|]. exact H.
    - destruct IH as (x & E & H & P). rewrite run_snoc. destruct (step_conn _ o' _ _ E) as (y & E' & _ & [(H' & [P'|(_ & P')])|(_ & P' & _)]); [| |contradiction]; exists y; (split; [exact E'|split; congruence]). }
  clearbody started. clear N O. induction after as [|o l IH] using rev_ind; intros e I; [destruct I|].
  rewrite run_app in I. destruct (X l) as (x & E & H & P). destruct (run started l) as [s1 e1]. cbn [run] in I. destruct (step s1 o) as [s2 e2] eqn:St. cbn [snd fst] in *. apply in_app_or in I. destruct I as [I|I]; [exact (IH e I)|].
  rewrite app_nil_r in I. clear IH X.
  destruct o; cbn [step] in St; unfold add_router, live, on_conn in St;
      repeat match type of St with context [match nth_error ?l ?c0 with _ => _ end] => destruct (nth_error l c0) eqn:?E | context [match cn_phase ?z with _ => _ end] => destruct (cn_phase z) | context [match cn_hb ?z with _ => _ end] => destruct (cn_hb z) eqn:?E
        | context [match sv_hb ?z with _ => _ end] => destruct (sv_hb z) | context [match route_of ?r ?i with _ => _ end] => destruct (route_of r i) end;
      injection St as <- <-; cbn in I; try contradiction; repeat (destruct I as [<-|I]; [|]); try contradiction; try exact Logic.I; intros ->; rewrite <- H; replace x with c1 by congruence; match goal with E : cn_hb _ = _ |- _ => rewrite E end; reflexivity.
Qed.
Print Assumptions C105_heartbeat_partial.
(* Such a connection is up until it is closed, with the heartbeat of the moment it was started. *)
Lemma conn_up name p d before between after : let c := accepted before in let upto := before ++ Accept :: between in
  ~ In (StartConn c) between -> ~ In (Close c) after -> let s := new_server name p d in
  exists x, nth_error (sv_conns (fst (run s (upto ++ StartConn c :: after)))) c = Some x /\ cn_hb x = sv_hb (fst (run s upto)) /\ cn_phase x = Up.
Proof.
  intros c upto N NC s.
  replace (upto ++ StartConn c :: after) with ((upto ++ [StartConn c]) ++ after) by now rewrite <- app_assoc. induction after as [|o' l IH] using rev_ind.
    - rewrite app_nil_r, run_snoc. destruct (conn_fresh name p d before between N) as (x & E & P). fold s c upto in E. cbn [step]. unfold on_conn. rewrite E, P. cbn [fst with_conns sv_conns]. rewrite upd_same by (apply nth_lt in E; exact E).
      eexists. split; [reflexivity|]. split; [|reflexivity]. cbn [cn_hb]. reflexivity.
    - destruct IH as (x & E & H & P); [intros I; apply NC, in_or_app; now left|]. rewrite app_assoc, run_snoc. set (s1 := fst (run s ((upto ++ [StartConn c]) ++ l))) in *.
      destruct (step_conn s1 o' _ _ E) as (y & E' & _ & K). exists y. split; [exact E'|]. destruct K as [(H' & K)|(_ & K & _)]; [|congruence]. split; [congruence|]. destruct K as [K|(_ & K)]; [congruence|].
      revert E' K. assert (NO : o' <> Close c) by (intros ->; apply NC, in_or_app; right; now left).
      destruct (cn_phase y) eqn:Py; [congruence|reflexivity|]. intros E' _. exfalso. revert E'.
      assert (Q : sv_conns (fst (step s1 o')) = sv_conns s1 \/ nth_error (sv_conns (fst (step s1 o'))) c = nth_error (sv_conns s1) c); [|destruct Q as [-> | ->]; congruence].
      clearbody s1. destruct o'; cbn [step]; unfold live, on_conn; try (left; reflexivity).
      + left. apply add_router_rest.
      + left. pose proof (add_router_rest s1 id h) as R. destruct (add_router s1 id h) as [s' [|e es]]; apply R.
      + left. destruct (sv_hb s1); reflexivity.
      + left. destruct (sv_hb s1); reflexivity.
      + right. cbn. rewrite nth_error_app1; [reflexivity|]. apply nth_lt in E. exact E.
      + right. destruct (nth_error (sv_conns s1) c0) as [z|] eqn:Ez; [|reflexivity]. destruct (cn_phase z) eqn:Pz; try reflexivity. cbn. destruct (Nat.eq_dec c0 c) as [->|D]; [congruence|]. now rewrite upd_other.
      + left. destruct (nth_error (sv_conns s1) c0) as [z|]; [destruct (cn_phase z)|]; reflexivity.
      + left. destruct (nth_error (sv_conns s1) c0) as [z|]; [destruct (cn_phase z)|]; reflexivity.
      + left. destruct (nth_error (sv_conns s1) c0) as [z|]; [destruct (cn_phase z)|]; reflexivity.
      + left. destruct (nth_error (sv_conns s1) c0) as [z|]; [destruct (cn_phase z)|]; reflexivity.
      + right. destruct (nth_error (sv_conns s1) c0) as [z|] eqn:Ez; [|reflexivity]. destruct (cn_phase z) eqn:Pz; try reflexivity. cbn. destruct (Nat.eq_dec c0 c) as [->|D]; [congruence|]. now rewrite upd_other.
Qed.
(* If the server had a heartbeat, every tick of a connection that is up sends one. *)
Theorem C105_beats : forall name p d before between after b, let c := accepted before in let upto := before ++ Accept :: between in
  once upto -> ~ In (StartConn c) between -> last_beat upto = Some b -> ~ In (Close c) after ->
  let s := fst (run (new_server name p d) (upto ++ StartConn c :: after)) in
  snd (step s (Tick c)) = [Beats c (bt_make b)] /\ snd (step s (TimeOut c)) = [NotAlive c (bt_dead b)].
Proof.
  intros name p d before between after b c upto O N B NC s. destruct (conn_up name p d before between after N NC) as (x & E & H & P). fold c upto s in E, H.
  destruct (run_routes upto (new_server name p d)) as (_ & H'); [exact O|]. rewrite H' in H. change (cn_hb x = last_beat upto) in H. rewrite B in H.
  cbn [step]. unfold live, on_conn. rewrite E, P, H. split; reflexivity.
Qed.
Print Assumptions C105_beats.
(* And it uses what it was accepted with: starting it calls the start hook, sending packs,
   receiving cuts and closing calls the stop hook, each exactly once. *)
Theorem C105_uses : forall name p d before between after id, let c := accepted before in let upto := before ++ Accept :: between in
  ~ In (StartConn c) between -> ~ In (Close c) after ->
  let s0 := fst (run (new_server name p d) upto) in let s := fst (run (new_server name p d) (upto ++ StartConn c :: after)) in
  snd (step s0 (StartConn c)) = [Started c (last_start before)] /\ snd (step s (Send c)) = [Packed c (last_packet p before)] /\
  (exists h, snd (step s (Receive c id)) = [Cut c (last_decoder d before); Handled c id h]) /\ snd (step s (Close c)) = [Stopped c (last_stop before)].
Proof.
  intros name p d before between after id c upto N NC s0 s. destruct (conn_up name p d before between after N NC) as (x & E & H & P). fold c upto s in E.
  destruct (conn_fresh name p d before between N) as (y & Ey & Py). fold c upto s0 in Ey.
  destruct (conn_like name p d before between) as (y' & Ey' & _ & Y & _). fold c upto s0 in Ey'.
  destruct (conn_like name p d before (between ++ StartConn c :: after)) as (x' & Ex' & _ & _ & X2 & X3 & X4).
  replace (before ++ Accept :: between ++ StartConn c :: after) with (upto ++ StartConn c :: after) in Ex' by (unfold upto; rewrite <- app_assoc; reflexivity). fold c s in Ex'.
  rewrite E in Ex'. injection Ex' as <-. rewrite Ey in Ey'. injection Ey' as <-.
  cbn [step]. unfold live, on_conn. rewrite E, P, Ey, Py. cbn [snd]. rewrite Y, X2, X3, X4. repeat split. eexists. reflexivity.
Qed.
Print Assumptions C105_uses.

(* Routes hold for all connections at once, also those accepted before the route was added. *)
Theorem C105_routes_partial : forall name p d os c id h, once os ->
  forall h', In (Handled c id h') (snd (step (fst (run (new_server name p d) os)) (Receive c id))) ->
  (In (id, h) (given os) -> h' = Some h) /\ (~ In id (map fst (given os)) -> h' = None).
Proof.
  intros name p d os c id h O h' I. destruct (run_routes os (new_server name p d)) as (R & _); [exact O|]. cbn in R.
  cbn [step] in I. unfold live, on_conn in I. destruct (nth_error _ c) as [x|]; [|destruct I]. destruct (cn_phase x); try destruct I. cbn in *. discriminate. destruct H as [H|[]]. injection H as <-. rewrite R.
  split; [apply route_in; exact O|apply route_none].
Qed.
Print Assumptions C105_routes_partial.

(* Asking for a second heartbeat under the same message: the call panics and connections keep
   getting the first. *)
Theorem C105_again_refuted : forall name p d id h1 h2 b1 b2, b1 <> b2 ->
  let os := [StartHeartBeat id h1 b1; StartHeartBeat id h2 b2; Accept; StartConn 0] in
  let r := run (new_server name p d) os in
  last_beat os = Some b2 /\ In Panics (snd r) /\ snd (step (fst r) (Tick 0)) = [Beats 0 (bt_make b1)].
Proof. intros. subst r os. cbn. unfold add_router, route_of. cbn. rewrite Z.eqb_refl. cbn. auto. Qed.
Print Assumptions C105_again_refuted.
(* A setting made after a connection was accepted and before it was started is too late for its
   hooks, yet in time for its heartbeat. *)
Theorem C105_moment_refuted : forall name p d h id g b,
  let os := [Accept; SetOnConnStart (Some h); StartHeartBeat id g b; StartConn 0; Tick 0] in
  snd (run (new_server name p d) os) = [Started 0 None; Beats 0 (bt_make b)].
Proof. reflexivity. Qed.
Print Assumptions C105_moment_refuted.

(* A history with two connections on either side of each setting. *)
Example C105_nonvacuous :
  let b1 := [SetOnConnStart (Some 1); SetOnConnStop (Some 2); StartHeartBeat 99999 3 (Beat 4 5); AddRouter 1 6] in
  let b2 := [SetOnConnStart (Some 11); SetPacket 12; SetDecoder None; SetOnConnStop None] in
  let b3 := [StartHeartBeat 7 13 (Beat 14 15); StartConn 1; StartConn 0; SetHeartbeatMsgFunc 16; AddRouter 2 17; Receive 0 2; Receive 1 2; Send 0; Send 1; Tick 0; Tick 1; TimeOut 1; Close 0; Close 1] in
  once (b1 ++ Accept :: b2 ++ Accept :: b3) /\ accepted (b1 ++ Accept :: b2) = 1 /\
  snd (run (new_server 0 21 22) (b1 ++ Accept :: b2 ++ Accept :: b3)) =
  [Started 1 (Some 11); Started 0 (Some 1); Cut 0 (Some 22); Handled 0 2 (Some 17); Cut 1 None; Handled 1 2 (Some 17); Packed 0 21; Packed 1 12; Beats 0 14; Beats 1 14; NotAlive 1 15; Stopped 0 (Some 2); Stopped 1 None].
Proof. cbv zeta. split; [|split; vm_compute; reflexivity]. unfold once. cbn. repeat (constructor; [cbn; intuition discriminate|]). constructor. Qed.

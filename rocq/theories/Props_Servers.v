(* C77: several servers in one process. *)
From Coq Require Import String ZArith List Bool Lia.
From Verif Require Import Bytes Conf Spec_Conf Servers Spec_Servers Servers_proofs.
Import ListNotations.
Local Open Scope list_scope.
Local Open Scope Z_scope.
Notation str := list_byte_of_string.

(* The address, ports, path, name, kind of router and number of workers: whatever happened
   before and happens after, a server made with user configuration u has those u asks for,
   keeps them, and listens nowhere else.  (The limits and modes are not its own: below.) *)
Theorem C77_identity_partial : forall g l before u after, let p := run (begin g l) before in p_down p = false ->
  let p' := run (fst (step p (New (NewUserConfServer u)))) after in let i := length (p_servers p) in let c := p_conf p in
  (exists s, nth_error (p_servers p') i = Some s /\
     v_name s = asked_s u c Name /\ v_host s = asked_s u c Host /\ v_path s = asked_s u c WsPath /\
     v_tcp s = asked_i u c TCPPort /\ v_ws s = asked_i u c WsPort /\ v_kcp s = asked_i u c KcpPort /\
     v_slices s = bools u RouterSlicesMode || bools c RouterSlicesMode /\
     v_workers s = (if str_eq (asked_s u c WorkerMode) w_bind then asked_i u c MaxConn else asked_i u c WorkerPoolSize)) /\
  forall q h n t, In (Listening i q h n t) (seen (fst (step p (New (NewUserConfServer u)))) after) ->
    h = asked_s u c Host /\ n = asked_i u c (match q with Tcp => TCPPort | Ws => WsPort | Kcp => KcpPort end).
Proof.
  intros g l before u after p D p' i c. destruct (new_identity u p D) as (s & N & A1 & A2 & A3 & A4 & A5 & A6 & A7 & A8). split.
  - destruct (run_keep after _ _ _ N) as (s' & N' & K & _). exists s'. split; [exact N'|]. unfold identity in K. injection K as E1 E2 E3 E4 E5 E6 E7 E8 E9.
    rewrite E1, E2, E3, E4, E5, E6, E8, E9. auto 10.
  - intros q h n t H. destruct (run_listens _ _ _ _ _ _ _ _ N H) as [-> ->]. split; [exact A2|]. destruct q; auto.
Qed.
Print Assumptions C77_identity_partial.

(* As long as no other server is made after it, all decisions follow what u asks for. *)
Theorem C77_alone_partial : forall g l before u after, let p := run (begin g l) before in p_down p = false -> Forall makes_none after ->
  Forall (follows (own_limits u (p_conf p))) (seen (fst (step p (New (NewUserConfServer u)))) after).
Proof. intros g l before u after p D F. rewrite <- (created u p D). now apply seen_follows. Qed.
Print Assumptions C77_alone_partial.

(* In general every decision of every server follows the settings in force, and those are, for
   each setting, the last value any user configuration gave; slice routing is in force once
   anything asked for it. *)
Theorem C77_shared : forall g l os, let p := run (begin g l) os in p_down p = false ->
  (forall o, Forall (follows (in_force p)) (snd (step p o))) /\
  in_force p = Limits (last_s Mode os (strs g Mode)) (last_s CertFile os (strs g CertFile)) (last_s PrivateKeyFile os (strs g PrivateKeyFile))
                      (last_i MaxConn os (ints g MaxConn)) (last_i MaxWorkerTaskLen os (ints g MaxWorkerTaskLen)) (last_i HeartbeatMax os (ints g HeartbeatMax)) /\
  bools (p_conf p) RouterSlicesMode = bools g RouterSlicesMode || existsb slices_on os.
Proof.
  intros g l os p D. split; [intros o; apply step_follows|]. destruct (latest os _ D) as (A & B & C). split; [|exact C].
  unfold in_force. fold p in A, B. rewrite !A, !B by discriminate. reflexivity.
Qed.
Print Assumptions C77_shared.

(* And they do act: Start opens every listener the mode in force calls for or ends the process,
   a connection is taken on or held back, each with the number really open. *)
Theorem C77_acts : forall g l os i s, let p := run (begin g l) os in p_down p = false -> nth_error (p_servers p) i = Some s ->
  (forall q, opens (l_mode (in_force p)) q -> (exists h n t, In (Listening i q h n t) (snd (step p (Start i)))) \/ In Crash (snd (step p (Start i)))) /\
  (forall pick, exists e, In e (snd (step p (Connect i pick))) /\ (e = Accepted i (zlen (v_conns s)) \/ e = Held i (zlen (v_conns s)))) /\
  (forall idle, exists b, snd (step p (Alive i idle)) = [Judged i idle b]) /\
  (forall k w id, nth_error (v_conns s) k = Some (Some w) -> snd (step p (Message i k id)) <> []).
Proof.
  intros g l os i s p D N. unfold step. rewrite D, N. split; [|split; [|split]].
  - intros q O. cbn [l_mode in_force] in O. unfold start_server, listen_tcp, listen_kcp, listen_ws.
    destruct (str_eq (strs (p_conf p) Mode) m_tcp) eqn:E1; [apply str_eq_spec in E1; rewrite E1 in O; destruct q; cbn in O; [left; repeat eexists; cbn; eauto|destruct O; congruence|discriminate]|].
    destruct (str_eq (strs (p_conf p) Mode) m_ws) eqn:E2.
    { apply str_eq_spec in E2; rewrite E2 in O; destruct q; cbn in O; [destruct O; congruence| |discriminate]. destruct (find_path (v_path s) (p_mux p)); [right; cbn; auto|left; repeat eexists; cbn; eauto]. }
    destruct (str_eq (strs (p_conf p) Mode) m_kcp) eqn:E3; [apply str_eq_spec in E3; rewrite E3 in O; destruct q; cbn in O; [destruct O; congruence|destruct O; congruence|left; repeat eexists; cbn; eauto]|].
    apply str_eq_false in E3. destruct (find_path (v_path s) (p_mux p)); [right; cbn; auto|]. left. destruct q; cbn in O; [repeat eexists; cbn; eauto|repeat eexists; cbn; eauto|congruence].
  - intros pick. unfold admit_conn. destruct (zlen (v_conns s) >=? ints (p_conf p) MaxConn); [eexists; split; [left; reflexivity|auto]|].
    destruct (use_worker _ _ pick) as [[w s2]|]; eexists; (split; [left; reflexivity|auto]).
  - intros idle. eexists. reflexivity.
  - intros k w id K. rewrite K. discriminate.
Qed.
Print Assumptions C77_acts.

(* A route that was registered: while the kind of routing in force is still the server's own,
   a message with its ID that a connection of that server reads goes to it. *)
Theorem C77_routes_partial : forall g l os i s id after, let p := run (begin g l) os in p_down p = false -> nth_error (p_servers p) i = Some s ->
  (forall h k, snd (step p (AddRouter i id h)) = [] -> let p' := run (fst (step p (AddRouter i id h))) after in
     bools (p_conf p') RouterSlicesMode = v_slices s -> snd (step p' (Message i k id)) <> [] -> snd (step p' (Message i k id)) = [Handled i id [h]]) /\
  (forall hs k, snd (step p (AddRouterSlices i id hs)) = [] -> let p' := run (fst (step p (AddRouterSlices i id hs))) after in
     bools (p_conf p') RouterSlicesMode = v_slices s -> snd (step p' (Message i k id)) <> [] -> snd (step p' (Message i k id)) = [Handled i id hs]).
Proof.
  intros g l os i s id after p D N. split; intros h k A p' R M.
  - destruct (router_added p i s id h D N A) as (s1 & N1 & F & S). destruct (run_keep after _ _ _ N1) as (s2 & N2 & _ & _ & _ & _ & K & _).
    destruct (message_seen _ _ _ _ M) as (s3 & w & _ & N3 & _ & E). rewrite E. fold p' in N2. replace s3 with s2 by congruence. unfold dispatch. rewrite R, S, (K _ _ F). reflexivity.
  - destruct (slices_added p i s id h D N A) as (s1 & N1 & F & S). destruct (run_keep after _ _ _ N1) as (s2 & N2 & _ & _ & _ & _ & _ & K & _).
    destruct (message_seen _ _ _ _ M) as (s3 & w & _ & N3 & _ & E). rewrite E. fold p' in N2. replace s3 with s2 by congruence. unfold dispatch. rewrite R, S, (K _ _ F). reflexivity.
Qed.
Print Assumptions C77_routes_partial.

(* For a slice-routing server it always is. *)
Theorem C77_slices_kept : forall g l os i s, let p := run (begin g l) os in nth_error (p_servers p) i = Some s -> v_slices s = true -> bools (p_conf p) RouterSlicesMode = true.
Proof. intros g l os i s p. apply (slices_agree_run os (begin g l)). intros [|j] t H; discriminate H. Qed.
Print Assumptions C77_slices_kept.

(* Servers with paths of their own, each started once, do not bring the process down. *)
Theorem C77_no_crash : forall g l os, NoDup (starts os) ->
  (forall i j si sj, In i (starts os) -> In j (starts os) -> nth_error (p_servers (run (begin g l) os)) i = Some si -> nth_error (p_servers (run (begin g l) os)) j = Some sj ->
     v_path si = v_path sj -> i = j) ->
  ~ In Crash (seen (begin g l) os).
Proof.
  intros g l os ND P C. apply crash_down in C. rewrite (stays_up os (begin g l) []) in C; [discriminate|reflexivity|apply mux_ok_begin|exact ND|exact P].
Qed.
Print Assumptions C77_no_crash.

(* C77 is false of the limits: two servers with a limit each, the first one held to the
   second one's. *)
Definition conf_a : config := put_i (put_i nothing_set TCPPort 7001) MaxConn 100.
Definition conf_b : config := put_i (put_i nothing_set TCPPort 7002) MaxConn 1.
Definition base : config :=
  Config (fun f => match f with Host => str "0.0.0.0" | WsPath => str "/" | Name => str "ZinxServerApp" | Mode => str "tcp" | _ => [] end)
    (fun f => match f with TCPPort => 8999 | WsPort => 9000 | KcpPort => 9001 | MaxConn => 12000 | WorkerPoolSize => 10 | MaxWorkerTaskLen => 1024 | HeartbeatMax => 10 | _ => 0 end)
    (fun _ => false).
Definition nolog := Logger 0 None.
Theorem C77_limits_refuted : exists a b os, ints a MaxConn = 100 /\ os = [New (NewUserConfServer a); New (NewUserConfServer b); Start 0; Connect 0 0; Connect 0 0] /\
  In (Held 0 1) (seen (begin base nolog) os) /\ ~ follows (own_limits a base) (Held 0 1).
Proof. exists conf_a, conf_b. eexists. split; [reflexivity|]. split; [reflexivity|]. split; [vm_compute; tauto|]. vm_compute. auto. Qed.
Print Assumptions C77_limits_refuted.

(* C77 is false of routing: once anything in the process asked for slice routing, no message
   of any server of the other kind is handled, whatever was registered. *)
Theorem C77_routes_refuted : forall g l os i s after, let p := run (begin g l) os in nth_error (p_servers p) i = Some s -> v_slices s = false ->
  bools (p_conf p) RouterSlicesMode = true -> forall id hs, ~ In (Handled i id hs) (seen p after).
Proof.
  intros g l os i s after p N S R id hs. assert (O : own_routes p) by (apply own_run, own_begin). revert N S R O. generalize p. clear p. intros p. revert p s.
  induction after as [|o after IH]; intros p s N S R O H; [contradiction|]. cbn in H. apply in_app_or in H. destruct H as [H|H].
  - assert (G : exists k, o = Message i k id /\ snd (step p o) = [dispatch (p_conf p) i s id]).
    { destruct (p_down p) eqn:D; [rewrite (down_step _ _ D) in H; contradiction|].
      unfold step in H |- *. rewrite D in *. destruct o as [c| |a id0 h|a id0 hs0|a|a pick|j0 path pick|a k id0|a k|a idle].
      - destruct (construct c _ _) as [[[s0 g0] l0]|]; destruct H as [H|[]]; discriminate.
      - contradiction.
      - destruct (nth_error (p_servers p) a) as [t|]; [|contradiction]. destruct (v_slices t); [destruct H as [H|[]]; discriminate|]. destruct (find_id id0 (v_apis t)); [destruct H as [H|[]]; discriminate|contradiction].
      - destruct (nth_error (p_servers p) a) as [t|]; [|contradiction]. destruct (v_slices t); [|destruct H as [H|[]]; discriminate]. destruct (find_id id0 (v_hands t)); [destruct H as [H|[]]; discriminate|contradiction].
      - destruct (nth_error (p_servers p) a) as [t|]; [|contradiction]. exfalso. revert H. unfold start_server, listen_tcp, listen_kcp, listen_ws.
        destruct (str_eq (strs (p_conf p) Mode) m_tcp), (str_eq (strs (p_conf p) Mode) m_ws), (str_eq (strs (p_conf p) Mode) m_kcp); destruct (find_path (v_path t) (p_mux p)); cbn; intros H;
        repeat match goal with H : _ \/ _ |- _ => destruct H end; try contradiction; discriminate.
      - destruct (nth_error (p_servers p) a) as [t|]; [|contradiction]. exfalso. revert H. unfold admit_conn. destruct (zlen _ >=? _); [cbn; intros [X|[]]; discriminate|].
        destruct (use_worker _ _ pick) as [[w0 s2]|]; cbn; intros [X|[X|[]]]; discriminate.
      - destruct (find_path path (p_mux p)) as [a|]; [|contradiction]. destruct (nth_error (p_servers p) a) as [t|]; [|contradiction]. exfalso. revert H. unfold admit_conn. destruct (zlen _ >=? _); [cbn; intros [X|[X|[]]]; discriminate|].
        destruct (use_worker _ _ pick) as [[w0 s2]|]; cbn; intros [X|[X|[X|[]]]]; discriminate.
      - destruct (nth_error (p_servers p) a) as [t|] eqn:Na; [|contradiction]. destruct (nth_error (v_conns t) k) as [[w0|]|] eqn:Ck; try contradiction. destruct H as [H|[]].
        assert (a = i /\ id0 = id) as [-> ->]. { unfold dispatch in H. destruct (bools (p_conf p) RouterSlicesMode), (find_id id0 (v_hands t)), (find_id id0 (v_apis t)); try discriminate H; injection H as -> -> _; auto. }
        exists k. split; [reflexivity|]. replace t with s by congruence. reflexivity.
      - destruct (nth_error (p_servers p) a) as [t|]; [|contradiction]. destruct (nth_error (v_conns t) k) as [[w0|]|]; contradiction.
      - destruct (nth_error (p_servers p) a) as [t|]; [|contradiction]. destruct H as [H|[]]; discriminate. }
    destruct G as (k & _ & E). rewrite E in H. destruct H as [H|[]]. unfold dispatch in H. destruct (O i s N) as [Oh _]. rewrite R, (Oh S) in H. discriminate.
  - destruct (step_keep p o i s N) as (s1 & N1 & K & _). unfold identity in K.
    refine (IH (fst (step p o)) s1 N1 _ _ _ H); [congruence| |now apply own_step].
    destruct (p_down p) eqn:D; [now rewrite (down_step _ _ D)|]. destruct (step_conf p o D) as (_ & _ & C). rewrite C, R. apply orb_true_r.
Qed.
Print Assumptions C77_routes_refuted.

(* Two servers in websocket mode with one path (the default is "/"), or one server started
   twice: the process goes down. *)
Theorem C77_crash_refuted : forall g l os1 os2 i si h n t j sj, let p := run (begin g l) os1 in let p' := run p os2 in
  nth_error (p_servers p) i = Some si -> In (Listening i Ws h n t) (seen p os2) ->
  p_down p' = false -> nth_error (p_servers p') j = Some sj -> v_path sj = v_path si -> opens (strs (p_conf p') Mode) Ws ->
  In Crash (snd (step p' (Start j))).
Proof.
  intros g l os1 os2 i si h n t j sj p p' N H D Nj E O. pose proof (listened os2 p i h n t si N H) as F. fold p' in F. rewrite <- E in F.
  unfold step. rewrite D, Nj. unfold start_server, listen_tcp, listen_ws. destruct O as [O1 O2]. apply str_eq_false in O1, O2. rewrite O1, O2.
  destruct (find_path (v_path sj) (p_mux p')); [|congruence]. destruct (str_eq _ m_ws); cbn; auto.
Qed.
Print Assumptions C77_crash_refuted.

(* A websocket request is served by the server whose path it names, whichever server's port it
   came to; so not always by the one listening there. *)
Theorem C77_path_decides : forall g l os j i w, In (WsRequest j i w) (seen (begin g l) os) -> exists s, nth_error (p_servers (run (begin g l) os)) i = Some s /\ v_path s = w.
Proof. intros g l os j i w H. eapply ws_served_run; [apply mux_ok_begin|exact H]. Qed.
Print Assumptions C77_path_decides.
Definition web (path : string) : config := put_s (put_s nothing_set Mode m_ws) WsPath (str path).
Theorem C77_port_refuted : exists os, os = [New (NewUserConfServer (web "/a")); New (NewUserConfServer (web "/b")); Start 0; Start 1; WsConnect 0 (str "/b") 0] /\
  In (WsRequest 0 1 (str "/b")) (seen (begin base nolog) os) /\ In (Accepted 1 0) (seen (begin base nolog) os).
Proof. eexists. split; [reflexivity|]. split; vm_compute; tauto. Qed.
Print Assumptions C77_port_refuted.

(* A server made in Hash mode, another configuration asking for DynamicBind: when a connection
   of the first server closes, no later connection of it is ever served. *)
Theorem C77_hang_refuted : forall g l os1 c i os2 k w s os3,
  let p1 := run (begin g l) os1 in p_down p1 = false -> snd (step p1 (New c)) = [Created i] ->
  let p2 := fst (step p1 (New c)) in strs (p_conf p2) WorkerMode <> w_bind -> strs (p_conf p2) WorkerMode <> w_dynamic -> ints (p_conf p2) WorkerPoolSize > 0 ->
  let p3 := run p2 os2 in p_down p3 = false -> strs (p_conf p3) WorkerMode = w_dynamic ->
  nth_error (p_servers p3) i = Some s -> nth_error (v_conns s) k = Some (Some w) -> Forall makes_none os3 ->
  forall w', ~ In (Serving i w') (seen (fst (step p3 (Close i k))) os3).
Proof.
  intros g l os1 c i os2 k w s os3 p1 D1 C p2 B Y W p3 D3 Y3 N K F w'.
  destruct (new_hashed c p1 i D1 C B Y W) as (s0 & N0 & H0). destruct (hashed_run os2 p2 i s0 H0 N0) as (s1 & N1 & H1). fold p3 in N1. replace s1 with s in * by congruence.
  apply str_eq_spec in Y3. destruct (closed_stuck p3 i s k w D3 Y3 N H1 K) as (s2 & N2 & T). eapply stuck_run; eauto. now apply dynamic_steady.
Qed.
Print Assumptions C77_hang_refuted.

(* Two servers at work with routes of their own kind; then the cases of the refutations. *)
Definition one : list op := [New (NewUserConfServer conf_a); AddRouter 0 7 70; Start 0; Connect 0 0; Message 0 0 7; Message 0 0 8; Alive 0 11].
Example C77_case : seen (begin base nolog) one =
  [Created 0; Pool 0 10 1024; Listening 0 Tcp (str "0.0.0.0") 7001 false; Accepted 0 0; Serving 0 1; Handled 0 7 [70%nat]; NoHandler 0 8; Judged 0 11 false].
Proof. vm_compute. reflexivity. Qed.
Example C77_case_routes : (* the same route, after a slice-routing server was made beside it *)
  let p := run (begin base nolog) (firstn 4 one ++ [New NewDefaultRouterSlicesServer]) in
  p_down p = false /\ seen p [Message 0 0 7; AddRouterSlices 1 7 [71%nat]; Connect 1 0; Message 1 0 7] = [NoHandler 0 7; Accepted 1 0; Serving 1 1; Handled 1 7 [71%nat]].
Proof. vm_compute. auto. Qed.
Example C77_case_crash : seen (begin base nolog) [New (NewUserConfServer (web "/")); New (NewUserConfServer (put_i (web "/") WsPort 9100)); Start 0; Start 1] =
  [Created 0; Created 1; Pool 0 10 1024; Listening 0 Ws (str "0.0.0.0") 9000 false; Pool 1 10 1024; Crash].
Proof. vm_compute. reflexivity. Qed.
Example C77_case_hang :
  seen (begin base nolog) [New NewServer; Start 0; Connect 0 0; New (NewUserConfServer (put_s nothing_set WorkerMode w_dynamic)); Connect 0 0; Close 0 0; Connect 0 0; Message 0 1 7] =
  [Created 0; Pool 0 10 1024; Listening 0 Tcp (str "0.0.0.0") 8999 false; Accepted 0 0; Serving 0 1; Created 1; Accepted 0 1; Serving 0 2; Accepted 0 1; Hung 0].
Proof. vm_compute. reflexivity. Qed.

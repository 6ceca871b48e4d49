From Coq Require Import ZArith List Bool Lia.
From Verif Require Import Settings Spec_Settings.
Import ListNotations.

Lemma run_app a b s : run s (a ++ b) = let '(s1, e1) := run s a in let '(s2, e2) := run s1 b in (s2, e1 ++ e2).
Proof.
  revert s. induction a as [|o a IH]; intros s; cbn [run app].
  - destruct (run s b). reflexivity.
  - destruct (step s o) as [s1 e1]. rewrite IH. destruct (run s1 a) as [s2 e2]. destruct (run s2 b) as [s3 e3]. now rewrite app_assoc.
Qed.
Lemma run_snoc a o s : fst (run s (a ++ [o])) = fst (step (fst (run s a)) o).
Proof. rewrite run_app. destruct (run s a) as [s1 e1]. cbn. destruct (step s1 o). reflexivity. Qed.
Lemma run_fst_app a b s : fst (run s (a ++ b)) = fst (run (fst (run s a)) b).
Proof. rewrite run_app. destruct (run s a) as [s1 e1]. cbn. destruct (run s1 b). reflexivity. Qed.

Lemma upd_length c x l : length (upd c x l) = length l.
Proof. revert c; induction l; intros [|c]; cbn; auto. Qed.
Lemma upd_same c x l : (c < length l)%nat -> nth_error (upd c x l) c = Some x.
Proof. revert c; induction l; intros [|c] H; cbn in *; try lia; [reflexivity|apply IHl; lia]. Qed.
Lemma upd_other c c' x l : c <> c' -> nth_error (upd c x l) c' = nth_error l c'.
Proof. revert c c'; induction l; intros [|c] [|c'] H; cbn; auto; try congruence. Qed.
Lemma nth_lt {A} (l : list A) c x : nth_error l c = Some x -> (c < length l)%nat.
Proof. intros H. apply nth_error_Some. congruence. Qed.

(* What every step leaves alone. *)
Lemma add_router_rest s id h : let s' := fst (add_router s id h) in
  sv_conns s' = sv_conns s /\ sv_start s' = sv_start s /\ sv_stop s' = sv_stop s /\ sv_pack s' = sv_pack s /\ sv_dec s' = sv_dec s /\ sv_hb s' = sv_hb s /\ sv_name s' = sv_name s.
Proof. unfold add_router. destruct (route_of _ _); cbn; auto 10. Qed.

Definition like (x y : conn) : Prop := cn_name x = cn_name y /\ cn_start x = cn_start y /\ cn_stop x = cn_stop y /\ cn_pack x = cn_pack y /\ cn_dec x = cn_dec y.
Lemma step_conn s o c x : nth_error (sv_conns s) c = Some x ->
  exists y, nth_error (sv_conns (fst (step s o))) c = Some y /\ like y x /\
    (cn_hb y = cn_hb x /\ (cn_phase y = cn_phase x \/ cn_phase x <> Fresh /\ cn_phase y <> Fresh) \/ o = StartConn c /\ cn_phase x = Fresh /\ cn_phase y = Up /\ cn_hb y = sv_hb s).
Proof.
  intros H. pose proof (nth_lt _ _ _ H) as L.
  assert (S : forall s', sv_conns s' = sv_conns s -> exists y, nth_error (sv_conns s') c = Some y /\ like y x /\
    (cn_hb y = cn_hb x /\ (cn_phase y = cn_phase x \/ cn_phase x <> Fresh /\ cn_phase y <> Fresh) \/ o = StartConn c /\ cn_phase x = Fresh /\ cn_phase y = Up /\ cn_hb y = sv_hb s))
    by (intros s' ->; exists x; split; [exact H|]; split; [repeat split|left; auto]).
  destruct o; cbn [step]; try (apply S; reflexivity).
  - apply S, add_router_rest.
  - pose proof (add_router_rest s id h) as R. destruct (add_router s id h) as [s' [|e es]]; apply S; apply R.
  - destruct (sv_hb s); apply S; reflexivity.
  - destruct (sv_hb s); apply S; reflexivity.
  - exists x. split; [cbn; rewrite nth_error_app1; assumption|]. split; [repeat split|left; auto].
  - unfold on_conn. destruct (nth_error (sv_conns s) c0) as [z|] eqn:E; [|apply S; reflexivity].
    destruct (cn_phase z) eqn:P; try (apply S; reflexivity). cbn [fst with_conns sv_conns].
    destruct (Nat.eq_dec c0 c) as [->|N].
    + rewrite H in E. injection E as <-. rewrite upd_same by exact L. eexists. split; [reflexivity|]. split; [repeat split|right; auto].
    + rewrite upd_other by exact N. apply (S s eq_refl).
  - unfold live, on_conn. destruct (nth_error (sv_conns s) c0) as [z|]; [destruct (cn_phase z)|]; apply S; reflexivity.
  - unfold live, on_conn. destruct (nth_error (sv_conns s) c0) as [z|]; [destruct (cn_phase z)|]; apply S; reflexivity.
  - unfold live, on_conn. destruct (nth_error (sv_conns s) c0) as [z|]; [destruct (cn_phase z)|]; apply S; reflexivity.
  - unfold live, on_conn. destruct (nth_error (sv_conns s) c0) as [z|]; [destruct (cn_phase z)|]; apply S; reflexivity.
  - unfold on_conn. destruct (nth_error (sv_conns s) c0) as [z|] eqn:E; [|apply S; reflexivity].
    destruct (cn_phase z) eqn:P; try (apply S; reflexivity). cbn [fst with_conns sv_conns].
    destruct (Nat.eq_dec c0 c) as [->|N].
    + rewrite H in E. injection E as <-. rewrite upd_same by exact L. eexists. split; [reflexivity|]. split; [repeat split|left; split; [reflexivity|right; split; [congruence|discriminate]]].
    + rewrite upd_other by exact N. apply (S s eq_refl).
Qed.
Lemma step_length s o : length (sv_conns (fst (step s o))) = (length (sv_conns s) + match o with Accept => 1 | _ => 0 end)%nat.
Proof.
  destruct o; cbn [step]; try (cbn; lia).
  - rewrite (proj1 (add_router_rest s id h)). lia.
  - pose proof (proj1 (add_router_rest s id h)) as R. destruct (add_router s id h) as [s' [|e es]]; cbn in *; rewrite R; lia.
  - destruct (sv_hb s); cbn; lia.
  - destruct (sv_hb s); cbn; lia.
  - cbn. rewrite app_length. reflexivity.
  - unfold on_conn. destruct (nth_error _ _) as [z|]; [destruct (cn_phase z)|]; cbn; rewrite ?upd_length; lia.
  - unfold live, on_conn. destruct (nth_error _ _) as [z|]; [destruct (cn_phase z)|]; cbn; lia.
  - unfold live, on_conn. destruct (nth_error _ _) as [z|]; [destruct (cn_phase z)|]; cbn; lia.
  - unfold live, on_conn. destruct (nth_error _ _) as [z|]; [destruct (cn_phase z)|]; cbn; lia.
  - unfold live, on_conn. destruct (nth_error _ _) as [z|]; [destruct (cn_phase z)|]; cbn; lia.
  - unfold on_conn. destruct (nth_error _ _) as [z|]; [destruct (cn_phase z)|]; cbn; rewrite ?upd_length; lia.
Qed.
Lemma run_length os s : length (sv_conns (fst (run s os))) = (length (sv_conns s) + accepted os)%nat.
Proof.
  revert s. induction os as [|o os IH]; intros s; cbn [run]; [cbn; lia|].
  pose proof (step_length s o) as L. destruct (step s o) as [s1 e1]. specialize (IH s1). destruct (run s1 os) as [s2 e2]. cbn [fst] in *. rewrite IH, L.
  unfold accepted. cbn [filter]. destruct o; cbn [length]; lia.
Qed.

(* The server's own settings. *)
Lemma run_sets os s : let s' := fst (run s os) in
  sv_name s' = sv_name s /\
  sv_start s' = fold_left (fun v o => match o with SetOnConnStart h => h | _ => v end) os (sv_start s) /\
  sv_stop s' = fold_left (fun v o => match o with SetOnConnStop h => h | _ => v end) os (sv_stop s) /\
  sv_pack s' = fold_left (fun v o => match o with SetPacket q => q | _ => v end) os (sv_pack s) /\
  sv_dec s' = fold_left (fun v o => match o with SetDecoder e => e | _ => v end) os (sv_dec s).
Proof.
  revert s. induction os as [|o os IH]; intros s; cbn [run]; [cbn; auto|].
  assert (K : let s1 := fst (step s o) in sv_name s1 = sv_name s /\ sv_start s1 = match o with SetOnConnStart h => h | _ => sv_start s end /\ sv_stop s1 = match o with SetOnConnStop h => h | _ => sv_stop s end /\
    sv_pack s1 = match o with SetPacket q => q | _ => sv_pack s end /\ sv_dec s1 = match o with SetDecoder e => e | _ => sv_dec s end).
  { destruct o; cbn [step]; try (cbn; auto; fail).
    - pose proof (add_router_rest s id h) as R. cbn in R. tauto.
    - pose proof (add_router_rest s id h) as R. destruct (add_router s id h) as [s' [|e es]]; cbn in *; tauto.
    - destruct (sv_hb s); cbn; auto.
    - destruct (sv_hb s); cbn; auto.
    - unfold on_conn. destruct (nth_error _ _) as [z|]; [destruct (cn_phase z)|]; cbn; auto.
    - unfold live, on_conn. destruct (nth_error _ _) as [z|]; [destruct (cn_phase z)|]; cbn; auto.
    - unfold live, on_conn. destruct (nth_error _ _) as [z|]; [destruct (cn_phase z)|]; cbn; auto.
    - unfold live, on_conn. destruct (nth_error _ _) as [z|]; [destruct (cn_phase z)|]; cbn; auto.
    - unfold live, on_conn. destruct (nth_error _ _) as [z|]; [destruct (cn_phase z)|]; cbn; auto.
    - unfold on_conn. destruct (nth_error _ _) as [z|]; [destruct (cn_phase z)|]; cbn; auto. }
  destruct (step s o) as [s1 e1]. specialize (IH s1). destruct (run s1 os) as [s2 e2]. cbn [fst fold_left] in *.
  destruct K as (K0 & K1 & K2 & K3 & K4). destruct IH as (I0 & I1 & I2 & I3 & I4). rewrite I0, I1, I2, I3, I4, K0, K1, K2, K3, K4. auto.
Qed.

(* The routes and the heartbeat while no message is given a handler twice. *)
Lemma route_none rs id : ~ In id (map fst rs) -> route_of rs id = None.
Proof. induction rs as [|[i h] rs IH]; intros N; [reflexivity|]. unfold route_of in *. cbn. destruct (Z.eqb_spec i id) as [->|D]; [exfalso; apply N; now left|]. apply IH. intros I. apply N. now right. Qed.
Lemma route_in rs id h : NoDup (map fst rs) -> In (id, h) rs -> route_of rs id = Some h.
Proof.
  induction rs as [|[i g] rs IH]; intros N I; [destruct I|]. inversion N as [|? ? N1 N2]; subst. unfold route_of in *. cbn. destruct I as [I|I].
  - injection I as -> ->. now rewrite Z.eqb_refl.
  - destruct (Z.eqb_spec i id) as [->|D]; [exfalso; apply N1; exact (in_map fst _ _ I)|]. now apply IH.
Qed.
Lemma run_routes os : forall s, NoDup (map fst (sv_routes s ++ given os)) ->
  let s' := fst (run s os) in sv_routes s' = sv_routes s ++ given os /\
  sv_hb s' = fold_left (fun v o => match o, v with
    | StartHeartBeat _ _ b, _ => Some b
    | SetHeartbeatMsgFunc f, Some b => Some (Beat f (bt_dead b))
    | SetOnRemoteNotAlive f, Some b => Some (Beat (bt_make b) f)
    | _, _ => v end) os (sv_hb s).
Proof.
  induction os as [|o os IH]; intros s N; cbn [run]; [cbn; rewrite app_nil_r; auto|].
  assert (A : forall id h, given (o :: os) = (id, h) :: given os -> add_router s id h = (with_routes s (sv_routes s ++ [(id, h)]), [])).
  { intros id h G. rewrite G, map_app in N. cbn in N. apply NoDup_remove in N. destruct N as (_ & N). unfold add_router. rewrite route_none; [reflexivity|]. intros I. apply N, in_or_app. now left. }
  assert (K : let s1 := fst (step s o) in sv_routes s1 = sv_routes s ++ given [o] /\ sv_hb s1 = match o, sv_hb s with
    | StartHeartBeat _ _ b, _ => Some b
    | SetHeartbeatMsgFunc f, Some b => Some (Beat f (bt_dead b))
    | SetOnRemoteNotAlive f, Some b => Some (Beat (bt_make b) f)
    | _, v => v end).
  { destruct o; cbn [step given flat_map app]; rewrite ?app_nil_r; try (cbn; destruct (sv_hb s); auto; fail).
    - rewrite (A id h eq_refl). cbn. destruct (sv_hb s); auto.
    - rewrite (A id h eq_refl). cbn. auto.
    - destruct (sv_hb s) eqn:E; cbn; rewrite ?E; auto.
    - destruct (sv_hb s) eqn:E; cbn; rewrite ?E; auto.
    - unfold on_conn. destruct (nth_error _ _) as [z|]; [destruct (cn_phase z)|]; cbn; destruct (sv_hb s); auto.
    - unfold live, on_conn. destruct (nth_error _ _) as [z|]; [destruct (cn_phase z)|]; cbn; destruct (sv_hb s); auto.
    - unfold live, on_conn. destruct (nth_error _ _) as [z|]; [destruct (cn_phase z)|]; cbn; destruct (sv_hb s); auto.
    - unfold live, on_conn. destruct (nth_error _ _) as [z|]; [destruct (cn_phase z)|]; cbn; destruct (sv_hb s); auto.
    - unfold live, on_conn. destruct (nth_error _ _) as [z|]; [destruct (cn_phase z)|]; cbn; destruct (sv_hb s); auto.
    - unfold on_conn. destruct (nth_error _ _) as [z|]; [destruct (cn_phase z)|]; cbn; destruct (sv_hb s); auto. }
  assert (G : given (o :: os) = given [o] ++ given os) by (unfold given; cbn; now rewrite app_nil_r).
  destruct (step s o) as [s1 e1]. specialize (IH s1). destruct (run s1 os) as [s2 e2]. cbn [fst] in *. destruct K as (K1 & K2).
  rewrite K1, K2 in IH. rewrite <- app_assoc, <- G in IH. destruct (IH N) as (I1 & I2). split; [exact I1|]. rewrite I2. cbn [fold_left]. f_equal. destruct o, (sv_hb s); reflexivity.
Qed.

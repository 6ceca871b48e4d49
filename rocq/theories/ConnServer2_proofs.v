(* Proofs about ConnServer.v: stopping the server; the manager's contents. *)
From Coq Require Import ZArith List Bool Arith Lia Permutation.
From Coq Require Import ZifyBool ZifyNat.
From Verif Require Import Bytes GoSlice ShardMap ShardMap_proofs Decimal ConnManager Spec_ConnManager ConnManager_proofs
  ConnLife Spec_ConnLife ConnLife_proofs ConnServer Spec_ConnServer ConnServer_proofs.
Import ListNotations.

Lemma main_ctx c s : lf_ctx s = true -> lf_ctx (fst (main_step c s)) = true.
Proof. intros H. unfold main_step. destruct (lf_todo s) as [|i t]; [exact H|]. destruct i; unfold hook_panic; lcase; cbn; auto; congruence. Qed.
Lemma life_ctx c s l : lf_ctx s = true -> lf_ctx (fst (life_step c s l)) = true.
Proof.
  intros H. unfold life_step. destruct (lf_dead s); [exact H|].
  destruct l; [now apply main_ctx|..]; unfold stop_call; lcase; cbn; auto; congruence.
Qed.
Definition started (s : srv) (i : nat) : Prop := exists n, nth_error (sv_conns s) i = Some n /\ lf_ctx (sn_life n) = true.
Lemma conn_step_started c s i l j : started s j -> started (fst (conn_step c s i l)) j.
Proof.
  intros (n & E & H). unfold conn_step. destruct (nth_error (sv_conns s) i) as [m|] eqn:Em; [|now exists n].
  pose proof (life_ctx (lcfg_of c (sn_kind m)) (sn_life m) l) as Hl. destruct (life_step _ _ _) as [lf es]. cbn [fst sv_conns].
  unfold started. cbn [sv_conns]. destruct (set_nth_split i m _ Em) as (a & b & E1 & La & Hs). rewrite Hs.
  destruct (Nat.eq_dec j i) as [->|Hne].
  - rewrite nth_error_mid by exact La. eexists. split; [reflexivity|]. cbn. apply Hl. congruence.
  - exists n. split; [|exact H]. rewrite E1 in E. destruct (Nat.lt_ge_cases j (length a)).
    + rewrite nth_error_app1 in * by lia. exact E.
    + rewrite nth_error_app2 in * by lia. destruct (j - length a) eqn:Ej; [lia|]. exact E.
Qed.
Lemma conn_step_length c s i l : length (sv_conns (fst (conn_step c s i l))) = length (sv_conns s).
Proof.
  unfold conn_step. destruct (nth_error _ _); [|reflexivity]. destruct (life_step _ _ _). cbn. apply set_nth_len.
Qed.
Lemma in_concat_set {A} i (x : list A) l y : In y (concat (set_nth i x l)) -> In y x \/ In y (concat l).
Proof.
  revert i. induction l as [|z l IH]; intros [|i]; cbn; auto; rewrite !in_app_iff; [tauto|]. intros [H|H]; [tauto|].
  destruct (IH i H); tauto.
Qed.
Lemma in_nth_concat {A} i (l : list (list A)) y : In y (nth i l []) -> In y (concat l).
Proof. revert i. induction l as [|z l IH]; intros [|i]; cbn; try contradiction; rewrite in_app_iff; [tauto|]. intros H. right. eauto. Qed.
Lemma gm_del_sub {V} k (g : gomap V) e : In e (gm_del k g) -> In e g.
Proof. unfold gm_del. rewrite filter_In. tauto. Qed.
Lemma add_entries m cn e : In e (sm_entries (cm_add m cn)) -> snd e = cn \/ In e (sm_entries m).
Proof.
  unfold cm_add, sm_set, put_shard, sm_entries; cbn [sm_shards]. intros H. apply in_concat_set in H as [[<-|H]|H]; [now left| |now right].
  apply gm_del_sub in H. right. unfold get_shard in H. eapply in_nth_concat, H.
Qed.
Lemma remove_entries m cn e : In e (sm_entries (cm_remove m cn)) -> In e (sm_entries m).
Proof.
  unfold cm_remove, sm_remove, put_shard, sm_entries; cbn [sm_shards]. intros H. apply in_concat_set in H as [H|H]; [|exact H].
  apply gm_del_sub in H. unfold get_shard in H. eapply in_nth_concat, H.
Qed.
Lemma removes_entries cn es e : forall m, In e (sm_entries (fold_left (fun m e => match e with EvRemove => cm_remove m cn | _ => m end) es m)) ->
  In e (sm_entries m).
Proof. induction es as [|x es IH]; intros m; cbn [fold_left]; [auto|]. intros H. apply IH in H. destruct x; auto. now apply remove_entries in H. Qed.
Lemma conn_step_entries c s i l e : In e (sm_entries (sv_mgr (fst (conn_step c s i l)))) -> In e (sm_entries (sv_mgr s)).
Proof.
  unfold conn_step. destruct (nth_error _ _); [|auto]. destruct (life_step _ _ _). cbn. apply removes_entries.
Qed.

Definition live_stop (p : spc) : nat := match p with PClear _ true | PSend | PClose => 1 | _ => 0 end.
Definition pending (p : spc) : list nat := match p with PClear t _ => t | _ => [] end.
Record swf (s : srv) (future : nat) : Prop := {
  sw_entries : forall e, In e (sm_entries (sv_mgr s)) -> cn_obj (snd e) < length (sv_conns s);
  sw_pending : forall p i, In p (sv_stops s) -> In i (pending p) -> started s i;
  sw_one : list_sum (map live_stop (sv_stops s)) + (if sv_exit_closed s then 1 else 0) + future <= 1
}.
Lemma snapshot_started s : all_started s = true -> (forall e, In e (sm_entries (sv_mgr s)) -> cn_obj (snd e) < length (sv_conns s)) ->
  forall i, In i (snapshot s) -> started s i.
Proof.
  intros Ha He i Hi. unfold snapshot in Hi. apply in_map_iff in Hi as (e & <- & Hin). specialize (He e Hin).
  destruct (nth_error (sv_conns s) (cn_obj (snd e))) as [n|] eqn:E; [|apply nth_error_None in E; lia].
  exists n. split; [exact E|]. unfold all_started in Ha. rewrite forallb_forall in Ha. apply Ha. eapply nth_error_In, E.
Qed.
Lemma accept_swf c k again s p ok fut : swf s fut ->
  let '(s1, p1, e) := accept_step c k again s p ok in swf s1 fut /\ (forall x, In x e -> ~ stop_panic x).
Proof.
  intros H. unfold accept_step.
  assert (K : swf s fut /\ (forall x, In x ([] : list sev) -> ~ stop_panic x)) by (split; [exact H|intros ? []]).
  destruct p; [destruct (_ <=? _)|destruct k; [destruct (sv_lclosed s), ok|destruct ok|destruct (sv_lclosed s), ok]|..]; try exact K.
  - destruct H. split; [split; auto|intros ? []].
  - destruct H as [H1 H2 H3]. split; [split; cbn [with_acc sv_mgr sv_conns sv_stops sv_exit_closed]; auto|].
    + intros e He. rewrite app_length. cbn [length]. apply add_entries in He as [->|He]; cbn [cn_obj]; [lia|]. specialize (H1 e He). lia.
    + intros q i Hq Hi. destruct (H2 q i Hq Hi) as (n & E & Hc). exists n. split; [|exact Hc]. cbn [with_acc sv_conns]. rewrite nth_error_app1; [exact E|].
      apply nth_error_Some. congruence.
    + intros x [<-|[]] [(i & Q)|Q]; discriminate.
Qed.
Lemma drop_nth_in {A} k (l : list A) x : In x (drop_nth k l) -> In x l.
Proof. revert k. induction l as [|y l IH]; intros [|k]; cbn; auto. intros [->|H]; eauto. Qed.
Lemma conn_stop_step c s i n : nth_error (sv_conns s) i = Some n -> lf_ctx (sn_life n) = true ->
  sv_stops (fst (conn_step c s i LStop)) = sv_stops s /\ sv_exit_closed (fst (conn_step c s i LStop)) = sv_exit_closed s.
Proof. intros E H. unfold conn_step. rewrite E. destruct (life_step _ _ _). cbn. auto. Qed.
Lemma swf_put s g p q fut w l : nth_error (sv_stops s) g = Some p ->
  (forall i, In i (pending q) -> In i (pending p)) -> live_stop q <= live_stop p -> swf s fut ->
  swf (with_stops s (set_nth g q (sv_stops s)) w l (sv_exit_closed s)) fut.
Proof.
  intros E Hp Hl [H1 H2 H3]. destruct (set_nth_split g p _ E) as (a & b & E1 & _ & Hs). split; cbn.
  - exact H1.
  - rewrite Hs. intros r i Hr Hi. apply in_app_iff in Hr. assert (started s i); [|assumption].
    destruct Hr as [Hr|[<-|Hr]].
    + apply (H2 r); [rewrite E1, in_app_iff; auto|exact Hi].
    + apply (H2 p); [rewrite E1, in_app_iff; cbn; auto|auto].
    + apply (H2 r); [rewrite E1, in_app_iff; cbn; auto|exact Hi].
  - rewrite Hs. rewrite E1 in H3. rewrite map_app, list_sum_app in *. cbn in *. lia.
Qed.
Lemma stop_swf c s g k fut : swf s fut -> swf (fst (stop_step c s g k)) fut /\ forall x, In x (snd (stop_step c s g k)) -> ~ stop_panic x.
Proof.
  intros H. unfold stop_step.
  assert (K : swf s fut /\ (forall x, In x ([] : list sev) -> ~ stop_panic x)) by (split; [exact H|intros ? []]).
  destruct (nth_error (sv_stops s) g) as [p|] eqn:E; [|exact K]. destruct p as [[|j t] ex| | |]; cbn [fst snd]; try exact K.
  - destruct ex; (split; [eapply swf_put; eauto; cbn; auto; contradiction|]); [intros ? []|].
    intros x [<-|[]] [(i & Q)|Q]; discriminate.
  - destruct (nth_error (j :: t) k) as [i|] eqn:Ek; [|exact K].
    destruct (sw_pending _ _ H _ i (nth_error_In _ _ E)) as (n & En & Hc). { cbn [pending]. eapply nth_error_In, Ek. }
    rewrite En, Hc. pose proof (conn_stop_step c s i n En Hc) as (Q1 & Q2).
    pose proof (conn_step_started c s i LStop) as Q3. pose proof (conn_step_entries c s i LStop) as Q4.
    pose proof (conn_step_length c s i LStop) as Q5.
    destruct (conn_step c s i LStop) as [s1 e]. cbn [fst snd] in *. split; [|intros ? []].
    eapply swf_put.
    + rewrite Q1. exact E.
    + cbn [pending]. intros x. apply drop_nth_in.
    + cbn [live_stop]. lia.
    + destruct H as [H1 H2 H3]. split.
      * intros x Hx. rewrite Q5. auto.
      * rewrite Q1. intros p x Hp Hx. apply Q3. eauto.
      * rewrite Q1, Q2. exact H3.
  - assert (sv_exit_closed s = false) as Hx.
    { destruct (sv_exit_closed s) eqn:Ex; [|reflexivity]. pose proof (sw_one _ _ H) as H3. rewrite Ex in H3.
      destruct (set_nth_split g PSend _ E) as (a & b & E1 & _ & _). rewrite E1, map_app, list_sum_app in H3. cbn in H3. lia. }
    rewrite Hx. destruct (sv_waiting s); cbn [fst snd]; [|exact K]. split; [|intros ? []]. rewrite <- Hx.
    eapply swf_put; eauto.
  - split; [|intros x [<-|[]] [(i & Q)|Q]; discriminate]. destruct (set_nth_split g PClose _ E) as (a & b & E1 & _ & Hs). destruct H as [H1 H2 H3].
    assert (sv_exit_closed s = false) as Hx.
    { destruct (sv_exit_closed s); [|reflexivity]. rewrite E1, map_app, list_sum_app in H3. cbn in H3. lia. }
    split; cbn; auto.
    + rewrite Hs. intros r i Hr Hi. assert (started s i); [|assumption]. apply in_app_iff in Hr.
      destruct Hr as [Hr|[<-|Hr]]; [|destruct Hi|]; apply (H2 r); auto; rewrite E1, in_app_iff; cbn; auto.
    + rewrite Hs. rewrite E1, Hx in H3. rewrite map_app, list_sum_app in *. cbn in *. lia.
Qed.
Lemma swf_step c s l fut : swf s (fut + length (filter is_stop_call [l])) ->
  (match l with SClearCall | SStopCall => all_started s | _ => true end) = true ->
  swf (fst (srv_step c s l)) fut /\ forall x, In x (snd (srv_step c s l)) -> ~ stop_panic x.
Proof.
  intros H Hw. assert (Hfut : swf s fut). { destruct H as [H1 H2 H3]. split; auto. lia. }
  unfold srv_step.
  assert (K : swf s fut /\ (forall x, In x ([] : list sev) -> ~ stop_panic x)) by (split; [exact Hfut|intros ? []]).
  assert (Kc : forall s1, sv_conns s1 = sv_conns s -> sv_mgr s1 = sv_mgr s -> sv_stops s1 = sv_stops s -> sv_exit_closed s1 = sv_exit_closed s -> swf s1 fut).
  { intros s1 E1 E2 E3 E4. destruct Hfut as [H1 H2 H3]. split; rewrite ?E1, ?E2, ?E3, ?E4; auto.
    intros p i Hp Hi. unfold started. rewrite E1. now apply (H2 p). }
  destruct (sv_crashed s); [exact K|]. destruct l as [ok|ok| |i ok|i l| | |g k|].
  - destruct (has_tcp _); [|exact K]. pose proof (accept_swf c KTcp ACheck s (sv_tcp s) ok fut Hfut) as A.
    destruct (accept_step _ _ _ _ _ _) as [[s1 p1] e]. destruct A as [[A1 A2 A3] A4]. split; [split; auto|exact A4].
  - destruct (has_kcp _); [|exact K]. pose proof (accept_swf c KKcp ACheck s (sv_kcp s) ok fut Hfut) as A.
    destruct (accept_step _ _ _ _ _ _) as [[s1 p1] e]. destruct A as [[A1 A2 A3] A4]. split; [split; auto|exact A4].
  - destruct (has_ws _); [|exact K]. split; [|intros ? []]. apply Kc; reflexivity.
  - destruct (nth_error (sv_ws s) i) as [p|]; [|exact K]. pose proof (accept_swf c KWs AEnd s p ok fut Hfut) as A.
    destruct (accept_step _ _ _ _ _ _) as [[s1 p1] e]. destruct A as [[A1 A2 A3] A4]. split; [split; auto|exact A4].
  - split.
    + destruct Hfut as [H1 H2 H3]. pose proof (conn_step_started c s i l) as Q3. pose proof (conn_step_entries c s i l) as Q4.
      pose proof (conn_step_length c s i l) as Q5.
      assert (Q : sv_stops (fst (conn_step c s i l)) = sv_stops s /\ sv_exit_closed (fst (conn_step c s i l)) = sv_exit_closed s).
      { unfold conn_step. destruct (nth_error _ _); [|auto]. destruct (life_step _ _ _). cbn. auto. }
      destruct Q as [Q1 Q2]. split; rewrite ?Q1, ?Q2, ?Q5; auto. intros p x Hp Hx. apply Q3. eauto.
    + unfold conn_step. destruct (nth_error _ _); [|intros ? []]. destruct (life_step _ _ _) as [lf es]. cbn [snd].
      intros x Hx [(j & ->)| ->]; apply in_map_iff in Hx as (y & Q & _); discriminate.
  - split; [|intros ? []]. destruct Hfut as [H1 H2 H3]. split; cbn; auto.
    + intros p j Hp Hj. assert (started s j); [|assumption]. apply in_app_iff in Hp as [Hp|[<-|[]]]; [now apply (H2 p)|].
      now apply snapshot_started.
    + rewrite map_app, list_sum_app. cbn. lia.
  - split; [|intros ? []]. destruct H as [H1 H2 H3]. split; cbn; auto.
    + intros p j Hp Hj. assert (started s j); [|assumption]. apply in_app_iff in Hp as [Hp|[<-|[]]]; [now apply (H2 p)|].
      now apply snapshot_started.
    + rewrite map_app, list_sum_app. cbn in *. lia.
  - now apply stop_swf.
  - destruct (_ && _); [|exact K]. split; [|intros ? []]. apply Kc; reflexivity.
Qed.
Lemma no_stop_panic c : forall ls s, swf s (length (filter is_stop_call ls)) -> no_window c s ls = true ->
  forall x, In x (snd (srv_run c s ls)) -> ~ stop_panic x.
Proof.
  induction ls as [|l ls IH]; intros s H Hw x; cbn [srv_run no_window] in *; [intros []|].
  apply andb_true_iff in Hw as [W1 W2].
  assert (H' : swf s (length (filter is_stop_call ls) + length (filter is_stop_call [l]))).
  { destruct H as [H1 H2 H3]. split; auto. cbn [filter] in *. destruct (is_stop_call l); cbn in *; lia. }
  destruct (swf_step c s l _ H' W1) as [S1 S2]. destruct (srv_step c s l) as [s1 e]. cbn [fst snd] in *.
  specialize (IH s1 S1 W2 x). destruct (srv_run c s1 ls) as [s2 es]. cbn [snd] in *. intros Hx%in_app_iff. destruct Hx; auto.
Qed.
Lemma swf_new c n : n <= 1 -> swf (srv_new c) n.
Proof. intros H. split; cbn; auto; try contradiction. Qed.

(* --- the manager holds exactly the connections not yet removed --- *)
Lemma happened_app i e a b : happened i e (a ++ b) = happened i e a + happened i e b.
Proof. apply count_occ_app. Qed.
Lemma happened_map i j e es : happened i e (map (SvLife j) es) = if i =? j then times e es else 0.
Proof.
  induction es as [|x es IH]; cbn [map]; [now destruct (i =? j)|]. unfold happened, times in *. cbn [count_occ]. rewrite IH.
  destruct (sev_eq_dec (SvLife j x) (SvLife i e)) as [E|E].
  - injection E as -> ->. rewrite Nat.eqb_refl. destruct (lev_eq_dec e e); [reflexivity|congruence].
  - destruct (Nat.eqb_spec i j) as [->|]; [|reflexivity]. destruct (lev_eq_dec x e); [congruence|reflexivity].
Qed.
Lemma happened_other i e x tr : x <> SvLife i e -> happened i e (tr ++ [x]) = happened i e tr.
Proof.
  intros H. rewrite happened_app. unfold happened at 2. cbn [count_occ]. destruct (sev_eq_dec _ _); [contradiction|lia].
Qed.
Definition held (s : srv) (tr : list sev) (i : nat) (n : sconn) : option conn :=
  match happened i EvRemove tr with O => Some (sn_conn n) | _ => None end.
Record rinv (s : srv) (tr : list sev) : Prop := {
  ri_minv : minv (sv_mgr s);
  ri_obj : forall i n, nth_error (sv_conns s) i = Some n -> cn_obj (sn_conn n) = i /\ uint64 (cn_id (sn_conn n));
  ri_new : forall i e, length (sv_conns s) <= i -> happened i e tr = 0;
  ri_get : forall i n, nth_error (sv_conns s) i = Some n -> sm_get (sv_mgr s) (format_uint (cn_id (sn_conn n))) = held s tr i n;
  ri_hold : forall id, In id (ids_given s) -> uint64 id
}.
Lemma ids_uint64 s id : ginv s -> In id (ids_given s) -> uint64 id.
Proof.
  intros (n & _ & P) H. apply (Permutation_in _ P) in H. unfold ids in H. apply in_map_iff in H as (i & <- & _).
  unfold uint64. apply Z.mod_pos_bound. lia.
Qed.
Lemma remove_evs_get cn k es : forall m, minv m ->
  minv (fold_left (fun m e => match e with EvRemove => cm_remove m cn | _ => m end) es m) /\
  sm_get (fold_left (fun m e => match e with EvRemove => cm_remove m cn | _ => m end) es m) k =
  match times EvRemove es with O => sm_get m k | _ => if key_eqb (conn_id_str cn) k then None else sm_get m k end.
Proof.
  induction es as [|e es IH]; intros m Hm; cbn [fold_left]; [auto|].
  assert (Hm1 : minv (match e with EvRemove => cm_remove m cn | _ => m end)) by (destruct e; auto; now apply remove_inv).
  destruct (IH _ Hm1) as [I1 I2]. split; [exact I1|]. etransitivity; [exact I2|]. clear I1 I2.
  destruct (lev_eq_dec e EvRemove) as [->|He].
  - unfold times at 2. cbn [count_occ]. destruct (lev_eq_dec EvRemove EvRemove); [|congruence].
    unfold cm_remove. rewrite remove_get by exact Hm. destruct (times EvRemove es); destruct (key_eqb _ k); reflexivity.
  - unfold times at 2. cbn [count_occ]. destruct (lev_eq_dec e EvRemove); [congruence|]. fold (times EvRemove es). now destruct e.
Qed.
Lemma nodup_gave s : NoDup (ids_given s) -> NoDup (gave s).
Proof. rewrite given_gave. generalize (holding (sv_tcp s) ++ holding (sv_kcp s) ++ flat_map holding (sv_ws s)). intros l.
  induction (gave s) as [|x g IH]; cbn; [constructor|]. intros N. inversion N as [|? ? Hx Hn]; subst. constructor; auto.
  intros Q. apply Hx, in_app_iff. now left. Qed.
Lemma gave_inj s i j n m : NoDup (ids_given s) -> nth_error (sv_conns s) i = Some n -> nth_error (sv_conns s) j = Some m ->
  cn_id (sn_conn n) = cn_id (sn_conn m) -> i = j.
Proof.
  intros N%nodup_gave E1 E2 E. unfold gave in N. eapply NoDup_nth_error; [exact N|..].
  - rewrite map_length. apply nth_error_Some. congruence.
  - rewrite (map_nth_error _ _ _ E1), (map_nth_error _ _ _ E2). now rewrite E.
Qed.
Lemma rinv_conn c s tr i l : ginv s -> NoDup (ids_given s) -> rinv s tr -> rinv (fst (conn_step c s i l)) (tr ++ snd (conn_step c s i l)).
Proof.
  intros G N H. pose proof (conn_step_gave c s i l) as (C1 & (C2 & C3 & C4 & _) & _).
  unfold conn_step in *. destruct (nth_error (sv_conns s) i) as [n|] eqn:E; [|cbn; now rewrite app_nil_r].
  destruct (life_step _ _ _) as [lf es] eqn:El. cbn [fst snd] in *. destruct H as [H1 H2 H3 H4 H5].
  destruct (set_nth_split i n _ E) as (a & b & E1 & La & Hs).
  assert (Nth : forall j x, nth_error (set_nth i (Sconn (sn_conn n) (sn_kind n) lf) (sv_conns s)) j = Some x ->
    exists y, nth_error (sv_conns s) j = Some y /\ sn_conn y = sn_conn x /\ (j = i -> y = n)).
  { intros j x Ex. destruct (set_nth_get _ _ _ _ _ Ex) as [[-> ->]|[Hne Ex']]; [exists n; auto|exists x; repeat split; auto; contradiction]. }
  split; cbn [sv_mgr sv_conns].
  - exact (proj1 (remove_evs_get (sn_conn n) [] es (sv_mgr s) H1)).
  - intros j x Ex. destruct (Nth j x Ex) as (y & Ey & <- & _). now apply H2.
  - intros j e Hj. rewrite set_nth_len in Hj. rewrite happened_app, happened_map, H3 by exact Hj.
    destruct (Nat.eqb_spec j i) as [->|]; [|reflexivity]. apply nth_error_None in Hj. congruence.
  - intros j x Ex. destruct (Nth j x Ex) as (y & Ey & E2 & E3).
    destruct (remove_evs_get (sn_conn n) (format_uint (cn_id (sn_conn x))) es (sv_mgr s) H1) as [_ ->].
    rewrite <- E2. specialize (H4 j y Ey). unfold held in *. rewrite H4. rewrite happened_app, happened_map. rewrite <- E2.
    unfold conn_id_str. rewrite key_eqb_format; [|apply (H2 i n E)|apply (H2 j y Ey)].
    destruct (Z.eqb_spec (cn_id (sn_conn n)) (cn_id (sn_conn y))) as [Q|Q].
    + assert (i = j) as -> by (eapply gave_inj; eauto). rewrite (E3 eq_refl), Nat.eqb_refl.
      destruct (times EvRemove es); [now rewrite Nat.add_0_r|]. rewrite Nat.add_succ_r. reflexivity.
    + destruct (Nat.eqb_spec j i) as [->|Hji].
      * exfalso. apply Q. rewrite E in Ey. now injection Ey as ->.
      * rewrite Nat.add_0_r. destruct (times EvRemove es); reflexivity.
  - intros id Hid. rewrite given_gave in Hid. apply H5. rewrite given_gave.
    rewrite C1 in Hid. exact Hid.
Qed.
Lemma rinv_frame s s1 tr : sv_conns s1 = sv_conns s -> sv_mgr s1 = sv_mgr s -> ginv s1 -> rinv s tr -> rinv s1 tr.
Proof.
  intros E1 E2 G [H1 H2 H3 H4 H5]. split; rewrite ?E1, ?E2; auto. intros id. now apply ids_uint64.
Qed.
Lemma rinv_accept c k again s p ok tr :
  rinv s tr -> (forall id, p = AAdd id -> uint64 id /\ ~ In id (gave s)) ->
  let '(s1, _, e) := accept_step c k again s p ok in
  (sv_conns s1 = sv_conns s /\ sv_mgr s1 = sv_mgr s /\ e = []) \/
  (exists id n, p = AAdd id /\ sn_conn n = Conn (length (sv_conns s)) id /\ sv_conns s1 = sv_conns s ++ [n] /\
    sv_mgr s1 = cm_add (sv_mgr s) (sn_conn n) /\ e = [SvAdded (length (sv_conns s))]).
Proof.
  intros H Hp. unfold accept_step.
  destruct p; [destruct (_ <=? _)|destruct k; [destruct (sv_lclosed s), ok|destruct ok|destruct (sv_lclosed s), ok]|..]; auto.
  right. exists id. eexists. repeat split; reflexivity.
Qed.
Lemma rinv_add s s1 tr id n : ginv s1 -> rinv s tr -> uint64 id -> ~ In id (gave s) ->
  sn_conn n = Conn (length (sv_conns s)) id -> sv_conns s1 = sv_conns s ++ [n] -> sv_mgr s1 = cm_add (sv_mgr s) (sn_conn n) ->
  rinv s1 (tr ++ [SvAdded (length (sv_conns s))]).
Proof.
  intros G [H1 H2 H3 H4 H5] Hu Hn En Ec Em.
  assert (Hh : forall i e, happened i e (tr ++ [SvAdded (length (sv_conns s))]) = happened i e tr).
  { intros i e. now apply happened_other. }
  assert (Nth : forall i x, nth_error (sv_conns s ++ [n]) i = Some x -> nth_error (sv_conns s) i = Some x \/ (i = length (sv_conns s) /\ x = n)).
  { intros i x Ex. destruct (Nat.lt_ge_cases i (length (sv_conns s))).
    - rewrite nth_error_app1 in Ex by assumption. auto.
    - rewrite nth_error_app2 in Ex by assumption. destruct (i - length (sv_conns s)) as [|q] eqn:Q; cbn in Ex; [|destruct q; discriminate].
      injection Ex as <-. right. split; [lia|reflexivity]. }
  split; rewrite ?Ec, ?Em.
  - now apply set_inv.
  - intros i x Ex. destruct (Nth i x Ex) as [Ex'|[-> ->]]; [now apply H2|]. rewrite En. now split.
  - intros i e Hi. rewrite Hh. apply H3. rewrite app_length in Hi. cbn in Hi. lia.
  - intros i x Ex. unfold cm_add. rewrite set_get by exact H1. unfold held. rewrite Hh. unfold conn_id_str.
    destruct (Nth i x Ex) as [Ex'|[-> ->]].
    + destruct (H2 i x Ex') as [_ Hux]. rewrite key_eqb_format; [|rewrite En; exact Hu|exact Hux]. rewrite En. cbn [cn_id].
      destruct (Z.eqb_spec id (cn_id (sn_conn x))) as [Q|Q]; [|now apply H4].
      exfalso. apply Hn. rewrite Q. unfold gave. change (cn_id (sn_conn x)) with ((fun n => cn_id (sn_conn n)) x). apply in_map. eapply nth_error_In, Ex'.
    + rewrite key_eqb_refl, H3 by lia. reflexivity.
  - intros j. now apply ids_uint64.
Qed.
Lemma nodup_hold s id : NoDup (ids_given s) -> In id (holding (sv_tcp s) ++ holding (sv_kcp s) ++ flat_map holding (sv_ws s)) -> ~ In id (gave s).
Proof.
  rewrite given_gave. generalize (holding (sv_tcp s) ++ holding (sv_kcp s) ++ flat_map holding (sv_ws s)). intros l N Hin Hg.
  induction (gave s) as [|x g IH]; cbn in *; [contradiction|]. inversion N as [|? ? Hx Hn]; subst.
  destruct Hg as [->|Hg]; [apply Hx, in_app_iff; auto|auto].
Qed.
Lemma rinv_step c s tr l : ginv s -> NoDup (ids_given s) -> rinv s tr ->
  rinv (fst (srv_step c s l)) (tr ++ snd (srv_step c s l)).
Proof.
  intros G N H. pose proof (given_step c s l G) as G1. unfold srv_step in *. destruct (sv_crashed s); [cbn; now rewrite app_nil_r|].
  assert (K : rinv s (tr ++ [])) by now rewrite app_nil_r.
  assert (Kf : forall s1, sv_conns s1 = sv_conns s -> sv_mgr s1 = sv_mgr s -> ginv s1 -> rinv s1 (tr ++ [])).
  { intros s1 E1 E2 E3. rewrite app_nil_r. now apply (rinv_frame s). }
  assert (Acc : forall k again p ok (f : srv -> apc -> srv),
     (forall s1 p1, sv_conns (f s1 p1) = sv_conns s1 /\ sv_mgr (f s1 p1) = sv_mgr s1) ->
     (forall id, p = AAdd id -> In id (holding (sv_tcp s) ++ holding (sv_kcp s) ++ flat_map holding (sv_ws s))) ->
     let '(s1, p1, e) := accept_step c k again s p ok in ginv (f s1 p1) -> rinv (f s1 p1) (tr ++ e)).
  { intros k again p ok f Hf Hp.
    assert (Hp' : forall id, p = AAdd id -> uint64 id /\ ~ In id (gave s)).
    { intros id E. split; [apply (ri_hold _ _ H); rewrite given_gave; apply in_app_iff; right; auto|]. apply nodup_hold; auto. }
    pose proof (rinv_accept c k again s p ok tr H Hp') as A. destruct (accept_step _ _ _ _ _ _) as [[s1 p1] e].
    destruct (Hf s1 p1) as [F1 F2]. intros Gf. destruct A as [(A1 & A2 & ->)|(id & n & Ep & An & Ac & Am & ->)].
    - apply Kf; congruence.
    - destruct (Hp' id Ep) as [U1 U2]. eapply rinv_add; eauto; congruence. }
  destruct l as [ok|ok| |i ok|i l| | |g k|].
  - destruct (has_tcp _); [|exact K]. specialize (Acc KTcp ACheck (sv_tcp s) ok with_tcp).
    destruct (accept_step _ _ _ _ _ _) as [[s1 p1] e]. apply Acc; [auto| |exact G1]. intros id ->. cbn. auto.
  - destruct (has_kcp _); [|exact K]. specialize (Acc KKcp ACheck (sv_kcp s) ok with_kcp).
    destruct (accept_step _ _ _ _ _ _) as [[s1 p1] e]. apply Acc; [auto| |exact G1]. intros id ->. rewrite !in_app_iff. cbn. auto.
  - destruct (has_ws _); [|exact K]. apply Kf; auto.
  - destruct (nth_error (sv_ws s) i) as [p|] eqn:En; [|exact K].
    specialize (Acc KWs AEnd p ok (fun s1 p1 => with_ws s1 (set_nth i p1 (sv_ws s1)))).
    destruct (accept_step _ _ _ _ _ _) as [[s1 p1] e]. apply Acc; [auto| |exact G1]. intros id ->. rewrite !in_app_iff. right; right.
    apply in_flat_map. eexists. split; [eapply nth_error_In, En|]. now left.
  - now apply rinv_conn.
  - apply Kf; auto.
  - apply Kf; auto.
  - assert (Ko : forall s1 x, (forall i e, x <> SvLife i e) -> sv_conns s1 = sv_conns s -> sv_mgr s1 = sv_mgr s -> ginv s1 -> rinv s1 (tr ++ [x])).
    { intros s1 x Hx E1 E2 E3. apply (rinv_frame s); auto.
      assert (Hh : forall i0 e, happened i0 e (tr ++ [x]) = happened i0 e tr) by (intros; now apply happened_other).
      destruct H as [H1 H2 H3 H4 H5]. split; auto; [intros; rewrite Hh; auto|]. intros i0 n0 E0. unfold held. rewrite Hh. now apply H4. }
    unfold stop_step in *. destruct (nth_error (sv_stops s) g) as [[[|j t] ex| | |]|]; try exact K; try (apply Kf; now auto).
    + destruct ex; [apply Kf; now auto|apply Ko; auto; discriminate].
    + destruct (nth_error (j :: t) k) as [i|]; [|exact K]. destruct (nth_error (sv_conns s) i) as [n|] eqn:En; [|exact K].
      destruct (lf_ctx (sn_life n)) eqn:Ec.
      * pose proof (rinv_conn c s tr i LStop G N H) as R.
        assert (Ee : snd (conn_step c s i LStop) = []).
        { unfold conn_step. rewrite En. unfold life_step. destruct (lf_dead _); [reflexivity|]. unfold stop_call. now rewrite Ec. }
        rewrite Ee in R. destruct (conn_step c s i LStop) as [s1 e]. cbn [fst snd] in *.
        eapply rinv_frame; [..|exact R]; auto.
      * cbn [fst snd] in *. assert (R : rinv s (tr ++ [SvClearPanic i])); [|eapply rinv_frame; [..|exact R]; auto].
        assert (Hh : forall i0 e, happened i0 e (tr ++ [SvClearPanic i]) = happened i0 e tr).
        { intros. now apply happened_other. }
        destruct H as [H1 H2 H3 H4 H5]. split; auto; [intros; rewrite Hh; auto|]. intros i0 n0 E0. unfold held. rewrite Hh. now apply H4.
    + destruct (sv_exit_closed s).
      * cbn [fst snd] in *. assert (R : rinv s (tr ++ [SvSendPanic])); [|eapply rinv_frame; [..|exact R]; auto].
        assert (Hh : forall i0 e, happened i0 e (tr ++ [SvSendPanic]) = happened i0 e tr).
        { intros. now apply happened_other. }
        destruct H as [H1 H2 H3 H4 H5]. split; auto; [intros; rewrite Hh; auto|]. intros i0 n0 E0. unfold held. rewrite Hh. now apply H4.
      * destruct (sv_waiting s); [apply Kf; now auto|exact K].
    + apply Ko; auto; discriminate.
  - destruct (_ && _); [apply Kf; now auto|exact K].
Qed.
Lemma given_grows c s l : ginv s -> length (ids_given s) <= length (ids_given (fst (srv_step c s l))).
Proof.
  (* the number of IDs given never decreases *)
  intros _. unfold srv_step. destruct (sv_crashed s); [cbn; lia|].
  assert (A : forall k again p ok, holding again = [] -> let '(s1, p1, _) := accept_step c k again s p ok in
     length (gave s) + length (holding p) <= length (gave s1) + length (holding p1) /\ same_acc s s1).
  { intros k again p ok Ha. pose proof (accept_ids c k again s p ok Ha) as A. destruct (accept_step _ _ _ _ _ _) as [[s1 p1] e].
    destruct A as [A1 [[A2 _]|(A2 & A3 & A4 & _)]]; (split; [|exact A1]).
    - apply Permutation_length in A2. rewrite !app_length in A2. lia.
    - rewrite A2, A3, A4. cbn. lia. }
  rewrite !given_gave, !app_length.
  destruct l as [ok|ok| |i ok|i l| | |g k|].
  - destruct (has_tcp _); [|cbn; lia]. specialize (A KTcp ACheck (sv_tcp s) ok eq_refl). destruct (accept_step _ _ _ _ _ _) as [[s1 p1] e].
    destruct A as [A (_ & A2 & A3 & _)]. cbn [fst with_tcp sv_tcp sv_kcp sv_ws]. change (gave (with_tcp s1 p1)) with (gave s1). rewrite A2, A3. lia.
  - destruct (has_kcp _); [|cbn; lia]. specialize (A KKcp ACheck (sv_kcp s) ok eq_refl). destruct (accept_step _ _ _ _ _ _) as [[s1 p1] e].
    destruct A as [A (A1 & _ & A3 & _)]. cbn [fst with_kcp sv_tcp sv_kcp sv_ws]. change (gave (with_kcp s1 p1)) with (gave s1). rewrite A1, A3. lia.
  - destruct (has_ws _); [|cbn; lia]. cbn [fst with_ws sv_tcp sv_kcp sv_ws]. change (gave (with_ws s (sv_ws s ++ [ACheck]))) with (gave s). rewrite flat_map_app, app_length. lia.
  - destruct (nth_error (sv_ws s) i) as [p|] eqn:En; [|cbn; lia]. specialize (A KWs AEnd p ok eq_refl). destruct (accept_step _ _ _ _ _ _) as [[s1 p1] e].
    destruct A as [A (A1 & A2 & A3 & _)]. cbn [fst with_ws sv_tcp sv_kcp sv_ws].
    change (gave (with_ws s1 (set_nth i p1 (sv_ws s1)))) with (gave s1). rewrite A1, A2, A3.
    destruct (set_nth_split i p _ En) as (a & b & E1 & _ & Hs). rewrite Hs. rewrite E1. rewrite !flat_map_app. cbn [flat_map]. rewrite !app_length. lia.
  - pose proof (conn_step_gave c s i l) as (H1 & (H2 & H3 & H4 & _) & _). rewrite H1, H2, H3, H4. lia.
  - cbn [fst with_stops sv_tcp sv_kcp sv_ws]. change (gave (with_stops s (sv_stops s ++ [PClear (snapshot s) false]) (sv_waiting s) (sv_lclosed s) (sv_exit_closed s))) with (gave s). lia.
  - cbn [fst with_stops sv_tcp sv_kcp sv_ws]. change (gave (with_stops s (sv_stops s ++ [PClear (snapshot s) true]) (sv_waiting s) (sv_lclosed s) (sv_exit_closed s))) with (gave s). lia.
  - pose proof (stop_step_gave c s g k) as (H1 & H2 & H3 & H4 & _). rewrite H1, H2, H3, H4. lia.
  - destruct (_ && _); cbn [fst with_stops sv_tcp sv_kcp sv_ws]; [|lia]. unfold gave. cbn. lia.
Qed.
Lemma given_grows_run c : forall ls s, ginv s -> length (ids_given s) <= length (ids_given (fst (srv_run c s ls))).
Proof.
  induction ls as [|l ls IH]; intros s G; cbn [srv_run]; [cbn; lia|].
  pose proof (given_grows c s l G). pose proof (given_step c s l G) as G1. destruct (srv_step c s l) as [s1 e]. specialize (IH s1 G1).
  destruct (srv_run c s1 ls). cbn [fst] in *. lia.
Qed.
Lemma ginv_nodup s : ginv s -> (Z.of_nat (length (ids_given s)) <= 2 ^ 64)%Z -> NoDup (ids_given s).
Proof.
  intros (n & _ & P) H. apply (Permutation_NoDup (l := ids n)); [now symmetry|].
  apply ids_nodup. rewrite (Permutation_length P) in H. unfold ids in H. rewrite map_length, seq_length in H. exact H.
Qed.
Lemma rinv_run c : forall ls s tr, ginv s -> (Z.of_nat (length (ids_given (fst (srv_run c s ls)))) <= 2 ^ 64)%Z -> rinv s tr ->
  rinv (fst (srv_run c s ls)) (tr ++ snd (srv_run c s ls)).
Proof.
  induction ls as [|l ls IH]; intros s tr G Hn H; cbn [srv_run] in *; [cbn; now rewrite app_nil_r|].
  pose proof (given_grows c s l G) as Hg. pose proof (given_step c s l G) as G1. pose proof (rinv_step c s tr l G) as R.
  destruct (srv_step c s l) as [s1 e]. cbn [fst snd] in *. pose proof (given_grows_run c ls s1 G1) as Hg2.
  specialize (IH s1 (tr ++ e) G1). destruct (srv_run c s1 ls) as [s2 es]. cbn [fst snd] in *. rewrite app_assoc. apply IH; [exact Hn|].
  apply R; [|exact H]. apply ginv_nodup; [exact G|]. lia.
Qed.
Lemma ginv_new c : ginv (srv_new c).
Proof. exists 0. split; [reflexivity|constructor]. Qed.
Lemma manager_contents c ls i n :
  let s := fst (srv_run c (srv_new c) ls) in let tr := snd (srv_run c (srv_new c) ls) in
  (Z.of_nat (length (ids_given s)) <= 2 ^ 64)%Z -> nth_error (sv_conns s) i = Some n ->
  cm_get (sv_mgr s) (cn_id (sn_conn n)) = match happened i EvRemove tr with O => Some (sn_conn n) | _ => None end.
Proof.
  intros s tr Hn E. pose proof (rinv_run c ls (srv_new c) [] (ginv_new c) Hn) as R.
  assert (R0 : rinv (srv_new c) []).
  { split; cbn; try contradiction; auto; [apply new_inv|..]; intros [|i0] n0; discriminate. }
  apply (ri_get _ _ (R R0) i n E).
Qed.

(* --- each closing event at most once per connection, in the whole server --- *)
Section Once.
Variables (e : lev) (ii : instr).
Hypothesis Em : emits e ii.
Hypothesis Hf : e <> EvFree.
Hypothesis Hnew : forall c, left ii (life_new c) = 1.
Definition once (s : srv) (tr : list sev) : Prop := forall i,
  match nth_error (sv_conns s) i with Some n => happened i e tr + left ii (sn_life n) <= 1 | None => happened i e tr = 0 end.
Lemma once_frame s s1 tr : sv_conns s1 = sv_conns s -> once s tr -> once s1 tr.
Proof. unfold once. now intros ->. Qed.
Lemma once_conn c s i l tr : once s tr -> once (fst (conn_step c s i l)) (tr ++ snd (conn_step c s i l)).
Proof.
  intros H j. specialize (H j). unfold conn_step. destruct (nth_error (sv_conns s) i) as [n|] eqn:E; [|cbn; now rewrite app_nil_r].
  pose proof (step_left (lcfg_of c (sn_kind n)) (sn_life n) l e ii Em Hf) as L. destruct (life_step _ _ _) as [lf es].
  cbn [fst snd sv_conns] in *. rewrite happened_app, happened_map.
  destruct (set_nth_split i n _ E) as (a & b & E1 & La & Hs). rewrite Hs. destruct (Nat.eqb_spec j i) as [->|Hne].
  - rewrite nth_error_mid by exact La. rewrite E in H. cbn [sn_life]. lia.
  - rewrite E1 in H. destruct (Nat.lt_ge_cases j (length a)).
    + rewrite nth_error_app1 in * by lia. now rewrite Nat.add_0_r.
    + rewrite nth_error_app2 in * by lia. destruct (j - length a) eqn:Ej; [lia|]. now rewrite Nat.add_0_r.
Qed.
Lemma once_other s x tr : (forall i, x <> SvLife i e) -> once s tr -> once s (tr ++ [x]).
Proof. intros Hx H i. specialize (H i). rewrite happened_other; [exact H|apply Hx]. Qed.
Lemma once_accept c k again s p ok tr : once s tr ->
  let '(s1, _, ev) := accept_step c k again s p ok in once s1 (tr ++ ev).
Proof.
  intros H. unfold accept_step.
  destruct p; [destruct (_ <=? _)|destruct k; [destruct (sv_lclosed s), ok|destruct ok|destruct (sv_lclosed s), ok]|..];
    rewrite ?app_nil_r; try exact H.
  apply once_other; [discriminate|]. intros i. specialize (H i). cbn [with_acc sv_conns].
  destruct (Nat.lt_ge_cases i (length (sv_conns s))) as [Hl|Hl].
  - now rewrite nth_error_app1 by exact Hl.
  - rewrite nth_error_app2 by exact Hl. pose proof Hl as Hl'. apply nth_error_None in Hl'. rewrite Hl' in H.
    destruct (i - length (sv_conns s)) as [|q]; cbn [nth_error sn_life]; [rewrite H, Hnew; lia|]. destruct q; exact H.
Qed.
Lemma once_step c s l tr : once s tr -> once (fst (srv_step c s l)) (tr ++ snd (srv_step c s l)).
Proof.
  intros H. unfold srv_step. assert (K : once s (tr ++ [])) by now rewrite app_nil_r. destruct (sv_crashed s); [exact K|].
  destruct l as [ok|ok| |i ok|i l| | |g k|].
  - destruct (has_tcp _); [|exact K]. pose proof (once_accept c KTcp ACheck s (sv_tcp s) ok tr H) as A.
    destruct (accept_step _ _ _ _ _ _) as [[s1 p1] ev]. exact A.
  - destruct (has_kcp _); [|exact K]. pose proof (once_accept c KKcp ACheck s (sv_kcp s) ok tr H) as A.
    destruct (accept_step _ _ _ _ _ _) as [[s1 p1] ev]. exact A.
  - destruct (has_ws _); exact K.
  - destruct (nth_error (sv_ws s) i) as [p|]; [|exact K]. pose proof (once_accept c KWs AEnd s p ok tr H) as A.
    destruct (accept_step _ _ _ _ _ _) as [[s1 p1] ev]. exact A.
  - now apply once_conn.
  - exact K.
  - exact K.
  - unfold stop_step. destruct (nth_error (sv_stops s) g) as [[[|j t] ex| | |]|]; try exact K.
    + destruct ex; [exact K|]. apply (once_frame s); [reflexivity|]. apply once_other; [discriminate|exact H].
    + destruct (nth_error (j :: t) k) as [i|]; [|exact K]. destruct (nth_error (sv_conns s) i) as [n|] eqn:En; [|exact K].
      destruct (lf_ctx (sn_life n)) eqn:Ec.
      * pose proof (once_conn c s i LStop tr H) as R.
        assert (Ee : snd (conn_step c s i LStop) = []).
        { unfold conn_step. rewrite En. unfold life_step. destruct (lf_dead _); [reflexivity|]. unfold stop_call. now rewrite Ec. }
        rewrite Ee in R. destruct (conn_step c s i LStop) as [s1 e1]. exact R.
      * apply (once_frame s); [reflexivity|]. apply once_other; [discriminate|exact H].
    + destruct (sv_exit_closed s); [|destruct (sv_waiting s); exact K]. apply (once_frame s); [reflexivity|]. apply once_other; [discriminate|exact H].
    + apply (once_frame s); [reflexivity|]. apply once_other; [discriminate|exact H].
  - destruct (_ && _); exact K.
Qed.
Lemma once_run c : forall ls s tr, once s tr -> once (fst (srv_run c s ls)) (tr ++ snd (srv_run c s ls)).
Proof.
  induction ls as [|l ls IH]; intros s tr H; cbn [srv_run]; [cbn; now rewrite app_nil_r|].
  pose proof (once_step c s l tr H) as R. destruct (srv_step c s l) as [s1 e1]. specialize (IH s1 _ R). destruct (srv_run c s1 ls) as [s2 es].
  cbn [fst snd] in *. now rewrite app_assoc.
Qed.
End Once.
Lemma server_at_most_once c ls i e : closing_event e -> happened i e (snd (srv_run c (srv_new c) ls)) <= 1.
Proof.
  intros H. destruct (closing_emits e H) as (ii & E & Hf & H1).
  assert (O0 : once e ii (srv_new c) []) by (intros [|j]; reflexivity).
  pose proof (once_run e ii E Hf H1 c ls (srv_new c) [] O0 i) as O. cbn [app] in O. destruct (nth_error _ _); lia.
Qed.

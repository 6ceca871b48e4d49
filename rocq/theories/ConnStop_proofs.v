(* Proofs about ConnServer.v: what has happened when ClearConn or Server.Stop returns. *)
From Coq Require Import ZArith List Bool Arith Lia.
From Coq Require Import ZifyBool ZifyNat.
From Verif Require Import Bytes GoSlice ShardMap ShardMap_proofs Decimal ConnManager
  ConnLife Spec_ConnLife ConnLife_proofs ConnServer Spec_ConnServer ConnServer_proofs ConnServer2_proofs.
Import ListNotations.

(* --- small facts --- *)
Lemma life_cancelled c s l : lf_cancelled s = true -> lf_cancelled (fst (life_step c s l)) = true.
Proof.
  intros H. unfold life_step. destruct (lf_dead s); [exact H|].
  destruct l; [unfold main_step; destruct (lf_todo s) as [|i t]; [exact H|]; destruct i; unfold hook_panic|..];
    unfold stop_call; lcase; cbn; auto; congruence.
Qed.
Lemma set_nth_other {A} i j (x : A) l : j <> i -> nth_error (set_nth i x l) j = nth_error l j.
Proof. revert i j. induction l as [|y l IH]; intros [|i] [|j] H; cbn; auto; try congruence. Qed.
Lemma set_nth_same {A} i (x y : A) l : nth_error l i = Some y -> nth_error (set_nth i x l) i = Some x.
Proof. revert i. induction l as [|z l IH]; intros [|i] H; cbn in *; try discriminate; auto. Qed.
Lemma conn_step_frame c s i l : let s1 := fst (conn_step c s i l) in
  sv_tcp s1 = sv_tcp s /\ sv_kcp s1 = sv_kcp s /\ sv_ws s1 = sv_ws s /\ sv_stops s1 = sv_stops s /\
  sv_waiting s1 = sv_waiting s /\ sv_lclosed s1 = sv_lclosed s /\ sv_exit_closed s1 = sv_exit_closed s.
Proof. unfold conn_step. destruct (nth_error _ _); [|cbn; auto 10]. destruct (life_step _ _ _). cbn. auto 10. Qed.
Lemma conn_step_stopped c s i l j : conn_stopped s j -> conn_stopped (fst (conn_step c s i l)) j.
Proof.
  intros (n & E & H). unfold conn_step. destruct (nth_error (sv_conns s) i) as [m|] eqn:Em; [|now exists n].
  pose proof (life_cancelled (lcfg_of c (sn_kind m)) (sn_life m) l) as Hl. destruct (life_step _ _ _) as [lf es].
  unfold conn_stopped. cbn [fst sv_conns]. destruct (Nat.eq_dec j i) as [->|Hne].
  - rewrite E in Em. injection Em as <-. erewrite set_nth_same by exact E. eexists. split; [reflexivity|]. cbn. now apply Hl.
  - rewrite set_nth_other by exact Hne. now exists n.
Qed.
(* Everything but the accepting goroutines' own state is left alone by them. *)
Lemma accept_frame c k again s p ok : let '(s1, _, e) := accept_step c k again s p ok in
  sv_stops s1 = sv_stops s /\ sv_waiting s1 = sv_waiting s /\ sv_lclosed s1 = sv_lclosed s /\ sv_exit_closed s1 = sv_exit_closed s /\
  sv_crashed s1 = sv_crashed s /\ (forall j, conn_stopped s j -> conn_stopped s1 j) /\ (forall g, ~ In (SvReturned g) e) /\
  (exists x, sv_conns s1 = sv_conns s ++ x /\ forallb (fun n => negb (lf_dead (sn_life n))) x = true).
Proof.
  unfold accept_step.
  assert (K : forall s : srv, sv_stops s = sv_stops s /\ sv_waiting s = sv_waiting s /\ sv_lclosed s = sv_lclosed s /\ sv_exit_closed s = sv_exit_closed s /\
    sv_crashed s = sv_crashed s /\ (forall j, conn_stopped s j -> conn_stopped s j) /\ (forall g, ~ In (SvReturned g) []) /\
    (exists x, sv_conns s = sv_conns s ++ x /\ forallb (fun n => negb (lf_dead (sn_life n))) x = true)).
  { intros s0. do 5 (split; [reflexivity|]). split; [auto|]. split; [auto|]. exists []. now rewrite app_nil_r. }
  destruct p; [destruct (_ <=? _)|destruct k; [destruct (sv_lclosed s) eqn:El, ok|destruct ok|destruct (sv_lclosed s) eqn:El, ok]|..];
    try (pose proof (K s) as K1; rewrite ?El in K1 |- *; exact K1).
  cbn [with_acc sv_stops sv_waiting sv_lclosed sv_exit_closed sv_crashed sv_conns]. do 5 (split; [reflexivity|]). split; [|split].
  - intros j (n & E & Hc). exists n. split; [|exact Hc]. cbn. rewrite nth_error_app1; [exact E|]. apply nth_error_Some. congruence.
  - intros g [H|[]]; discriminate.
  - eexists. split; reflexivity.
Qed.
(* No connection's goroutine has ended the process. *)
Definition alive (s : srv) : Prop := forallb (fun n => negb (lf_dead (sn_life n))) (sv_conns s) = true.
Lemma alive_nth s i n : alive s -> nth_error (sv_conns s) i = Some n -> lf_dead (sn_life n) = false.
Proof. unfold alive. rewrite forallb_forall. intros H E. specialize (H n (nth_error_In _ _ E)). now destruct (lf_dead _). Qed.
Lemma conn_alive c s i l : alive s -> sv_crashed (fst (conn_step c s i l)) = false -> alive (fst (conn_step c s i l)).
Proof.
  intros H. unfold conn_step. destruct (nth_error (sv_conns s) i) as [n|] eqn:E; [|auto].
  destruct (life_step _ _ _) as [lf es]. cbn [fst sv_crashed]. intros Hc. apply orb_false_iff in Hc as [_ Hd].
  unfold alive in *. cbn [sv_conns]. destruct (set_nth_split i n _ E) as (a & b & E1 & _ & Hs). rewrite Hs. rewrite E1 in H.
  rewrite forallb_app in *. cbn in *. rewrite Hd. cbn. now destruct (negb _); [|rewrite andb_false_r in H].
Qed.

(* --- the connections managed at the call are stopped at the return --- *)
Definition reached (s : srv) (g : nat) (S : list nat) : Prop :=
  match nth_error (sv_stops s) g with
  | Some (PClear todo _) => forall i, In i S -> In i todo \/ conn_stopped s i
  | Some PSend | Some PClose => forall i, In i S -> conn_stopped s i
  | _ => True
  end.
Lemma drop_nth_case {A} k (l : list A) x y : nth_error l k = Some y -> In x l -> x = y \/ In x (drop_nth k l).
Proof.
  revert k. induction l as [|z l IH]; intros [|k] E H; cbn in *; try contradiction; try discriminate.
  - injection E as ->. destruct H; auto.
  - destruct H as [->|H]; [auto|]. destruct (IH k E H); auto.
Qed.
Lemma reached_other s s1 g S : nth_error (sv_stops s1) g = nth_error (sv_stops s) g -> (forall j, conn_stopped s j -> conn_stopped s1 j) ->
  reached s g S -> reached s1 g S.
Proof.
  unfold reached. intros -> Hs. destruct (nth_error (sv_stops s) g) as [[t ex| | |]|]; auto.
  intros H i Hi. destruct (H i Hi); auto.
Qed.
Lemma stop_reached c s g k h S : alive s -> reached s h S ->
  let '(s1, e) := stop_step c s g k in
  reached s1 h S /\ (forall j, conn_stopped s j -> conn_stopped s1 j) /\ (In (SvReturned h) e -> forall i, In i S -> conn_stopped s1 i).
Proof.
  intros A H. unfold stop_step.
  assert (K : reached s h S /\ (forall j, conn_stopped s j -> conn_stopped s j) /\ (In (SvReturned h) [] -> forall i, In i S -> conn_stopped s i)).
  { split; [exact H|]. split; [auto|intros []]. }
  destruct (nth_error (sv_stops s) g) as [p|] eqn:E; [|exact K].
  assert (P : forall q w l e (s2 : srv), sv_stops s2 = sv_stops s -> (forall j, conn_stopped s j -> conn_stopped s2 j) ->
     (h = g -> reached (with_stops s2 (set_nth g q (sv_stops s2)) w l e) g S) ->
     reached (with_stops s2 (set_nth g q (sv_stops s2)) w l e) h S).
  { intros q w l e s2 E2 Hs Hq. destruct (Nat.eq_dec h g) as [->|Hne]; [now apply Hq|].
    eapply reached_other; [|exact Hs|exact H]. cbn. rewrite E2, set_nth_other; auto. }
  assert (N : forall q w l e (s2 : srv), sv_stops s2 = sv_stops s -> nth_error (sv_stops (with_stops s2 (set_nth g q (sv_stops s2)) w l e)) g = Some q).
  { intros q w l e s2 E2. cbn. rewrite E2. eapply set_nth_same, E. }
  destruct p as [[|j0 t] ex| | |]; [|..|exact K].
  - destruct ex; (split; [|split; [auto|]]).
    + apply P; auto. intros ->. unfold reached in *. rewrite N by reflexivity. rewrite E in H.
      intros i Hi. destruct (H i Hi) as [[]|?]. auto.
    + intros [].
    + apply P; auto. intros ->. unfold reached. now rewrite N by reflexivity.
    + intros [Q|[]]. injection Q as ->. unfold reached in H. rewrite E in H.
      intros i Hi. destruct (H i Hi) as [[]|?]. auto.
  - destruct (nth_error (j0 :: t) k) as [i|] eqn:Ek; [|exact K].
    destruct (nth_error (sv_conns s) i) as [n|] eqn:En; [|exact K].
    destruct (lf_ctx (sn_life n)) eqn:Ec.
    + pose proof (conn_step_frame c s i LStop) as F. pose proof (conn_step_stopped c s i LStop) as Hs.
      assert (Hi : conn_stopped (fst (conn_step c s i LStop)) i).
      { unfold conn_step, life_step, stop_call, conn_stopped. rewrite En, (alive_nth s i n A En), Ec. cbn.
        erewrite set_nth_same by exact En. eexists. split; reflexivity. }
      destruct (conn_step c s i LStop) as [s1 e]. cbn [fst] in *. destruct F as (_ & _ & _ & F4 & _).
      split; [|split; [exact Hs|intros []]]. apply P; auto. intros ->. unfold reached in *. rewrite N by exact F4. rewrite E in H.
      intros x Hx. destruct (H x Hx) as [Ht|Ht]; [|right; now apply Hs].
      destruct (drop_nth_case k _ x i Ek Ht) as [->|Hd]; [right; exact Hi|now left].
    + split; [|split; [auto|intros [Q|[]]; discriminate]]. apply P; auto. intros ->. unfold reached. now rewrite N by reflexivity.
  - destruct (sv_exit_closed s); [|destruct (sv_waiting s); [|exact K]].
    + split; [|split; [auto|intros [Q|[]]; discriminate]]. apply P; auto. intros ->. unfold reached. now rewrite N by reflexivity.
    + split; [|split; [auto|intros []]]. apply P; auto. intros ->. unfold reached in *. rewrite N by reflexivity. rewrite E in H. exact H.
  - split; [|split; [auto|]].
    + apply P; auto. intros ->. unfold reached. now rewrite N by reflexivity.
    + intros [Q|[]]. injection Q as ->. unfold reached in H. rewrite E in H. exact H.
Qed.
Lemma step_reached c s l h S : alive s -> reached s h S -> h < length (sv_stops s) ->
  let '(s1, e) := srv_step c s l in
  reached s1 h S /\ (forall j, conn_stopped s j -> conn_stopped s1 j) /\ (In (SvReturned h) e -> forall i, In i S -> conn_stopped s1 i).
Proof.
  intros A H Hl.
  assert (K : reached s h S /\ (forall j, conn_stopped s j -> conn_stopped s j) /\ (In (SvReturned h) [] -> forall i, In i S -> conn_stopped s i)).
  { split; [exact H|]. split; [auto|intros []]. }
  assert (O : forall s1 e, nth_error (sv_stops s1) h = nth_error (sv_stops s) h -> (forall j, conn_stopped s j -> conn_stopped s1 j) ->
     ~ In (SvReturned h) e -> reached s1 h S /\ (forall j, conn_stopped s j -> conn_stopped s1 j) /\ (In (SvReturned h) e -> forall i, In i S -> conn_stopped s1 i)).
  { intros s1 e E Hs He. split; [|split; [exact Hs|contradiction]]. eapply reached_other; eauto. }
  unfold srv_step. destruct (sv_crashed s); [exact K|]. destruct l as [ok|ok| |i ok|i l| | |g k|].
  - destruct (has_tcp _); [|exact K]. pose proof (accept_frame c KTcp ACheck s (sv_tcp s) ok) as F.
    destruct (accept_step _ _ _ _ _ _) as [[s1 p1] e]. destruct F as (F1 & _ & _ & _ & _ & F6 & F7 & _).
    apply O; [cbn; now rewrite F1|exact F6|apply F7].
  - destruct (has_kcp _); [|exact K]. pose proof (accept_frame c KKcp ACheck s (sv_kcp s) ok) as F.
    destruct (accept_step _ _ _ _ _ _) as [[s1 p1] e]. destruct F as (F1 & _ & _ & _ & _ & F6 & F7 & _).
    apply O; [cbn; now rewrite F1|exact F6|apply F7].
  - destruct (has_ws _); [|exact K]. apply O; auto.
  - destruct (nth_error (sv_ws s) i) as [p|]; [|exact K]. pose proof (accept_frame c KWs AEnd s p ok) as F.
    destruct (accept_step _ _ _ _ _ _) as [[s1 p1] e]. destruct F as (F1 & _ & _ & _ & _ & F6 & F7 & _).
    apply O; [cbn; now rewrite F1|exact F6|apply F7].
  - pose proof (conn_step_frame c s i l) as F. pose proof (conn_step_stopped c s i l) as Hs.
    assert (Q : ~ In (SvReturned h) (snd (conn_step c s i l))).
    { unfold conn_step. destruct (nth_error (sv_conns s) i); [|intros []]. destruct (life_step _ _ _). cbn. rewrite in_map_iff. intros (x & Q & _). discriminate. }
    destruct (conn_step c s i l) as [s1 e]. cbn [fst snd] in *. destruct F as (_ & _ & _ & F4 & _). apply O; [now rewrite F4|exact Hs|exact Q].
  - apply O; auto. cbn. now rewrite nth_error_app1.
  - apply O; auto. cbn. now rewrite nth_error_app1.
  - now apply stop_reached.
  - destruct (_ && _); [|exact K]. apply O; auto.
Qed.
Lemma stops_grow c s l : length (sv_stops s) <= length (sv_stops (fst (srv_step c s l))).
Proof.
  unfold srv_step. destruct (sv_crashed s); [cbn; lia|]. destruct l as [ok|ok| |i ok|i l| | |g k|].
  - destruct (has_tcp _); [|cbn; lia]. pose proof (accept_frame c KTcp ACheck s (sv_tcp s) ok) as F.
    destruct (accept_step _ _ _ _ _ _) as [[s1 p1] e]. destruct F as (F1 & _). cbn. rewrite F1. lia.
  - destruct (has_kcp _); [|cbn; lia]. pose proof (accept_frame c KKcp ACheck s (sv_kcp s) ok) as F.
    destruct (accept_step _ _ _ _ _ _) as [[s1 p1] e]. destruct F as (F1 & _). cbn. rewrite F1. lia.
  - destruct (has_ws _); cbn; lia.
  - destruct (nth_error (sv_ws s) i) as [p|]; [|cbn; lia]. pose proof (accept_frame c KWs AEnd s p ok) as F.
    destruct (accept_step _ _ _ _ _ _) as [[s1 p1] e]. destruct F as (F1 & _). cbn. rewrite F1. lia.
  - pose proof (conn_step_frame c s i l) as (_ & _ & _ & F4 & _). rewrite F4. lia.
  - cbn. rewrite app_length. lia.
  - cbn. rewrite app_length. lia.
  - unfold stop_step. destruct (nth_error (sv_stops s) g) as [[[|j t] ex| | |]|]; try (cbn; lia).
    + destruct ex; cbn; rewrite set_nth_len; lia.
    + destruct (nth_error (j :: t) k) as [i|]; [|cbn; lia]. destruct (nth_error (sv_conns s) i); [|cbn; lia].
      destruct (lf_ctx _); [|cbn; rewrite set_nth_len; lia]. pose proof (conn_step_frame c s i LStop) as (_ & _ & _ & F4 & _).
      destruct (conn_step c s i LStop) as [s1 e]. cbn in *. rewrite F4, set_nth_len. lia.
    + destruct (sv_exit_closed s); [cbn; rewrite set_nth_len; lia|]. destruct (sv_waiting s); cbn; rewrite ?set_nth_len; lia.
    + cbn. rewrite set_nth_len. lia.
  - destruct (_ && _); cbn; lia.
Qed.
Lemma step_alive c s l : (sv_crashed s = false -> alive s) -> sv_crashed (fst (srv_step c s l)) = false -> alive (fst (srv_step c s l)).
Proof.
  intros H. unfold srv_step. destruct (sv_crashed s) eqn:Ec; [cbn; congruence|]. specialize (H eq_refl).
  assert (Acc : forall k again p ok, let '(s1, _, _) := accept_step c k again s p ok in alive s1).
  { intros k again p ok. pose proof (accept_frame c k again s p ok) as F. destruct (accept_step _ _ _ _ _ _) as [[s1 p1] e].
    destruct F as (_ & _ & _ & _ & _ & _ & _ & x & Ex & Hx). unfold alive in *. rewrite Ex, forallb_app, H, Hx. reflexivity. }
  destruct l as [ok|ok| |i ok|i l| | |g k|]; try (intros _; exact H).
  - destruct (has_tcp _); [|intros _; exact H]. specialize (Acc KTcp ACheck (sv_tcp s) ok). destruct (accept_step _ _ _ _ _ _) as [[s1 p1] e]. intros _. exact Acc.
  - destruct (has_kcp _); [|intros _; exact H]. specialize (Acc KKcp ACheck (sv_kcp s) ok). destruct (accept_step _ _ _ _ _ _) as [[s1 p1] e]. intros _. exact Acc.
  - destruct (has_ws _); intros _; exact H.
  - destruct (nth_error (sv_ws s) i) as [p|]; [|intros _; exact H]. specialize (Acc KWs AEnd p ok). destruct (accept_step _ _ _ _ _ _) as [[s1 p1] e]. intros _. exact Acc.
  - apply conn_alive. exact H.
  - unfold stop_step. destruct (nth_error (sv_stops s) g) as [[[|j t] ex| | |]|]; try (intros _; exact H).
    + destruct ex; intros _; exact H.
    + destruct (nth_error (j :: t) k) as [i|]; [|intros _; exact H]. destruct (nth_error (sv_conns s) i); [|intros _; exact H].
      destruct (lf_ctx _); [|intros _; exact H]. pose proof (conn_alive c s i LStop H) as Q.
      destruct (conn_step c s i LStop) as [s1 e]. cbn in *. exact Q.
    + destruct (sv_exit_closed s); [intros _; exact H|]. destruct (sv_waiting s); intros _; exact H.
  - destruct (_ && _); intros _; exact H.
Qed.
Lemma run_alive c ls s : (sv_crashed s = false -> alive s) -> sv_crashed (fst (srv_run c s ls)) = false -> alive (fst (srv_run c s ls)).
Proof. exact (srv_inv c (fun s => sv_crashed s = false -> alive s) (step_alive c) ls s). Qed.
Lemma run_reached c h S : forall ls s, (sv_crashed s = false -> alive s) -> reached s h S -> h < length (sv_stops s) ->
  (forall j, conn_stopped s j -> conn_stopped (fst (srv_run c s ls)) j) /\
  (In (SvReturned h) (snd (srv_run c s ls)) -> forall i, In i S -> conn_stopped (fst (srv_run c s ls)) i).
Proof.
  induction ls as [|l ls IH]; intros s A H Hl; cbn [srv_run]; [split; [auto|intros []]|].
  destruct (sv_crashed s) eqn:Ec.
  - assert (E : srv_step c s l = (s, [])) by (unfold srv_step; now rewrite Ec). rewrite E.
    assert (A' : sv_crashed s = false -> alive s) by congruence.
    specialize (IH s A' H Hl). destruct (srv_run c s ls) as [s2 es]. exact IH.
  - pose proof (step_reached c s l h S (A eq_refl) H Hl) as R. pose proof (step_alive c s l) as A1. pose proof (stops_grow c s l) as G.
    destruct (srv_step c s l) as [s1 e]. cbn [fst] in *. destruct R as (R1 & R2 & R3).
    assert (A' : sv_crashed s1 = false -> alive s1) by (apply A1; intros _; now apply A).
    specialize (IH s1 A' R1 ltac:(lia)). destruct (srv_run c s1 ls) as [s2 es]. cbn [fst snd] in *. destruct IH as [I1 I2].
    split; [auto|]. rewrite in_app_iff. intros [Q|Q] i Hi; [apply I1; eauto|auto].
Qed.

(* --- what ClearConn's snapshot holds --- *)
Definition objs (s : srv) : Prop := map (fun n => cn_obj (sn_conn n)) (sv_conns s) = seq 0 (length (sv_conns s)).
Lemma conn_step_objs c s i l : objs s -> objs (fst (conn_step c s i l)).
Proof.
  unfold objs, conn_step. destruct (nth_error (sv_conns s) i) as [n|] eqn:E; [|auto]. destruct (life_step _ _ _). cbn.
  destruct (set_nth_split i n _ E) as (a & b & E1 & _ & Hs). rewrite Hs, E1, !map_app, !app_length. auto.
Qed.
Lemma step_objs c s l : objs s -> objs (fst (srv_step c s l)).
Proof.
  intros H. unfold srv_step. destruct (sv_crashed s); [exact H|].
  assert (Acc : forall k again p ok, let '(s1, _, _) := accept_step c k again s p ok in objs s1).
  { intros k again p ok. unfold accept_step. destruct p; [destruct (_ <=? _)|destruct k; [destruct (sv_lclosed s), ok|destruct ok|destruct (sv_lclosed s), ok]|..]; try exact H.
    unfold objs in *. cbn. rewrite map_app, app_length, H, seq_app. reflexivity. }
  destruct l as [ok|ok| |i ok|i l| | |g k|]; try exact H.
  - destruct (has_tcp _); [|exact H]. specialize (Acc KTcp ACheck (sv_tcp s) ok). destruct (accept_step _ _ _ _ _ _) as [[s1 p1] e]. exact Acc.
  - destruct (has_kcp _); [|exact H]. specialize (Acc KKcp ACheck (sv_kcp s) ok). destruct (accept_step _ _ _ _ _ _) as [[s1 p1] e]. exact Acc.
  - destruct (has_ws _); exact H.
  - destruct (nth_error (sv_ws s) i) as [p|]; [|exact H]. specialize (Acc KWs AEnd p ok). destruct (accept_step _ _ _ _ _ _) as [[s1 p1] e]. exact Acc.
  - now apply conn_step_objs.
  - unfold stop_step. destruct (nth_error (sv_stops s) g) as [[[|j t] ex| | |]|]; try exact H.
    + destruct ex; exact H.
    + destruct (nth_error (j :: t) k) as [i|]; [|exact H]. destruct (nth_error (sv_conns s) i); [|exact H].
      destruct (lf_ctx _); [|exact H]. pose proof (conn_step_objs c s i LStop H) as Q. destruct (conn_step c s i LStop) as [s1 e]. exact Q.
    + destruct (sv_exit_closed s); [exact H|]. destruct (sv_waiting s); exact H.
  - destruct (_ && _); exact H.
Qed.
Lemma gm_get_found {V} k (g : gomap V) v : gm_get k g = Some v -> exists k', In (k', v) g.
Proof.
  induction g as [|[k' v'] g IH]; cbn; [discriminate|]. destruct (key_eqb k' k).
  - intros E. injection E as ->. eauto.
  - intros E. destruct (IH E) as (x & H). eauto.
Qed.
Lemma managed_snapshot s i : objs s -> managed s i -> In i (snapshot s).
Proof.
  intros Ho (n & E & H). unfold cm_get, sm_get in H. apply gm_get_found in H as (k & H). unfold get_shard in H.
  apply in_nth_concat in H. unfold snapshot, sm_entries. apply in_map_iff. exists (k, sn_conn n). split; [|exact H]. cbn.
  pose proof (map_nth_error (fun n => cn_obj (sn_conn n)) _ _ E) as Q. rewrite Ho in Q.
  assert (i < length (sv_conns s)) by (apply nth_error_Some; congruence).
  rewrite (nth_error_nth' _ 0) in Q by now rewrite seq_length. rewrite seq_nth in Q by assumption. cbn in Q. congruence.
Qed.

(* --- the calls of ClearConn and Server.Stop, and what their returning means --- *)
Definition listener (c : scfg) : bool := has_tcp (sf_mode c) || has_kcp (sf_mode c).
Record jinv (c : scfg) (k : list slabel) (s : srv) (tr : list sev) : Prop := {
  j_len : sv_crashed s = false -> length (sv_stops s) = length k;
  j_le : length (sv_stops s) <= length k;
  j_pc : forall g p, nth_error (sv_stops s) g = Some p ->
    match p with
    | PClear _ ex => nth_error k g = Some (if ex then SStopCall else SClearCall)
    | PSend | PClose => nth_error k g = Some SStopCall
    | PDone => In (SvReturned g) tr \/ exists x, In x tr /\ stop_panic x
    end;
  j_wait : sv_waiting s = true -> listener c = true /\ sv_exit_closed s = false /\ forall g, nth_error (sv_stops s) g <> Some PClose;
  j_gone : listener c = true -> sv_waiting s = false -> sv_exit_closed s = true \/ exists g, nth_error (sv_stops s) g = Some PClose;
  j_close : forall g, nth_error (sv_stops s) g = Some PClose ->
    listener c = true /\ sv_exit_closed s = false /\ forall h, nth_error (sv_stops s) h = Some PClose -> h = g;
  j_ret : forall g, In (SvReturned g) tr -> g < length (sv_stops s) /\
    (nth_error k g = Some SStopCall -> listener c = true /\ sv_exit_closed s = true);
  j_once : forall g h, In (SvReturned g) tr -> In (SvReturned h) tr -> nth_error k g = Some SStopCall -> nth_error k h = Some SStopCall -> g = h
}.
Lemma j_frame c k s tr s1 e : jinv c k s tr -> sv_stops s1 = sv_stops s -> sv_waiting s1 = sv_waiting s -> sv_exit_closed s1 = sv_exit_closed s ->
  (sv_crashed s1 = false -> sv_crashed s = false) -> (forall g, ~ In (SvReturned g) e) -> jinv c k s1 (tr ++ e).
Proof.
  intros [J1 J2 J3 J4 J5 J6 J7 J8] E1 E2 E3 E4 E5.
  assert (R : forall g, In (SvReturned g) (tr ++ e) -> In (SvReturned g) tr).
  { intros g H. apply in_app_iff in H as [H|H]; [exact H|]. destruct (E5 _ H). }
  split; rewrite ?E1, ?E2, ?E3; auto.
  - intros g p H. specialize (J3 g p H). destruct p; auto. destruct J3 as [J3|(x & J3 & P)]; [left|right; exists x; split; [|exact P]]; apply in_app_iff; auto.
Qed.
Lemma j_call c k s tr l todo : jinv c k s tr -> sv_crashed s = false -> l = SClearCall \/ l = SStopCall ->
  jinv c (k ++ [l]) (with_stops s (sv_stops s ++ [PClear todo (match l with SStopCall => true | _ => false end)]) (sv_waiting s) (sv_lclosed s) (sv_exit_closed s)) tr.
Proof.
  intros [J1 J2 J3 J4 J5 J6 J7 J8] Hc Hl. specialize (J1 Hc).
  assert (N : forall g p, nth_error (sv_stops s ++ [PClear todo (match l with SStopCall => true | _ => false end)]) g = Some p ->
    nth_error (sv_stops s) g = Some p /\ g < length (sv_stops s) \/ g = length (sv_stops s) /\ p = PClear todo (match l with SStopCall => true | _ => false end)).
  { intros g p H. destruct (Nat.lt_ge_cases g (length (sv_stops s))).
    - left. split; [|assumption]. now rewrite nth_error_app1 in H.
    - right. rewrite nth_error_app2 in H by assumption. destruct (g - length (sv_stops s)) as [|[|m]] eqn:E; cbn in H; try discriminate.
      split; [lia|congruence]. }
  assert (N1 : forall g, nth_error (sv_stops s) g = Some PClose -> nth_error (sv_stops s ++ [PClear todo (match l with SStopCall => true | _ => false end)]) g = Some PClose).
  { intros g H. rewrite nth_error_app1; [exact H|]. apply nth_error_Some. congruence. }
  split; cbn [with_stops sv_stops sv_waiting sv_exit_closed sv_crashed].
  - intros _. rewrite !app_length, J1. reflexivity.
  - rewrite !app_length. cbn. lia.
  - intros g p H. apply N in H as [[H Hg]|[-> ->]].
    + specialize (J3 g p H). destruct p; auto; rewrite nth_error_app1 by lia; exact J3.
    + rewrite nth_error_app2 by lia. rewrite J1, Nat.sub_diag. destruct Hl as [-> | ->]; reflexivity.
  - intros H. destruct (J4 H) as (A & B & D). split; [exact A|]. split; [exact B|]. intros g Q. apply N in Q as [[Q _]|[_ Q]]; [now apply (D g)|discriminate].
  - intros L H. destruct (J5 L H) as [A|[g A]]; [now left|right]. exists g. now apply N1.
  - intros g H. apply N in H as [[H _]|[_ H]]; [|discriminate]. destruct (J6 g H) as (A & B & D). split; [exact A|]. split; [exact B|].
    intros h Q. apply N in Q as [[Q _]|[_ Q]]; [auto|discriminate].
  - intros g H. destruct (J7 g H) as [A B]. rewrite app_length. cbn. split; [lia|]. rewrite nth_error_app1 by lia. exact B.
  - intros g h H H'. destruct (J7 g H) as [A _]. destruct (J7 h H') as [A' _]. rewrite !nth_error_app1 by lia. now apply J8.
Qed.
Lemma j_stop c k s tr g x : jinv c k s tr -> sv_crashed s = false ->
  sv_crashed (fst (stop_step c s g x)) = false -> jinv c k (fst (stop_step c s g x)) (tr ++ snd (stop_step c s g x)).
Proof.
  intros J Hcr. unfold stop_step.
  assert (K : jinv c k s (tr ++ [])) by (now rewrite app_nil_r).
  destruct (nth_error (sv_stops s) g) as [p|] eqn:E; [|intros _; exact K].
  pose proof J as [J1 J2 J3 J4 J5 J6 J7 J8]. specialize (J1 Hcr).
  (* replacing position g *)
  assert (Lg : g < length (sv_stops s)) by (apply nth_error_Some; congruence).
  assert (N : forall h q r, nth_error (set_nth g q (sv_stops s)) h = Some r -> h = g /\ r = q \/ h <> g /\ nth_error (sv_stops s) h = Some r).
  { intros h q r H. destruct (Nat.eq_dec h g) as [->|Hne]; [|right; now rewrite set_nth_other in H].
    left. erewrite set_nth_same in H by exact E. split; [reflexivity|congruence]. }
  assert (N1 : forall h q, nth_error (sv_stops s) h = Some PClose -> p <> PClose -> nth_error (set_nth g q (sv_stops s)) h = Some PClose).
  { intros h q H Hp. rewrite set_nth_other; [exact H|]. intros ->. congruence. }
  assert (Rep : forall q e, p <> PClose -> q <> PClose ->
     (forall h, In (SvReturned h) e -> h = g /\ nth_error k g <> Some SStopCall) ->
     match q with
     | PClear _ ex => nth_error k g = Some (if ex then SStopCall else SClearCall)
     | PSend | PClose => nth_error k g = Some SStopCall
     | PDone => In (SvReturned g) e \/ exists x, In x e /\ stop_panic x
     end ->
     forall s1, sv_crashed s1 = false -> sv_stops s1 = set_nth g q (sv_stops s) -> sv_waiting s1 = sv_waiting s -> sv_exit_closed s1 = sv_exit_closed s ->
     jinv c k s1 (tr ++ e)).
  { intros q e Hp Hq He Hpc s1 Hcr1 E1 E2 E3.
    assert (R : forall h, In (SvReturned h) (tr ++ e) -> In (SvReturned h) tr \/ h = g /\ nth_error k g <> Some SStopCall).
    { intros h H. apply in_app_iff in H as [H|H]; auto. }
    split; rewrite ?E1, ?E2, ?E3; rewrite ?set_nth_len; auto.
    - intros h r H. apply N in H as [[-> ->]|[_ H]].
      + destruct q; auto. destruct Hpc as [Q|(y & Q & P)]; [left|right; exists y; split; [|exact P]]; apply in_app_iff; auto.
      + specialize (J3 h r H). destruct r; auto. destruct J3 as [Q|(y & Q & P)]; [left|right; exists y; split; [|exact P]]; apply in_app_iff; auto.
    - intros H. destruct (J4 H) as (A & B & D). split; [exact A|]. split; [exact B|]. intros h Q. apply N in Q as [[_ Q]|[_ Q]]; [congruence|now apply (D h)].
    - intros L H. destruct (J5 L H) as [A|[h A]]; [now left|right]. exists h. now apply N1.
    - intros h H. apply N in H as [[_ H]|[_ H]]; [congruence|]. destruct (J6 h H) as (A & B & D). split; [exact A|]. split; [exact B|].
      intros h' Q. apply N in Q as [[_ Q]|[_ Q]]; [congruence|auto].
    - intros h H. apply R in H as [H|[-> H]]; [now apply J7|]. split; [exact Lg|]. contradiction.
    - intros h h' H H' Q Q'. apply R in H as [H|[-> H]]; [|contradiction]. apply R in H' as [H'|[-> H']]; [|contradiction]. auto. }
  pose proof (J3 g p E) as Hp. destruct p as [[|j t] ex| | |]; [..|intros _; exact K].
  - destruct ex; intros Hc1; cbn [fst snd] in *.
    + eapply (Rep PSend []); try discriminate; try reflexivity; auto. intros h [].
    + eapply (Rep PDone [SvReturned g]); try discriminate; try reflexivity; auto.
      * intros h [Q|[]]. injection Q as ->. split; [reflexivity|congruence].
      * left. now left.
  - destruct (nth_error (j :: t) x) as [i|]; [|intros _; exact K].
    destruct (nth_error (sv_conns s) i) as [n|] eqn:En; [|intros _; exact K].
    destruct (lf_ctx (sn_life n)) eqn:Ec.
    + pose proof (conn_step_frame c s i LStop) as F. destruct (conn_step c s i LStop) as [s1 e]. cbn [fst snd] in *. destruct F as (_ & _ & _ & F4 & F5 & _ & F7).
      intros Hc1. eapply (Rep (PClear (drop_nth x (j :: t)) ex) []); try discriminate; auto; [intros h []|cbn; now rewrite F4].
    + intros Hc1. cbn [fst snd] in *. eapply (Rep PDone [SvClearPanic i]); try discriminate; try reflexivity; auto.
      * intros h [Q|[]]. discriminate.
      * right. eexists. split; [now left|]. left. eauto.
  - destruct (sv_exit_closed s) eqn:Ex; [|destruct (sv_waiting s) eqn:Ew].
    + intros Hc1. cbn [fst snd] in *. eapply (Rep PDone [SvSendPanic]); try discriminate; auto.
      * intros h [Q|[]]. discriminate.
      * right. eexists. split; [now left|]. now right.
    + intros Hc1. cbn [fst snd] in *. rewrite app_nil_r. destruct (J4 eq_refl) as (A & _ & D).
      split; cbn [with_stops sv_stops sv_waiting sv_exit_closed sv_crashed]; rewrite ?set_nth_len; auto.
      * intros h r H. apply N in H as [[-> ->]|[_ H]]; [exact Hp|]. now apply J3.
      * discriminate.
      * intros _ _. right. exists g. eapply set_nth_same, E.
      * intros h H. split; [exact A|]. split; [auto|]. intros h' H'.
        apply N in H as [[-> _]|[_ H]]; [|destruct (D h H)]. apply N in H' as [[-> _]|[_ H']]; [reflexivity|destruct (D h' H')].
    + intros _. exact K.
  - intros Hc1. cbn [fst snd] in *. destruct (J6 g E) as (A & B & D).
    assert (W : sv_waiting s = false). { destruct (sv_waiting s); [|reflexivity]. destruct (J4 eq_refl) as (_ & _ & Q). destruct (Q g E). }
    assert (NoR : forall h, In (SvReturned h) tr -> nth_error k h = Some SStopCall -> False).
    { intros h H Q. destruct (J7 h H) as [_ Q1]. destruct (Q1 Q). congruence. }
    split; cbn [with_stops sv_stops sv_waiting sv_exit_closed sv_crashed]; rewrite ?set_nth_len; auto.
    + intros h r H. apply N in H as [[-> ->]|[_ H]]; [left; apply in_app_iff; right; now left|].
      specialize (J3 h r H). destruct r; auto. destruct J3 as [Q|(y & Q & P)]; [left|right; exists y; split; [|exact P]]; apply in_app_iff; auto.
    + congruence.
    + intros h H. apply N in H as [[_ H]|[Hne H]]; [discriminate|]. destruct (Hne (D h H)).
    + intros h H. apply in_app_iff in H as [H|[H|[]]].
      * destruct (J7 h H). split; [assumption|]. auto.
      * injection H as <-. auto.
    + intros h h' H H' Q Q'. apply in_app_iff in H as [H|[H|[]]]; [destruct (NoR h H Q)|]. apply in_app_iff in H' as [H'|[H'|[]]]; [destruct (NoR h' H' Q')|]. congruence.
Qed.
Lemma j_grow c k s tr x : jinv c k s tr -> sv_crashed s = true -> jinv c (k ++ x) s tr.
Proof.
  intros [J1 J2 J3 J4 J5 J6 J7 J8] Hc. split; auto.
  - congruence.
  - rewrite app_length. lia.
  - intros g p H. specialize (J3 g p H). assert (g < length (sv_stops s)) by (apply nth_error_Some; congruence).
    destruct p; auto; rewrite nth_error_app1 by lia; exact J3.
  - intros g H. destruct (J7 g H) as [A B]. rewrite nth_error_app1 by lia. auto.
  - intros g h H H'. destruct (J7 g H) as [A _]. destruct (J7 h H') as [A' _]. rewrite !nth_error_app1 by lia. now apply J8.
Qed.
Lemma stop_no_crash c s g k : alive s -> sv_crashed s = false -> sv_crashed (fst (stop_step c s g k)) = false.
Proof.
  intros A Hc. unfold stop_step. destruct (nth_error (sv_stops s) g) as [[[|j t] ex| | |]|]; try exact Hc.
  - destruct ex; exact Hc.
  - destruct (nth_error (j :: t) k) as [i|]; [|exact Hc]. destruct (nth_error (sv_conns s) i) as [n|] eqn:En; [|exact Hc].
    destruct (lf_ctx _) eqn:Ec; [|exact Hc]. unfold conn_step, life_step, stop_call. rewrite En, (alive_nth s i n A En), Ec. cbn.
    now rewrite Hc, (alive_nth s i n A En).
  - destruct (sv_exit_closed s); [exact Hc|]. destruct (sv_waiting s); exact Hc.
Qed.
Lemma j_step c k s tr l : jinv c k s tr -> (sv_crashed s = false -> alive s) ->
  jinv c (k ++ calls [l]) (fst (srv_step c s l)) (tr ++ snd (srv_step c s l)).
Proof.
  intros J A. unfold srv_step. destruct (sv_crashed s) eqn:Ec; [cbn [fst snd]; rewrite app_nil_r; now apply j_grow|]. specialize (A eq_refl).
  assert (K : jinv c (k ++ []) s (tr ++ [])) by (now rewrite !app_nil_r).
  destruct l as [ok|ok| |i ok|i l| | |g x|]; cbn [calls filter is_call].
  - destruct (has_tcp _); [|exact K]. pose proof (accept_frame c KTcp ACheck s (sv_tcp s) ok) as F.
    destruct (accept_step _ _ _ _ _ _) as [[s1 p1] e]. destruct F as (F1 & F2 & _ & F3 & F4 & _ & F5 & _). cbn [fst snd]. rewrite app_nil_r.
    eapply j_frame; eauto; cbn; congruence.
  - destruct (has_kcp _); [|exact K]. pose proof (accept_frame c KKcp ACheck s (sv_kcp s) ok) as F.
    destruct (accept_step _ _ _ _ _ _) as [[s1 p1] e]. destruct F as (F1 & F2 & _ & F3 & F4 & _ & F5 & _). cbn [fst snd]. rewrite app_nil_r.
    eapply j_frame; eauto; cbn; congruence.
  - destruct (has_ws _); [|exact K]. cbn [fst snd]. rewrite app_nil_r. eapply j_frame; eauto.
  - destruct (nth_error (sv_ws s) i) as [p|]; [|exact K]. pose proof (accept_frame c KWs AEnd s p ok) as F.
    destruct (accept_step _ _ _ _ _ _) as [[s1 p1] e]. destruct F as (F1 & F2 & _ & F3 & F4 & _ & F5 & _). cbn [fst snd]. rewrite app_nil_r.
    eapply j_frame; eauto; cbn; congruence.
  - rewrite app_nil_r. pose proof (conn_step_frame c s i l) as (_ & _ & _ & F4 & F5 & _ & F7). eapply j_frame; eauto.
    intros h. unfold conn_step. destruct (nth_error (sv_conns s) i); [|intros []]. destruct (life_step _ _ _). cbn. rewrite in_map_iff. intros (y & Q & _). discriminate.
  - cbn [fst snd]. rewrite app_nil_r. eapply (j_call c k s tr SClearCall); auto.
  - cbn [fst snd]. rewrite app_nil_r. eapply (j_call c k s tr SStopCall); auto.
  - rewrite app_nil_r. apply j_stop; auto. now apply stop_no_crash.
  - destruct (_ && _); [|exact K]. cbn [fst snd]. rewrite app_nil_r. eapply j_frame; eauto.
Qed.
Lemma j_run c : forall ls k s tr, jinv c k s tr -> (sv_crashed s = false -> alive s) ->
  jinv c (k ++ calls ls) (fst (srv_run c s ls)) (tr ++ snd (srv_run c s ls)).
Proof.
  induction ls as [|l ls IH]; intros k s tr J A; cbn [srv_run]; [cbn; now rewrite !app_nil_r|].
  pose proof (j_step c k s tr l J A) as J1. pose proof (step_alive c s l A) as A1. destruct (srv_step c s l) as [s1 e]. cbn [fst snd] in *.
  specialize (IH _ _ _ J1 A1). destruct (srv_run c s1 ls) as [s2 es]. cbn [fst snd] in *. rewrite <- !app_assoc in IH.
  replace (calls (l :: ls)) with (calls [l] ++ calls ls); [exact IH|]. unfold calls. cbn. now destruct (is_call l).
Qed.
Lemma new_alive c : sv_crashed (srv_new c) = false -> alive (srv_new c).
Proof. reflexivity. Qed.
Lemma j_new c : jinv c [] (srv_new c) [].
Proof.
  split; cbn; auto; try (intros [|]; discriminate); try contradiction.
  - intros H. split; [exact H|]. split; [reflexivity|]. intros [|]; discriminate.
  - unfold listener. intros ->. discriminate.
Qed.
Lemma j_start c ls : jinv c (calls ls) (fst (srv_run c (srv_new c) ls)) (snd (srv_run c (srv_new c) ls)).
Proof. exact (j_run c ls [] (srv_new c) [] (j_new c) (new_alive c)). Qed.

Lemma srv_run_app c a : forall b s, srv_run c s (a ++ b) =
  (fst (srv_run c (fst (srv_run c s a)) b), snd (srv_run c s a) ++ snd (srv_run c (fst (srv_run c s a)) b)).
Proof.
  induction a as [|l a IH]; intros b s; cbn [srv_run app fst snd]; [now destruct (srv_run c s b)|].
  destruct (srv_step c s l) as [s1 e]. rewrite IH. destruct (srv_run c s1 a) as [s2 es]. cbn. now rewrite app_assoc.
Qed.

(* --- a call that returns has stopped every connection managed when it began --- *)
Lemma all_stopped c a l b i : let s := fst (srv_run c (srv_new c) a) in
  is_call l = true -> managed s i -> In (SvReturned (length (calls a))) (snd (srv_run c s (l :: b))) ->
  conn_stopped (fst (srv_run c s (l :: b))) i.
Proof.
  cbv zeta. set (s := fst (srv_run c (srv_new c) a)). intros Hl Hm.
  pose proof (j_start c a) as J. fold s in J.
  assert (A : sv_crashed s = false -> alive s) by (apply run_alive, new_alive).
  assert (O : objs s) by (apply (srv_inv c objs (step_objs c)); reflexivity).
  cbn [srv_run]. pose proof (step_alive c s l A) as A1.
  destruct (sv_crashed s) eqn:Ec.
  - assert (N : forall l, srv_step c s l = (s, [])) by (intros l'; unfold srv_step; now rewrite Ec). rewrite N.
    assert (N1 : forall ls, srv_run c s ls = (s, [])) by (induction ls as [|l' ls IH]; cbn; [reflexivity|]; now rewrite N, IH). rewrite N1. intros [].
  - pose proof (j_len _ _ _ _ J Ec) as L. pose proof (managed_snapshot s i O Hm) as Hi. rewrite <- L.
    assert (exists s1, srv_step c s l = (s1, []) /\ reached s1 (length (sv_stops s)) (snapshot s) /\ length (sv_stops s) < length (sv_stops s1)) as (s1 & E & R & Lt).
    { unfold srv_step. rewrite Ec. destruct l; try discriminate; eexists; (split; [reflexivity|]); unfold reached; cbn [with_stops sv_stops];
        (rewrite nth_error_app2, Nat.sub_diag by lia; cbn; rewrite app_length; cbn; split; [auto|lia]). }
    rewrite E in *. cbn [fst snd] in *.
    destruct (run_reached c (length (sv_stops s)) (snapshot s) b s1 A1 R Lt) as [_ Q].
    destruct (srv_run c s1 b) as [s2 es]. cbn [fst snd] in *. intros H. now apply Q.
Qed.
(* --- Server.Stop returns at most once, never without a Tcp or Kcp listener, and the listener then closes --- *)
Lemma stop_once c ls g h : let tr := snd (srv_run c (srv_new c) ls) in
  In (SvReturned g) tr -> In (SvReturned h) tr -> nth_error (calls ls) g = Some SStopCall -> nth_error (calls ls) h = Some SStopCall -> g = h.
Proof. cbv zeta. apply (j_once _ _ _ _ (j_start c ls)). Qed.
Lemma stop_closes c ls g : sv_crashed (fst (srv_run c (srv_new c) ls)) = false ->
  nth_error (calls ls) g = Some SStopCall -> In (SvReturned g) (snd (srv_run c (srv_new c) ls)) ->
  listener c = true /\ sv_lclosed (fst (srv_run c (srv_new c) (ls ++ [SListener]))) = true.
Proof.
  intros Hc Hg Hr. pose proof (j_start c ls) as J. destruct (j_ret _ _ _ _ J g Hr) as [_ Q]. destruct (Q Hg) as [L X]. split; [exact L|].
  rewrite srv_run_app. cbn [fst srv_run]. unfold srv_step. rewrite Hc. unfold listener in L. rewrite L.
  destruct (sv_waiting (fst (srv_run c (srv_new c) ls))) eqn:W; [|reflexivity]. destruct (j_wait _ _ _ _ J W) as (_ & Y & _). congruence.
Qed.
Lemma stop_hangs c ls g : sf_mode c = ServeWs -> nth_error (calls ls) g = Some SStopCall -> ~ In (SvReturned g) (snd (srv_run c (srv_new c) ls)).
Proof.
  intros M Hg Hr. destruct (j_ret _ _ _ _ (j_start c ls) g Hr) as [_ Q]. destruct (Q Hg) as [L _]. unfold listener in L. rewrite M in L. discriminate.
Qed.

(* --- after the listener is closed --- *)
Definition past (p : apc) : nat := match p with AId | AAdd _ => 1 | _ => 0 end.
Record pastinv (c : scfg) (s : srv) (n : nat) : Prop := { pi_ws : sv_ws s = []; pi_closed : sv_lclosed s = true; pi_n : past (if has_tcp (sf_mode c) then sv_tcp s else sv_kcp s) <= n }.
Lemma accept_past c again s p ok : past again = 0 -> sv_lclosed s = true ->
  let '(s1, p1, e) := accept_step c KTcp again s p ok in
  past p1 + added e <= past p /\ sv_ws s1 = sv_ws s /\ sv_lclosed s1 = true /\ sv_tcp s1 = sv_tcp s /\ sv_kcp s1 = sv_kcp s.
Proof.
  intros Ha Hl. unfold accept_step. destruct p; [destruct (_ <=? _)|rewrite Hl|..]; cbn -[past]; rewrite ?Ha; cbn; auto.
Qed.
Lemma past_step c s l n : sf_mode c = ServeTcp -> pastinv c s n ->
  exists m, pastinv c (fst (srv_step c s l)) m /\ m + added (snd (srv_step c s l)) <= n.
Proof.
  intros M H. assert (K : exists m, pastinv c s m /\ m + 0 <= n) by (exists n; split; [exact H|lia]).
  destruct H as [W L N].
  unfold srv_step. destruct (sv_crashed s); [exact K|]. destruct l as [ok|ok| |i ok|i l| | |g x|].
  - destruct (has_tcp (sf_mode c)) eqn:T; [|exact K]. pose proof (accept_past c ACheck s (sv_tcp s) ok eq_refl L) as A.
    destruct (accept_step _ _ _ _ _ _) as [[s1 p1] e]. destruct A as (A1 & A2 & A3 & A4 & A5). cbn [fst snd].
    exists (past p1). split; [|lia]. split; cbn; [congruence|exact A3|now rewrite T].
  - rewrite M. exact K.
  - rewrite M. exact K.
  - rewrite W. destruct i; exact K.
  - pose proof (conn_step_frame c s i l) as (F1 & F2 & F3 & _ & _ & F6 & _). exists n. split; [split; [congruence|congruence|]|].
    + rewrite F1, F2. exact N.
    + replace (added (snd (conn_step c s i l))) with 0; [lia|]. unfold conn_step. destruct (nth_error (sv_conns s) i); [|reflexivity].
      destruct (life_step _ _ _) as [lf es]. cbn. clear. unfold added. induction es; cbn; auto.
  - exists n. split; [split; auto|cbn; lia].
  - exists n. split; [split; auto|cbn; lia].
  - unfold stop_step. destruct (nth_error (sv_stops s) g) as [[[|j t] ex| | |]|]; try exact K.
    + destruct ex; (exists n; split; [split; auto|cbn; lia]).
    + destruct (nth_error (j :: t) x) as [i|]; [|exact K]. destruct (nth_error (sv_conns s) i); [|exact K].
      destruct (lf_ctx _); [|exists n; split; [split; auto|cbn; lia]]. pose proof (conn_step_frame c s i LStop) as (F1 & F2 & F3 & _ & _ & F6 & _).
      destruct (conn_step c s i LStop) as [s1 e]. cbn [fst snd] in *. exists n. split; [split; cbn; try congruence|cbn; lia]. rewrite F1, F2. exact N.
    + destruct (sv_exit_closed s); [exists n; split; [split; auto|cbn; lia]|]. destruct (sv_waiting s); [exists n; split; [split; auto|cbn; lia]|exact K].
    + exists n. split; [split; auto|cbn; lia].
  - destruct (_ && _); [|exact K]. exists n. split; [split; auto|cbn; lia].
Qed.
Lemma past_run c : sf_mode c = ServeTcp -> forall ls s n, pastinv c s n -> added (snd (srv_run c s ls)) <= n.
Proof.
  intros M. induction ls as [|l ls IH]; intros s n H; cbn [srv_run]; [cbn; lia|].
  destruct (past_step c s l n M H) as (m & Hm & Hn). destruct (srv_step c s l) as [s1 e]. cbn [fst snd] in *. specialize (IH s1 m Hm).
  destruct (srv_run c s1 ls) as [s2 es]. cbn [snd] in *. unfold added in *. rewrite filter_app, app_length. lia.
Qed.
Lemma no_ws_step c s l : has_ws (sf_mode c) = false -> sv_ws s = [] -> sv_ws (fst (srv_step c s l)) = [].
Proof.
  intros T W. unfold srv_step. destruct (sv_crashed s); [exact W|].
  assert (Acc : forall k again p ok, let '(s1, _, _) := accept_step c k again s p ok in sv_ws s1 = sv_ws s).
  { intros k again p ok. unfold accept_step. destruct p; [destruct (_ <=? _)|destruct k; [destruct (sv_lclosed s), ok|destruct ok|destruct ok]|..]; reflexivity. }
  destruct l as [ok|ok| |i ok|i l| | |g k|]; try exact W.
  - destruct (has_tcp _); [|exact W]. specialize (Acc KTcp ACheck (sv_tcp s) ok). destruct (accept_step _ _ _ _ _ _) as [[s1 p1] e]. cbn. congruence.
  - destruct (has_kcp _); [|exact W]. specialize (Acc KKcp ACheck (sv_kcp s) ok). destruct (accept_step _ _ _ _ _ _) as [[s1 p1] e]. cbn. congruence.
  - now rewrite T.
  - rewrite W. destruct i; exact W.
  - pose proof (conn_step_frame c s i l) as (_ & _ & F3 & _). congruence.
  - unfold stop_step. destruct (nth_error (sv_stops s) g) as [[[|j t] ex| | |]|]; try exact W.
    + destruct ex; exact W.
    + destruct (nth_error (j :: t) k) as [i|]; [|exact W]. destruct (nth_error (sv_conns s) i); [|exact W].
      destruct (lf_ctx _); [|exact W]. pose proof (conn_step_frame c s i LStop) as (_ & _ & F3 & _). destruct (conn_step c s i LStop) as [s1 e]. cbn in *. congruence.
    + destruct (sv_exit_closed s); [exact W|]. destruct (sv_waiting s); exact W.
  - destruct (_ && _); exact W.
Qed.
Lemma accepts_after c a b : let s := fst (srv_run c (srv_new c) a) in
  sf_mode c = ServeTcp -> sv_lclosed s = true -> added (snd (srv_run c s b)) <= 1.
Proof.
  cbv zeta. intros M H. apply past_run; [exact M|]. split; [|exact H|].
  - apply (srv_inv c (fun s => sv_ws s = [])); [|reflexivity]. intros s l. apply no_ws_step. now rewrite M.
  - destruct (if has_tcp (sf_mode c) then _ else _); cbn; lia.
Qed.

(* --- Server.Stop can always go on to return --- *)
Lemma swf_run c : forall ls s, swf s (length (filter is_stop_call ls)) -> no_window c s ls = true -> swf (fst (srv_run c s ls)) 0.
Proof.
  induction ls as [|l ls IH]; intros s H W; cbn [srv_run no_window] in *; [exact H|].
  apply andb_true_iff in W as [W1 W2].
  assert (H' : swf s (length (filter is_stop_call ls) + length (filter is_stop_call [l]))).
  { destruct H as [H1 H2 H3]. split; auto. cbn [filter] in *. destruct (is_stop_call l); cbn in *; lia. }
  destruct (swf_step c s l _ H' W1) as [S1 _]. destruct (srv_step c s l) as [s1 e]. cbn [fst snd] in *.
  specialize (IH s1 S1 W2). now destruct (srv_run c s1 ls) as [s2 es].
Qed.
Lemma run_one c s l n : srv_run c s (repeat l (S n)) = (fst (srv_run c (fst (srv_step c s l)) (repeat l n)), snd (srv_step c s l) ++ snd (srv_run c (fst (srv_step c s l)) (repeat l n))).
Proof. cbn [repeat srv_run]. destruct (srv_step c s l) as [s1 e]. cbn [fst snd]. now destruct (srv_run c s1 (repeat l n)). Qed.
Lemma swf_stop c s g : sv_crashed s = false -> swf s 0 -> swf (fst (srv_step c s (SStopStep g 0))) 0.
Proof. intros Hc H. now destruct (swf_step c s (SStopStep g 0) 0 H eq_refl). Qed.
Lemma stop_goes c g : forall m s, sv_crashed s = false -> alive s -> swf s 0 -> listener c = true ->
  (sv_waiting s = false -> sv_exit_closed s = true \/ exists h, nth_error (sv_stops s) h = Some PClose) ->
  (exists t, nth_error (sv_stops s) g = Some (PClear t true) /\ length t + 2 = m) \/ nth_error (sv_stops s) g = Some PSend /\ m = 1 \/ nth_error (sv_stops s) g = Some PClose /\ m = 0 ->
  In (SvReturned g) (snd (srv_run c s (repeat (SStopStep g 0) (S m)))).
Proof.
  induction m as [|m IH]; intros s Hc A Hw L W H; rewrite run_one; cbn [snd].
  - apply in_app_iff. left. destruct H as [(t & _ & Q)|[[_ Q]|[H _]]]; try lia. unfold srv_step. rewrite Hc. unfold stop_step. rewrite H. now left.
  - apply in_app_iff. right.
    assert (Hs : srv_step c s (SStopStep g 0) = stop_step c s g 0) by (unfold srv_step; now rewrite Hc).
    pose proof (swf_stop c s g Hc Hw) as Hw1. pose proof (stop_no_crash c s g 0 A Hc) as Hc1.
    pose proof (step_alive c s (SStopStep g 0) (fun _ => A)) as A1. rewrite Hs in *. specialize (A1 Hc1).
    apply IH; auto; clear IH.
    + destruct H as [(t & H & Q)|[[H Q]|[_ Q]]]; [| |lia].
      * unfold stop_step. rewrite H. destruct t as [|j t].
        -- cbn [fst with_stops sv_stops sv_waiting sv_exit_closed]. intros Hx. destruct (W Hx) as [?|[h Hh]]; [now left|right]. exists h.
           rewrite set_nth_other; [exact Hh|]. intros ->. congruence.
        -- cbn [nth_error]. destruct (nth_error (sv_conns s) j) as [n|]; [|exact W]. destruct (lf_ctx (sn_life n)).
           ++ pose proof (conn_step_frame c s j LStop) as (_ & _ & _ & F4 & F5 & _ & F7). destruct (conn_step c s j LStop) as [s1 e]. cbn in *.
              rewrite F4, F5, F7. intros Hx. destruct (W Hx) as [?|[h Hh]]; [now left|right]. exists h. rewrite set_nth_other; [exact Hh|]. intros ->. congruence.
           ++ cbn. intros Hx. destruct (W Hx) as [?|[h Hh]]; [now left|right]. exists h. rewrite set_nth_other; [exact Hh|]. intros ->. congruence.
      * unfold stop_step. rewrite H. destruct (sv_exit_closed s) eqn:Ex; [cbn; auto|]. destruct (sv_waiting s) eqn:Ew; [|cbn [fst]; rewrite Ew, Ex; exact W].
        cbn. intros _. right. exists g. eapply set_nth_same, H.
    + destruct H as [(t & H & Q)|[[H Q]|[_ Q]]]; [| |lia].
      * unfold stop_step. rewrite H. destruct t as [|j t].
        -- right. left. cbn in *. split; [|lia]. eapply set_nth_same, H.
        -- left. exists t. cbn [nth_error]. destruct (sw_pending _ _ Hw _ j (nth_error_In _ _ H)) as (n & En & Hn); [now left|].
           rewrite En, Hn. pose proof (conn_step_frame c s j LStop) as (_ & _ & _ & F4 & _). destruct (conn_step c s j LStop) as [s1 e]. cbn in *.
           split; [|lia]. rewrite F4. eapply set_nth_same, H.
      * right. right. split; [|lia]. unfold stop_step. rewrite H. pose proof (sw_one _ _ Hw) as O.
        destruct (set_nth_split g PSend _ H) as (a & b & E1 & _ & _). rewrite E1, map_app, list_sum_app in O. cbn in O.
        destruct (sv_exit_closed s) eqn:Ex; [lia|]. destruct (sv_waiting s) eqn:Ew; [cbn; eapply set_nth_same, H|].
        exfalso. destruct (W eq_refl) as [?|[h Hh]]; [congruence|]. rewrite E1 in Hh. apply nth_error_In in Hh. apply in_app_iff in Hh as [Hh|[Hh|Hh]]; [|discriminate|];
        apply in_split in Hh as (u & v & ->); rewrite map_app, list_sum_app in O; cbn in O; lia.
Qed.
Lemma stop_returns c ls g : listener c = true -> one_stop ls -> no_window c (srv_new c) ls = true ->
  nth_error (calls ls) g = Some SStopCall -> sv_crashed (fst (srv_run c (srv_new c) ls)) = false ->
  exists n, In (SvReturned g) (snd (srv_run c (srv_new c) (ls ++ repeat (SStopStep g 0) n))).
Proof.
  intros L O W Hg Hc. pose proof (j_start c ls) as J. pose proof (j_len _ _ _ _ J Hc) as Len.
  assert (Lg : g < length (sv_stops (fst (srv_run c (srv_new c) ls)))). { rewrite Len. apply nth_error_Some. congruence. }
  pose proof (swf_run c ls (srv_new c) (swf_new c _ O) W) as Hw.
  pose proof (run_alive c ls (srv_new c) (new_alive c) Hc) as A.
  destruct (nth_error (sv_stops (fst (srv_run c (srv_new c) ls))) g) as [p|] eqn:E; [|apply nth_error_None in E; lia].
  pose proof (j_pc _ _ _ _ J g p E) as Hp.
  assert (Go : forall m, (exists t, p = PClear t true /\ length t + 2 = m) \/ p = PSend /\ m = 1 \/ p = PClose /\ m = 0 ->
     exists n, In (SvReturned g) (snd (srv_run c (srv_new c) (ls ++ repeat (SStopStep g 0) n)))).
  { intros m H. exists (S m). rewrite srv_run_app. cbn [snd]. apply in_app_iff. right.
    apply stop_goes; auto; [apply (j_gone _ _ _ _ J L)|]. rewrite E. destruct H as [(t & -> & H)|[[-> H]|[-> H]]]; eauto 7. }
  destruct p as [t ex| | |].
  - rewrite Hg in Hp. destruct ex; [|discriminate]. eapply Go. left. eauto.
  - eapply Go. eauto.
  - eapply Go. eauto.
  - exists 0. cbn [repeat]. rewrite app_nil_r. destruct Hp as [Hp|(x & Hx & P)]; [exact Hp|].
    destruct (no_stop_panic c ls (srv_new c) (swf_new c _ O) W x Hx P).
Qed.

(* C100: starting several servers in one process. *)
From Coq Require Import ZArith List Bool Lia Arith Permutation.
From Verif Require Import StartServers Spec_StartServers StartServers_proofs.
Import ListNotations.
Local Open Scope Z_scope.

(* Servers that need different ports and paths: whatever the order in which the listening goroutines
   run, and whoever is stopped meanwhile, the process goes on, and when all of them have run, every
   server that was started and not stopped is listening everywhere it should. *)
Theorem C100_starts conf bt bu ls : compatible conf bt bu ls -> let s := p_run conf bt bu proc_new ls in
  pr_dead s = false /\ (pr_todo s = [] -> forall i m, In (i, m) (starts ls) -> ~ In (PStop i) ls -> listening conf s i m).
Proof.
  intros C s. split; [exact (pi_dead _ _ _ (pinv_run conf bt bu ls C))|]. intros T i m Hs Hn.
  assert (W : forall t, In t (tasks_of m) -> under_way conf s i t).
  { unfold s. clear s T. intros t Ht. induction ls as [|l ls IH] using rev_ind; [destruct Hs|].
    pose proof (compatible_pre conf bt bu ls l C) as C'. pose proof (pinv_run conf bt bu ls C') as I. pose proof (pinv_run conf bt bu _ C) as I1.
    unfold p_run in *. rewrite fold_left_app in *. cbn [fold_left] in *. set (s := fold_left (p_step conf bt bu) ls proc_new) in *.
    rewrite starts_app in Hs. apply in_app_or in Hs. destruct Hs as [Hs|Hs].
    - apply way_step.
      + exact (pi_dead _ _ _ I1).
      + intros p Hp <-. pose proof (pi_nodup _ _ _ I) as N. apply free_u.
        * apply (co_udp _ _ _ _ C'). apply (pi_incl _ _ _ I). unfold held. rewrite !in_app_iff. do 3 right. apply in_flat_map. exists (i, TKcp). split; [exact Hp|now left].
        * intros Q. apply in_map_iff in Q. destruct Q as (e & E & He). unfold held in N. apply nd_app in N. destruct N as (_ & N & _). apply nd_app in N. destruct N as (_ & N & _). apply nd_app in N. destruct N as (_ & _ & N).
          apply (N (AUdpPort (sc_kcpport (conf i)))); [rewrite <- E; now apply (in_map (fun e => AUdpPort (fst e)))|]. apply in_flat_map. exists (i, TKcp). split; [exact Hp|now left].
      + exact (pi_addr _ _ _ I i).
      + intros ->. apply Hn, in_or_app. right. now left.
      + apply IH; auto. intros Q. apply Hn, in_or_app. now left.
    - destruct l as [j m'|n c|j]; try (destruct Hs; fail). destruct Hs as [[= -> ->]|[]]. unfold p_step. rewrite (pi_dead _ _ _ I).
      assert (Q : In (i, t) (pr_todo s ++ map (pair i) (tasks_of m))) by (apply in_or_app; right; now apply in_map). destruct t; cbn; auto. }
  unfold listening, under_way in *. rewrite T in W. destruct m; cbn [tasks_of In] in W.
  - destruct (W TTcp (or_introl eq_refl)) as [[]|Q]. exact Q.
  - destruct (W TWs (or_introl eq_refl)) as [[]|(Q1 & [[]|Q2])]. auto.
  - destruct (W TKcp (or_introl eq_refl)) as [[]|Q]. exact Q.
  - destruct (W TTcp (or_introl eq_refl)) as [[]|Q]. destruct (W TWs (or_intror (or_introl eq_refl))) as [[]|(Q1 & [[]|Q2])]. auto.
Qed.
Print Assumptions C100_starts.
(* The goroutines have no need to wait for anything. *)
Theorem C100_can_run conf bt bu ls : compatible conf bt bu ls -> exists n, let ls' := ls ++ repeat (PTask 0 TlsOff) n in
  compatible conf bt bu ls' /\ pr_todo (p_run conf bt bu proc_new ls') = [].
Proof.
  intros C.
  assert (Cn : forall n, compatible conf bt bu (ls ++ repeat (PTask 0 TlsOff) n)).
  { intros n. assert (E0 : starts (repeat (PTask 0 TlsOff) n) = []) by (induction n; [reflexivity|exact IHn]).
    assert (E1 : starts (ls ++ repeat (PTask 0 TlsOff) n) = starts ls) by (rewrite starts_app, E0; apply app_nil_r).
    assert (E2 : all_needs conf (ls ++ repeat (PTask 0 TlsOff) n) = all_needs conf ls) by (unfold all_needs; now rewrite E1).
    destruct C as [A T U P R K]. constructor; rewrite ?E2, ?E1; auto. intros k H. apply in_app_or in H. destruct H as [H|H]; [now apply (K k)|]. apply repeat_spec in H. discriminate H. }
  assert (Mu : forall s, pr_dead (p_step conf bt bu s (PTask 0 TlsOff)) = false -> pr_todo s <> [] ->
    let mu := fun s => list_sum (map (fun e => match snd e with TWs => 2 | _ => 1 end)%nat (pr_todo s)) in (mu (p_step conf bt bu s (PTask 0 TlsOff)) < mu s)%nat).
  { intros s D N mu. unfold p_step in *. destruct (pr_dead s) eqn:E; [congruence|]. unfold mu. clear mu. destruct (pr_todo s) as [|[i t] rest] eqn:T; [congruence|]. cbn [nth_error drop_nth] in *.
    unfold run_task in *. destruct t; repeat match goal with
      | |- context [if ?b then _ else _] => destruct b
      | |- context [match sc_path ?c with _ => _ end] => destruct (sc_path c)
      | |- context [match mux_exact ?a ?b with _ => _ end] => destruct (mux_exact a b)
      end; try discriminate D; cbn; lia. }
  assert (G : forall k ls0, (forall n, compatible conf bt bu (ls0 ++ repeat (PTask 0 TlsOff) n)) ->
    (list_sum (map (fun e => match snd e with TWs => 2 | _ => 1 end)%nat (pr_todo (p_run conf bt bu proc_new ls0))) <= k)%nat -> exists n, pr_todo (p_run conf bt bu proc_new (ls0 ++ repeat (PTask 0 TlsOff) n)) = []).
  { induction k as [|k IH]; intros ls0 H L; (destruct (pr_todo (p_run conf bt bu proc_new ls0)) as [|e r] eqn:T; [exists 0%nat; now rewrite app_nil_r|]).
    - exfalso. destruct e as [i []]; cbn in L; lia.
    - assert (D : pr_dead (p_step conf bt bu (p_run conf bt bu proc_new ls0) (PTask 0 TlsOff)) = false).
      { pose proof (pi_dead _ _ _ (pinv_run conf bt bu _ (H 1%nat))) as D. cbn [repeat] in D. unfold p_run in D. rewrite fold_left_app in D. exact D. }
      assert (T2 : pr_todo (p_run conf bt bu proc_new ls0) <> []) by (rewrite T; discriminate). pose proof (Mu (p_run conf bt bu proc_new ls0) D T2) as M. cbv beta zeta in M. rewrite T in M.
      destruct (IH (ls0 ++ [PTask 0 TlsOff])) as (n & Q).
      + intros n. rewrite <- app_assoc. exact (H (S n)).
      + unfold p_run in *. rewrite fold_left_app. cbn [fold_left]. lia.
      + exists (S n). rewrite <- app_assoc in Q. exact Q. }
  destruct (G _ ls Cn (le_n _)) as (n & Q). exists n. cbv zeta. auto.
Qed.
Print Assumptions C100_can_run.
(* Then a websocket request for a server's path is answered by that server, on its own port - and
   on the port of every other websocket server. *)
Theorem C100_own_path conf bt bu ls i m : compatible conf bt bu ls -> let s := p_run conf bt bu proc_new ls in
  pr_todo s = [] -> In (i, m) (starts ls) -> ~ In (PStop i) ls -> m = MWs \/ m = MBoth ->
  ws_request s (sc_wsport (conf i)) (sc_path (conf i)) = Some (Served i) /\
  forall port, ws_request s port (sc_path (conf i)) = None \/ ws_request s port (sc_path (conf i)) = Some (Served i).
Proof.
  intros C s T Hs Hn Hm. destruct (C100_starts conf bt bu ls C) as (D & L). fold s in D, L. specialize (L T i m Hs Hn).
  assert (Q : In (sc_path (conf i), i) (pr_mux s) /\ In (sc_wsport (conf i), (LkWs, i)) (pr_tcp s)) by (destruct Hm as [-> | ->]; [exact L|exact (proj2 L)]). destruct Q as (Q1 & Q2).
  assert (N : NoDup (map fst (pr_mux s))).
  { pose proof (pi_nodup _ _ _ (pinv_run conf bt bu ls C)) as N. fold s in N. unfold held in N. apply nd_app in N. destruct N as (N & _ & _).
    apply (NoDup_map_inv APath). now rewrite map_map. }
  assert (Ms : mux_match (pr_mux s) (sc_path (conf i)) = Served i) by (unfold mux_match; now rewrite (exact_some _ _ i N Q1)).
  unfold ws_request. rewrite D, Ms. cbn [negb]. split.
  - assert (E : existsb (fun e => (fst e =? sc_wsport (conf i)) && match fst (snd e) with LkWs => true | LkTcp => false end) (pr_tcp s) = true).
    { apply existsb_exists. eexists. split; [exact Q2|]. cbn. now rewrite Z.eqb_refl. }
    rewrite E. reflexivity.
  - intros port. destruct (existsb _ (pr_tcp s)); cbn; auto.
Qed.
Print Assumptions C100_own_path.
(* Two Tcp servers, one websocket server and one of both kinds; one of them stopped. *)
Definition four (i : nat) : sconf :=
  match i with
  | 0%nat => SConf true 8999 9000 9001 [47]
  | 1%nat => SConf true 8998 9000 9001 [47]
  | 2%nat => SConf true 8999 9010 9001 [47; 119; 115]
  | _ => SConf true 7000 9020 9001 [47; 97; 47]
  end.
Definition four_run : list plabel :=
  [PStart 0 MTcp; PStart 2 MWs; PTask 1 TlsOff; PStart 3 MBoth; PTask 3 TlsOff; PTask 2 TlsOff; PTask 0 TlsGood; PStart 1 MTcp; PTask 0 TlsOff; PTask 0 TlsOff; PStop 0; PTask 0 TlsOff; PTask 0 TlsOff].
Example C100_case : compatible four (fun p => p =? 80) (fun p => p =? 53) four_run /\ pr_todo (p_run four (fun p => p =? 80) (fun p => p =? 53) proc_new four_run) = [] /\
  starts four_run = [(0%nat, MTcp); (2%nat, MWs); (3%nat, MBoth); (1%nat, MTcp)].
Proof.
  split; [|vm_compute; auto]. constructor.
  - vm_compute. repeat constructor; cbn; intuition discriminate.
  - vm_compute. intros p H. repeat (destruct H as [H|H]; [first [discriminate H | injection H as <-; reflexivity]|]). destruct H.
  - vm_compute. intros p H. intuition discriminate.
  - vm_compute. intuition discriminate.
  - vm_compute. intros i m H _. repeat (destruct H as [[= <- <-]|H]; [reflexivity|]). destruct H.
  - vm_compute. intros n H. intuition discriminate.
Qed.

(* A Tcp or Kcp server that is stopped can be started again (in Tcp mode with its address as before). *)
Theorem C100_restart conf bt bu s i m t : pr_dead s = false -> pr_todo s = [] -> m = MTcp \/ m = MKcp -> t <> TlsBad -> sc_addr (conf i) = true ->
  NoDup (map fst (pr_tcp s)) -> NoDup (map fst (pr_udp s)) -> (forall p, In p (map fst (pr_tcp s)) -> bt p = false) -> (forall p, In p (map fst (pr_udp s)) -> bu p = false) ->
  listening conf s i m -> let s' := p_run conf bt bu s [PStop i; PStart i m; PTask 0 t] in pr_dead s' = false /\ pr_todo s' = [] /\ listening conf s' i m.
Proof.
  intros D T Hm Ht Ha Nt Nu Bt Bu L. unfold p_run. cbn [fold_left].
  assert (Cs : can_stop s i = true).
  { unfold can_stop. apply orb_true_iff. destruct Hm as [-> | ->]; cbn in L; [left|right]; apply existsb_exists; eexists; (split; [exact L|]); unfold tcp_of, udp_of; cbn; apply Nat.eqb_refl. }
  assert (E1 : p_step conf bt bu s (PStop i) = Proc (pr_mux s) (filter (fun e => negb (tcp_of i e)) (pr_tcp s)) (filter (fun e => negb (udp_of i e)) (pr_udp s)) [] false) by (unfold p_step; now rewrite D, Cs, T).
  rewrite E1. unfold p_step. cbn [pr_dead pr_todo pr_mux pr_tcp pr_udp app].
  destruct Hm as [-> | ->]; cbn [tasks_of map nth_error drop_nth run_task]; cbn in L.
  - rewrite Ha. cbn [negb]. match goal with |- context [free_tcp bt ?x ?y] => assert (F : free_tcp bt x y = true) end.
    { unfold free_tcp. cbn [pr_tcp]. rewrite (Bt (sc_port (conf i))) by (now apply (in_map fst) in L). cbn [negb andb]. destruct (existsb _ _) eqn:E; [|reflexivity]. exfalso. apply existsb_exists in E. destruct E as ([p [k j]] & H & E). cbn in E. apply Z.eqb_eq in E. subst p.
      apply filter_In in H. destruct H as (H & Q). assert (Ek : (k, j) = (LkTcp, i)).
      { clear - Nt H L. induction (pr_tcp s) as [|[p q] l IH]; [destruct H|]. inversion Nt as [|? ? N1 N2]; subst. destruct H as [[= -> ->]|H], L as [Q|L]; try congruence.
        - exfalso. apply N1. now apply (in_map fst) in L.
        - injection Q as -> ->. exfalso. apply N1. now apply (in_map fst) in H.
        - now apply IH. }
      injection Ek as -> ->. unfold tcp_of in Q. cbn in Q. rewrite Nat.eqb_refl in Q. discriminate Q. }
    rewrite F. destruct t; [| |now destruct Ht]; (split; [reflexivity|]; split; [reflexivity|]; cbn; now left).
  - match goal with |- context [free_udp bu ?x ?y] => assert (F : free_udp bu x y = true) end.
    { unfold free_udp. cbn [pr_udp]. rewrite (Bu (sc_kcpport (conf i))) by (now apply (in_map fst) in L). cbn [negb andb]. destruct (existsb _ _) eqn:E; [|reflexivity]. exfalso. apply existsb_exists in E. destruct E as ([p j] & H & E). cbn in E. apply Z.eqb_eq in E. subst p.
      apply filter_In in H. destruct H as (H & Q). assert (Ek : j = i).
      { clear - Nu H L. induction (pr_udp s) as [|[p q] l IH]; [destruct H|]. inversion Nu as [|? ? N1 N2]; subst. destruct H as [[= -> ->]|H], L as [Q|L]; try congruence.
        - exfalso. apply N1. now apply (in_map fst) in L.
        - injection Q as -> ->. exfalso. apply N1. now apply (in_map fst) in H.
        - now apply IH. }
      subst j. unfold udp_of in Q. cbn in Q. rewrite Nat.eqb_refl in Q. discriminate Q. }
    rewrite F. split; [reflexivity|]. split; [reflexivity|]. cbn. now left.
Qed.
Print Assumptions C100_restart.
Example C100_restart_case : let s := p_run four (fun _ => false) (fun _ => false) proc_new [PStart 0 MTcp; PTask 0 TlsOff; PStart 3 MBoth; PTask 0 TlsOff; PTask 0 TlsOff; PTask 0 TlsOff] in
  pr_dead s = false /\ pr_todo s = [] /\ listening four s 0 MTcp /\ listening four s 3 MBoth /\ NoDup (map fst (pr_tcp s)) /\ NoDup (map fst (pr_udp s)).
Proof. vm_compute. repeat split; auto; repeat constructor; cbn; intuition discriminate. Qed.

(* A websocket server cannot be started again: whether it was stopped or not, Start ends the process. *)
Theorem C100_ws_restart_refuted : exists ls, starts ls = [(0%nat, MWs); (0%nat, MWs)] /\
  pr_dead (p_run four (fun _ => false) (fun _ => false) proc_new ls) = true /\
  (forall before l, ls = before ++ [l] -> pr_dead (p_run four (fun _ => false) (fun _ => false) proc_new before) = false /\ ws_request (p_run four (fun _ => false) (fun _ => false) proc_new before) 9000 [47] = Some (Served 0)).
Proof.
  exists [PStart 0 MWs; PTask 0 TlsOff; PTask 0 TlsOff; PStop 0; PStart 0 MWs; PTask 0 TlsOff]. split; [reflexivity|]. split; [reflexivity|].
  intros b l E. change [PStart 0 MWs; PTask 0 TlsOff; PTask 0 TlsOff; PStop 0; PStart 0 MWs; PTask 0 TlsOff] with ([PStart 0 MWs; PTask 0 TlsOff; PTask 0 TlsOff; PStop 0; PStart 0 MWs] ++ [PTask 0 TlsOff]) in E.
  apply app_inj_tail in E. destruct E as (<- & _). vm_compute. auto.
Qed.
Print Assumptions C100_ws_restart_refuted.
(* Two websocket servers with ports of their own, both with the default path: the second one's
   Start ends the process. *)
Theorem C100_default_path_refuted : exists conf ls, sc_wsport (conf 0%nat) <> sc_wsport (conf 1%nat) /\ starts ls = [(0%nat, MWs); (1%nat, MWs)] /\
  pr_dead (p_run conf (fun _ => false) (fun _ => false) proc_new ls) = true.
Proof.
  exists (fun i => SConf true 8999 (9000 + Z.of_nat i) 9500 [47]), [PStart 0 MWs; PTask 0 TlsOff; PTask 0 TlsOff; PStart 1 MWs; PTask 0 TlsOff]. split; [discriminate|]. split; reflexivity.
Qed.
Print Assumptions C100_default_path_refuted.
(* A request to one server's port is answered by the other server. *)
Theorem C100_wrong_port_refuted : exists conf ls, compatible conf (fun _ => false) (fun _ => false) ls /\
  let s := p_run conf (fun _ => false) (fun _ => false) proc_new ls in pr_todo s = [] /\
  listening conf s 0 MWs /\ listening conf s 1 MWs /\ sc_wsport (conf 0%nat) <> sc_wsport (conf 1%nat) /\ ws_request s (sc_wsport (conf 0%nat)) (sc_path (conf 1%nat)) = Some (Served 1).
Proof.
  exists (fun i => match i with O => SConf true 8999 9000 9500 [47; 97] | _ => SConf true 8999 9001 9500 [47; 98] end), [PStart 0 MWs; PStart 1 MWs; PTask 0 TlsOff; PTask 0 TlsOff; PTask 0 TlsOff; PTask 0 TlsOff].
  split; [|vm_compute; repeat split; auto; discriminate]. constructor.
  - vm_compute. repeat constructor; cbn; intuition discriminate.
  - reflexivity.
  - reflexivity.
  - vm_compute. intuition discriminate.
  - vm_compute. intros i m H Q. destruct H as [H|[H|[]]]; injection H as <- <-; destruct Q; discriminate.
  - vm_compute. intros n H. intuition discriminate.
Qed.
Print Assumptions C100_wrong_port_refuted.
(* A port that is taken ends the process in Tcp and websocket mode; in Kcp mode, and for an address
   that cannot be resolved, Start returns with nothing listening, and Stop waits for ever. *)
Theorem C100_taken_refuted : let conf := fun _ => SConf true 8999 9000 9500 [47] in let bt := fun p => (p =? 8999) || (p =? 9000) in
  pr_dead (p_run conf bt (fun _ => false) proc_new [PStart 0 MTcp; PTask 0 TlsOff]) = true /\
  pr_dead (p_run conf bt (fun _ => false) proc_new [PStart 0 MWs; PTask 0 TlsOff; PTask 0 TlsOff]) = true /\
  pr_dead (p_run conf (fun _ => false) (fun _ => false) proc_new [PStart 0 MTcp; PTask 0 TlsBad]) = true.
Proof. vm_compute. auto. Qed.
Print Assumptions C100_taken_refuted.
Theorem C100_silent conf bt bu s i m t : pr_dead s = false -> pr_todo s = [] -> can_stop s i = false ->
  m = MTcp /\ sc_addr (conf i) = false \/ m = MKcp /\ bu (sc_kcpport (conf i)) = true ->
  let s' := p_run conf bt bu s [PStart i m; PTask 0 t] in
  pr_dead s' = false /\ pr_todo s' = [] /\ pr_tcp s' = pr_tcp s /\ pr_udp s' = pr_udp s /\ can_stop s' i = false.
Proof.
  intros D T Cs H. unfold p_run. cbn [fold_left].
  assert (E1 : p_step conf bt bu s (PStart i m) = Proc (pr_mux s) (pr_tcp s) (pr_udp s) (map (pair i) (tasks_of m)) false) by (unfold p_step; now rewrite D, T).
  rewrite E1. unfold p_step. cbn [pr_dead pr_todo pr_mux pr_tcp pr_udp app].
  destruct H as [(-> & H)|(-> & H)]; cbn [tasks_of map nth_error drop_nth run_task].
  - rewrite H. cbn [negb]. repeat split; auto.
  - match goal with |- context [free_udp bu ?x ?y] => assert (F : free_udp bu x y = false) end; [|rewrite F; repeat split; auto]. unfold free_udp. now rewrite H. 
Qed.
Print Assumptions C100_silent.
Example C100_silent_case : let bu := fun p => p =? 9001 in let s := p_run four (fun _ => false) bu proc_new [PStart 3 MTcp; PTask 0 TlsOff] in
  pr_dead s = false /\ pr_todo s = [] /\ can_stop s 0 = false /\ can_stop s 3 = true /\ bu (sc_kcpport (four 0)) = true.
Proof. vm_compute. auto 10. Qed.

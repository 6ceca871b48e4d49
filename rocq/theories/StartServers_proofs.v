From Coq Require Import ZArith List Bool Lia Arith Permutation.
From Verif Require Import StartServers Spec_StartServers.
Import ListNotations.
Local Open Scope Z_scope.

Lemma path_eqb_eq a : forall b, path_eqb a b = true <-> a = b.
Proof.
  induction a as [|x a IH]; intros [|y b]; cbn; try (split; [discriminate|discriminate]); [tauto|].
  rewrite andb_true_iff, Z.eqb_eq, IH. split; [intros (-> & ->); reflexivity|intros [= -> ->]; auto].
Qed.
Lemma exact_in m p i : mux_exact m p = Some i -> In (p, i) m.
Proof.
  unfold mux_exact. destruct (find _ m) as [[q j]|] eqn:F; [|discriminate]. intros [= <-]. apply find_some in F. destruct F as (F & E). cbn in E. apply path_eqb_eq in E. now subst.
Qed.
Lemma exact_some m p i : NoDup (map fst m) -> In (p, i) m -> mux_exact m p = Some i.
Proof.
  unfold mux_exact. induction m as [|[q j] m IH]; intros N H; [destruct H|]. cbn [find fst]. inversion N as [|? ? N1 N2]; subst. destruct (path_eqb q p) eqn:E.
  - apply path_eqb_eq in E. subst q. cbn. destruct H as [[= ->]|H]; [reflexivity|]. exfalso. apply N1. now apply (in_map fst) in H.
  - destruct H as [[= -> ->]|H]; [|now apply IH]. exfalso. assert (path_eqb p p = true) by now apply path_eqb_eq. congruence.
Qed.
Lemma exact_none m p : ~ In p (map fst m) -> mux_exact m p = None.
Proof. intros H. destruct (mux_exact m p) eqn:E; [|reflexivity]. apply exact_in in E. exfalso. apply H. now apply (in_map fst) in E. Qed.
Lemma drop_nth_perm {A} (l : list A) : forall n x, nth_error l n = Some x -> Permutation l (x :: drop_nth n l).
Proof.
  induction l as [|y l IH]; intros [|n] x H; cbn in *; try discriminate; [injection H as ->; reflexivity|]. rewrite (IH n x H) at 1. apply perm_swap.
Qed.

Lemma nd_app {A} (a b : list A) : NoDup (a ++ b) <-> NoDup a /\ NoDup b /\ forall x, In x a -> ~ In x b.
Proof.
  induction a as [|x a IH]; cbn.
  - split; [intros H; repeat split; [constructor|exact H|tauto]|tauto].
  - rewrite !NoDup_cons_iff, IH, in_app_iff. split.
    + intros (N & Na & Nb & D). repeat split; auto. intros y [<-|H]; auto.
    + intros ((N & Na) & Nb & D). repeat split; auto. intros [H|H]; [auto|]. exact (D x (or_introl eq_refl) H).
Qed.
Lemma nd_filter {A B} (g : A -> B) (f : A -> bool) l : NoDup (map g l) -> NoDup (map g (filter f l)).
Proof.
  induction l as [|x l IH]; cbn; intros N; [exact N|]. inversion N as [|? ? N1 N2]; subst. destruct (f x); [|now apply IH]. cbn. constructor; [|now apply IH].
  intros H. apply N1. apply in_map_iff in H. destruct H as (y & E & H). rewrite <- E. apply in_map. now apply filter_In in H.
Qed.

Section Inv.
  Context (conf : nat -> sconf) (bt bu : Z -> bool).
  Definition pend (e : nat * task) : list resource :=
    let c := conf (fst e) in
    match snd e with TTcp => [ATcpPort (sc_port c)] | TWs => [APath (sc_path c); ATcpPort (sc_wsport c)] | TWsListen => [ATcpPort (sc_wsport c)] | TKcp => [AUdpPort (sc_kcpport c)] end.
  Definition held (s : proc) : list resource :=
    map (fun e => APath (fst e)) (pr_mux s) ++ map (fun e => ATcpPort (fst e)) (pr_tcp s) ++ map (fun e => AUdpPort (fst e)) (pr_udp s) ++ flat_map pend (pr_todo s).
  Lemma needs_pend i m : needs (conf i) m = flat_map pend (map (pair i) (tasks_of m)).
  Proof. destruct m; reflexivity. Qed.
  Record pinv (s : proc) (ls : list plabel) : Prop := {
    pi_dead : pr_dead s = false;
    pi_nodup : NoDup (held s);
    pi_incl : incl (held s) (all_needs conf ls);
    pi_addr : forall i, In (i, TTcp) (pr_todo s) -> sc_addr (conf i) = true
  }.
  Lemma held_task s i t rest : Permutation (pr_todo s) ((i, t) :: rest) ->
    Permutation (held s) (map (fun e => APath (fst e)) (pr_mux s) ++ map (fun e => ATcpPort (fst e)) (pr_tcp s) ++ map (fun e => AUdpPort (fst e)) (pr_udp s) ++ pend (i, t) ++ flat_map pend rest).
  Proof. intros P. unfold held. do 3 apply Permutation_app_head. rewrite (Permutation_flat_map pend P). reflexivity. Qed.
  Lemma starts_app a b : starts (a ++ b) = starts a ++ starts b.
  Proof. apply flat_map_app. Qed.
  Lemma needs_app a b : all_needs conf (a ++ b) = all_needs conf a ++ all_needs conf b.
  Proof. unfold all_needs. now rewrite starts_app, flat_map_app. Qed.
  Lemma free_t s p : bt p = false -> ~ In p (map fst (pr_tcp s)) -> free_tcp bt s p = true.
  Proof.
    intros B N. unfold free_tcp. rewrite B. cbn. destruct (existsb _ (pr_tcp s)) eqn:E; [|reflexivity]. apply existsb_exists in E. destruct E as (e & H & E). apply Z.eqb_eq in E. subst p. exfalso. apply N. now apply in_map.
  Qed.
  Lemma free_u s p : bu p = false -> ~ In p (map fst (pr_udp s)) -> free_udp bu s p = true.
  Proof.
    intros B N. unfold free_udp. rewrite B. cbn. destruct (existsb _ (pr_udp s)) eqn:E; [|reflexivity]. apply existsb_exists in E. destruct E as (e & H & E). apply Z.eqb_eq in E. subst p. exfalso. apply N. now apply in_map.
  Qed.
  Lemma compatible_pre ls l : compatible conf bt bu (ls ++ [l]) -> compatible conf bt bu ls.
  Proof.
    intros [A T U P R C]. rewrite needs_app in *. constructor.
    - now apply nd_app in A.
    - intros p H. apply T, in_or_app. now left.
    - intros p H. apply U, in_or_app. now left.
    - intros H. apply P, in_or_app. now left.
    - intros i m H. apply R. rewrite starts_app. apply in_or_app. now left.
    - intros n H. apply (C n), in_or_app. now left.
  Qed.
  Lemma held_more s ls ls' : incl (held s) (all_needs conf ls) -> incl (held s) (all_needs conf (ls ++ ls')).
  Proof. intros H x Hx. rewrite needs_app. apply in_or_app. left. now apply H. Qed.
  (* Handing over what a goroutine needed: nothing new is held. *)
  Lemma pinv_perm s s' ls l : pinv s ls -> pr_dead s' = false -> Permutation (held s) (held s') -> (forall i, In (i, TTcp) (pr_todo s') -> In (i, TTcp) (pr_todo s)) -> pinv s' (ls ++ [l]).
  Proof.
    intros [D N I A] D' P T. constructor; [exact D'|now apply (Permutation_NoDup P)| |now auto].
    intros x Hx. apply (Permutation_in x (Permutation_sym P)) in Hx. exact (held_more s ls [l] I x Hx).
  Qed.
  Lemma pinv_step s ls l : compatible conf bt bu (ls ++ [l]) -> pinv s ls -> pinv (p_step conf bt bu s l) (ls ++ [l]).
  Proof.
    intros C Hi. pose proof Hi as [D N I A]. destruct C as [CA CT CU CP CR CC]. rewrite needs_app in *. unfold p_step. rewrite D. destruct l as [i m|n t|i].
    - assert (En : all_needs conf [PStart i m] = needs (conf i) m) by (cbn; now rewrite app_nil_r). rewrite En in *.
      assert (Eh : Permutation (held (Proc (pr_mux s) (pr_tcp s) (pr_udp s) (pr_todo s ++ map (pair i) (tasks_of m)) false)) (held s ++ needs (conf i) m)).
      { unfold held. cbn. rewrite flat_map_app, <- needs_pend, !app_assoc. reflexivity. }
      apply nd_app in CA. destruct CA as (CA1 & CA2 & CA3). constructor; [reflexivity| | |].
      + apply (Permutation_NoDup (Permutation_sym Eh)). apply nd_app. split; [exact N|]. split; [exact CA2|]. intros x Hx. apply CA3. now apply I.
      + intros x Hx. apply (Permutation_in x Eh) in Hx. rewrite needs_app, En. apply in_or_app. apply in_app_or in Hx. destruct Hx; [left; now apply I|now right].
      + cbn. intros j Hj. apply in_app_or in Hj. destruct Hj as [Hj|Hj]; [now apply A|]. apply in_map_iff in Hj. destruct Hj as (t & E & Ht). injection E as -> ->.
        apply (CR j m); [rewrite starts_app; apply in_or_app; right; now left|]. destruct m; cbn in Ht; intuition discriminate.
    - destruct (nth_error (pr_todo s) n) as [[i k]|] eqn:En.
      2:{ apply (pinv_perm s s ls); auto. }
      pose proof (drop_nth_perm _ _ _ En) as P. set (rest := drop_nth n (pr_todo s)) in *. pose proof (held_task s i k rest P) as H. pose proof (Permutation_NoDup H N) as N'.
      assert (Sub : forall j, In (j, TTcp) rest -> In (j, TTcp) (pr_todo s)) by (intros j Hj; apply (Permutation_in _ (Permutation_sym P)); now right).
      assert (Mine : In (i, k) (pr_todo s)) by (apply (Permutation_in _ (Permutation_sym P)); now left).
      assert (Have : forall x, In x (pend (i, k)) -> In x (all_needs conf ls ++ all_needs conf [PTask n t])).
      { intros x Hx. apply in_or_app. left. apply I. unfold held. rewrite !in_app_iff. do 3 right. apply in_flat_map. now exists (i, k). }
      apply nd_app in N'. destruct N' as (N1 & N2 & N3). apply nd_app in N2. destruct N2 as (N4 & N5 & N6). apply nd_app in N5. destruct N5 as (N7 & N8 & N9).
      unfold run_task. destruct k.
      + rewrite (A i Mine). cbn [negb]. assert (F : free_tcp bt s (sc_port (conf i)) = true).
        { apply free_t; [apply CT, Have; now left|]. intros Q. apply in_map_iff in Q. destruct Q as (e & E & He). apply (N6 (ATcpPort (sc_port (conf i)))); [rewrite <- E; now apply (in_map (fun e => ATcpPort (fst e)))|]. rewrite !in_app_iff. right. left. now left. }
        rewrite F. assert (Q : t <> TlsBad) by (intros ->; apply (CC n), in_or_app; right; now left).
        assert (G : pinv (Proc (pr_mux s) ((sc_port (conf i), (LkTcp, i)) :: pr_tcp s) (pr_udp s) rest false) (ls ++ [PTask n t])).
        { apply (pinv_perm s _ ls); auto. rewrite H. unfold held. cbn. apply Permutation_app_head. symmetry. rewrite !app_assoc. apply Permutation_cons_app. reflexivity. }
        destruct t; [exact G|exact G|now destruct Q].
      + destruct (sc_path (conf i)) as [|x0 p0] eqn:Ep. { exfalso. apply CP. apply Have. left. cbn. now rewrite Ep. } rewrite <- Ep in *.
        assert (F : mux_exact (pr_mux s) (sc_path (conf i)) = None).
        { apply exact_none. intros Q. apply in_map_iff in Q. destruct Q as (e & E & He). apply (N3 (APath (sc_path (conf i)))); [rewrite <- E; now apply (in_map (fun e => APath (fst e)))|]. rewrite !in_app_iff. right. right. left. now left. }
        rewrite F. apply (pinv_perm s _ ls); auto.
        * rewrite H. unfold held. cbn. symmetry. rewrite !app_assoc. apply Permutation_cons_app. rewrite <- ?app_assoc. reflexivity.
        * cbn. intros j [Q|Q]; [discriminate|now apply Sub].
      + assert (F : free_tcp bt s (sc_wsport (conf i)) = true).
        { apply free_t; [apply CT, Have; now left|]. intros Q. apply in_map_iff in Q. destruct Q as (e & E & He). apply (N6 (ATcpPort (sc_wsport (conf i)))); [rewrite <- E; now apply (in_map (fun e => ATcpPort (fst e)))|]. rewrite !in_app_iff. right. left. now left. }
        rewrite F. apply (pinv_perm s _ ls); auto. rewrite H. unfold held. cbn. apply Permutation_app_head. symmetry. rewrite !app_assoc. apply Permutation_cons_app. reflexivity.
      + assert (F : free_udp bu s (sc_kcpport (conf i)) = true).
        { apply free_u; [apply CU, Have; now left|]. intros Q. apply in_map_iff in Q. destruct Q as (e & E & He). apply (N9 (AUdpPort (sc_kcpport (conf i)))); [rewrite <- E; now apply (in_map (fun e => AUdpPort (fst e)))|]. rewrite !in_app_iff. left. now left. }
        rewrite F. apply (pinv_perm s _ ls); auto. rewrite H. unfold held. cbn. do 2 apply Permutation_app_head. symmetry. apply Permutation_cons_app. reflexivity.
    - destruct (can_stop s i); [|apply (pinv_perm s s ls); auto]. unfold held in N, I. apply nd_app in N. destruct N as (N1 & N2 & N3). apply nd_app in N2. destruct N2 as (N4 & N5 & N6). apply nd_app in N5. destruct N5 as (N7 & N8 & N9).
      assert (S1 : forall x, In x (map (fun e => ATcpPort (fst e)) (filter (fun e => negb (tcp_of i e)) (pr_tcp s))) -> In x (map (fun e => ATcpPort (fst e)) (pr_tcp s))).
      { intros x Hx. apply in_map_iff in Hx. destruct Hx as (e & <- & He). apply (in_map (fun e => ATcpPort (fst e))). now apply filter_In in He. }
      assert (S2 : forall x, In x (map (fun e => AUdpPort (fst e)) (filter (fun e => negb (udp_of i e)) (pr_udp s))) -> In x (map (fun e => AUdpPort (fst e)) (pr_udp s))).
      { intros x Hx. apply in_map_iff in Hx. destruct Hx as (e & <- & He). apply (in_map (fun e => AUdpPort (fst e))). now apply filter_In in He. }
      constructor; [reflexivity| | |exact A].
      + unfold held. cbn. apply nd_app. split; [exact N1|]. split.
        * apply nd_app. split; [now apply nd_filter|]. split; [apply nd_app; split; [now apply nd_filter|]; split; [exact N8|]; intros x Hx; apply N9; now apply S2|].
          intros x Hx. specialize (N6 x (S1 x Hx)). rewrite in_app_iff in *. intros [Q|Q]; apply N6; [left; now apply S2|now right].
        * intros x Hx. specialize (N3 x Hx). rewrite !in_app_iff in *. intros [Q|[Q|Q]]; apply N3; [left; now apply S1|right; left; now apply S2|now right; right].
      + intros x Hx. rewrite needs_app. apply in_or_app. left. apply I. unfold held in Hx. cbn in Hx. rewrite !in_app_iff in *. destruct Hx as [Q|[Q|[Q|Q]]]; auto.
  Qed.
  Lemma pinv_run ls : compatible conf bt bu ls -> pinv (p_run conf bt bu proc_new ls) ls.
  Proof.
    induction ls as [|l ls IH] using rev_ind; intros C.
    - constructor; cbn; [reflexivity|constructor|intros x []|tauto].
    - unfold p_run. rewrite fold_left_app. cbn [fold_left]. apply pinv_step; [exact C|]. apply IH. now apply compatible_pre in C.
  Qed.

  (* What was started is listening or about to. *)
  Definition under_way (s : proc) (i : nat) (t : task) : Prop :=
    match t with
    | TTcp => In (i, TTcp) (pr_todo s) \/ In (sc_port (conf i), (LkTcp, i)) (pr_tcp s)
    | TKcp => In (i, TKcp) (pr_todo s) \/ In (sc_kcpport (conf i), i) (pr_udp s)
    | TWs => In (i, TWs) (pr_todo s) \/ In (sc_path (conf i), i) (pr_mux s) /\ (In (i, TWsListen) (pr_todo s) \/ In (sc_wsport (conf i), (LkWs, i)) (pr_tcp s))
    | TWsListen => True
    end.
  Lemma way_step s l i t : pr_dead (p_step conf bt bu s l) = false -> (forall p, In (i, TKcp) (pr_todo s) -> sc_kcpport (conf i) = p -> free_udp bu s p = true) ->
    (In (i, TTcp) (pr_todo s) -> sc_addr (conf i) = true) -> l <> PStop i -> under_way s i t -> under_way (p_step conf bt bu s l) i t.
  Proof.
    intros D FU FA NS W. unfold p_step in *. destruct (pr_dead s) eqn:Ds; [exact W|]. destruct l as [j m|n c|j].
    - destruct t; cbn in *; rewrite ?in_app_iff; tauto.
    - destruct (nth_error (pr_todo s) n) as [[j k]|] eqn:En; [|exact W]. pose proof (drop_nth_perm _ _ _ En) as P. set (rest := drop_nth n (pr_todo s)) in *.
      assert (Keep : forall e, In e (pr_todo s) -> e = (j, k) \/ In e rest) by (intros e He; apply (Permutation_in _ P) in He; destruct He; auto).
      unfold run_task in *. destruct k.
      + destruct (sc_addr (conf j)) eqn:Ea; cbn [negb] in *.
        * destruct c; [| |discriminate D]; (destruct (free_tcp bt s (sc_port (conf j))); [|discriminate D]); destruct t; cbn in *; auto.
          1,4: destruct W as [W|W]; [destruct (Keep _ W) as [[= ->]|Q]; auto|auto].
          1,3: destruct W as [W|(W1 & [W|W])]; [destruct (Keep _ W) as [Q|Q]; [discriminate Q|auto]|destruct (Keep _ W) as [Q|Q]; [discriminate Q|auto]|auto].
          all: destruct W as [W|W]; [destruct (Keep _ W) as [Q|Q]; [discriminate Q|auto]|auto].
        * destruct t; cbn in *; auto.
          -- destruct W as [W|W]; [destruct (Keep _ W) as [[= ->]|Q]; [rewrite (FA W) in Ea; discriminate Ea|auto]|auto].
          -- destruct W as [W|(W1 & [W|W])]; [destruct (Keep _ W) as [Q|Q]; [discriminate Q|auto]|destruct (Keep _ W) as [Q|Q]; [discriminate Q|auto]|auto].
          -- destruct W as [W|W]; [destruct (Keep _ W) as [Q|Q]; [discriminate Q|auto]|auto].
      + destruct (sc_path (conf j)) as [|x0 p0] eqn:Ep; [discriminate D|]. rewrite <- Ep in *. destruct (mux_exact (pr_mux s) (sc_path (conf j))); [discriminate D|]. destruct t; cbn in *; auto.
        * destruct W as [W|W]; [destruct (Keep _ W) as [Q|Q]; [discriminate Q|auto]|auto].
        * destruct W as [W|(W1 & [W|W])]; [destruct (Keep _ W) as [[= ->]|Q]; auto|destruct (Keep _ W) as [Q|Q]; [discriminate Q|auto]|auto].
        * destruct W as [W|W]; [destruct (Keep _ W) as [Q|Q]; [discriminate Q|auto]|auto].
      + destruct (free_tcp bt s (sc_wsport (conf j))); [|discriminate D]. destruct t; cbn in *; auto.
        * destruct W as [W|W]; [destruct (Keep _ W) as [Q|Q]; [discriminate Q|auto]|auto].
        * destruct W as [W|(W1 & [W|W])]; [destruct (Keep _ W) as [Q|Q]; [discriminate Q|auto]|destruct (Keep _ W) as [[= ->]|Q]; auto|auto].
        * destruct W as [W|W]; [destruct (Keep _ W) as [Q|Q]; [discriminate Q|auto]|auto].
      + destruct (free_udp bu s (sc_kcpport (conf j))) eqn:Fu; destruct t; cbn in *; auto.
        * destruct W as [W|W]; [destruct (Keep _ W) as [Q|Q]; [discriminate Q|auto]|auto].
        * destruct W as [W|(W1 & [W|W])]; [destruct (Keep _ W) as [Q|Q]; [discriminate Q|auto]|destruct (Keep _ W) as [Q|Q]; [discriminate Q|auto]|auto].
        * destruct W as [W|W]; [destruct (Keep _ W) as [[= ->]|Q]; auto|auto].
        * destruct W as [W|W]; [destruct (Keep _ W) as [Q|Q]; [discriminate Q|auto]|auto].
        * destruct W as [W|(W1 & [W|W])]; [destruct (Keep _ W) as [Q|Q]; [discriminate Q|auto]|destruct (Keep _ W) as [Q|Q]; [discriminate Q|auto]|auto].
        * destruct W as [W|W]; [destruct (Keep _ W) as [[= ->]|Q]; [rewrite (FU _ W eq_refl) in Fu; discriminate Fu|auto]|auto].
    - destruct (can_stop s j); [|exact W]. assert (Nj : j <> i) by congruence.
      assert (K1 : forall p k, In (p, (k, i)) (pr_tcp s) -> In (p, (k, i)) (filter (fun e => negb (tcp_of j e)) (pr_tcp s))).
      { intros p k H. apply filter_In. split; [exact H|]. unfold tcp_of. cbn. destruct k; [|reflexivity]. destruct (Nat.eqb_spec i j); [congruence|reflexivity]. }
      assert (K2 : forall p, In (p, i) (pr_udp s) -> In (p, i) (filter (fun e => negb (udp_of j e)) (pr_udp s))).
      { intros p H. apply filter_In. split; [exact H|]. unfold udp_of. cbn. destruct (Nat.eqb_spec i j); [congruence|reflexivity]. }
      destruct t; cbn in *; auto; intuition.
  Qed.
End Inv.

(* Proofs about the workers of a server in DynamicBind mode (C77). *)
From Coq Require Import ZArith List Bool Lia ZifyBool Permutation.
From Verif Require Import Bytes Conf Spec_Conf Conf_proofs Servers Spec_Servers Servers_proofs Bind_servers_proofs.
Import ListNotations.
Local Open Scope Z_scope.

Definition base (n : Z) (ws : list Z) : list Z := filter (fun w => w <? n) ws.
(* Every worker of the pool is free or has one connection; the others are extra workers. *)
Definition shared (g : config) (s : server) : Prop :=
  v_stuck s = false /\ v_workers s = ints g WorkerPoolSize /\ exists free ex ws,
    v_free s = Some free /\ v_extra s = Some ex /\ v_conns s = map Some ws /\
    Permutation (free ++ base (v_workers s) ws) (numbers 0 (v_workers s)) /\
    (forall w, In w ex \/ In w ws /\ ~ w < v_workers s -> v_workers s <= w < ints g MaxConn) /\ (v_workers s < ints g MaxConn -> ex <> []).
Lemma numbers_in2 a b w : In w (numbers a b) -> a <= w < b.
Proof. unfold numbers. rewrite in_map_iff. intros (k & <- & H). apply in_seq in H. lia. Qed.
Lemma numbers_some a b : a < b -> numbers a b <> [].
Proof. intros H. unfold numbers. destruct (Z.to_nat (b - a)) eqn:E; [lia|discriminate]. Qed.
Lemma base_app n a b : base n (a ++ b) = base n a ++ base n b. Proof. apply filter_app. Qed.
Lemma base_drop n : forall ws k w, nth_error ws k = Some w -> Permutation (base n ws) (base n [w] ++ base n (drop_nth k ws)).
Proof. intros ws k w H. rewrite <- base_app. unfold base. clear -H. revert k H. induction ws as [|a ws IH]; intros [|k] H; cbn [nth_error drop_nth] in *; try discriminate; [injection H as ->; reflexivity|].
  specialize (IH k H). cbn [filter app] in *. destruct (a <? n), (w <? n); try exact IH; [rewrite perm_swap|]; now constructor. Qed.
Lemma drop_in {A} (l : list A) k x : In x (drop_nth k l) -> In x l.
Proof. revert k. induction l as [|a l IH]; intros [|k] H; cbn in *; auto. destruct H; eauto. Qed.
Lemma base_le n ws : (length (base n ws) <= length ws)%nat.
Proof. unfold base. induction ws as [|a ws IH]; cbn; [lia|]. destruct (a <? n); cbn; lia. Qed.

Lemma admit_shared p i s pick : is_bind (p_conf p) = false -> is_dynamic (p_conf p) = true -> nth_error (p_servers p) i = Some s -> shared (p_conf p) s ->
  exists s', p_servers (fst (admit_conn p i s pick)) = put i s' (p_servers p) /\ shared (p_conf p) s'.
Proof.
  intros B Dy N (St & W & free & ex & ws & F & Ex & C & P & R & Ne). unfold admit_conn. destruct (zlen (v_conns s) >=? ints (p_conf p) MaxConn) eqn:E.
  - exists s. split; [cbn; now rewrite put_self|]. split; [exact St|]. split; [exact W|]. exists free, ex, ws. auto 10.
  - unfold use_worker. rewrite B, Dy. cbn [set_conns v_stuck v_free v_extra v_workers v_cid]. rewrite St, F, Ex.
    destruct (nth_error free (pick mod length free)) as [w|] eqn:Ew.
    + cbn. eexists. split; [reflexivity|]. split; [exact St|]. split; [exact W|]. exists (drop_nth (pick mod length free) free), ex, (ws ++ [w]). cbn. rewrite C, map_app. split; [reflexivity|]. split; [exact Ex|]. split; [reflexivity|].
      assert (Hw : 0 <= w < v_workers s). { apply numbers_in. eapply Permutation_in; [exact P|]. apply in_or_app. left. eapply nth_error_In; exact Ew. }
      split; [|split; [|exact Ne]].
      * rewrite base_app. change (base (v_workers s) [w]) with (if w <? v_workers s then [w] else []). replace (w <? v_workers s) with true by lia.
        apply Permutation_trans with (free ++ base (v_workers s) ws); [|exact P]. apply Permutation_trans with ((w :: drop_nth (pick mod length free) free) ++ base (v_workers s) ws); [|apply Permutation_app_tail, Permutation_sym, (drop_perm _ _ _ Ew)].
        rewrite app_assoc, <- Permutation_cons_append. reflexivity.
      * intros x [H|[H Hx]]; [apply R; now left|]. apply in_app_or in H as [H|[<-|[]]]; [apply R; now right|lia].
    + assert (free = []) as ->.
      { destruct free as [|f0 f1]; [reflexivity|]. apply nth_error_None in Ew. pose proof (Nat.mod_upper_bound pick (length (f0 :: f1))). cbn [length] in *. lia. }
      assert (L : v_workers s < ints (p_conf p) MaxConn).
      { apply Permutation_length in P. rewrite numbers_length in P. cbn in P. pose proof (base_le (v_workers s) ws). unfold zlen in E. rewrite C, map_length in E. lia. }
      specialize (Ne L). destruct (nth_error ex (pick mod length ex)) as [w|] eqn:Ex'.
      * cbn. eexists. split; [reflexivity|]. split; [exact St|]. split; [exact W|]. exists [], ex, (ws ++ [w]). cbn. rewrite C, map_app. split; [exact F|]. split; [exact Ex|]. split; [reflexivity|].
        assert (Hw : v_workers s <= w < ints (p_conf p) MaxConn) by (apply R; left; eapply nth_error_In; exact Ex').
        split; [|split; [|auto]].
        -- rewrite base_app. change (base (v_workers s) [w]) with (if w <? v_workers s then [w] else []). replace (w <? v_workers s) with false by lia. rewrite app_nil_r. exact P.
        -- intros x [H|[H Hx]]; [apply R; now left|]. apply in_app_or in H as [H|[<-|[]]]; [apply R; now right|lia].
      * exfalso. apply nth_error_None in Ex'. destruct ex as [|e ex']; [congruence|]. pose proof (Nat.mod_upper_bound pick (length (e :: ex'))). cbn [length] in *. lia.
Qed.

Lemma step_shared p o i s : makes_none o -> is_bind (p_conf p) = false -> is_dynamic (p_conf p) = true -> nth_error (p_servers p) i = Some s -> shared (p_conf p) s ->
  exists s', nth_error (p_servers (fst (step p o))) i = Some s' /\ shared (p_conf p) s'.
Proof.
  intros M B Dy N K. assert (Hput : forall j s1, nth_error (p_servers p) j = Some s1 -> forall s2, (i = j -> shared (p_conf p) s2) -> exists s', nth_error (put j s2 (p_servers p)) i = Some s' /\ shared (p_conf p) s').
  { intros j s1 Nj s2 H. destruct (Nat.eq_dec i j) as [->|Nq]; [exists s2; split; [apply put_same; apply nth_error_Some; congruence|auto]|]. exists s. rewrite put_other by congruence. auto. }
  assert (Adm : forall j sj pick, nth_error (p_servers p) j = Some sj -> exists s', nth_error (p_servers (fst (admit_conn p j sj pick))) i = Some s' /\ shared (p_conf p) s').
  { intros j sj pick Nj. destruct (Nat.eq_dec i j) as [->|Nq].
    - rewrite N in Nj. injection Nj as <-. destruct (admit_shared p j s pick B Dy N K) as (s' & -> & K'). exists s'. split; [apply put_same; apply nth_error_Some; congruence|exact K'].
    - destruct (admit_kept p j sj pick Nj) as (_ & _ & _ & _ & s' & -> & _). exists s. rewrite put_other by congruence. auto. }
  unfold step. destruct (p_down p); [cbn; eauto|]. destruct o as [c| |j id h|j id hs|j|j pick|j path pick|j k id|j k|j idle]; try contradiction M.
  - cbn. eauto.
  - destruct (nth_error (p_servers p) j) as [sj|] eqn:Nj; [|cbn; eauto]. destruct (v_slices sj); [cbn; eauto|]. destruct (find_id id (v_apis sj)); [cbn; eauto|]. cbn. apply (Hput j sj Nj). intros <-. rewrite N in Nj. injection Nj as <-. exact K.
  - destruct (nth_error (p_servers p) j) as [sj|] eqn:Nj; [|cbn; eauto]. destruct (v_slices sj); [|cbn; eauto]. destruct (find_id id (v_hands sj)); [cbn; eauto|]. cbn. apply (Hput j sj Nj). intros <-. rewrite N in Nj. injection Nj as <-. exact K.
  - destruct (nth_error (p_servers p) j) as [sj|] eqn:Nj; [|cbn; eauto]. destruct (start_frame p j sj) as (_ & _ & ->). eauto.
  - destruct (nth_error (p_servers p) j) as [sj|] eqn:Nj; [now apply Adm|cbn; eauto].
  - destruct (find_path path (p_mux p)) as [j'|]; [|cbn; eauto]. destruct (nth_error (p_servers p) j') as [sj|] eqn:Nj; [|cbn; eauto]. specialize (Adm j' sj pick Nj). destruct (admit_conn p j' sj pick). exact Adm.
  - destruct (nth_error (p_servers p) j) as [sj|]; [|cbn; eauto]. destruct (nth_error (v_conns sj) k) as [[w|]|]; cbn; eauto.
  - destruct (nth_error (p_servers p) j) as [sj|] eqn:Nj; [|cbn; eauto]. destruct (nth_error (v_conns sj) k) as [[w|]|] eqn:Ek; [|cbn; eauto..]. cbn [fst put_server set_servers p_servers]. apply (Hput j sj Nj). intros <-. rewrite N in Nj. injection Nj as <-.
    destruct K as (St & W & free & ex & ws & F & Ex & C & P & R & Ne). rewrite C, nth_error_map in Ek. destruct (nth_error ws k) as [w'|] eqn:Ew; [|discriminate]. injection Ek as ->.
    pose proof (base_drop (v_workers s) ws k w Ew) as Bd. change (base (v_workers s) [w]) with (if w <? v_workers s then [w] else []) in Bd.
    unfold free_worker. rewrite B, Dy. cbn [set_conns v_stuck v_free v_extra v_workers]. rewrite St, F, Ex.
    assert (Rd : forall x, In x (drop_nth k ws) -> ~ x < v_workers s -> v_workers s <= x < ints (p_conf p) MaxConn) by (intros x H Hx; apply R; right; split; [eapply drop_in; exact H|exact Hx]).
    destruct (w <? v_workers s) eqn:Hw.
    + split; [exact St|]. split; [exact W|]. exists (w :: free), ex, (drop_nth k ws). cbn. rewrite C, drop_map. split; [reflexivity|]. split; [exact Ex|]. split; [reflexivity|]. split; [|split; [|exact Ne]].
      * apply Permutation_trans with (free ++ base (v_workers s) ws); [|exact P]. rewrite Bd. cbn. apply Permutation_middle.
      * intros x [H|[H Hx]]; [apply R; now left|auto].
    + split; [exact St|]. split; [exact W|]. exists free, (w :: ex), (drop_nth k ws). cbn. rewrite C, drop_map. split; [exact F|]. split; [reflexivity|]. split; [reflexivity|]. split; [|split; [|discriminate]].
      * apply Permutation_trans with (free ++ base (v_workers s) ws); [|exact P]. now rewrite Bd.
      * intros x [[<-|H]|[H Hx]]; [apply R; right; split; [eapply nth_error_In; exact Ew|lia]|apply R; now left|auto].
  - destruct (nth_error (p_servers p) j); cbn; eauto.
Qed.
Lemma dyn_steady p o : makes_none o -> is_bind (p_conf p) = false -> is_bind (p_conf (fst (step p o))) = is_bind (p_conf p) /\ is_dynamic (p_conf (fst (step p o))) = is_dynamic (p_conf p) /\
  ints (p_conf (fst (step p o))) MaxConn = ints (p_conf p) MaxConn /\ ints (p_conf (fst (step p o))) WorkerPoolSize = ints (p_conf p) WorkerPoolSize.
Proof.
  intros M Nb. destruct (p_down p) eqn:D; [rewrite down_step by exact D; auto|]. destruct (step_conf p o D) as (A & B & _). assert (E : brings o = None) by (destruct o; try reflexivity; contradiction M).
  rewrite E in A, B. unfold is_bind, is_dynamic. rewrite A, B by discriminate. repeat split; auto.
  assert (Pc : p_conf (fst (step p o)) = p_conf p \/ p_conf (fst (step p o)) = handle_conf (p_conf p)).
  { unfold step. rewrite D. destruct o as [c| |j id h|j id hs|j|j pick|j path pick|j k id|j k|j idle]; try contradiction M; [now right|left..].
    - destruct (nth_error (p_servers p) j) as [sj|]; [|reflexivity]. destruct (v_slices sj); [reflexivity|]. destruct (find_id id (v_apis sj)); reflexivity.
    - destruct (nth_error (p_servers p) j) as [sj|]; [|reflexivity]. destruct (v_slices sj); [|reflexivity]. destruct (find_id id (v_hands sj)); reflexivity.
    - destruct (nth_error (p_servers p) j) as [sj|]; [|reflexivity]. apply start_frame.
    - destruct (nth_error (p_servers p) j) as [sj|] eqn:Nj; [|reflexivity]. now apply (admit_kept p j sj pick Nj).
    - destruct (find_path path (p_mux p)) as [j'|]; [|reflexivity]. destruct (nth_error (p_servers p) j') as [sj|] eqn:Nj; [|reflexivity]. pose proof (admit_kept p j' sj pick Nj) as (H & _). destruct (admit_conn p j' sj pick). exact H.
    - destruct (nth_error (p_servers p) j) as [sj|]; [|reflexivity]. destruct (nth_error (v_conns sj) k) as [[w|]|]; reflexivity.
    - destruct (nth_error (p_servers p) j) as [sj|]; [|reflexivity]. destruct (nth_error (v_conns sj) k) as [[w|]|]; reflexivity.
    - destruct (nth_error (p_servers p) j) as [sj|]; reflexivity. }
  destruct Pc as [-> | ->]; [reflexivity|]. unfold handle_conf. now rewrite Nb.
Qed.
Lemma run_shared os : forall p i s, Forall makes_none os -> is_bind (p_conf p) = false -> is_dynamic (p_conf p) = true -> nth_error (p_servers p) i = Some s -> shared (p_conf p) s ->
  exists s', nth_error (p_servers (run p os)) i = Some s' /\ shared (p_conf p) s'.
Proof.
  induction os as [|o os IH]; intros p i s F B Dy N K; [eauto|]. inversion_clear F as [|? ? M F']. cbn. destruct (step_shared p o i s M B Dy N K) as (s1 & N1 & K1). destruct (dyn_steady p o M B) as (B1 & D1 & C1 & W1).
  destruct (IH (fst (step p o)) i s1 F' ltac:(now rewrite B1) ltac:(now rewrite D1) N1) as (s' & N' & K').
  - unfold shared in *. now rewrite C1, W1.
  - exists s'. split; [exact N'|]. unfold shared in *. now rewrite C1, W1 in K'.
Qed.
Lemma new_shared c p i : p_down p = false -> let p' := fst (step p (New c)) in snd (step p (New c)) = [Created i] ->
  is_bind (p_conf p') = false -> is_dynamic (p_conf p') = true -> exists s, nth_error (p_servers p') i = Some s /\ shared (p_conf p') s.
Proof.
  intros D. unfold step. rewrite D. destruct (construct c (p_conf p) (p_log p)) as [[[s g] l]|] eqn:E; [|discriminate]. cbn [fst snd p_conf p_servers]. intros [= <-] B Dy.
  exists s. split; [rewrite nth_error_app2 by lia; now rewrite Nat.sub_diag|].
  assert (G : exists g0, s = fst (new_server g0) /\ g = handle_conf g0).
  { destruct c as [|u| |u]; cbn [construct] in E; [|destruct (user_conf_to_global u _) as [g1 l1]| |destruct (bools u RouterSlicesMode); [destruct (user_conf_to_global u _) as [g1 l1]|discriminate]];
    injection E as <- <- <-; [exists (p_conf p)|exists g1|exists (put_b (p_conf p) RouterSlicesMode true)|exists g1]; split; reflexivity. }
  destruct G as (g0 & -> & Eg). cbn [fst new_server]. rewrite <- Eg. unfold handle_free, handle_extra. rewrite B, Dy. cbn [orb]. split; [reflexivity|]. split; [reflexivity|].
  exists (numbers 0 (ints g WorkerPoolSize)), (numbers (ints g WorkerPoolSize) (ints g MaxConn)), []. cbn [v_free v_extra v_conns v_workers map base filter]. rewrite app_nil_r.
  split; [reflexivity|]. split; [reflexivity|]. split; [reflexivity|]. split; [reflexivity|]. split; [intros w [H|[[] _]]; now apply numbers_in2|apply numbers_some].
Qed.

(* Proofs about the workers of a server in Bind mode (C77). *)
From Coq Require Import ZArith List Bool Lia ZifyBool Permutation.
From Verif Require Import Bytes Conf Spec_Conf Conf_proofs Servers Spec_Servers Servers_proofs.
Import ListNotations.
Local Open Scope Z_scope.

Lemma drop_perm {A} : forall (l : list A) k x, nth_error l k = Some x -> Permutation l (x :: drop_nth k l).
Proof. induction l as [|a l IH]; intros [|k] x H; cbn in *; try discriminate; [injection H as <-; auto|]. rewrite perm_swap. constructor. auto. Qed.
Lemma drop_map {A B} (f : A -> B) : forall l k, drop_nth k (map f l) = map f (drop_nth k l).
Proof. induction l as [|a l IH]; intros [|k]; cbn; auto. now rewrite IH. Qed.

(* Every worker is free or has one connection. *)
Definition bound (g : config) (s : server) : Prop :=
  v_stuck s = false /\ exists free ws, v_free s = Some free /\ v_conns s = map Some ws /\ Permutation (free ++ ws) (numbers 0 (v_workers s)) /\ v_workers s = ints g MaxConn.

Lemma numbers_nodup n : NoDup (numbers 0 n).
Proof. unfold numbers. apply FinFun.Injective_map_NoDup; [intros a b; lia|apply seq_NoDup]. Qed.
Lemma numbers_in n w : In w (numbers 0 n) -> 0 <= w < n.
Proof. unfold numbers. rewrite in_map_iff. intros (k & <- & H). apply in_seq in H. lia. Qed.
Lemma numbers_length n : length (numbers 0 n) = Z.to_nat n.
Proof. unfold numbers. rewrite map_length, seq_length. f_equal. lia. Qed.

Lemma admit_bound p i s pick : is_bind (p_conf p) = true -> nth_error (p_servers p) i = Some s -> bound (p_conf p) s ->
  exists s', p_servers (fst (admit_conn p i s pick)) = put i s' (p_servers p) /\ bound (p_conf p) s'.
Proof.
  intros B N (S & free & ws & F & C & P & W). unfold admit_conn. destruct (zlen (v_conns s) >=? ints (p_conf p) MaxConn) eqn:E.
  - exists s. split; [cbn; now rewrite put_self|]. split; [exact S|]. exists free, ws. auto.
  - unfold use_worker. rewrite B. cbn [set_conns v_stuck v_free v_workers v_cid]. rewrite S, F.
    assert (L : (0 < length free)%nat).
    { apply Permutation_length in P. rewrite app_length, numbers_length, W in P. unfold zlen in E. rewrite C, map_length in E. lia. }
    destruct (nth_error free (pick mod length free)) as [w|] eqn:Ew; [|apply nth_error_None in Ew; pose proof (Nat.mod_upper_bound pick (length free)); lia].
    cbn. eexists. split; [reflexivity|]. split; [exact S|]. exists (drop_nth (pick mod length free) free), (ws ++ [w]). cbn. rewrite C, map_app. split; [reflexivity|]. split; [reflexivity|]. split; [|exact W].
    apply Permutation_trans with (free ++ ws); [|exact P]. apply Permutation_trans with ((w :: drop_nth (pick mod length free) free) ++ ws); [|apply Permutation_app_tail, Permutation_sym, (drop_perm _ _ _ Ew)].
    rewrite app_assoc, <- Permutation_cons_append. reflexivity.
Qed.

Lemma step_bound p o i s : makes_none o -> is_bind (p_conf p) = true -> nth_error (p_servers p) i = Some s -> bound (p_conf p) s ->
  exists s', nth_error (p_servers (fst (step p o))) i = Some s' /\ bound (p_conf p) s'.
Proof.
  intros M B N K. assert (Hput : forall j s1, nth_error (p_servers p) j = Some s1 -> forall s2, (i = j -> bound (p_conf p) s2) -> exists s', nth_error (put j s2 (p_servers p)) i = Some s' /\ bound (p_conf p) s').
  { intros j s1 Nj s2 H. destruct (Nat.eq_dec i j) as [->|Ne]; [exists s2; split; [apply put_same; apply nth_error_Some; congruence|auto]|]. exists s. rewrite put_other by congruence. auto. }
  assert (Adm : forall j sj pick, nth_error (p_servers p) j = Some sj -> exists s', nth_error (p_servers (fst (admit_conn p j sj pick))) i = Some s' /\ bound (p_conf p) s').
  { intros j sj pick Nj. destruct (Nat.eq_dec i j) as [->|Ne].
    - rewrite N in Nj. injection Nj as <-. destruct (admit_bound p j s pick B N K) as (s' & -> & K'). exists s'. split; [apply put_same; apply nth_error_Some; congruence|exact K'].
    - destruct (admit_kept p j sj pick Nj) as (_ & _ & _ & _ & s' & -> & _). exists s. rewrite put_other by congruence. auto. }
  unfold step. destruct (p_down p); [cbn; eauto|]. destruct o as [c| |j id h|j id hs|j|j pick|j path pick|j k id|j k|j idle]; try contradiction M.
  - cbn. eauto.
  - destruct (nth_error (p_servers p) j) as [sj|] eqn:Nj; [|cbn; eauto]. destruct (v_slices sj); [cbn; eauto|]. destruct (find_id id (v_apis sj)); [cbn; eauto|]. cbn. apply (Hput j sj Nj). intros <-. rewrite N in Nj. injection Nj as <-. exact K.
  - destruct (nth_error (p_servers p) j) as [sj|] eqn:Nj; [|cbn; eauto]. destruct (v_slices sj); [|cbn; eauto]. destruct (find_id id (v_hands sj)); [cbn; eauto|]. cbn. apply (Hput j sj Nj). intros <-. rewrite N in Nj. injection Nj as <-. exact K.
  - destruct (nth_error (p_servers p) j) as [sj|] eqn:Nj; [|cbn; eauto]. destruct (start_frame p j sj) as (_ & _ & ->). eauto.
  - destruct (nth_error (p_servers p) j) as [sj|] eqn:Nj; [now apply Adm|cbn; eauto].
  - destruct (find_path path (p_mux p)) as [j'|]; [|cbn; eauto]. destruct (nth_error (p_servers p) j') as [sj|] eqn:Nj; [|cbn; eauto]. specialize (Adm j' sj pick Nj). destruct (admit_conn p j' sj pick). exact Adm.
  - destruct (nth_error (p_servers p) j) as [sj|]; [|cbn; eauto]. destruct (nth_error (v_conns sj) k) as [[w|]|]; cbn; eauto.
  - destruct (nth_error (p_servers p) j) as [sj|] eqn:Nj; [|cbn; eauto]. destruct (nth_error (v_conns sj) k) as [[w|]|] eqn:Ek; [|cbn; eauto..]. cbn [fst put_server set_servers p_servers]. apply (Hput j sj Nj). intros <-. rewrite N in Nj. injection Nj as <-.
    destruct K as (S & free & ws & F & C & P & W). unfold free_worker. rewrite B. cbn [set_conns v_stuck v_free]. rewrite S, F. split; [exact S|]. exists (w :: free), (drop_nth k ws). cbn. rewrite C, drop_map. split; [reflexivity|]. split; [reflexivity|]. split; [|exact W].
    rewrite C, nth_error_map in Ek. destruct (nth_error ws k) as [w'|] eqn:Ew; [|discriminate]. injection Ek as ->. apply Permutation_trans with (free ++ ws); [|exact P]. cbn. rewrite Permutation_middle. apply Permutation_app_head, Permutation_sym, (drop_perm _ _ _ Ew).
  - destruct (nth_error (p_servers p) j); cbn; eauto.
Qed.

Lemma bind_steady p o : makes_none o -> is_bind (p_conf (fst (step p o))) = is_bind (p_conf p) /\ ints (p_conf (fst (step p o))) MaxConn = ints (p_conf p) MaxConn.
Proof.
  intros M. destruct (p_down p) eqn:D; [now rewrite down_step|]. destruct (step_conf p o D) as (A & B & _). assert (E : brings o = None) by (destruct o; try reflexivity; contradiction M).
  rewrite E in A, B. unfold is_bind. rewrite A, B by discriminate. auto.
Qed.
Lemma run_bound os : forall p i s, Forall makes_none os -> is_bind (p_conf p) = true -> nth_error (p_servers p) i = Some s -> bound (p_conf p) s ->
  exists s', nth_error (p_servers (run p os)) i = Some s' /\ bound (p_conf p) s'.
Proof.
  induction os as [|o os IH]; intros p i s F B N K; [eauto|]. inversion_clear F as [|? ? M F']. cbn. destruct (step_bound p o i s M B N K) as (s1 & N1 & K1). destruct (bind_steady p o M) as (B1 & C1).
  destruct (IH (fst (step p o)) i s1 F' ltac:(now rewrite B1) N1) as (s' & N' & K').
  - unfold bound in *. now rewrite C1.
  - exists s'. split; [exact N'|]. unfold bound in *. now rewrite C1 in K'.
Qed.
Lemma new_bound c p i : p_down p = false -> let p' := fst (step p (New c)) in snd (step p (New c)) = [Created i] ->
  is_bind (p_conf p') = true -> exists s, nth_error (p_servers p') i = Some s /\ bound (p_conf p') s.
Proof.
  intros D. unfold step. rewrite D. destruct (construct c (p_conf p) (p_log p)) as [[[s g] l]|] eqn:E; [|discriminate]. cbn [fst snd p_conf p_servers]. intros [= <-] B.
  exists s. split; [rewrite nth_error_app2 by lia; now rewrite Nat.sub_diag|].
  assert (G : exists g0, s = fst (new_server g0) /\ g = handle_conf g0).
  { destruct c as [|u| |u]; cbn [construct] in E; [|destruct (user_conf_to_global u _) as [g1 l1]| |destruct (bools u RouterSlicesMode); [destruct (user_conf_to_global u _) as [g1 l1]|discriminate]];
    injection E as <- <- <-; [exists (p_conf p)|exists g1|exists (put_b (p_conf p) RouterSlicesMode true)|exists g1]; split; reflexivity. }
  destruct G as (g0 & -> & Eg). cbn [fst new_server]. rewrite <- Eg. unfold handle_free. rewrite B. cbn [orb]. split; [reflexivity|]. exists (numbers 0 (ints g WorkerPoolSize)), []. cbn. rewrite app_nil_r. repeat split; auto.
  rewrite Eg in B |- *. unfold handle_conf in *. destruct (is_bind g0) eqn:B0; [reflexivity|congruence].
Qed.

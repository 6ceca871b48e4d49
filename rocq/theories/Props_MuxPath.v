(* C100: which of the servers a websocket request reaches. *)
From Coq Require Import ZArith List Bool Lia Arith.
From Verif Require Import StartServers Spec_StartServers StartServers_proofs Spec_MuxPath.
Import ListNotations.
Local Open Scope Z_scope.

Lemma prefix_begins q : forall p, path_prefix q p = true <-> begins q p.
Proof.
  induction q as [|x q IH]; intros p; cbn; [split; [exists p; reflexivity|reflexivity]|]. destruct p as [|y p].
  - split; [discriminate|]. intros (r & H). discriminate.
  - rewrite andb_true_iff, Z.eqb_eq, IH. split.
    + intros (-> & r & ->). exists r. reflexivity.
    + intros (r & H). injection H as -> ->. split; [reflexivity|exists r; reflexivity].
Qed.
Lemma slash_slashed p : ends_in_slash p = true <-> slashed p.
Proof.
  unfold ends_in_slash. rewrite Z.eqb_eq. split.
  - intros H. destruct (exists_last (l := p)) as (r & z & ->); [intros ->; discriminate|]. rewrite last_last in H. subst. exists r. reflexivity.
  - intros (r & ->). apply last_last.
Qed.
Lemma exact_is m p : (exists i, mux_exact m p = Some i /\ In (p, i) m) \/ mux_exact m p = None /\ ~ exists i, In (p, i) m.
Proof.
  unfold mux_exact. destruct (find _ m) as [[q i]|] eqn:E; cbn.
  - left. exists i. split; [reflexivity|]. apply find_some in E. destruct E as (I & E). apply path_eqb_eq in E. cbn in E. now subst.
  - right. split; [reflexivity|]. intros (i & I). apply (find_none _ _ E) in I. cbn in I. assert (path_eqb p p = true) by now apply path_eqb_eq. congruence.
Qed.
Lemma longest_is m p :
  (exists q i, mux_longest m p = Some (q, i) /\ In (q, i) m /\ covers q p /\ forall q' i', In (q', i') m -> covers q' p -> (length q' <= length q)%nat) \/
  mux_longest m p = None /\ forall q i, In (q, i) m -> ~ covers q p.
Proof.
  unfold mux_longest. induction m as [|[q i] m IH] using rev_ind; [right; split; [reflexivity|intros q i []]|].
  rewrite fold_left_app. set (best := fold_left _ m None) in *. cbn [fold_left fst].
  assert (C : ends_in_slash q && path_prefix q p = true <-> covers q p) by (rewrite andb_true_iff, prefix_begins, slash_slashed; reflexivity).
  destruct (ends_in_slash q && path_prefix q p) eqn:B.
  - assert (Cq : covers q p) by now apply C. destruct IH as [(q0 & i0 & -> & I & C0 & M)|(-> & M)].
    + cbn [fst]. destruct (Nat.ltb_spec (length q0) (length q)) as [L|L]; left.
      * exists q, i. split; [reflexivity|]. split; [apply in_or_app; right; now left|]. split; [exact Cq|]. intros q' i' I' C'. apply in_app_or in I'. destruct I' as [I'|[I'|[]]]; [specialize (M _ _ I' C'); lia|injection I' as <- <-; lia].
      * exists q0, i0. split; [reflexivity|]. split; [apply in_or_app; now left|]. split; [exact C0|]. intros q' i' I' C'. apply in_app_or in I'. destruct I' as [I'|[I'|[]]]; [exact (M _ _ I' C')|injection I' as <- <-; exact L].
    + left. exists q, i. split; [reflexivity|]. split; [apply in_or_app; right; now left|]. split; [exact Cq|]. intros q' i' I' C'. apply in_app_or in I'. destruct I' as [I'|[I'|[]]]; [destruct (M _ _ I' C')|injection I' as <- <-; lia].
  - assert (Nq : ~ covers q p) by (intros H; apply C in H; discriminate). destruct IH as [(q0 & i0 & -> & I & C0 & M)|(-> & M)]; [left|right].
    + exists q0, i0. split; [reflexivity|]. split; [apply in_or_app; now left|]. split; [exact C0|]. intros q' i' I' C'. apply in_app_or in I'. destruct I' as [I'|[I'|[]]]; [exact (M _ _ I' C')|injection I' as <- <-; contradiction].
    + split; [reflexivity|]. intros q' i' I'. apply in_app_or in I'. destruct I' as [I'|[I'|[]]]; [exact (M _ _ I')|injection I' as <- <-; exact Nq].
Qed.

(* In every state of the process: a request to a port somebody listens on for websockets is
   answered by the rules of the mux over all patterns of the process. *)
Theorem C100_paths : forall s port p a, ws_request s port p = Some a -> answers (pr_mux s) p a.
Proof.
  intros s port p a H. unfold ws_request in H. destruct (_ && _) in H; [|discriminate]. injection H as <-. unfold answers, mux_match. set (m := pr_mux s).
  destruct (exact_is m p) as [(i & -> & I)|(-> & N)]; [left; eauto|]. right. split; [exact N|].
  destruct (exact_is m (p ++ [47])) as [(j & -> & J)|(-> & N')].
  - destruct (ends_in_slash p) eqn:E.
    + right. split; [left; now apply slash_slashed|]. destruct (longest_is m p) as [(q & i & -> & I & C & M)|(-> & M)]; [left|right].
      * exists q, i. split; [reflexivity|]. split; [exact I|]. split; [exact C|]. intros q' (i' & I'). exact (M _ _ I').
      * split; [reflexivity|]. intros q (i & I). exact (M _ _ I).
    + left. split; [intros S; apply slash_slashed in S; congruence|]. eauto.
  - right. split; [now right|]. destruct (longest_is m p) as [(q & i & -> & I & C & M)|(-> & M)]; [left|right].
    + exists q, i. split; [reflexivity|]. split; [exact I|]. split; [exact C|]. intros q' (i' & I'). exact (M _ _ I').
    + split; [reflexivity|]. intros q (i & I). exact (M _ _ I).
Qed.
Print Assumptions C100_paths.
(* And a request is answered exactly while somebody listens there for websockets. *)
Theorem C100_answered : forall s port p, (exists a, ws_request s port p = Some a) <-> pr_dead s = false /\ exists i, In (port, (LkWs, i)) (pr_tcp s).
Proof.
  intros s port p. unfold ws_request. destruct (existsb _ (pr_tcp s)) eqn:E.
  - apply existsb_exists in E. destruct E as ([q [k i]] & I & E). cbn in E. apply andb_true_iff in E. destruct E as (E & K). apply Z.eqb_eq in E. subst q. destruct k; [discriminate|].
    destruct (pr_dead s); cbn; split.
    + intros (a & H). discriminate.
    + intros (H & _). discriminate.
    + intros _. split; [reflexivity|exists i; exact I].
    + intros _. eexists. reflexivity.
  - cbn. split; [intros (a & H); discriminate|]. intros (_ & i & I). exfalso. rewrite <- not_true_iff_false in E. apply E. apply existsb_exists. exists (port, (LkWs, i)). split; [exact I|]. cbn. now rewrite Z.eqb_refl.
Qed.
Print Assumptions C100_answered.
(* The patterns are the paths of servers that were started as websocket servers, whoever was
   stopped since. *)
Theorem C100_patterns : forall conf bt bu ls q i, In (q, i) (pr_mux (p_run conf bt bu proc_new ls)) ->
  q = sc_path (conf i) /\ exists m, In (i, m) (starts ls) /\ (m = MWs \/ m = MBoth).
Proof.
  intros conf bt bu ls.
  assert (J : (forall q i, In (q, i) (pr_mux (p_run conf bt bu proc_new ls)) -> q = sc_path (conf i) /\ exists m, In (i, m) (starts ls) /\ (m = MWs \/ m = MBoth)) /\
              (forall i, In (i, TWs) (pr_todo (p_run conf bt bu proc_new ls)) -> exists m, In (i, m) (starts ls) /\ (m = MWs \/ m = MBoth))); [|exact (proj1 J)].
  induction ls as [|l ls (IH1 & IH2)] using rev_ind; [split; [intros q i []|intros i []]|].
  unfold p_run. rewrite fold_left_app. cbn [fold_left]. fold (p_run conf bt bu proc_new ls). set (s := p_run conf bt bu proc_new ls) in *.
  assert (W : forall i, (exists m, In (i, m) (starts ls) /\ (m = MWs \/ m = MBoth)) -> exists m, In (i, m) (starts (ls ++ [l])) /\ (m = MWs \/ m = MBoth)).
  { intros i (m & I & H). exists m. split; [|exact H]. unfold starts. rewrite flat_map_app. apply in_or_app. now left. }
  assert (Same : forall s', pr_mux s' = pr_mux s -> incl (pr_todo s') (pr_todo s) -> (forall q i, In (q, i) (pr_mux s') -> q = sc_path (conf i) /\ exists m, In (i, m) (starts (ls ++ [l])) /\ (m = MWs \/ m = MBoth)) /\
              (forall i, In (i, TWs) (pr_todo s') -> exists m, In (i, m) (starts (ls ++ [l])) /\ (m = MWs \/ m = MBoth))).
  { intros s' E I. rewrite E. split; [intros q i H; destruct (IH1 q i H) as (H1 & H2); auto|]. intros i H. apply W, IH2, I, H. }
  unfold p_step. destruct (pr_dead s); [apply Same; [reflexivity|apply incl_refl]|]. destruct l as [i m|n c|i].
  - cbn [pr_mux pr_todo]. split; [intros q j H; destruct (IH1 q j H) as (H1 & H2); auto|]. intros j H. apply in_app_or in H. destruct H as [H|H]; [apply W, IH2, H|].
    apply in_map_iff in H. destruct H as (t & E & H). injection E as -> ->. exists m. split; [unfold starts; rewrite flat_map_app; apply in_or_app; right; now left|]. destruct m; cbn in H; intuition discriminate.
  - destruct (nth_error (pr_todo s) n) as [[i t]|] eqn:E; [|apply Same; [reflexivity|apply incl_refl]].
    assert (R : incl (drop_nth n (pr_todo s)) (pr_todo s)).
    { intros x Hx. apply (Permutation.Permutation_in x (Permutation.Permutation_sym (drop_nth_perm _ _ _ E))). now right. }
    assert (Cr : incl (pr_todo s) (pr_todo s)) by apply incl_refl.
    unfold run_task. destruct t.
    + destruct (negb _); [apply Same; auto|]. destruct c; [destruct (free_tcp _ _ _)|destruct (free_tcp _ _ _)|]; apply Same; auto.
    + destruct (sc_path (conf i)) as [|z r] eqn:P; [apply Same; auto|]. destruct (mux_exact _ _); [apply Same; auto|]. cbn [pr_mux pr_todo].
      split.
      * intros q j [H|H]; [injection H as <- <-; split; [now rewrite P|]; apply W, IH2; apply nth_error_In in E; exact E|]. destruct (IH1 q j H) as (H1 & H2). auto.
      * intros j [H|H]; [discriminate|]. apply W, IH2, R, H.
    + destruct (free_tcp _ _ _); apply Same; auto.
    + destruct (free_udp _ _ _); apply Same; auto.
  - destruct (can_stop s i); apply Same; try reflexivity; apply incl_refl.
Qed.
Print Assumptions C100_patterns.
(* "/chat/", "/chat/x/" and "/game"; requests for "/chat/x/1", "/chat/7", "/chat", "/game", "/game/". *)
Example C100_paths_case :
  let conf i := match i with O => SConf true 1 9000 2 [47; 99; 47] | S O => SConf true 1 9001 2 [47; 99; 47; 120; 47] | _ => SConf true 1 9002 2 [47; 103] end in
  let s := p_run conf (fun _ => false) (fun _ => false) proc_new [PStart 0 MWs; PStart 1 MWs; PStart 2 MWs; PTask 0 TlsOff; PTask 0 TlsOff; PTask 0 TlsOff; PTask 0 TlsOff; PTask 0 TlsOff; PTask 0 TlsOff] in
  map (ws_request s 9001) [[47; 99; 47; 120; 47; 49]; [47; 99; 47; 55]; [47; 99]; [47; 103]; [47; 103; 47]] =
  [Some (Served 1); Some (Served 0); Some Redirected; Some (Served 2); Some NotFound].
Proof. vm_compute. reflexivity. Qed.

From Coq Require Import ZArith List Bool Arith Lia.
From Verif Require Import Bytes GoSlice ShardMap ConnManager ConnLife ConnServer Spec_ConnServer ConnServer_proofs ConnStop_proofs Spec_Accept.
Import ListNotations.

Lemma stop_frame c s g x : let s1 := fst (stop_step c s g x) in sv_tcp s1 = sv_tcp s /\ sv_kcp s1 = sv_kcp s /\ (sv_lclosed s = true -> sv_lclosed s1 = true).
Proof.
  unfold stop_step. destruct (nth_error (sv_stops s) g) as [[[|j t] ex| | |]|]; try (cbn; auto; fail).
  - destruct ex; cbn; auto.
  - destruct (nth_error (j :: t) x) as [i|]; [|cbn; auto]. destruct (nth_error (sv_conns s) i) as [n|]; [|cbn; auto].
    destruct (lf_ctx _); [|cbn; auto]. pose proof (conn_step_frame c s i LStop) as (F1 & F2 & _ & _ & _ & F6 & _).
    destruct (conn_step c s i LStop) as [s1 e]. cbn in *. repeat split; congruence.
  - destruct (sv_exit_closed s); [cbn; auto|]. destruct (sv_waiting s); cbn; auto.
Qed.

Lemma accept_frame c k again s p ok : let '(s1, _, _) := accept_step c k again s p ok in sv_tcp s1 = sv_tcp s /\ sv_kcp s1 = sv_kcp s /\ sv_lclosed s1 = sv_lclosed s.
Proof. unfold accept_step. destruct p; [destruct (_ <=? _)|destruct k, (sv_lclosed s) eqn:E, ok|..]; cbn; auto. Qed.

(* Other labels leave the loop where it is, and the listener closed. *)
Lemma other_frame c k s l : is_go k l = false -> at_ k (fst (srv_step c s l)) = at_ k s.
Proof.
  intros N. unfold srv_step. destruct (sv_crashed s); [reflexivity|]. destruct l as [ok|ok| |i ok|i l| | |g x|].
  - destruct k; [discriminate|]. destruct (has_tcp _); [|reflexivity]. pose proof (accept_frame c KTcp ACheck s (sv_tcp s) ok) as A. destruct (accept_step _ _ _ _ _ _) as [[s1 p] e]. cbn. apply A.
  - destruct k; [|discriminate]. destruct (has_kcp _); [|reflexivity]. pose proof (accept_frame c KKcp ACheck s (sv_kcp s) ok) as A. destruct (accept_step _ _ _ _ _ _) as [[s1 p] e]. cbn. apply A.
  - destruct (has_ws _), k; reflexivity.
  - destruct (nth_error (sv_ws s) i) as [p|]; [|reflexivity]. pose proof (accept_frame c KWs AEnd s p ok) as A. destruct (accept_step _ _ _ _ _ _) as [[s1 p1] e]. destruct k; cbn; apply A.
  - pose proof (conn_step_frame c s i l) as (F1 & F2 & _). destruct k; assumption.
  - destruct k; reflexivity.
  - destruct k; reflexivity.
  - pose proof (stop_frame c s g x) as (F1 & F2 & _). destruct k; assumption.
  - destruct (_ && _), k; reflexivity.
Qed.

Lemma closed_stays c s l : sv_lclosed s = true -> sv_lclosed (fst (srv_step c s l)) = true.
Proof.
  intros H. unfold srv_step. destruct (sv_crashed s); [exact H|]. destruct l as [ok|ok| |i ok|i l| | |g x|].
  - destruct (has_tcp _); [|exact H]. pose proof (accept_frame c KTcp ACheck s (sv_tcp s) ok) as A. destruct (accept_step _ _ _ _ _ _) as [[s1 p] e]. cbn. destruct A as (_ & _ & A). congruence.
  - destruct (has_kcp _); [|exact H]. pose proof (accept_frame c KKcp ACheck s (sv_kcp s) ok) as A. destruct (accept_step _ _ _ _ _ _) as [[s1 p] e]. cbn. destruct A as (_ & _ & A). congruence.
  - destruct (has_ws _); exact H.
  - destruct (nth_error (sv_ws s) i) as [p|]; [|exact H]. pose proof (accept_frame c KWs AEnd s p ok) as A. destruct (accept_step _ _ _ _ _ _) as [[s1 p1] e]. cbn. destruct A as (_ & _ & A). congruence.
  - pose proof (conn_step_frame c s i l) as (_ & _ & _ & _ & _ & F6 & _). congruence.
  - exact H.
  - exact H.
  - pose proof (stop_frame c s g x) as (_ & _ & F). auto.
  - destruct (_ && _); [reflexivity|exact H].
Qed.

Definition kind_of (k : loop) : kind := match k with TcpLoop => KTcp | KcpLoop => KKcp end.
Lemma go_step c k s ok : sv_crashed s = false -> runs c k = true ->
  at_ k (fst (srv_step c s (go k ok))) = snd (fst (accept_step c (kind_of k) ACheck s (at_ k s) ok)) /\
  snd (srv_step c s (go k ok)) = snd (accept_step c (kind_of k) ACheck s (at_ k s) ok) /\
  sv_lclosed (fst (srv_step c s (go k ok))) = sv_lclosed s.
Proof.
  intros Hc R. unfold srv_step. rewrite Hc. destruct k; cbn [go runs kind_of at_] in *; rewrite R.
  - pose proof (accept_frame c KTcp ACheck s (sv_tcp s) ok) as A. destruct (accept_step _ _ _ _ _ _) as [[s1 p] e]. cbn. destruct A as (_ & _ & A). auto.
  - pose proof (accept_frame c KKcp ACheck s (sv_kcp s) ok) as A. destruct (accept_step _ _ _ _ _ _) as [[s1 p] e]. cbn. destruct A as (_ & _ & A). auto.
Qed.

(* The Tcp loop ends only on a closed listener; the Kcp loop never does. *)
Lemma end_closed c ls : let s := fst (srv_run c (srv_new c) ls) in (sv_tcp s = AEnd -> sv_lclosed s = true) /\ sv_kcp s <> AEnd.
Proof.
  cbv zeta. apply (srv_inv c (fun s => (sv_tcp s = AEnd -> sv_lclosed s = true) /\ sv_kcp s <> AEnd)).
  2:{ cbn. split; discriminate. }
  intros s l (H1 & H2).
  assert (T : sv_tcp (fst (srv_step c s l)) = AEnd -> sv_lclosed (fst (srv_step c s l)) = true).
  { destruct (is_go TcpLoop l) eqn:G.
    - destruct l as [ok| | | | | | | |]; try discriminate. destruct (sv_crashed s) eqn:Hc; [unfold srv_step; now rewrite Hc|].
      destruct (has_tcp (sf_mode c)) eqn:R; [|unfold srv_step; now rewrite Hc, R].
      destruct (go_step c TcpLoop s ok Hc R) as (A & _ & B). cbn [go at_ kind_of] in *. rewrite A, B. unfold accept_step. 
      destruct (sv_tcp s) eqn:P; [destruct (_ <=? _)|destruct (sv_lclosed s); [reflexivity|destruct ok]|..]; cbn; try discriminate. auto.
    - pose proof (other_frame c TcpLoop s l G) as F. cbn [at_] in F. rewrite F. intros E. apply closed_stays. auto. }
  split; [exact T|].
  destruct (is_go KcpLoop l) eqn:G.
  - destruct l as [|ok| | | | | | |]; try discriminate. destruct (sv_crashed s) eqn:Hc; [unfold srv_step; now rewrite Hc|].
    destruct (has_kcp (sf_mode c)) eqn:R; [|unfold srv_step; now rewrite Hc, R].
    destruct (go_step c KcpLoop s ok Hc R) as (A & _ & B). cbn [go at_ kind_of] in *. rewrite A. unfold accept_step. 
    destruct (sv_kcp s) eqn:P; [destruct (_ <=? _)|destruct ok|..]; cbn; try discriminate. congruence.
  - pose proof (other_frame c KcpLoop s l G) as F. cbn [at_] in F. now rewrite F.
Qed.

Definition rank (p : apc) : nat := match p with ACheck => 4 | AAccept => 3 | AId => 2 | AAdd _ => 1 | AEnd => 0 end.

Lemma all_along_cons c P s l b : all_along c P s (l :: b) -> sv_crashed s = false /\ P s /\ all_along c P (fst (srv_step c s l)) b.
Proof.
  intros H. destruct (H [] l b eq_refl) as (A & B). split; [exact A|]. split; [exact B|].
  intros b1 l1 b2 E. specialize (H (l :: b1) l1 b2). rewrite E in H. specialize (H eq_refl). cbn [srv_run] in H.
  destruct (srv_step c s l) as [s1 e]. cbn [fst]. destruct (srv_run c s1 b1) as [s2 es]. exact H.
Qed.
Lemma took_cons c k s l b : took c k (fst (srv_step c s l)) b -> took c k s (l :: b).
Proof.
  intros (b1 & ok & b2 & i & -> & H). exists (l :: b1), ok, b2, i. split; [reflexivity|]. cbn [srv_run]. destruct (srv_step c s l) as [s1 e]. cbn [fst] in *.
  now destruct (srv_run c s1 b1) as [s2 es].
Qed.

Lemma taken c k b : forall s, runs c k = true -> at_ k s <> AEnd ->
  all_along c (fun s => room c s /\ (k = TcpLoop -> sv_lclosed s = false)) s b -> ~ In (go k false) b -> rank (at_ k s) <= moves k b -> took c k s b.
Proof.
  induction b as [|l b IH]; intros s R E A N M.
  { cbn in M. destruct (at_ k s); cbn in M; try lia. congruence. }
  apply all_along_cons in A as (Hc & (Rm & L) & A). 
  assert (N' : ~ In (go k false) b) by (intros I; apply N; now right).
  destruct (is_go k l) eqn:G.
  - assert (exists ok, l = go k ok) as (ok & ->) by (destruct k, l as [ok|ok| | | | | | |]; try discriminate G; exists ok; reflexivity).
    assert (ok = true) as -> by (destruct ok; [reflexivity|]; exfalso; apply N; now left).
    assert (Hm : moves k (go k true :: b) = S (moves k b)) by (unfold moves; cbn [filter]; now rewrite G). rewrite Hm in M.
    destruct (go_step c k s true Hc R) as (P1 & P2 & _).
    unfold room in Rm. destruct (at_ k s) eqn:P; cbn [rank] in M.
    + apply took_cons. apply IH; auto; rewrite P1; unfold accept_step; replace (sf_max c <=? cm_len (sv_mgr s)) with false by (symmetry; apply Nat.leb_gt; exact Rm); cbn; [discriminate|lia].
    + apply took_cons. apply IH; auto; rewrite P1; unfold accept_step; (destruct k; cbn [kind_of]; [rewrite (L eq_refl)|]); cbn; try discriminate; lia.
    + apply took_cons. apply IH; auto; rewrite P1; cbn; [discriminate|lia].
    + exists [], true, b, (length (sv_conns s)). split; [reflexivity|]. cbn [srv_run fst]. rewrite P2. cbn. now left.
    + congruence.
  - assert (Hm : moves k (l :: b) = moves k b) by (unfold moves; cbn [filter]; now rewrite G). rewrite Hm in M.
    apply took_cons. apply IH; auto; rewrite (other_frame c k s l G); auto.
Qed.

Definition erank (p : apc) : nat := match p with AId => 4 | AAdd _ => 3 | ACheck => 2 | AAccept => 1 | AEnd => 0 end.
Lemma ends_tcp c b : forall s, has_tcp (sf_mode c) = true -> sv_lclosed s = true -> all_along c (room c) s b -> erank (sv_tcp s) <= moves TcpLoop b ->
  sv_tcp (fst (srv_run c s b)) = AEnd.
Proof.
  induction b as [|l b IH]; intros s R L A M.
  { cbn in *. destruct (sv_tcp s); cbn in M; try lia. reflexivity. }
  apply all_along_cons in A as (Hc & Rm & A). cbn [srv_run].
  assert (G0 : sv_lclosed (fst (srv_step c s l)) = true) by now apply closed_stays.
  assert (Q : erank (sv_tcp (fst (srv_step c s l))) <= moves TcpLoop b).
  { destruct (is_go TcpLoop l) eqn:G.
    - destruct l as [ok| | | | | | | |]; try discriminate. destruct (go_step c TcpLoop s ok Hc R) as (P1 & _). cbn [go at_ kind_of] in P1. rewrite P1.
      assert (Hm : moves TcpLoop (STcp ok :: b) = S (moves TcpLoop b)) by reflexivity. rewrite Hm in M. clear Hm.
      unfold room in Rm. unfold accept_step. destruct (sv_tcp s); [replace (sf_max c <=? cm_len (sv_mgr s)) with false by (symmetry; apply Nat.leb_gt; exact Rm)|rewrite L|..]; cbn [erank snd fst] in *; lia.
    - pose proof (other_frame c TcpLoop s l G) as F. cbn [at_] in F. rewrite F. unfold moves in M. cbn [filter] in M. rewrite G in M. exact M. }
  specialize (IH (fst (srv_step c s l)) R G0 A Q). destruct (srv_step c s l) as [s1 e]. cbn [fst] in *. destruct (srv_run c s1 b) as [s2 es]. exact IH.
Qed.

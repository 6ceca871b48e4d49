(* Proofs about ConnServer.v: IDs, the connection limit, stopping. *)
From Coq Require Import ZArith List Bool Arith Lia Permutation.
From Coq Require Import ZifyBool ZifyNat.
From Verif Require Import Bytes GoSlice ShardMap ShardMap_proofs Decimal ConnManager Spec_ConnManager ConnManager_proofs
  ConnLife Spec_ConnLife ConnLife_proofs ConnServer Spec_ConnServer.
Import ListNotations.

Lemma srv_run_app c : forall ls s ls', srv_run c s (ls ++ ls') =
  (fst (srv_run c (fst (srv_run c s ls)) ls'), snd (srv_run c s ls) ++ snd (srv_run c (fst (srv_run c s ls)) ls')).
Proof.
  induction ls as [|l ls IH]; intros s ls'; cbn [app srv_run].
  - cbn. now destruct (srv_run c s ls').
  - destruct (srv_step c s l) as [s1 e]. rewrite IH. destruct (srv_run c s1 ls) as [s2 es]. cbn. now rewrite app_assoc.
Qed.
(* Induction over runs for state invariants. *)
Lemma srv_inv c (P : srv -> Prop) : (forall s l, P s -> P (fst (srv_step c s l))) ->
  forall ls s, P s -> P (fst (srv_run c s ls)).
Proof.
  intros St. induction ls as [|l ls IH]; intros s H; cbn [srv_run]; [exact H|].
  specialize (St s l H). destruct (srv_step c s l) as [s1 e]. specialize (IH s1 St). now destruct (srv_run c s1 ls).
Qed.
Lemma set_nth_split {A} i (x : A) l : nth_error l i = Some x ->
  exists a b, l = a ++ x :: b /\ length a = i /\ forall v, set_nth i v l = a ++ v :: b.
Proof.
  revert i. induction l as [|y l IH]; intros [|i] E; cbn in *; try discriminate.
  - injection E as ->. exists [], l. auto.
  - destruct (IH i E) as (a & b & -> & <- & H). exists (y :: a), b. repeat split. intros v. cbn. now rewrite H.
Qed.

(* --- IDs --- *)
Definition gave (s : srv) : list Z := map (fun n => cn_id (sn_conn n)) (sv_conns s).
Definition ids (n : nat) : list Z := map (fun i => (Z.of_nat (S i) mod 2 ^ 64)%Z) (seq 0 n).
Definition same_acc (s s1 : srv) : Prop :=
  sv_tcp s1 = sv_tcp s /\ sv_kcp s1 = sv_kcp s /\ sv_ws s1 = sv_ws s /\ sv_stops s1 = sv_stops s.
Lemma accept_ids c k again s p ok : holding again = [] ->
  let '(s1, p1, _) := accept_step c k again s p ok in
  same_acc s s1 /\
  ((Permutation (gave s1 ++ holding p1) (gave s ++ holding p) /\ sv_cid s1 = sv_cid s) \/
   (gave s1 = gave s /\ holding p = [] /\ holding p1 = [sv_cid s1] /\ sv_cid s1 = ((sv_cid s + 1) mod 2 ^ 64)%Z)).
Proof.
  intros Ha. unfold accept_step, same_acc. destruct p; [destruct (_ <=? _)|destruct k; [destruct (sv_lclosed s), ok|destruct ok|destruct (sv_lclosed s), ok]|..];
    cbn [holding with_acc sv_tcp sv_kcp sv_ws sv_stops sv_cid]; rewrite ?Ha; (split; [auto|]); try (left; split; [|reflexivity]; reflexivity).
  - now right.
  - left. split; [|reflexivity]. unfold gave. cbn [sv_conns with_acc]. rewrite map_app. cbn. now rewrite app_nil_r.
Qed.
Lemma ids_S n : ids (S n) = ids n ++ [(Z.of_nat (S n) mod 2 ^ 64)%Z].
Proof. unfold ids. rewrite seq_S, map_app. reflexivity. Qed.
Definition ginv (s : srv) : Prop :=
  exists n, sv_cid s = (Z.of_nat n mod 2 ^ 64)%Z /\ Permutation (ids_given s) (ids n).
Lemma given_gave s : ids_given s = gave s ++ holding (sv_tcp s) ++ holding (sv_kcp s) ++ flat_map holding (sv_ws s).
Proof. reflexivity. Qed.
Lemma conn_step_gave c s i l : gave (fst (conn_step c s i l)) = gave s /\ same_acc s (fst (conn_step c s i l)) /\
  sv_cid (fst (conn_step c s i l)) = sv_cid s.
Proof.
  unfold conn_step. destruct (nth_error (sv_conns s) i) as [n|] eqn:E; [|now repeat split].
  destruct (life_step _ _ _) as [lf es]. cbn. unfold same_acc. cbn. split; [|now repeat split]. unfold gave. cbn.
  destruct (set_nth_split i n _ E) as (a & b & E1 & _ & H). rewrite H, E1, !map_app. reflexivity.
Qed.
Lemma stop_step_gave c s g k : gave (fst (stop_step c s g k)) = gave s /\ sv_tcp (fst (stop_step c s g k)) = sv_tcp s /\
  sv_kcp (fst (stop_step c s g k)) = sv_kcp s /\ sv_ws (fst (stop_step c s g k)) = sv_ws s /\
  sv_cid (fst (stop_step c s g k)) = sv_cid s.
Proof.
  unfold stop_step. destruct (nth_error (sv_stops s) g) as [[[|j t] ex| | |]|]; cbn; auto.
  - destruct ex; cbn; auto.
  - destruct (nth_error (j :: t) k) as [i|]; [|cbn; auto]. destruct (nth_error (sv_conns s) i) as [n|]; [|cbn; auto].
    destruct (lf_ctx _); [|cbn; auto]. pose proof (conn_step_gave c s i LStop) as (H1 & (H2 & H3 & H4 & H5) & H6).
    destruct (conn_step c s i LStop) as [s1 e]. cbn in *. auto.
  - destruct (sv_exit_closed s); [cbn; auto|]. destruct (sv_waiting s); cbn; auto.
Qed.
Lemma perm_swap_mid {A} (a b c d e : list A) x : Permutation (a ++ b) (c ++ d ++ x) ->
  Permutation (a ++ b ++ e) ((c ++ d ++ e) ++ x).
Proof. intros H. rewrite app_assoc, H, <- !app_assoc. do 2 apply Permutation_app_head. apply Permutation_app_comm. Qed.
Lemma given_step c s l : ginv s -> ginv (fst (srv_step c s l)).
Proof.
  intros (n & Hc & Hp). unfold srv_step. destruct (sv_crashed s); [now exists n|].
  assert (K : forall s1, (Permutation (ids_given s1) (ids_given s) /\ sv_cid s1 = sv_cid s) \/
     (Permutation (ids_given s1) (ids_given s ++ [sv_cid s1]) /\ sv_cid s1 = ((sv_cid s + 1) mod 2 ^ 64)%Z) -> ginv s1).
  { intros s1 [[H1 H2]|[H1 H2]]; [exists n; rewrite H2, H1; auto|]. exists (S n).
    assert (E : sv_cid s1 = (Z.of_nat (S n) mod 2 ^ 64)%Z). { rewrite H2, Hc, Zplus_mod_idemp_l. f_equal. lia. }
    split; [exact E|]. rewrite H1, ids_S, <- E. now apply Permutation_app_tail. }
  rewrite !given_gave in *. destruct l as [ok|ok| |i ok|i l| | |g k|].
  - destruct (has_tcp _); [|now exists n]. pose proof (accept_ids c KTcp ACheck s (sv_tcp s) ok eq_refl) as A.
    destruct (accept_step _ _ _ _ _ _) as [[s1 p1] e]. destruct A as ((A1 & A2 & A3 & _) & A4). cbn [fst]. apply K.
    rewrite !given_gave. cbn [with_tcp sv_tcp sv_kcp sv_ws sv_cid]. change (gave (with_tcp s1 p1)) with (gave s1). rewrite A2, A3.
    destruct A4 as [[A4 A5]|(A4 & A5 & A6 & A7)]; [left|right]; (split; [|assumption]).
    + rewrite app_assoc, A4, <- !app_assoc. reflexivity.
    + rewrite A4, A5, A6. cbn [app]. rewrite <- !app_assoc. apply Permutation_app_head. rewrite app_assoc. apply Permutation_cons_append.
  - destruct (has_kcp _); [|now exists n]. pose proof (accept_ids c KKcp ACheck s (sv_kcp s) ok eq_refl) as A.
    destruct (accept_step _ _ _ _ _ _) as [[s1 p1] e]. destruct A as ((A1 & A2 & A3 & _) & A4). cbn [fst]. apply K.
    rewrite !given_gave. cbn [with_kcp sv_tcp sv_kcp sv_ws sv_cid]. change (gave (with_kcp s1 p1)) with (gave s1). rewrite A1, A3.
    assert (W : forall g h, Permutation (g ++ holding (sv_tcp s) ++ h ++ flat_map holding (sv_ws s))
                     ((g ++ h) ++ holding (sv_tcp s) ++ flat_map holding (sv_ws s))).
    { intros g h. rewrite <- app_assoc. apply Permutation_app_head. rewrite !app_assoc. apply Permutation_app_tail, Permutation_app_comm. }
    destruct A4 as [[A4 A5]|(A4 & A5 & A6 & A7)]; [left|right]; (split; [|assumption]).
    + rewrite W, A4, <- W. reflexivity.
    + rewrite A4, A5, A6. cbn [app]. rewrite <- !app_assoc. do 2 apply Permutation_app_head. apply Permutation_cons_append.
  - destruct (has_ws _); [|now exists n]. apply K. left. split; [|reflexivity]. rewrite !given_gave. cbn [fst with_ws sv_ws sv_tcp sv_kcp].
    rewrite flat_map_app. cbn. rewrite app_nil_r. reflexivity.
  - destruct (nth_error (sv_ws s) i) as [p|] eqn:En; [|now exists n].
    pose proof (accept_ids c KWs AEnd s p ok eq_refl) as A.
    destruct (accept_step _ _ _ _ _ _) as [[s1 p1] e]. destruct A as ((A1 & A2 & A3 & _) & A4). cbn [fst]. apply K.
    rewrite !given_gave. cbn [with_ws sv_tcp sv_kcp sv_ws sv_cid]. change (gave (with_ws s1 (set_nth i p1 (sv_ws s1)))) with (gave s1).
    rewrite A1, A2, A3. destruct (set_nth_split i p _ En) as (a & b & E1 & _ & H). rewrite H, E1, !flat_map_app. cbn [flat_map].
    assert (W : forall g h, Permutation (g ++ holding (sv_tcp s) ++ holding (sv_kcp s) ++ flat_map holding a ++ h ++ flat_map holding b)
                     ((g ++ h) ++ (holding (sv_tcp s) ++ holding (sv_kcp s) ++ flat_map holding a) ++ flat_map holding b)).
    { intros g h. rewrite <- !app_assoc. apply Permutation_app_head. rewrite !app_assoc. apply Permutation_app_tail.
      rewrite <- !app_assoc. rewrite (Permutation_app_comm h). rewrite <- !app_assoc. reflexivity. }
    destruct A4 as [[A4 A5]|(A4 & A5 & A6 & A7)]; [left|right]; (split; [|assumption]).
    + rewrite W, A4, <- W. reflexivity.
    + rewrite A4, A5, A6. rewrite W. cbn [app]. rewrite <- !app_assoc. apply Permutation_app_head.
      rewrite !app_assoc. apply Permutation_cons_append.
  - pose proof (conn_step_gave c s i l) as (H1 & (H2 & H3 & H4 & _) & H6). apply K. left. split; [|assumption].
    rewrite given_gave, H1, H2, H3, H4. reflexivity.
  - apply K. left. split; reflexivity.
  - apply K. left. split; reflexivity.
  - pose proof (stop_step_gave c s g k) as (H1 & H2 & H3 & H4 & H6). apply K. left. split; [|assumption].
    rewrite given_gave, H1, H2, H3, H4. reflexivity.
  - destruct (_ && _); [|now exists n]. apply K. left. split; reflexivity.
Qed.
Lemma NoDup_map_on {A B} (f : A -> B) l : NoDup l -> (forall x y, In x l -> In y l -> f x = f y -> x = y) -> NoDup (map f l).
Proof.
  induction 1 as [|x l Hx Hl IH]; intros Inj; cbn; constructor.
  - intros Hin. apply in_map_iff in Hin as (y & E & Hy). rewrite (Inj y x) in Hy; cbn; auto.
  - apply IH. intros; apply Inj; cbn; auto.
Qed.
Lemma ids_nodup n : (Z.of_nat n <= 2 ^ 64)%Z -> NoDup (ids n).
Proof.
  intros Hn. apply NoDup_map_on; [apply seq_NoDup|]. intros x y Hx%in_seq Hy%in_seq E.
  assert (Hx' : (0 <= Z.of_nat x < 2 ^ 64)%Z) by lia. assert (Hy' : (0 <= Z.of_nat y < 2 ^ 64)%Z) by lia.
  assert (E2 : ((Z.of_nat (S x) - Z.of_nat (S y)) mod 2 ^ 64 = 0)%Z). { rewrite Zminus_mod, E, Z.sub_diag. reflexivity. }
  apply Z.mod_divide in E2; [|lia]. destruct E2 as [q E2]. nia.
Qed.
Lemma ids_unique c ls : let s := fst (srv_run c (srv_new c) ls) in
  (Z.of_nat (length (ids_given s)) <= 2 ^ 64)%Z -> NoDup (ids_given s).
Proof.
  intros s H. assert (G : ginv s).
  { apply srv_inv; [intros; now apply given_step|]. exists 0. split; [reflexivity|]. constructor. }
  destruct G as (n & _ & P). apply (Permutation_NoDup (l := ids n)); [now symmetry|].
  apply ids_nodup. rewrite (Permutation_length P) in H. unfold ids in H. rewrite map_length, seq_length in H. exact H.
Qed.

(* --- the limit --- *)
Lemma concat_set_nth {A} i (x : list A) l : length (concat (set_nth i x l)) <= length (concat l) + length x - length (nth i l []).
Proof.
  revert i. induction l as [|y l IH]; intros [|i]; cbn; try lia; rewrite !app_length; [lia|]. specialize (IH i).
  assert (length (nth i l []) <= length (concat l)).
  { clear. revert i. induction l as [|z l IH]; intros [|i]; cbn; try lia; rewrite app_length; [lia|]. specialize (IH i). lia. }
  lia.
Qed.
Lemma gm_del_len {V} k (g : gomap V) : length (gm_del k g) <= length g.
Proof. unfold gm_del. induction g; cbn; [lia|]. destruct (negb _); cbn; lia. Qed.
Lemma nth_concat_len {A} i (l : list (list A)) : length (nth i l []) <= length (concat l).
Proof. revert i. induction l as [|z l IH]; intros [|i]; cbn; try lia; rewrite app_length; [lia|]. specialize (IH i). lia. Qed.
Lemma cm_add_len m cn : cm_len (cm_add m cn) <= S (cm_len m).
Proof.
  unfold cm_len, cm_add, sm_set, put_shard. rewrite !count_entries. unfold sm_entries, get_shard; cbn [sm_shards].
  set (i := shard_of _ _). pose proof (concat_set_nth i (gm_set (conn_id_str cn) cn (nth i (sm_shards m) [])) (sm_shards m)) as H.
  unfold gm_set at 2 in H. cbn [length] in H. pose proof (gm_del_len (conn_id_str cn) (nth i (sm_shards m) [])).
  pose proof (nth_concat_len i (sm_shards m)). unfold gomap in *. lia.
Qed.
Lemma cm_remove_len m cn : cm_len (cm_remove m cn) <= cm_len m.
Proof.
  unfold cm_len, cm_remove, sm_remove, put_shard. rewrite !count_entries. unfold sm_entries, get_shard; cbn [sm_shards].
  set (i := shard_of _ _). pose proof (concat_set_nth i (gm_del (conn_id_str cn) (nth i (sm_shards m) [])) (sm_shards m)) as H.
  pose proof (gm_del_len (conn_id_str cn) (nth i (sm_shards m) [])).
  pose proof (nth_concat_len i (sm_shards m)). unfold gomap in *. lia.
Qed.
Lemma removes_len cn es : forall m, cm_len (fold_left (fun m e => match e with EvRemove => cm_remove m cn | _ => m end) es m) <= cm_len m.
Proof. induction es as [|e es IH]; intros m; cbn [fold_left]; [lia|]. etransitivity; [apply IH|]. destruct e; try lia. apply cm_remove_len. Qed.
Lemma conn_step_len c s i l : cm_len (sv_mgr (fst (conn_step c s i l))) <= cm_len (sv_mgr s).
Proof.
  unfold conn_step. destruct (nth_error (sv_conns s) i) as [n|]; [|cbn; lia]. destruct (life_step _ _ _) as [lf es]. cbn [fst sv_mgr]. apply removes_len.
Qed.
Lemma stop_step_len c s g k : cm_len (sv_mgr (fst (stop_step c s g k))) <= cm_len (sv_mgr s).
Proof.
  unfold stop_step. destruct (nth_error (sv_stops s) g) as [[[|j t] ex| | |]|]; cbn [fst sv_mgr with_stops]; try lia.
  - destruct ex; cbn; lia.
  - destruct (nth_error (j :: t) k) as [i|]; [|cbn; lia]. destruct (nth_error (sv_conns s) i) as [n|]; [|cbn; lia].
    destruct (lf_ctx _); [|cbn; lia]. pose proof (conn_step_len c s i LStop) as H.
    destruct (conn_step c s i LStop) as [s1 e]. exact H.
  - destruct (sv_exit_closed s); [cbn; lia|]. destruct (sv_waiting s); cbn; lia.
Qed.
Definition past_check (p : apc) : bool := match p with AAccept | AId | AAdd _ => true | _ => false end.
Lemma accept_len c k again s p ok : past_check again = false -> cm_len (sv_mgr s) <= sf_max c ->
  (past_check p = true -> S (cm_len (sv_mgr s)) <= sf_max c) ->
  let '(s1, p1, _) := accept_step c k again s p ok in
  cm_len (sv_mgr s1) <= sf_max c /\ (past_check p1 = true -> S (cm_len (sv_mgr s1)) <= sf_max c) /\ same_acc s s1.
Proof.
  intros Ha Hm Hp. unfold accept_step, same_acc.
  destruct p; [destruct (_ <=? _) eqn:E|destruct k; [destruct (sv_lclosed s), ok|destruct ok|destruct (sv_lclosed s), ok]|..];
    cbn [past_check with_acc sv_tcp sv_kcp sv_ws sv_stops sv_mgr] in *; repeat split; auto; try congruence; try discriminate.
  - intros _. apply Nat.leb_gt in E. lia.
  - specialize (Hp eq_refl). etransitivity; [apply cm_add_len|]. exact Hp.
Qed.
Definition single (m : smode) : Prop := m = ServeTcp \/ m = ServeKcp.
Definition the_pc (m : smode) (s : srv) : apc := match m with ServeKcp => sv_kcp s | _ => sv_tcp s end.
Definition lim (c : scfg) (s : srv) : Prop :=
  cm_len (sv_mgr s) <= sf_max c /\ (past_check (the_pc (sf_mode c) s) = true -> S (cm_len (sv_mgr s)) <= sf_max c) /\ sv_ws s = [].
Lemma lim_step c s l : single (sf_mode c) -> lim c s -> lim c (fst (srv_step c s l)).
Proof.
  intros Hs (H1 & H2 & H3). unfold srv_step. destruct (sv_crashed s); [now repeat split|]. unfold lim.
  destruct l as [ok|ok| |i ok|i l| | |g k|]; try (now repeat split).
  - destruct Hs as [Hs|Hs]; rewrite Hs in *; cbn [has_tcp]; [|now repeat split]. cbn [the_pc] in *.
    pose proof (accept_len c KTcp ACheck s (sv_tcp s) ok eq_refl H1 H2) as A.
    destruct (accept_step _ _ _ _ _ _) as [[s1 p1] e]. destruct A as (A1 & A2 & (_ & _ & A3 & _)).
    cbn [fst with_tcp sv_mgr sv_ws sv_tcp]. rewrite A3. auto.
  - destruct Hs as [Hs|Hs]; rewrite Hs in *; cbn [has_kcp]; [now repeat split|]. cbn [the_pc] in *.
    pose proof (accept_len c KKcp ACheck s (sv_kcp s) ok eq_refl H1 H2) as A.
    destruct (accept_step _ _ _ _ _ _) as [[s1 p1] e]. destruct A as (A1 & A2 & (_ & _ & A3 & _)).
    cbn [fst with_kcp sv_mgr sv_ws sv_kcp]. rewrite A3. auto.
  - destruct Hs as [Hs|Hs]; rewrite Hs in *; cbn [has_ws]; now repeat split.
  - rewrite H3. destruct i; now repeat split.
  - pose proof (conn_step_len c s i l) as L. pose proof (conn_step_gave c s i l) as (_ & (E1 & E2 & E3 & _) & _).
    assert (E : the_pc (sf_mode c) (fst (conn_step c s i l)) = the_pc (sf_mode c) s) by (unfold the_pc; destruct (sf_mode c); assumption).
    rewrite E, E3. repeat split; auto; [lia|]. intros P. specialize (H2 P). lia.
  - pose proof (stop_step_len c s g k) as L. pose proof (stop_step_gave c s g k) as (_ & E1 & E2 & E3 & _).
    assert (E : the_pc (sf_mode c) (fst (stop_step c s g k)) = the_pc (sf_mode c) s) by (unfold the_pc; destruct (sf_mode c); assumption).
    rewrite E, E3. repeat split; auto; [lia|]. intros P. specialize (H2 P). lia.
  - destruct (_ && _); now repeat split.
Qed.
Lemma limit_kept c ls : single (sf_mode c) -> cm_len (sv_mgr (fst (srv_run c (srv_new c) ls))) <= sf_max c.
Proof.
  intros Hs. apply (srv_inv c (lim c)); [intros; now apply lim_step|].
  split; [cbn; lia|]. split; [|reflexivity]. destruct (sf_mode c); discriminate.
Qed.

(* Any number of websocket handlers can pass the check before the first adds. *)
Lemma range_steps c (f : nat -> slabel) (P : nat -> srv -> Prop) : forall n i s,
  P i s -> (forall j s, i <= j < i + n -> P j s -> P (S j) (fst (srv_step c s (f j)))) ->
  P (i + n) (fst (srv_run c s (map f (seq i n)))).
Proof.
  induction n as [|n IH]; intros i s H St; [cbn; now rewrite Nat.add_0_r|]. cbn [seq map srv_run].
  pose proof (St i s ltac:(lia) H) as H1. destruct (srv_step c s (f i)) as [s1 e]. cbn [fst] in H1.
  specialize (IH (S i) s1 H1). replace (i + S n) with (S i + n) by lia.
  destruct (srv_run c s1 (map f (seq (S i) n))) as [s2 es]. cbn [fst] in *. apply IH. intros j s0 Hj. apply St. lia.
Qed.
Lemma nth_error_mid {A} (a b : list A) x i : length a = i -> nth_error (a ++ x :: b) i = Some x.
Proof. intros <-. rewrite nth_error_app2 by lia. now rewrite Nat.sub_diag. Qed.
Lemma set_nth_mid {A} (a b : list A) x v i : length a = i -> set_nth i v (a ++ x :: b) = a ++ v :: b.
Proof. intros <-. induction a as [|y a IH]; cbn; [reflexivity|]. now rewrite IH. Qed.
Lemma repeat_S_mid {A} (x : A) (l : list A) j n : j < n -> l ++ repeat x (n - j) = l ++ x :: repeat x (n - S j).
Proof. intros H. replace (n - j) with (S (n - S j)) by lia. reflexivity. Qed.
Lemma repeat_snoc {A} (x : A) n : repeat x n ++ [x] = repeat x (S n).
Proof. induction n; cbn; [reflexivity|]. now rewrite IHn. Qed.
Definition addh (n : nat) : list (cmop * cmret) := map (fun i => (CmAdd (Conn i (Z.of_nat (S i))), CrUnit)) (seq 0 n).
Fixpoint addm (n : nat) : manager := match n with O => cm_new | S n' => cm_add (addm n') (Conn n' (Z.of_nat (S n'))) end.
Lemma calls_snoc h o r m2 : forall m m1, cm_calls m h m1 -> cm_call m1 o r m2 -> cm_calls m (h ++ [(o, r)]) m2.
Proof.
  induction h as [|[o' r'] h IH]; intros m m1 C C1; inversion C; subst; cbn; econstructor; eauto. constructor.
Qed.
Lemma addm_calls n : cm_calls cm_new (addh n) (addm n).
Proof.
  induction n as [|n IH]; [constructor|]. unfold addh. rewrite seq_S, map_app. eapply calls_snoc; [exact IH|]. apply CMAdd.
Qed.
Lemma registered_adds n : forall id, (1 <= id <= Z.of_nat n)%Z -> registered (map fst (addh n)) id <> None.
Proof.
  induction n as [|n IH]; intros id H; [lia|]. unfold addh. rewrite seq_S, !map_app. cbn [map]. rewrite registered_snoc. cbn [reg_step cn_id fst].
  destruct (Z.eqb_spec (Z.of_nat (S (0 + n))) id); [discriminate|]. apply IH. lia.
Qed.
Lemma addm_len n : (Z.of_nat n < 2 ^ 64)%Z -> n <= cm_len (addm n).
Proof.
  intros Hn. assert (C : cm_calls cm_new (addh n ++ [(CmLen, CrNat (cm_len (addm n)))]) (addm n)).
  { eapply calls_snoc; [apply addm_calls|]. apply CMLen. }
  assert (F : Forall (fun x => cmop_ok (fst x)) (addh n ++ [(CmLen, CrNat (cm_len (addm n)))])).
  { apply Forall_app. split; [|repeat constructor]. apply Forall_forall. intros x Hx. apply in_map_iff in Hx as (i & <- & Hi%in_seq).
    cbn -[Z.of_nat]. unfold uint64. lia. }
  pose proof (proj2 (cm_calls_inv _ [] _ _ cm_new_inv F C) _ _ _ [] eq_refl) as (l & [_ L] & ->).
  cbn [app] in L. rewrite <- (seq_length n 1), <- (map_length Z.of_nat). apply NoDup_incl_length.
  - apply NoDup_map_on; [apply seq_NoDup|]. lia.
  - intros x Hx. apply in_map_iff in Hx as (i & <- & Hi%in_seq). apply L. split; [unfold uint64; lia|]. apply registered_adds. lia.
Qed.
Lemma ws_overshoot c n : has_ws (sf_mode c) = true -> 0 < sf_max c -> (Z.of_nat n < 2 ^ 64)%Z ->
  exists ls, n <= cm_len (sv_mgr (fst (srv_run c (srv_new c) ls))).
Proof.
  intros Hw Hm Hn.
  set (l1 := map (fun _ => SWsNew) (seq 0 n)).
  set (l2 := map (fun i => SWs i true) (seq 0 n)).
  exists (l1 ++ l2 ++ l2 ++ l2 ++ l2).
  assert (S1 : forall s, let s1 := fst (srv_run c s l1) in sv_crashed s = false -> sv_ws s = [] ->
     sv_crashed s1 = false /\ sv_mgr s1 = sv_mgr s /\ sv_cid s1 = sv_cid s /\ sv_conns s1 = sv_conns s /\ sv_ws s1 = repeat ACheck n).
  { intros s s1 H1 H2. apply (range_steps c (fun _ => SWsNew) (fun j s1 => sv_crashed s1 = false /\ sv_mgr s1 = sv_mgr s /\ sv_cid s1 = sv_cid s /\
      sv_conns s1 = sv_conns s /\ sv_ws s1 = repeat ACheck j)); [now repeat split|].
    intros j s0 _ (A1 & A2 & A3 & A4 & A5). unfold srv_step. rewrite A1, Hw. cbn. rewrite A5, repeat_snoc. now repeat split. }
  assert (St : forall p q s, (forall s, sv_mgr s = cm_new -> accept_step c KWs AEnd s p true = (s, q, [])) ->
     sv_crashed s = false -> sv_mgr s = cm_new -> sv_cid s = 0%Z -> sv_conns s = [] -> sv_ws s = repeat p n ->
     let s1 := fst (srv_run c s l2) in
     sv_crashed s1 = false /\ sv_mgr s1 = cm_new /\ sv_cid s1 = 0%Z /\ sv_conns s1 = [] /\ sv_ws s1 = repeat q n).
  { intros p q s Ha H1 H2 H3 H4 H5 s1.
    cut ((fun j s1 => sv_crashed s1 = false /\ sv_mgr s1 = cm_new /\ sv_cid s1 = 0%Z /\ sv_conns s1 = [] /\
       sv_ws s1 = repeat q j ++ repeat p (n - j)) (0 + n) s1).
    { cbn -[Nat.sub]. rewrite Nat.sub_diag, app_nil_r. auto. }
    apply range_steps; [rewrite Nat.sub_0_r; now repeat split|].
    intros j s0 Hj (A1 & A2 & A3 & A4 & A5). unfold srv_step. rewrite A1, A5, repeat_S_mid by lia.
    rewrite nth_error_mid by apply repeat_length. rewrite Ha by exact A2. cbn [fst with_ws sv_ws sv_crashed sv_mgr sv_cid sv_conns].
    rewrite A5, repeat_S_mid by lia. rewrite set_nth_mid by apply repeat_length. repeat split; auto.
    change (q :: repeat p (n - S j)) with ([q] ++ repeat p (n - S j)). now rewrite app_assoc, repeat_snoc. }
  assert (S4 : forall s, sv_crashed s = false -> sv_mgr s = cm_new -> sv_cid s = 0%Z -> sv_conns s = [] -> sv_ws s = repeat AId n ->
     let s1 := fst (srv_run c s l2) in
     sv_crashed s1 = false /\ sv_mgr s1 = cm_new /\ sv_conns s1 = [] /\ sv_ws s1 = map (fun i => AAdd (Z.of_nat (S i))) (seq 0 n)).
  { intros s H1 H2 H3 H4 H5 s1.
    cut ((fun j s1 => sv_crashed s1 = false /\ sv_mgr s1 = cm_new /\ sv_cid s1 = Z.of_nat j /\ sv_conns s1 = [] /\
       sv_ws s1 = map (fun i => AAdd (Z.of_nat (S i))) (seq 0 j) ++ repeat AId (n - j)) (0 + n) s1).
    { cbn -[Nat.sub]. rewrite Nat.sub_diag, app_nil_r. tauto. }
    apply range_steps; [rewrite Nat.sub_0_r; now repeat split|].
    intros j s0 Hj (A1 & A2 & A3 & A4 & A5). unfold srv_step. rewrite A1, A5, repeat_S_mid by lia.
    assert (L : length (map (fun i => AAdd (Z.of_nat (S i))) (seq 0 j)) = j) by now rewrite map_length, seq_length.
    rewrite nth_error_mid by exact L. cbn [accept_step fst with_ws sv_ws sv_crashed sv_mgr sv_cid sv_conns with_acc].
    rewrite A5, repeat_S_mid by lia. rewrite set_nth_mid by exact L.
    assert (E : ((sv_cid s0 + 1) mod 2 ^ 64 = Z.of_nat (S j))%Z) by (rewrite A3, Z.mod_small; lia). rewrite E.
    repeat split; auto. rewrite seq_S, map_app, <- app_assoc. reflexivity. }
  assert (S5 : forall s, sv_crashed s = false -> sv_mgr s = cm_new -> sv_conns s = [] ->
     sv_ws s = map (fun i => AAdd (Z.of_nat (S i))) (seq 0 n) -> sv_mgr (fst (srv_run c s l2)) = addm n).
  { intros s H1 H2 H4 H5.
    cut ((fun j s1 => sv_crashed s1 = false /\ sv_mgr s1 = addm j /\ length (sv_conns s1) = j /\
       sv_ws s1 = repeat AEnd j ++ map (fun i => AAdd (Z.of_nat (S i))) (seq j (n - j))) (0 + n) (fst (srv_run c s l2))).
    { cbn -[Nat.sub]. tauto. }
    apply range_steps; [rewrite Nat.sub_0_r, H4; now repeat split|].
    intros j s0 Hj (A1 & A2 & A4 & A5). unfold srv_step. rewrite A1, A5. replace (n - j) with (S (n - S j)) by lia. cbn [seq map].
    rewrite nth_error_mid by apply repeat_length. cbn [accept_step fst with_ws sv_ws sv_crashed sv_mgr sv_cid sv_conns with_acc].
    rewrite A5, app_length, A4, A2. replace (n - j) with (S (n - S j)) by lia. cbn [seq map]. rewrite set_nth_mid by apply repeat_length.
    repeat split; auto; [cbn; lia|]. rewrite <- repeat_snoc, <- app_assoc. reflexivity. }
  rewrite srv_run_app. cbn [fst]. destruct (S1 (srv_new c) eq_refl eq_refl) as (B1 & B2 & B3 & B4 & B5).
  rewrite srv_run_app. cbn [fst]. destruct (St ACheck AAccept _ ltac:(intros s E; unfold accept_step; rewrite E; destruct (sf_max c); [lia|reflexivity]) B1 B2 B3 B4 B5) as (C1 & C2 & C3 & C4 & C5).
  rewrite srv_run_app. cbn [fst]. destruct (St AAccept AId _ ltac:(reflexivity) C1 C2 C3 C4 C5) as (D1 & D2 & D3 & D4 & D5).
  rewrite srv_run_app. cbn [fst]. destruct (S4 _ D1 D2 D3 D4 D5) as (E1 & E2 & E4 & E5).
  rewrite (S5 _ E1 E2 E4 E5). now apply addm_len.
Qed.

From Coq Require Import ZArith List Bool Arith Lia Permutation.
From Verif Require Import Bytes GoSlice ShardMap Spec_Map ShardMap_proofs ShardConc Spec_Lin.
Import ListNotations.

Section P.
Context {V : Type}.
Implicit Types (s : cst V) (w : list (@item V)) (o : mop V) (r : mret V).

(* Whole calls. *)
Inductive complete : list (@titem V) -> Prop :=
| CompNil : complete []
| CompCons o r rest : complete rest -> complete (TCall o :: TPoint o r :: TRet r :: rest).
Lemma complete_snoc l o r : complete l -> complete (l ++ [TCall o; TPoint o r; TRet r]).
Proof. induction 1; cbn; repeat constructor. assumption. Qed.
Lemma complete_ok l tl : complete l -> thread_ok tl -> thread_ok (l ++ tl).
Proof. induction 1; cbn; intros; [assumption|]. constructor. auto. Qed.

(* What a goroutine's position says about its part of w. *)
Definition matches (p : pc V) (l : list (@titem V)) : Prop :=
  exists pre, complete pre /\
  match p with
  | PIdle => l = pre
  | PCalled o | PHold o | PRead o _ => l = pre ++ [TCall o] /\ op_key o <> None
  | PUnlock o r | PDone o r => l = pre ++ [TCall o; TPoint o r] /\ op_key o <> None
  end.
Lemma matches_ok p l : matches p l -> thread_ok l.
Proof.
  intros (pre & C & H).
  destruct p; [subst; rewrite <- (app_nil_r pre); apply complete_ok; [exact C|constructor]|..];
    destruct H as [-> _]; apply complete_ok; try exact C; constructor.
Qed.

Definition holds_lock (p : pc V) : option (mop V) :=
  match p with PHold o | PRead o _ | PUnlock o _ => Some o | _ => None end.

Record cinv (a0 : amap V) (s : cst V) (w : list (@item V)) : Prop := {
  c_inv : minv (cs_map s);
  c_llen : length (cs_locks s) = shard_count;
  c_spec : exists a, a_calls a0 (points w) a /\ forall k, sm_get (cs_map s) k = a k;
  c_thr : forall t, matches (cs_thr s t) (of_thread t w);
  c_hold : forall t o k, holds_lock (cs_thr s t) = Some o -> op_key o = Some k ->
    let l := lock_of s (shard_of (sm_hash (cs_map s)) k) in
    if is_writer o then lk_writer l = Some t else In t (lk_readers l);
  c_excl : forall i t, lk_writer (lock_of s i) = Some t -> lk_readers (lock_of s i) = [];
  c_read : forall t o k v, cs_thr s t = PRead o v -> op_key o = Some k -> v = sm_get (cs_map s) k
}.

Lemma of_thread_app t w1 w2 : @of_thread V t (w1 ++ w2) = of_thread t w1 ++ of_thread t w2.
Proof. unfold of_thread. apply flat_map_app. Qed.
Lemma points_app w1 w2 : @points V (w1 ++ w2) = points w1 ++ points w2.
Proof. apply flat_map_app. Qed.
Lemma history_app w1 w2 : @history V (w1 ++ w2) = history w1 ++ history w2.
Proof. apply flat_map_app. Qed.
Lemma a_calls_snoc (a : amap V) h a1 o r a2 : a_calls a h a1 -> a_call a1 o r a2 -> a_calls a (h ++ [(o, r)]) a2.
Proof.
  induction 1; cbn; intros Hc.
  - econstructor; [exact Hc|constructor].
  - econstructor; eauto.
Qed.

Lemma thr_set s t p u : cs_thr (set_thr s t p) u = if Nat.eqb u t then p else cs_thr s u.
Proof. reflexivity. Qed.

Lemma lock_of_set s i l j : length (cs_locks s) = shard_count -> i < shard_count ->
  lock_of (set_lock s i l) j = if Nat.eqb j i then l else lock_of s j.
Proof. intros L Hi. unfold lock_of, set_lock; cbn. rewrite set_nth_nth by lia. reflexivity. Qed.

(* A step of t that leaves the map, the locks and w alone. *)
Lemma step_quiet a0 s w t p : cinv a0 s w -> matches p (of_thread t w) ->
  holds_lock p = holds_lock (cs_thr s t) ->
  (forall o v k, p = PRead o v -> op_key o = Some k -> v = sm_get (cs_map s) k) ->
  cinv a0 (set_thr s t p) w.
Proof.
  intros [] Hm Hh Hr. split; try assumption.
  - intros u. rewrite thr_set. destruct (Nat.eqb_spec u t) as [->|]; auto.
  - intros u o k. rewrite thr_set. destruct (Nat.eqb_spec u t) as [->|].
    + rewrite Hh. apply c_hold0.
    + apply c_hold0.
  - intros u o k v. rewrite thr_set. destruct (Nat.eqb_spec u t) as [->|].
    + intros -> Hk. now apply (Hr o).
    + apply c_read0.
Qed.

(* A step of t that takes effect: the point is placed here. *)
Lemma step_point a0 s w t o k r m1 : cinv a0 s w -> holds_lock (cs_thr s t) = Some o ->
  (forall a, a_call1 a o r a -> True) ->
  (match cs_thr s t with PHold _ | PRead _ _ => True | _ => False end) ->
  op_key o = Some k -> minv m1 -> sm_hash m1 = sm_hash (cs_map s) ->
  (forall a, (forall x, sm_get (cs_map s) x = a x) -> exists a1, a_call a o r a1 /\ forall x, sm_get m1 x = a1 x) ->
  (is_writer o = false -> m1 = cs_map s) ->
  (forall x, shard_of (sm_hash (cs_map s)) x <> shard_of (sm_hash (cs_map s)) k -> sm_get m1 x = sm_get (cs_map s) x) ->
  cinv a0 (set_thr (set_map s m1) t (PUnlock o r)) (w ++ [ItPoint t o r]).
Proof.
  intros I Hh _ Hp Hk Hi Eh Hs Hro Hx.
  assert (Hm : exists pre, complete pre /\ of_thread t w = pre ++ [TCall o]).
  { destruct (c_thr _ _ _ I t) as (pre & C & H). exists pre. split; [exact C|].
    destruct (cs_thr s t); cbn in Hh, Hp; try tauto; injection Hh as ->; tauto. }
  destruct I. split; try assumption; cbn [cs_map cs_locks set_thr set_map].
  - destruct c_spec0 as (a & Ha & R). destruct (Hs a R) as (a1 & Hc & R1). exists a1. split; [|exact R1].
    rewrite points_app; cbn. eapply a_calls_snoc; eauto.
  - intros u. rewrite thr_set, of_thread_app. cbn. destruct (Nat.eqb_spec u t) as [->|N].
    + rewrite Nat.eqb_refl. destruct Hm as (pre & C & ->). exists pre. split; [exact C|].
      rewrite <- app_assoc. split; [reflexivity|congruence].
    + destruct (Nat.eqb_spec t u) as [->|]; [congruence|]. rewrite app_nil_r. apply c_thr0.
  - intros u o' k'. rewrite thr_set. destruct (Nat.eqb_spec u t) as [->|N]; cbn.
    + intros [= <-] Hk'. rewrite Hk in Hk'; injection Hk' as <-. rewrite Eh. exact (c_hold0 t o k Hh Hk).
    + rewrite Eh. apply c_hold0.
  - intros u o' k' v. rewrite thr_set. destruct (Nat.eqb_spec u t) as [->|N]; [discriminate|].
    intros Ep Hk'. cbn in Ep. rewrite (c_read0 u o' k' v Ep Hk').
    destruct (is_writer o) eqn:Ew.
    + symmetry. apply Hx. intros Es. pose proof (c_hold0 t o k Hh Hk) as H1. rewrite Ew in H1.
      assert (Hh' : holds_lock (cs_thr s u) = Some o') by now rewrite Ep.
      pose proof (c_hold0 u o' k' Hh' Hk') as H2. rewrite Es in H2. cbn zeta in H1, H2.
      destruct (is_writer o').
      * congruence.
      * rewrite (c_excl0 _ _ H1) in H2. destruct H2.
    + now rewrite (Hro eq_refl).
Qed.

Lemma lock_step a0 s w t o k l p :
  cinv a0 s w -> op_key o = Some k ->
  matches p (of_thread t w) ->
  let i := shard_of (sm_hash (cs_map s)) k in
  (* the others' locks *)
  (forall u, u <> t -> lk_writer (lock_of s i) = Some u -> lk_writer l = Some u) ->
  (forall u, u <> t -> In u (lk_readers (lock_of s i)) -> In u (lk_readers l)) ->
  (forall u, lk_writer l = Some u -> lk_readers l = []) ->
  (p = PHold o /\ (if is_writer o then lk_writer l = Some t else In t (lk_readers l)) \/ holds_lock p = None) ->
  cinv a0 (set_thr (set_lock s i l) t p) w.
Proof.
  intros I Hk Hm i Hw Hr He Hp. destruct I.
  assert (Hi : i < shard_count) by apply shard_of_lt.
  assert (Lk : forall j, lock_of (set_thr (set_lock s i l) t p) j = if Nat.eqb j i then l else lock_of s j).
  { intros j. change (lock_of (set_thr (set_lock s i l) t p) j) with (lock_of (set_lock s i l) j). now apply lock_of_set. }
  split; cbn [cs_map cs_locks set_thr set_lock]; try assumption.
  - now rewrite set_nth_len.
  - intros u. rewrite thr_set. destruct (Nat.eqb_spec u t) as [->|]; [exact Hm|apply c_thr0].
  - intros u o' k'. rewrite thr_set, Lk. destruct (Nat.eqb_spec u t) as [->|N]; cbn.
    + intros Hh Hk'. destruct Hp as [[-> Hp]|Hp]; [|congruence]. cbn in Hh; injection Hh as <-.
      rewrite Hk in Hk'; injection Hk' as <-. fold i. rewrite Nat.eqb_refl. exact Hp.
    + intros Hh Hk'. pose proof (c_hold0 u o' k' Hh Hk') as H. cbn zeta in H.
      destruct (Nat.eqb_spec (shard_of (sm_hash (cs_map s)) k') i) as [E|]; [|exact H].
      rewrite E in H. destruct (is_writer o'); auto.
  - intros j u. rewrite !Lk. destruct (Nat.eqb j i); [apply He|apply c_excl0].
  - intros u o' k' v. rewrite thr_set. destruct (Nat.eqb_spec u t) as [->|N]; [|apply c_read0].
    intros ->. destruct Hp as [[Hp _]|Hp]; discriminate.
Qed.

Lemma put_other m (k : key) (g : gomap V) x : minv m ->
  shard_of (sm_hash m) x <> shard_of (sm_hash m) k -> sm_get (put_shard m k g) x = sm_get m x.
Proof.
  intros I N. unfold sm_get. rewrite put_get by exact I.
  destruct (Nat.eqb_spec (shard_of (sm_hash m) x) (shard_of (sm_hash m) k)); [contradiction|reflexivity].
Qed.

Lemma call_has m a (o : mop V) r m1 : minv m -> op_ok o -> sm_call m o r m1 ->
  (forall x, sm_get m x = a x) -> exists a1, a_call a o r a1 /\ forall x, sm_get m1 x = a1 x.
Proof. intros I Ho C R. now destruct (call_sim m a o r m1 I R Ho C). Qed.
Lemma call_inv m (o : mop V) r m1 : minv m -> op_ok o -> sm_call m o r m1 -> minv m1.
Proof. intros I Ho C. now destruct (call_sim m (sm_get m) o r m1 I (fun _ => eq_refl) Ho C). Qed.
Lemma key_ok o : op_key o <> None -> op_ok o.
Proof. destruct o; cbn; auto. congruence. Qed.

(* The instruction that completes a call does what the sequential call does. *)
Lemma step_call a0 s w t o k r m1 : cinv a0 s w -> holds_lock (cs_thr s t) = Some o ->
  (match cs_thr s t with PHold _ | PRead _ _ => True | _ => False end) ->
  op_key o = Some k -> sm_call (cs_map s) o r m1 ->
  (m1 = cs_map s \/ (is_writer o = true /\ exists g, m1 = put_shard (cs_map s) k g)) ->
  cinv a0 (set_thr (set_map s m1) t (PUnlock o r)) (w ++ [ItPoint t o r]).
Proof.
  intros I Hh Hp Hk C Hm. pose proof (c_inv _ _ _ I) as Im.
  assert (Ho : op_ok o) by (apply key_ok; congruence).
  apply (step_point a0 s w t o k r m1 I Hh (fun _ _ => Logic.I) Hp Hk).
  - eapply call_inv; eauto.
  - destruct Hm as [->|(_ & g & ->)]; reflexivity.
  - intros a R. eapply call_has; eauto.
  - intros Ew. destruct Hm as [->|(Ew' & _)]; [reflexivity|congruence].
  - intros x Hx. destruct Hm as [->|(_ & g & ->)]; [reflexivity|]. now apply put_other.
Qed.

Lemma cstep_inv a0 s w l : cinv a0 s w ->
  exists w1, cinv a0 (fst (cstep s l)) (w ++ w1) /\ history w1 = snd (cstep s l).
Proof.
  intros I. destruct l as [t o|t]; cbn [cstep].
  - destruct (cs_thr s t) eqn:Ep; try (exists []; rewrite app_nil_r; split; [exact I|reflexivity]).
    destruct (op_key o) as [k|] eqn:Ek; [|exists []; rewrite app_nil_r; split; [exact I|reflexivity]].
    exists [ItEv (CCall t o)]. split; [|reflexivity]. cbn [fst].
    assert (Hpt : points (w ++ [ItEv (CCall t o)]) = points w) by (rewrite points_app; cbn; apply app_nil_r).
    destruct I. split; try assumption.
    + now rewrite Hpt.
    + intros u. rewrite thr_set, of_thread_app; cbn. destruct (Nat.eqb_spec u t) as [->|N].
      * rewrite Nat.eqb_refl. destruct (c_thr0 t) as (pre & C & H). rewrite Ep in H. exists pre. split; [exact C|].
        rewrite H. split; [reflexivity|congruence].
      * destruct (Nat.eqb_spec t u); [congruence|]. rewrite app_nil_r. apply c_thr0.
    + intros u o' k'. rewrite thr_set. destruct (Nat.eqb_spec u t); [discriminate|]. apply c_hold0.
    + intros u o' k' v. rewrite thr_set. destruct (Nat.eqb_spec u t); [discriminate|]. apply c_read0.
  - destruct (cs_thr s t) as [|o|o|o v|o r|o r] eqn:Ep.
    + exists []; rewrite app_nil_r; split; [exact I|reflexivity].
    + (* Lock *)
      destruct (c_thr _ _ _ I t) as (pre & C & H). rewrite Ep in H. destruct H as [Hw Hk].
      destruct (op_key o) as [k|] eqn:Ek; [|congruence].
      destruct (acquire (is_writer o) t (lock_of s (shard_of (sm_hash (cs_map s)) k))) as [l'|] eqn:Ea;
        exists []; rewrite app_nil_r; (split; [|reflexivity]); [|exact I]. cbn [fst].
      assert (Hm : matches (PHold o) (of_thread t w)) by (exists pre; split; [exact C|]; split; [exact Hw|congruence]).
      unfold acquire in Ea.
      destruct (lk_writer (lock_of s (shard_of (sm_hash (cs_map s)) k))) as [u|] eqn:Elw; [discriminate|].
      apply (lock_step a0 s w t o k l'); [exact I|exact Ek|exact Hm|..].
      * intros u _ E. congruence.
      * intros u _ Hin. destruct (is_writer o).
        -- destruct (lk_readers (lock_of s (shard_of (sm_hash (cs_map s)) k))); [destruct Hin|discriminate].
        -- injection Ea as <-. cbn. now right.
      * intros u Eu. destruct (is_writer o).
        -- destruct (lk_readers (lock_of s (shard_of (sm_hash (cs_map s)) k))); [|discriminate]. injection Ea as <-. reflexivity.
        -- injection Ea as <-. discriminate.
      * left. split; [reflexivity|]. destruct (is_writer o).
        -- destruct (lk_readers (lock_of s (shard_of (sm_hash (cs_map s)) k))); [|discriminate]. injection Ea as <-. reflexivity.
        -- injection Ea as <-. now left.
    + (* first instruction *)
      destruct (c_thr _ _ _ I t) as (pre & C & H). rewrite Ep in H. destruct H as [Hw Hk].
      destruct (op_key o) as [k|] eqn:Ek; [|congruence]. cbn [fst snd].
      assert (Hh : holds_lock (cs_thr s t) = Some o) by now rewrite Ep.
      assert (Hp : match cs_thr s t with PHold _ | PRead _ _ => True | _ => False end) by now rewrite Ep.
      assert (Hq : cinv a0 (set_thr s t (PRead o (gm_get k (get_shard (cs_map s) k)))) w).
      { apply step_quiet; [exact I|exists pre; split; [exact C|split; [exact Hw|congruence]]|now rewrite Ep|].
        intros o' v' k' [= <- <-] Ek'. rewrite Ek in Ek'. injection Ek' as <-. reflexivity. }
      destruct o; cbn in Ek; try discriminate; injection Ek as ->; cbn [first_instr];
        try (exists []; rewrite app_nil_r; split; [exact Hq|reflexivity]).
      * exists [ItPoint t (MSet1 k v) RUnit]. split; [|reflexivity].
        apply (step_call a0 s w t (MSet1 k v) k); auto; [constructor|]. right. split; [reflexivity|]. eexists; reflexivity.
      * exists [ItPoint t (MRemove k) RUnit]. split; [|reflexivity].
        apply (step_call a0 s w t (MRemove k) k); auto; [constructor|]. right. split; [reflexivity|]. eexists; reflexivity.
    + (* second instruction *)
      destruct (c_thr _ _ _ I t) as (pre & C & H). rewrite Ep in H. destruct H as [Hw Hk].
      destruct (op_key o) as [k|] eqn:Ek; [|congruence]. cbn [fst snd].
      assert (Hh : holds_lock (cs_thr s t) = Some o) by now rewrite Ep.
      assert (Hp : match cs_thr s t with PHold _ | PRead _ _ => True | _ => False end) by now rewrite Ep.
      pose proof (c_read _ _ _ I t o k v Ep Ek) as ->.
      assert (Hsame : forall s' : cst V, set_map s' (cs_map s') = s') by (intros []; reflexivity).
      destruct o; cbn in Ek; try discriminate; injection Ek as ->; cbn [second_instr].
      * exists [ItPoint t (MGet k) (RVal (sm_get (cs_map s) k))]. split; [|reflexivity].
        rewrite <- (Hsame s) at 1. apply (step_call a0 s w t (MGet k) k); auto; constructor.
      * exists [ItPoint t (MHas k) (RBool (sm_has (cs_map s) k))]. split; [|reflexivity].
        rewrite <- (Hsame s) at 1. apply (step_call a0 s w t (MHas k) k); auto; constructor.
      * exists []; rewrite app_nil_r; split; [exact I|reflexivity].
      * pose proof (SMSetNX (cs_map s) k v) as Sc. unfold sm_setnx in Sc. unfold sm_get.
        destruct (gm_get k (get_shard (cs_map s) k)) eqn:E; cbn [fst snd] in Sc.
        -- exists [ItPoint t (MSetNX k v) (RBool false)]. split; [|reflexivity].
           rewrite <- (Hsame s) at 1. apply (step_call a0 s w t (MSetNX k v) k); auto.
        -- exists [ItPoint t (MSetNX k v) (RBool true)]. split; [|reflexivity].
           apply (step_call a0 s w t (MSetNX k v) k); auto. right. split; [reflexivity|]. eexists; reflexivity.
      * exists []; rewrite app_nil_r; split; [exact I|reflexivity].
      * pose proof (SMRemoveCb (cs_map s) k cb) as Sc. unfold sm_remove_cb in Sc. cbn zeta in Sc. cbn [fst snd] in Sc.
        unfold sm_get. set (v := gm_get k (get_shard (cs_map s) k)) in *.
        exists [ItPoint t (MRemoveCb k cb) (RBool (cb k v))].
        destruct (cb k v && match v with Some _ => true | None => false end); (split; [|reflexivity]).
        -- apply (step_call a0 s w t (MRemoveCb k cb) k); auto. right. split; [reflexivity|]. eexists; reflexivity.
        -- rewrite <- (Hsame s) at 1. apply (step_call a0 s w t (MRemoveCb k cb) k); auto.
      * exists [ItPoint t (MPop k) (RVal (sm_get (cs_map s) k))]. split; [|reflexivity].
        apply (step_call a0 s w t (MPop k) k); auto; [apply SMPop|]. right. split; [reflexivity|]. eexists; reflexivity.
    + (* Unlock *)
      destruct (c_thr _ _ _ I t) as (pre & C & H). rewrite Ep in H. destruct H as [Hw Hk].
      destruct (op_key o) as [k|] eqn:Ek; [|congruence].
      exists []; rewrite app_nil_r; (split; [|reflexivity]). cbn [fst].
      assert (Hm : matches (PDone o r) (of_thread t w)) by (exists pre; split; [exact C|]; split; [exact Hw|congruence]).
      assert (Hh : holds_lock (cs_thr s t) = Some o) by now rewrite Ep.
      pose proof (c_hold _ _ _ I t o k Hh Ek) as Hl. cbn zeta in Hl.
      apply (lock_step a0 s w t o k); [exact I|exact Ek|exact Hm|..].
      * intros u N E. unfold release. destruct (is_writer o); cbn; [congruence|exact E].
      * intros u N Hin. unfold release. destruct (is_writer o); cbn; [exact Hin|].
        apply filter_In. split; [exact Hin|]. now apply negb_true_iff, Nat.eqb_neq.
      * intros u E. unfold release in *. destruct (is_writer o); cbn in *; [discriminate|].
        now rewrite (c_excl _ _ _ I _ _ E).
      * right. reflexivity.
    + (* return *)
      exists [ItEv (CRet t r)]. split; [|reflexivity]. cbn [fst].
      assert (Hpt : points (w ++ [ItEv (CRet t r)]) = points w) by (rewrite points_app; cbn; apply app_nil_r).
      destruct I. split; try assumption.
      * now rewrite Hpt.
      * intros u. rewrite thr_set, of_thread_app; cbn. destruct (Nat.eqb_spec u t) as [->|N].
        -- rewrite Nat.eqb_refl. destruct (c_thr0 t) as (pre & C & H). rewrite Ep in H. destruct H as [-> _].
           exists (pre ++ [TCall o; TPoint o r; TRet r]). split; [now apply complete_snoc|]. now rewrite <- app_assoc.
        -- destruct (Nat.eqb_spec t u); [congruence|]. rewrite app_nil_r. apply c_thr0.
      * intros u o' k'. rewrite thr_set. destruct (Nat.eqb_spec u t); [discriminate|]. apply c_hold0.
      * intros u o' k' v. rewrite thr_set. destruct (Nat.eqb_spec u t); [discriminate|]. apply c_read0.
Qed.

Lemma crun_inv a0 ls : forall s w, cinv a0 s w ->
  exists w1, cinv a0 (fst (crun s ls)) (w ++ w1) /\ history w1 = snd (crun s ls).
Proof.
  induction ls as [|l ls IH]; intros s w I; cbn [crun].
  - exists []. rewrite app_nil_r. now split.
  - destruct (cstep_inv a0 s w l I) as (w1 & I1 & H1). destruct (cstep s l) as [s1 e1]. cbn [fst snd] in *.
    destruct (IH s1 (w ++ w1) I1) as (w2 & I2 & H2). destruct (crun s1 ls) as [s2 e2]. cbn [fst snd] in *.
    exists (w1 ++ w2). rewrite app_assoc. split; [exact I2|]. now rewrite history_app, H1, H2.
Qed.

Lemma init_inv (m : smap V) : minv m -> cinv (sm_get m) (conc_init m) [].
Proof.
  intros I. split.
  - exact I.
  - reflexivity.
  - exists (sm_get m). split; [constructor|reflexivity].
  - intros t. exists []. split; [constructor|reflexivity].
  - discriminate.
  - intros i t. unfold lock_of; cbn [cs_locks conc_init]. rewrite nth_repeat. discriminate.
  - discriminate.
Qed.

Lemma linearizable_run (m : smap V) ls : minv m -> linearizable (sm_get m) (snd (crun (conc_init m) ls)).
Proof.
  intros I. destruct (crun_inv _ ls _ _ (init_inv m I)) as (w & Iw & H). cbn [app] in Iw.
  exists w. split; [exact H|]. split.
  - intros t. eapply matches_ok. apply (c_thr _ _ _ Iw t).
  - destruct (c_spec _ _ _ Iw) as (a & Ha & _). now exists a.
Qed.

Lemma reach_inv hash h m : sm_calls (sm_new hash) h m -> Forall (fun c => op_ok (fst c)) h -> minv (V:=V) m.
Proof.
  intros C. assert (G : forall m0, minv m0 -> sm_calls m0 h m -> Forall (fun c => op_ok (fst c)) h -> minv m).
  { intros m0 I0 C0. clear C. induction C0; intros Hf; [exact I0|]. inversion Hf; subst.
    apply IHC0; [|assumption]. eapply call_inv; eauto. }
  intros Hf. apply (G (sm_new hash)); auto. apply new_inv.
Qed.

(* Counting. *)
Definition strip (i : @item V) : nat * titem :=
  match i with ItEv (CCall t o) => (t, TCall o) | ItEv (CRet t r) => (t, TRet r) | ItPoint t o r => (t, TPoint o r) end.
Definition tot (p : titem -> bool) w : nat := length (filter p (map (fun i => snd (strip i)) w)).
Definition cnt (p : titem -> bool) w t : nat := length (filter p (of_thread t w)).

Lemma sum_bump N u x (f : nat -> nat) : u < N ->
  list_sum (map (fun t => (if Nat.eqb u t then x else 0) + f t) (seq 0 N)) = x + list_sum (map f (seq 0 N)).
Proof.
  assert (G : forall n a, list_sum (map (fun t => (if Nat.eqb u t then x else 0) + f t) (seq a n)) =
    (if (a <=? u) && (u <? a + n) then x else 0) + list_sum (map f (seq a n))).
  { induction n as [|n IH]; intros a; cbn [seq map list_sum fold_right].
    - destruct (Nat.leb_spec a u), (Nat.ltb_spec u (a + 0)); cbn; lia.
    - unfold list_sum in *. cbn [fold_right]. rewrite IH.
      destruct (Nat.eqb_spec u a), (Nat.leb_spec a u), (Nat.ltb_spec u (a + S n)), (Nat.leb_spec (S a) u), (Nat.ltb_spec u (S a + n)); cbn [andb]; lia. }
  intros H. rewrite G. destruct (Nat.leb_spec 0 u), (Nat.ltb_spec u (0 + N)); cbn; lia.
Qed.

Lemma tot_sum p N w : (forall i, In i w -> fst (strip i) < N) ->
  tot p w = list_sum (map (cnt p w) (seq 0 N)).
Proof.
  induction w as [|i w IH]; intros Hb.
  - unfold tot, cnt; cbn. induction (seq 0 N); cbn in *; auto.
  - assert (Hi : fst (strip i) < N) by (apply Hb; now left).
    assert (E : forall t, cnt p (i :: w) t = (if Nat.eqb (fst (strip i)) t then (if p (snd (strip i)) then 1 else 0) else 0) + cnt p w t).
    { intros t. unfold cnt. change (i :: w) with ([i] ++ w). rewrite of_thread_app.
      rewrite filter_app, app_length. f_equal. destruct i as [[u o|u r]|u o r]; cbn; destruct (Nat.eqb u t); cbn; auto;
      match goal with |- context [p ?x] => destruct (p x) end; reflexivity. }
    rewrite (map_ext _ _ E). rewrite sum_bump by exact Hi.
    rewrite <- IH by (intros j Hj; apply Hb; now right). unfold tot; cbn.
    destruct (p (snd (strip i))); reflexivity.
Qed.

Lemma sum_le {A} (f g : A -> nat) l : (forall t, f t <= g t) -> list_sum (map f l) <= list_sum (map g l).
Proof. intros H. induction l as [|x l IH]; cbn; [lia|]. specialize (H x). unfold list_sum in *. cbn. lia. Qed.

Lemma tot_le p q w : (forall t, cnt p w t <= cnt q w t) -> tot p w <= tot q w.
Proof.
  intros H. set (N := S (fold_right Nat.max 0 (map (fun i => fst (strip i)) w))).
  assert (Hb : forall i, In i w -> fst (strip i) < N).
  { intros i Hi. unfold N. clear H N. induction w as [|j w IH]; [destruct Hi|]. cbn. destruct Hi as [->|Hi]; [lia|]. specialize (IH Hi). lia. }
  rewrite !(tot_sum _ N) by exact Hb. now apply sum_le.
Qed.

Definition is_call (i : @titem V) := match i with TCall _ => true | _ => false end.
Definition is_point (i : @titem V) := match i with TPoint _ _ => true | _ => false end.
Definition is_ret (i : @titem V) := match i with TRet _ => true | _ => false end.
Definition yes (r : mret V) := match r with RBool true => true | _ => false end.
Definition yes_point (i : @titem V) := match i with TPoint _ r => yes r | _ => false end.
Definition yes_ret (i : @titem V) := match i with TRet r => yes r | _ => false end.

Ltac crunch := unfold cnt; match goal with |- context [of_thread ?t ?w] => generalize (of_thread t w) end.
Lemma ok_counts l : thread_ok l ->
  length (filter yes_ret l) <= length (filter yes_point l) /\
  length (filter is_ret l) <= length (filter is_point l) <= length (filter is_call l) /\
  length (filter yes_point l) + length (filter is_ret l) <= length (filter yes_ret l) + length (filter is_point l).
Proof.
  induction 1; cbn; try lia.
  - destruct (yes r); cbn; lia.
  - destruct (yes r); cbn; lia.
Qed.

(* per-thread sums of two counts *)
Lemma tot_le2 p q p' q' w : (forall t, cnt p w t + cnt q w t <= cnt p' w t + cnt q' w t) -> tot p w + tot q w <= tot p' w + tot q' w.
Proof.
  intros H. set (N := S (fold_right Nat.max 0 (map (fun i => fst (strip i)) w))).
  assert (Hb : forall i, In i w -> fst (strip i) < N).
  { intros i Hi. unfold N. clear H N. induction w as [|j w IH]; [destruct Hi|]. cbn. destruct Hi as [->|Hi]; [lia|]. specialize (IH Hi). lia. }
  rewrite !(tot_sum _ N) by exact Hb. induction (seq 0 N) as [|x l IH]; cbn; [lia|].
  specialize (H x). unfold list_sum in *. cbn. lia.
Qed.

Lemma tot_calls w : tot is_call w = length (calls_of (history w)).
Proof.
  unfold tot. induction w as [|i w IH]; cbn; [reflexivity|].
  destruct i as [[u o|u r]|u o r]; cbn; [f_equal|..]; exact IH.
Qed.
Lemma tot_rets w : tot is_ret w = length (answers (history w)).
Proof.
  unfold tot. induction w as [|i w IH]; cbn; [reflexivity|].
  destruct i as [[u o|u r]|u o r]; cbn; [|f_equal|]; exact IH.
Qed.
Lemma tot_winners w : tot yes_ret w = winners (history w).
Proof.
  unfold tot, winners. induction w as [|i w IH]; cbn; [reflexivity|].
  destruct i as [[u o|u r]|u o r]; cbn; try exact IH. unfold yes at 1.
  destruct r as [| |[]| | |]; cbn; [| |f_equal| | | |]; exact IH.
Qed.
Lemma tot_points w : tot is_point w = length (points w).
Proof.
  unfold tot. induction w as [|i w IH]; cbn; [reflexivity|].
  destruct i as [[u o|u r]|u o r]; cbn; [..|f_equal]; exact IH.
Qed.
Lemma tot_yes_points w : tot yes_point w = length (filter (fun p => yes (snd p)) (points w)).
Proof.
  unfold tot. induction w as [|i w IH]; cbn; [reflexivity|].
  destruct i as [[u o|u r]|u o r]; cbn; try exact IH. destruct (yes r); cbn; rewrite IH; reflexivity.
Qed.

(* Points are of calls made. *)
Lemma point_called w o r : (forall t, thread_ok (of_thread t w)) -> In (o, r) (points w) -> In o (calls_of (history w)).
Proof.
  intros Hok Hin. apply in_flat_map in Hin as (i & Hi & Hin). destruct i as [|t o' r']; [destruct Hin|].
  destruct Hin as [[= -> ->]|[]].
  assert (Ht : In (TPoint o r) (of_thread t w)).
  { apply in_flat_map. exists (ItPoint t o r). split; [exact Hi|]. rewrite Nat.eqb_refl. now left. }
  assert (Hc : In (TCall o) (of_thread t w)).
  { clear Hi. specialize (Hok t). revert Ht Hok. generalize (of_thread t w) as l. intros l Ht Hok. induction Hok; cbn in *.
    - destruct Ht. - destruct Ht as [?|[]]; discriminate.
    - destruct Ht as [?|[[= -> ->]|[]]]; [discriminate|now left].
    - destruct Ht as [?|[[= -> ->]|[?|?]]]; [discriminate|now left|discriminate|]. right; right; right. auto. }
  apply in_flat_map in Hc as (i & Hi' & Hc). unfold calls_of. apply in_flat_map.
  destruct i as [[u o'|u r']|u o' r']; cbn in Hc; destruct (Nat.eqb u t); cbn in Hc; try tauto; destruct Hc as [?|[]]; try discriminate.
  injection H as ->. exists (CCall u o). split; [|now left]. apply in_flat_map. exists (ItEv (CCall u o)). split; [exact Hi'|now left].
Qed.

(* From winners among points to winners among answers. *)
Lemma winners_of_points a0 h n : linearizable a0 h ->
  (forall pts a, a_calls a0 pts a -> (forall o r, In (o, r) pts -> In o (calls_of h)) -> (0 < length pts)%nat ->
     length (filter (fun p => yes (snd p)) pts) = n) ->
  winners h <= n /\ (length (answers h) = length (calls_of h) -> 0 < length (calls_of h) -> winners h = n).
Proof.
  intros (w & <- & Hok & a & Ha) Hn.
  assert (H1 : tot yes_ret w <= tot yes_point w) by (apply tot_le; intros t; apply (ok_counts _ (Hok t))).
  assert (H2 : tot is_ret w <= tot is_point w) by (apply tot_le; intros t; apply (ok_counts _ (Hok t))).
  assert (H3 : tot is_point w <= tot is_call w) by (apply tot_le; intros t; apply (ok_counts _ (Hok t))).
  assert (H4 : tot yes_point w + tot is_ret w <= tot yes_ret w + tot is_point w)
    by (apply tot_le2; intros t; apply (ok_counts _ (Hok t))).
  rewrite tot_winners, tot_yes_points in *. rewrite tot_rets in *. rewrite tot_points in *. rewrite tot_calls in *.
  specialize (Hn (points w) a Ha (fun o r => point_called w o r Hok)).
  destruct (points w) as [|p ps] eqn:E.
  - cbn in *. split; lia.
  - specialize (Hn ltac:(cbn; lia)). split; [lia|]. intros. lia.
Qed.

Lemma has_eq (a : amap V) k : a_has a k = true <-> a k <> None.
Proof. unfold a_has. destruct (a k); split; congruence. Qed.

Lemma setnx_points k : forall pts (a0 : amap V) a, a_calls a0 pts a ->
  (forall o r, In (o, r) pts -> exists v, o = MSetNX k v) ->
  length (filter (fun p => yes (snd p)) pts) = if a_has a0 k then 0 else match pts with [] => 0 | _ => 1 end.
Proof.
  induction pts as [|[o r] pts IH]; intros a0 a C Ho; cbn.
  - now destruct (a_has a0 k).
  - destruct (Ho o r (or_introl eq_refl)) as (v & ->).
    inversion C as [|? ? ? a1 ? ? C1 Cs]; subst. inversion C1 as [? ? ? ? C2| | | | | | |]; subst.
    inversion C2; subst. pose proof (IH _ _ Cs ltac:(intros; eapply Ho; right; eauto)) as E0.
    destruct (a_has a0 k) eqn:E; cbn.
    + rewrite E0, E. reflexivity.
    + rewrite E0. replace (a_has (a_set a0 k v) k) with true; [reflexivity|]. unfold a_has, a_set. now rewrite key_eqb_refl.
Qed.

Lemma removecb_points k : forall pts (a0 : amap V) a, a_calls a0 pts a ->
  (forall o r, In (o, r) pts -> o = MRemoveCb k when_present) ->
  length (filter (fun p => yes (snd p)) pts) = if a_has a0 k then match pts with [] => 0 | _ => 1 end else 0.
Proof.
  induction pts as [|[o r] pts IH]; intros a0 a C Ho; cbn.
  - now destruct (a_has a0 k).
  - pose proof (Ho o r (or_introl eq_refl)) as ->.
    inversion C as [|? ? ? a1 ? ? C1 Cs]; subst. inversion C1 as [? ? ? ? C2| | | | | | |]; subst.
    inversion C2; subst. pose proof (IH _ _ Cs ltac:(intros; eapply Ho; right; eauto)) as E0.
    unfold a_has in *. unfold when_present in *. destruct (a0 k) eqn:E; cbn.
    + rewrite E0. replace (a_del a0 k k) with (@None V); [reflexivity|]. unfold a_del. now rewrite key_eqb_refl.
    + rewrite E0, E. reflexivity.
Qed.
End P.

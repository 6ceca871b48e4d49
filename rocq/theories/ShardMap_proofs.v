From Coq Require Import ZArith List Bool Arith Lia Permutation ZifyBool ZifyNat.
From Verif Require Import Bytes GoSlice ShardMap Spec_Map.
Import ListNotations.
Ltac Zify.zify_post_hook ::= Z.div_mod_to_equations.

Lemma key_eqb_eq a b : key_eqb a b = true <-> a = b.
Proof.
  revert b; induction a as [|x a IH]; destruct b as [|y b]; cbn; try (split; congruence).
  rewrite andb_true_iff, IH. split.
  - intros [H ->]. apply Byte.byte_dec_bl in H. now subst.
  - intros [= -> ->]. split; [now apply Byte.byte_dec_lb|reflexivity].
Qed.
Lemma key_eqb_refl a : key_eqb a a = true.
Proof. now apply key_eqb_eq. Qed.
Lemma key_eqb_sym a b : key_eqb a b = key_eqb b a.
Proof.
  destruct (key_eqb a b) eqn:E1, (key_eqb b a) eqn:E2; try reflexivity.
  - apply key_eqb_eq in E1. subst. now rewrite key_eqb_refl in E2.
  - apply key_eqb_eq in E2. subst. now rewrite key_eqb_refl in E1.
Qed.
Lemma key_eqb_neq a b : key_eqb a b = false <-> a <> b.
Proof. rewrite <- key_eqb_eq. destruct (key_eqb a b); intuition congruence. Qed.

Section P.
Context {V : Type}.
Implicit Types (g : gomap V) (m : smap V).

Lemma gm_get_del k k' g : gm_get k' (gm_del k g) = if key_eqb k k' then None else gm_get k' g.
Proof.
  induction g as [|[x v] g IH]; cbn; try fold (gm_del k g).
  - now destruct (key_eqb k k').
  - destruct (key_eqb x k) eqn:E; cbn; fold (gm_del k g).
    + apply key_eqb_eq in E; subst x. rewrite IH. now destruct (key_eqb k k').
    + destruct (key_eqb x k') eqn:E2.
      * apply key_eqb_eq in E2; subst x. rewrite key_eqb_sym in E. now rewrite E.
      * exact IH.
Qed.
Lemma gm_get_set k k' v g : gm_get k' (gm_set k v g) = if key_eqb k k' then Some v else gm_get k' g.
Proof. unfold gm_set; cbn. destruct (key_eqb k k') eqn:E; [reflexivity|]. now rewrite gm_get_del, E. Qed.
Lemma gm_in_get g k v : NoDup (map fst g) -> In (k, v) g <-> gm_get k g = Some v.
Proof.
  induction g as [|[x w] g IH]; cbn; intros Hd; [split; [tauto|discriminate]|].
  inversion Hd as [|? ? Hn Hd']; subst. destruct (key_eqb x k) eqn:E.
  - apply key_eqb_eq in E; subst x. split.
    + intros [[= ->]|H]; [reflexivity|]. exfalso; apply Hn. now apply (in_map fst) in H.
    + intros [= ->]. now left.
  - rewrite <- (IH Hd'). apply key_eqb_neq in E. split; [intros [[= ? ?]|H]; [congruence|exact H]|auto].
Qed.
Lemma gm_get_none g k : gm_get k g = None <-> ~ In k (map fst g).
Proof.
  induction g as [|[x w] g IH]; cbn; [tauto|]. destruct (key_eqb x k) eqn:E.
  - apply key_eqb_eq in E. split; [discriminate|tauto].
  - apply key_eqb_neq in E. rewrite IH. tauto.
Qed.
Lemma gm_del_nodup k g : NoDup (map fst g) -> NoDup (map fst (gm_del k g)).
Proof.
  induction g as [|[x w] g IH]; cbn; try fold (gm_del k g); intros Hd; [constructor|]. inversion Hd; subst.
  destruct (key_eqb x k); cbn; [auto|]. constructor; [|auto].
  intros H. apply in_map_iff in H as [y [Hy Hin]]. apply filter_In in Hin as [Hin _].
  apply H1. rewrite <- Hy. now apply in_map.
Qed.
Lemma gm_del_in k g x : In x (map fst (gm_del k g)) -> In x (map fst g) /\ x <> k.
Proof.
  intros H. apply in_map_iff in H as [y [<- Hin]]. apply filter_In in Hin as [Hin Hb].
  split; [now apply in_map|]. apply negb_true_iff, key_eqb_neq in Hb. exact Hb.
Qed.

(* Each shard is a map and holds only its own keys. *)
Record minv (m : smap V) : Prop := {
  i_len : length (sm_shards m) = shard_count;
  i_nodup : forall i g, nth_error (sm_shards m) i = Some g -> NoDup (map fst g);
  i_home : forall i g k, nth_error (sm_shards m) i = Some g -> In k (map fst g) -> shard_of (sm_hash m) k = i
}.

Lemma shard_of_lt h k : shard_of h k < shard_count.
Proof. unfold shard_of, shard_count. lia. Qed.
Lemma get_shard_nth m k : minv m -> nth_error (sm_shards m) (shard_of (sm_hash m) k) = Some (get_shard m k).
Proof.
  intros [L _ _]. unfold get_shard. apply nth_error_nth'. rewrite L. apply shard_of_lt.
Qed.

Lemma new_inv h : minv (sm_new h).
Proof.
  split; cbn.
  - reflexivity.
  - intros i g E. apply nth_error_In in E. apply (repeat_spec shard_count) in E. subst; constructor.
  - intros i g k E Hi. apply nth_error_In in E. apply (repeat_spec shard_count) in E. subst; destruct Hi.
Qed.

Lemma set_nth_len {B} n (x : B) l : length (set_nth n x l) = length l.
Proof. revert n; induction l; destruct n; cbn; auto. Qed.
Lemma set_nth_get {B} n (x : B) l i y : nth_error (set_nth n x l) i = Some y ->
  (i = n /\ y = x) \/ (i <> n /\ nth_error l i = Some y).
Proof.
  revert n i; induction l as [|a l IH]; destruct n, i; cbn; try discriminate; intros E;
    try (left; split; congruence); try (right; split; congruence).
  destruct (IH _ _ E) as [[-> ->]|[N E1]]; [left; auto|right; auto].
Qed.
Lemma set_nth_nth {B} n (x d : B) l i : n < length l ->
  nth i (set_nth n x l) d = if Nat.eqb i n then x else nth i l d.
Proof.
  revert n i; induction l as [|a l IH]; destruct n, i; cbn; intros; try lia; auto. apply IH; lia.
Qed.

Lemma put_inv m k g : minv m -> NoDup (map fst g) ->
  (forall x, In x (map fst g) -> x = k \/ In x (map fst (get_shard m k))) -> minv (put_shard m k g).
Proof.
  intros I Hd Hs. pose proof (get_shard_nth m k I) as Eg. destruct I as [L N Hh]. split; cbn.
  - now rewrite set_nth_len.
  - intros i g0 E. destruct (set_nth_get _ _ _ _ _ E) as [[-> ->]|[_ E1]]; eauto.
  - intros i g0 x E Hin. destruct (set_nth_get _ _ _ _ _ E) as [[-> ->]|[_ E1]].
    + destruct (Hs _ Hin) as [->|H]; [reflexivity|]. eapply Hh; eauto.
    + eapply Hh; eauto.
Qed.

Lemma put_get m k g k' : minv m ->
  get_shard (put_shard m k g) k' =
  if Nat.eqb (shard_of (sm_hash m) k') (shard_of (sm_hash m) k) then g else get_shard m k'.
Proof.
  intros [L _ _]. unfold get_shard, put_shard; cbn. rewrite set_nth_nth; [reflexivity|].
  rewrite L. apply shard_of_lt.
Qed.

Lemma sm_get_put m k g k' : minv m ->
  (forall x, x <> k -> gm_get x g = gm_get x (get_shard m k)) ->
  sm_get (put_shard m k g) k' = if key_eqb k k' then gm_get k g else sm_get m k'.
Proof.
  intros I Hx. unfold sm_get. rewrite put_get by exact I.
  destruct (key_eqb k k') eqn:E.
  - apply key_eqb_eq in E; subst k'. now rewrite Nat.eqb_refl.
  - apply key_eqb_neq in E. destruct (Nat.eqb_spec (shard_of (sm_hash m) k') (shard_of (sm_hash m) k)) as [Es|]; [|reflexivity].
    rewrite Hx by congruence. unfold get_shard. now rewrite Es.
Qed.

Lemma set_inv m k v : minv m -> minv (sm_set m k v).
Proof.
  intros I. pose proof (i_nodup _ I _ _ (get_shard_nth m k I)) as Hd. apply put_inv; [exact I| |].
  - unfold gm_set; cbn. constructor; [|now apply gm_del_nodup]. intros H. now apply gm_del_in in H.
  - unfold gm_set; cbn. intros x [->|H]; [now left|]. apply gm_del_in in H. tauto.
Qed.
Lemma remove_inv m k : minv m -> minv (sm_remove m k).
Proof.
  intros I. pose proof (i_nodup _ I _ _ (get_shard_nth m k I)) as Hd. apply put_inv; [exact I| |].
  - now apply gm_del_nodup.
  - intros x H. apply gm_del_in in H. tauto.
Qed.
Lemma set_get m k v k' : minv m -> sm_get (sm_set m k v) k' = if key_eqb k k' then Some v else sm_get m k'.
Proof.
  intros I. unfold sm_set. rewrite sm_get_put; [|exact I|].
  - rewrite gm_get_set, key_eqb_refl. reflexivity.
  - intros x N. rewrite gm_get_set. destruct (key_eqb k x) eqn:E; [|reflexivity].
    apply key_eqb_eq in E. congruence.
Qed.
Lemma remove_get m k k' : minv m -> sm_get (sm_remove m k) k' = if key_eqb k k' then None else sm_get m k'.
Proof.
  intros I. unfold sm_remove. rewrite sm_get_put; [|exact I|].
  - rewrite gm_get_del, key_eqb_refl. reflexivity.
  - intros x N. rewrite gm_get_del. destruct (key_eqb k x) eqn:E; [|reflexivity].
    apply key_eqb_eq in E. congruence.
Qed.

(* The entries list the map. *)
Lemma entries_in m k v : minv m -> In (k, v) (sm_entries m) <-> sm_get m k = Some v.
Proof.
  intros I. unfold sm_entries. rewrite in_concat. split.
  - intros [g [Hg Hin]]. apply In_nth_error in Hg as [i Ei].
    assert (Hs : shard_of (sm_hash m) k = i) by (eapply i_home; eauto; now apply (in_map fst) in Hin).
    pose proof (get_shard_nth m k I) as Eg. rewrite Hs in Eg. pose proof (eq_trans (eq_sym Ei) Eg) as E1. injection E1 as E1.
    unfold sm_get. rewrite <- E1. apply gm_in_get; [eapply i_nodup; eauto|exact Hin].
  - intros E. exists (get_shard m k). pose proof (get_shard_nth m k I) as Eg.
    split; [now apply nth_error_In in Eg|]. apply gm_in_get; [eapply i_nodup; eauto|exact E].
Qed.

Lemma nodup_app {A} (a b : list A) : NoDup a -> NoDup b -> (forall x, In x a -> ~ In x b) -> NoDup (a ++ b).
Proof.
  induction a; cbn; intros Ha Hb Hx; [exact Hb|]. inversion Ha; subst. constructor.
  - rewrite in_app_iff. intros [H|H]; [contradiction|]. exact (Hx a (or_introl eq_refl) H).
  - apply IHa; [assumption|assumption|]. intros x H. apply Hx. now right.
Qed.

Lemma entries_nodup m : minv m -> NoDup (map fst (sm_entries m)).
Proof.
  intros [_ N Hh]. unfold sm_entries. revert N Hh. generalize (sm_shards m) as gs.
  assert (G : forall gs off, (forall i g, nth_error gs i = Some g -> NoDup (map fst g)) ->
    (forall i g k, nth_error gs i = Some g -> In k (map fst g) -> shard_of (sm_hash m) k = off + i) ->
    NoDup (map fst (concat gs))).
  { induction gs as [|g gs IH]; intros off N Hh; cbn; [constructor|].
    rewrite map_app. apply nodup_app.
    - exact (N 0 g eq_refl).
    - apply (IH (S off)).
      + intros i g0 E. exact (N (S i) g0 E).
      + intros i g0 k E Hin. rewrite (Hh (S i) g0 k E Hin). lia.
    - intros x Hx Hin. apply in_map_iff in Hin as [[y v] [Hy Hin]]. cbn in Hy; subst y.
      apply in_concat in Hin as [g0 [Hg Hin]]. apply In_nth_error in Hg as [i Ei].
      pose proof (Hh 0 g x eq_refl Hx) as H0. apply (in_map fst) in Hin. pose proof (Hh (S i) g0 x Ei Hin). lia. }
  intros gs N Hh. exact (G gs 0 N Hh).
Qed.

Lemma count_entries m : sm_count m = length (sm_entries m).
Proof.
  unfold sm_count, sm_entries. rewrite <- (Nat.add_0_l (length _)). generalize 0 as n.
  induction (sm_shards m) as [|g gs IH]; intros n; cbn; [lia|]. rewrite IH, app_length. lia.
Qed.

Lemma mset_spec data : forall m, minv m -> NoDup (map fst data) ->
  minv (sm_mset m data) /\
  (forall k v, In (k, v) data -> sm_get (sm_mset m data) k = Some v) /\
  (forall k, ~ In k (map fst data) -> sm_get (sm_mset m data) k = sm_get m k) /\
  sm_hash (sm_mset m data) = sm_hash m.
Proof.
  induction data as [|[x w] data IH]; intros m I Hd; cbn.
  - split; [exact I|]. split; [intros k v []|]. split; reflexivity.
  - inversion Hd as [|? ? Hn Hd']; subst.
    destruct (IH (sm_set m x w) (set_inv _ _ _ I) Hd') as (I1 & H1 & H2 & H3).
    split; [exact I1|]. split; [|split].
    + intros k v [[= <- <-]|Hin]; [|now apply H1].
      fold (sm_mset (sm_set m x w) data). rewrite H2 by exact Hn. now rewrite set_get, key_eqb_refl.
    + intros k Hk. fold (sm_mset (sm_set m x w) data). rewrite H2 by tauto. rewrite set_get by exact I.
      destruct (key_eqb x k) eqn:E; [|reflexivity]. apply key_eqb_eq in E. tauto.
    + exact H3.
Qed.

Lemma clear_spec ord : forall m, minv m ->
  minv (sm_clear m ord) /\
  (forall k, sm_get (sm_clear m ord) k = if existsb (fun e => key_eqb (fst e) k) ord then None else sm_get m k).
Proof.
  induction ord as [|[x w] ord IH]; intros m I; cbn; [now split|].
  destruct (IH (sm_remove m x) (remove_inv _ _ I)) as [I1 H1]. split; [exact I1|].
  intros k. fold (sm_clear (sm_remove m x) ord). rewrite H1, remove_get by exact I.
  destruct (key_eqb x k); cbn; [now destruct (existsb _ ord)|reflexivity].
Qed.

Lemma lists_of_perm m l a : minv m -> (forall k, sm_get m k = a k) -> Permutation l (sm_entries m) ->
  lists_entries a l.
Proof.
  intros I R P. split.
  - apply (Permutation_NoDup (Permutation_sym (Permutation_map fst P))). now apply entries_nodup.
  - intros k v. rewrite <- R, <- entries_in by exact I. split; intros H.
    + now apply (Permutation_in _ P).
    + now apply (Permutation_in _ (Permutation_sym P)).
Qed.
Lemma keys_of_perm m l a : minv m -> (forall k, sm_get m k = a k) -> Permutation l (map fst (sm_entries m)) ->
  lists_keys a l.
Proof.
  intros I R P. split.
  - apply (Permutation_NoDup (Permutation_sym P)). now apply entries_nodup.
  - intros k. rewrite <- R. split; intros H.
    + apply (Permutation_in _ P) in H. apply in_map_iff in H as [[x v] [Hx Hin]]. cbn in Hx; subst x.
      apply entries_in in Hin; [|exact I]. congruence.
    + apply (Permutation_in _ (Permutation_sym P)). destruct (sm_get m k) eqn:E; [|congruence].
      apply entries_in in E; [|exact I]. now apply (in_map fst) in E.
Qed.

Lemma call_sim m a o r m1 : minv m -> (forall k, sm_get m k = a k) -> op_ok o -> sm_call m o r m1 ->
  minv m1 /\ exists a1, a_call a o r a1 /\ forall k, sm_get m1 k = a1 k.
Proof.
  intros I R Ho C. assert (Hh : forall k, sm_has m k = a_has a k) by (intros k; unfold sm_has, a_has; rewrite <- R; reflexivity).
  destruct C; cbn in Ho.
  - split; [exact I|]. exists a. rewrite R. split; [apply AOne, AGet|exact R].
  - split; [exact I|]. exists a. rewrite Hh. split; [apply AOne, AHas|exact R].
  - split; [now apply set_inv|]. exists (a_set a k v). split; [apply AOne, ASet|].
    intros k'. rewrite set_get by exact I. unfold a_set. destruct (key_eqb k k'); auto.
  - assert (Es : sm_setnx m k v = if a_has a k then (m, false) else (sm_set m k v, true)).
    { rewrite <- Hh. unfold sm_setnx, sm_has, sm_set. now destruct (gm_get k (get_shard m k)). }
    assert (Er : snd (sm_setnx m k v) = negb (a_has a k)) by (rewrite Es; now destruct (a_has a k)).
    rewrite Er. split; [rewrite Es; destruct (a_has a k); [exact I|now apply set_inv]|].
    exists (if a_has a k then a else a_set a k v). split; [apply AOne, ASetNX|].
    rewrite Es. destruct (a_has a k); [exact R|]. intros k'. cbn [fst]. rewrite set_get by exact I.
    unfold a_set. destruct (key_eqb k k'); auto.
  - rename H into P. assert (Hd : NoDup (map fst ord))
      by (apply (Permutation_NoDup (Permutation_sym (Permutation_map fst P))); exact Ho).
    destruct (mset_spec ord m I Hd) as (I1 & H1 & H2 & _). split; [exact I1|].
    exists (sm_get (sm_mset m ord)). split; [|reflexivity]. apply AMSet; [exact Ho| |].
    + intros k v Hin. apply H1. now apply (Permutation_in _ (Permutation_sym P)).
    + intros k Hn. rewrite <- R. apply H2. intros Hin. apply Hn.
      now apply (Permutation_in _ (Permutation_map fst P)).
  - split; [now apply remove_inv|]. exists (a_del a k). split; [apply AOne, ARemove|].
    intros k'. rewrite remove_get by exact I. unfold a_del. destruct (key_eqb k k'); auto.
  - assert (Er : snd (sm_remove_cb m k cb) = cb k (a k)) by (rewrite <- R; reflexivity).
    assert (E1 : fst (sm_remove_cb m k cb) = if cb k (a k) && a_has a k then sm_remove m k else m).
    { rewrite <- R. unfold a_has. rewrite <- R. reflexivity. }
    rewrite Er. split; [rewrite E1; destruct (cb k (a k) && a_has a k); [now apply remove_inv|exact I]|].
    exists (if cb k (a k) then a_del a k else a). split; [apply AOne, ARemoveCb|].
    rewrite E1. destruct (cb k (a k)); cbn; [|exact R]. destruct (a_has a k) eqn:Ea.
    + intros k'. rewrite remove_get by exact I. unfold a_del. destruct (key_eqb k k'); auto.
    + intros k'. unfold a_del. destruct (key_eqb k k') eqn:E; [|auto]. apply key_eqb_eq in E; subst k'.
      rewrite R. unfold a_has in Ea. now destruct (a k).
  - assert (Er : snd (sm_pop m k) = a k) by (cbn; apply R). rewrite Er.
    split; [now apply remove_inv|]. exists (a_del a k). split; [apply AOne, APop|].
    intros k'. cbn [fst sm_pop]. fold (sm_remove m k). rewrite remove_get by exact I. unfold a_del. destruct (key_eqb k k'); auto.
  - rename H into P. destruct (clear_spec ord m I) as [I1 H1]. split; [exact I1|].
    exists (sm_get (sm_clear m ord)). split; [|reflexivity]. apply AClear. intros k. rewrite H1.
    destruct (existsb _ ord) eqn:E; [reflexivity|]. destruct (sm_get m k) as [v|] eqn:Eg; [|reflexivity].
    apply entries_in in Eg; [|exact I]. apply (Permutation_in _ (Permutation_sym P)) in Eg.
    assert (X : existsb (fun e : key * V => key_eqb (fst e) k) ord = true).
    { apply existsb_exists. exists (k, v). split; [exact Eg|]. apply key_eqb_refl. }
    congruence.
  - split; [exact I|]. exists a. split; [|exact R]. rewrite count_entries, <- (map_length fst).
    apply ACount. apply (keys_of_perm m); auto.
  - split; [exact I|]. exists a. split; [|exact R]. apply AIsEmpty. unfold sm_is_empty. rewrite count_entries, Nat.eqb_eq. split.
    + intros E k. rewrite <- R. destruct (sm_get m k) as [v|] eqn:Eg; [|reflexivity].
      apply entries_in in Eg; [|exact I]. destruct (sm_entries m); [destruct Eg|discriminate].
    + intros Hn. destruct (sm_entries m) as [|[x v] l] eqn:E; [reflexivity|].
      assert (Hin : In (x, v) (sm_entries m)) by (rewrite E; now left).
      apply entries_in in Hin; [|exact I]. rewrite R, Hn in Hin. discriminate.
  - split; [exact I|]. exists a. split; [|exact R]. apply AKeys. now apply (keys_of_perm m).
  - split; [exact I|]. exists a. split; [|exact R]. apply AItems. now apply (lists_of_perm m).
  - split; [exact I|]. exists a. split; [|exact R]. apply AIterCb. now apply (lists_of_perm m).
Qed.

Lemma calls_sim m h m1 : sm_calls m h m1 -> Forall (fun c => op_ok (fst c)) h ->
  forall a, minv m -> (forall k, sm_get m k = a k) ->
  exists a1, a_calls a h a1 /\ forall k, sm_get m1 k = a1 k.
Proof.
  induction 1 as [m|m o r m1 h m2 C Cs IH]; intros Hf a I R.
  - exists a. split; [constructor|exact R].
  - inversion Hf as [|? ? Ho Hf']; subst. destruct (call_sim m a o r m1 I R Ho C) as [I1 [a1 [C1 R1]]].
    destruct (IH Hf' a1 I1 R1) as [a2 [Cs2 R2]]. exists a2. split; [|exact R2]. econstructor; eauto.
Qed.

Lemma refines hash h m : sm_calls (sm_new hash) h m -> Forall (fun c => op_ok (fst c)) h ->
  exists a, a_calls a_empty h a /\ forall k, sm_get m k = a k.
Proof.
  intros C Hf. apply (calls_sim _ _ _ C Hf); [apply new_inv|]. intros k. unfold a_empty, sm_get, get_shard, sm_new; cbn [sm_shards sm_hash].
  now rewrite nth_repeat.
Qed.
End P.

From Coq Require Import ZArith List Bool Arith Lia Permutation.
From Verif Require Import Bytes GoSlice ShardMap Spec_Map ShardMap_proofs ShardConc_proofs ShardIter Spec_ShardIter
  ShardIter_proofs ShardIter2_proofs ShardClear Spec_ShardClear.
Import ListNotations.

Arguments sm_get : simpl never.
Arguments sm_set : simpl never.
Arguments sm_remove : simpl never.

Section P.
Context {V : Type}.
Implicit Types (s : clr V) (m : smap V).

(* Calls on other keys leave a key alone. *)
Lemma after_get m o k : minv m -> writes o <> Some k -> sm_get (after m o) k = sm_get m k.
Proof.
  intros I W. assert (N : forall k', Some k' <> Some k -> key_eqb k' k = false) by (intros k' H; apply key_eqb_neq; congruence).
  destruct o; cbn [after writes] in *; try reflexivity; apply N in W.
  - now rewrite set_get, W.
  - assert (E : fst (sm_setnx m k0 v) = m \/ fst (sm_setnx m k0 v) = sm_set m k0 v) by (unfold sm_setnx; destruct (gm_get k0 (get_shard m k0)); auto).
    destruct E as [-> | ->]; [reflexivity|]. now rewrite set_get, W.
  - now rewrite remove_get, W.
  - assert (E : fst (sm_remove_cb m k0 cb) = m \/ fst (sm_remove_cb m k0 cb) = sm_remove m k0) by (unfold sm_remove_cb; cbn; destruct (_ && _); auto).
    destruct E as [-> | ->]; [reflexivity|]. now rewrite remove_get, W.
  - change (fst (sm_pop m k0)) with (sm_remove m k0). now rewrite remove_get, W.
Qed.

(* Clear as steps of the iteration. *)
Definition proj s (l : clabel V) : ilabel V :=
  match l with
  | CIter INext => IOther (MHas [])
  | CIter l' => l'
  | CNext => match cl_del s with Some _ => IOther (MHas []) | None => if ir_end (cl_iter s) then IOther (MHas []) else INext end
  | CRemove => match cl_del s with Some k => IOther (MRemove k) | None => IOther (MHas []) end
  end.
Lemma noop (s : iter V) : iter_step s (IOther (MHas [])) = s.
Proof. destruct s; reflexivity. Qed.
Lemma proj_step s l : cl_iter (clear_step s l) = iter_step (cl_iter s) (proj s l).
Proof.
  destruct l as [l| |]; unfold clear_step, proj.
  - destruct l; try reflexivity. now rewrite noop.
  - destruct (cl_del s); [now rewrite noop|]. destruct (ir_end (cl_iter s)); [now rewrite noop|reflexivity].
  - destruct (cl_del s); [|now rewrite noop]. unfold iter_step. now destruct (may _ _ _).
Qed.

Record clinv (h : key -> Z) (past : list (smap V)) s : Prop := {
  ci_iter : iinv h past (cl_iter s);
  ci_del : forall k, cl_del s = Some k -> In k (map fst (ir_got (cl_iter s)));
  ci_got : forall k, In k (map fst (ir_got (cl_iter s))) -> cl_del s = Some k \/ exists m, In m past /\ sm_get m k = None;
  ci_end : ir_end (cl_iter s) = true -> cl_del s = None
}.
Lemma got_own (s : iter V) l : l <> INext -> ir_got (iter_step s l) = ir_got s /\ ir_end (iter_step s l) = ir_end s.
Proof.
  intros N. destruct l; try congruence; cbn [iter_step];
    repeat match goal with |- context [match ?x with _ => _ end] => destruct x eqn:?; cbn end; auto.
Qed.
Lemma clear_step_inv h past s l : clinv h past s -> clinv h (past ++ [cl_map (clear_step s l)]) (clear_step s l).
Proof.
  intros [I1 I2 I3 I4]. pose proof (iter_step_inv h past _ (proj s l) I1) as J. rewrite <- proj_step in J. fold (cl_map (clear_step s l)) in J.
  destruct (ii_past _ _ _ I1 _ (ii_now _ _ _ I1)) as [Im Eh].
  assert (More : forall k m', (exists m, In m past /\ sm_get m k = None) -> exists m, In m (past ++ [m']) /\ sm_get m k = None).
  { intros k m' [m [H1 H2]]. exists m. split; [apply in_or_app; now left|exact H2]. }
  assert (Same : clinv h (past ++ [cl_map s]) s).
  { split; auto; [now apply iinv_same|]. intros k Hk. destruct (I3 k Hk) as [H|H]; auto. }
  destruct l as [l| |].
  - assert (l = INext \/ l <> INext) as [->|N] by (destruct l; (now left) || (right; discriminate)); [exact Same|].
    assert (E : clear_step s (CIter l) = Clr (iter_step (cl_iter s) l) (cl_del s)) by (destruct l; congruence || reflexivity).
    rewrite E in *. destruct (got_own (cl_iter s) l N) as [G1 G2]. split; cbn [cl_iter cl_del]; rewrite ?G1, ?G2; auto.
    intros k Hk. destruct (I3 k Hk) as [H|H]; auto.
  - cbn [clear_step] in *. destruct (cl_del s) as [d|] eqn:Ed; [exact Same|]. destruct (ir_end (cl_iter s)) eqn:Ee; [exact Same|].
    split; [exact J| | |]; cbn [cl_iter cl_del iter_step]; destruct (ir_total (cl_iter s)) as [t|]; cbn; try discriminate;
      destruct (ir_out (cl_iter s)) as [|e o]; cbn; try discriminate; try (now destruct (ir_closed (cl_iter s)));
      try (intros k Hk; assert (Hk' : In k (map fst (ir_got (cl_iter s)))) by (destruct (ir_closed (cl_iter s)); exact Hk); destruct (I3 k Hk'); [discriminate|auto]);
      try (intros k Hk; destruct (I3 k Hk); [discriminate|auto]); auto.
    + intros k [= <-]. rewrite map_app, in_app_iff. right. now left.
    + intros k Hk. rewrite map_app, in_app_iff in Hk. destruct Hk as [Hk|[<-|[]]]; [|now left]. destruct (I3 k Hk); [discriminate|auto].
    + congruence.
  - cbn [clear_step] in *. destruct (cl_del s) as [d|] eqn:Ed; [|exact Same]. destruct (may _ _ _) eqn:Em; [|exact Same].
    split; [exact J| | |]; cbn; try discriminate; auto.
    intros k Hk. right. destruct (I3 k Hk) as [H|H]; [|now apply More]. injection H as ->.
    eexists. split; [apply in_or_app; right; now left|]. cbn. rewrite remove_get by exact Im. now rewrite key_eqb_refl.
Qed.
Lemma clear_run_inv h ls : forall past s, clinv h (past ++ [cl_map s]) s ->
  clinv h (past ++ map cl_map (clear_trace s ls)) (clear_run s ls).
Proof.
  induction ls as [|l ls IH]; intros past s I; [exact I|]. cbn [clear_trace map clear_run fold_left].
  change (cl_map s :: map cl_map (clear_trace (clear_step s l) ls)) with ([cl_map s] ++ map cl_map (clear_trace (clear_step s l) ls)).
  rewrite app_assoc. apply IH. now apply clear_step_inv.
Qed.
Lemma clear_reach m ls : minv m -> clinv (sm_hash m) (map cl_map (clear_trace (clear_start m) ls)) (clear_run (clear_start m) ls).
Proof.
  intros I. apply (clear_run_inv _ ls []). split; cbn; try discriminate; auto; [now apply iter_init_inv|tauto].
Qed.
Lemma clear_gone h past s k : clinv h past s -> cl_end s = true -> exists m, In m past /\ sm_get m k = None.
Proof.
  intros [I1 I2 I3 I4] E. destruct (in_dec (list_eq_dec Byte.byte_eq_dec) k (map fst (ir_got (cl_iter s)))) as [Hin|Hn].
  - destruct (I3 k Hin) as [H|H]; [|exact H]. rewrite (I4 E) in H. discriminate.
  - destruct (iter_whole h past _ I1 E) as [_ W]. destruct (W k) as [a [Ha Hk]]. apply in_map_iff in Ha as [m [<- Hm]].
    exists m. split; [exact Hm|]. destruct (sm_get m k) as [v|] eqn:G; [|reflexivity].
    exfalso. apply Hn. pose proof (proj2 (Hk v) eq_refl) as Hin. now apply (in_map fst) in Hin.
Qed.
(* A step of somebody else on other keys, or of Clear, never makes a key appear. *)
Lemma absent_step h past s l k : clinv h past s -> spares k l -> sm_get (cl_map s) k = None -> sm_get (cl_map (clear_step s l)) k = None.
Proof.
  intros I Hl E. destruct (ii_past _ _ _ (ci_iter _ _ _ I) _ (ii_now _ _ _ (ci_iter _ _ _ I))) as [Im _]. unfold cl_map in *. rewrite proj_step.
  assert (G : forall o, (writes o <> Some k \/ exists k', o = MRemove k') -> sm_get (ir_map (iter_step (cl_iter s) (IOther o))) k = None).
  { intros o Ho. cbn [iter_step]. destruct (may _ _ o); [|exact E]. cbn. destruct Ho as [Ho|[k' ->]].
    - now rewrite after_get.
    - cbn. rewrite remove_get by exact Im. now destruct (key_eqb k' k). }
  assert (K : forall (it : iter V) l', (match l' with IOther _ => False | _ => True end) -> ir_map (iter_step it l') = ir_map it).
  { intros it l' Hn. destruct l'; try destruct Hn; cbn [iter_step];
      repeat match goal with |- context [match ?x with _ => _ end] => destruct x eqn:?; cbn end; auto. }
  destruct l as [l| |]; cbn [proj].
  - destruct l; try (now rewrite K); [apply G; left; exact Hl|apply G; left; discriminate].
  - destruct (cl_del s); [apply G; left; discriminate|]. destruct (ir_end (cl_iter s)); [apply G; left; discriminate|now rewrite K].
  - destruct (cl_del s); apply G; [right; eauto|left; discriminate].
Qed.
Lemma absent_stays h k ls : forall past s, clinv h (past ++ [cl_map s]) s -> Forall (spares k) ls ->
  (exists m, In m (map cl_map (clear_trace s ls)) /\ sm_get m k = None) -> sm_get (cl_map (clear_run s ls)) k = None.
Proof.
  induction ls as [|l ls IH]; intros past s I F [m [Hm E]]; cbn [clear_trace map] in Hm.
  - destruct Hm as [<-|[]]. exact E.
  - inversion F as [|? ? F1 F2]; subst. cbn [clear_run fold_left]. apply (IH (past ++ [cl_map s])); [now apply clear_step_inv|exact F2|].
    destruct Hm as [<-|Hm]; [|eauto]. eexists. split; [destruct ls; left; reflexivity|]. eapply absent_step; eauto.
Qed.
(* A key already dealt with is left alone. *)
Lemma cleared_step h past s l k : clinv h past s -> spares k l -> cleared k s ->
  cleared k (clear_step s l) /\ sm_get (cl_map (clear_step s l)) k = sm_get (cl_map s) k.
Proof.
  intros I Hl [C1 C2]. pose proof (clear_step_inv _ _ _ l I) as J. destruct (ii_past _ _ _ (ci_iter _ _ _ I) _ (ii_now _ _ _ (ci_iter _ _ _ I))) as [Im _].
  destruct (iter_part _ _ _ (ci_iter _ _ _ J)) as [Nd _]. unfold cleared, cl_map in *.
  assert (K : forall (it : iter V) l', (match l' with IOther _ => False | _ => True end) -> ir_map (iter_step it l') = ir_map it).
  { intros it l' Hn. destruct l'; try destruct Hn; cbn [iter_step];
      repeat match goal with |- context [match ?x with _ => _ end] => destruct x eqn:?; cbn end; auto. }
  destruct l as [l| |].
  - assert (l = INext \/ l <> INext) as [->|N] by (destruct l; (now left) || (right; discriminate)); [auto|].
    assert (E : clear_step s (CIter l) = Clr (iter_step (cl_iter s) l) (cl_del s)) by (destruct l; congruence || reflexivity).
    rewrite E in *. destruct (got_own (cl_iter s) l N) as [G1 G2]. cbn [cl_iter cl_del]. rewrite G1. split; [auto|].
    destruct l; try (now rewrite K). cbn [iter_step]. destruct (may _ _ o); [|reflexivity]. cbn. apply after_get; [exact Im|exact Hl].
  - cbn [clear_step] in *. destruct (cl_del s) as [d|] eqn:Ed; [rewrite Ed; auto|]. destruct (ir_end (cl_iter s)) eqn:Ee; [rewrite Ed; auto|].
    cbn [cl_iter cl_del] in *. split; [|now rewrite K]. cbn [iter_step] in *. destruct (ir_total (cl_iter s)); [|split; [exact C1|discriminate]].
    destruct (ir_out (cl_iter s)) as [|e o]; cbn [ir_got] in *; [destruct (ir_closed (cl_iter s)); split; (exact C1 || discriminate)|].
    rewrite map_app in *. split; [apply in_or_app; now left|]. intros [= <-]. apply NoDup_remove_2 in Nd. apply Nd. rewrite app_nil_r. exact C1.
  - cbn [clear_step] in *. destruct (cl_del s) as [d|] eqn:Ed; [|rewrite Ed; auto]. destruct (may _ _ _) eqn:Em; [|rewrite Ed; auto].
    cbn. split; [split; [exact C1|discriminate]|]. rewrite remove_get by exact Im. destruct (key_eqb d k) eqn:E; [|reflexivity].
    apply key_eqb_eq in E. congruence.
Qed.
Lemma cleared_run h k ls : forall past s, clinv h (past ++ [cl_map s]) s -> Forall (spares k) ls -> cleared k s ->
  sm_get (cl_map (clear_run s ls)) k = sm_get (cl_map s) k.
Proof.
  induction ls as [|l ls IH]; intros past s I F C; [reflexivity|]. inversion F as [|? ? F1 F2]; subst. cbn [clear_run fold_left].
  destruct (cleared_step _ _ _ l k I F1 C) as [C' <-]. apply (IH (past ++ [cl_map s])); [now apply clear_step_inv|exact F2|exact C'].
Qed.

(* Finishing. *)
Lemma own_lift more : forall s, Forall own more ->
  clear_run s (map CIter more) = Clr (iter_run (cl_iter s) more) (cl_del s).
Proof.
  induction more as [|l more IH]; intros s F; [destruct s; reflexivity|]. inversion F as [|? ? F1 F2]; subst. cbn [map clear_run fold_left iter_run].
  assert (E : clear_step s (CIter l) = Clr (iter_step (cl_iter s) l) (cl_del s)) by (destruct l; try destruct F1; reflexivity).
  rewrite E. unfold clear_run in IH. rewrite IH by exact F2. reflexivity.
Qed.
Lemma clear_drain h : forall n past s, clinv h (past ++ [cl_map s]) s -> ir_closed (cl_iter s) = true ->
  length (ir_out (cl_iter s)) = n -> exists more, Forall clear_only more /\ cl_end (clear_run s more) = true.
Proof.
  induction n as [|n IH]; intros past s I C L.
  - destruct (cl_end s) eqn:E; [exists []; split; [constructor|exact E]|].
    assert (T : ir_total (cl_iter s) <> None) by (intros T; destruct (ii_none _ _ _ (ci_iter _ _ _ I) T) as [_ [_ [Q _]]]; congruence).
    destruct (ir_total (cl_iter s)) as [t|] eqn:Et; [|congruence]. destruct (ir_out (cl_iter s)) eqn:Eo; [|discriminate].
    destruct (cl_del s) as [d|] eqn:Ed.
    + exists [CRemove; CNext]. split; [repeat constructor|]. cbn [clear_run fold_left clear_step]. rewrite Ed.
      assert (M : may (ir_map (cl_iter s)) (held (ir_lanes (cl_iter s))) (MRemove d) = true).
      { unfold may. cbn. destruct (held _ _) eqn:H; [|reflexivity]. exfalso. apply (closed_unlocked _ _ _ (ci_iter _ _ _ I) C). eexists; exact H. }
      rewrite M. cbn [cl_del cl_iter ir_end iw_map ir_total ir_out]. unfold cl_end in *. rewrite E. cbn. now rewrite Et, Eo, C.
    + exists [CNext]. split; [repeat constructor|]. cbn [clear_run fold_left clear_step]. rewrite Ed. unfold cl_end in *. rewrite E. cbn. now rewrite Et, Eo, C.
  - destruct (cl_end s) eqn:E; [exists []; split; [constructor|exact E]|].
    assert (T : ir_total (cl_iter s) <> None) by (intros T; destruct (ii_none _ _ _ (ci_iter _ _ _ I) T) as [_ [_ [Q _]]]; congruence).
    assert (G : exists one, Forall clear_only one /\ ir_closed (cl_iter (clear_run s one)) = true /\ length (ir_out (cl_iter (clear_run s one))) = n).
    { destruct (ir_total (cl_iter s)) as [t|] eqn:Et; [|congruence]. destruct (ir_out (cl_iter s)) as [|e o] eqn:Eo; [discriminate|].
      unfold cl_end in E. destruct (cl_del s) as [d|] eqn:Ed.
      + exists [CRemove; CNext]. split; [repeat constructor|]. cbn [clear_run fold_left clear_step]. rewrite Ed.
        assert (M : may (ir_map (cl_iter s)) (held (ir_lanes (cl_iter s))) (MRemove d) = true).
        { unfold may. cbn. destruct (held _ _) eqn:H; [|reflexivity]. exfalso. apply (closed_unlocked _ _ _ (ci_iter _ _ _ I) C). eexists; exact H. }
        rewrite M. cbn [cl_del cl_iter ir_end iw_map ir_total ir_out]. rewrite E. cbn. rewrite Et, Eo. cbn. rewrite C. cbn in L. split; [reflexivity|lia].
      + exists [CNext]. split; [repeat constructor|]. cbn [clear_run fold_left clear_step]. rewrite Ed, E. cbn. rewrite Et, Eo. cbn. rewrite C. cbn in L. split; [reflexivity|lia]. }
    destruct G as [one [F1 [G1 G2]]].
    pose proof (clear_run_inv h one past s I) as J.
    assert (J2 : clinv h ((past ++ map cl_map (clear_trace s one)) ++ [cl_map (clear_run s one)]) (clear_run s one)).
    { destruct J as [J1 J2 J3 J4]. split; auto; [now apply iinv_same|]. intros k Hk. destruct (J3 k Hk) as [H|[m [H1 H2]]]; [now left|].
      right. exists m. split; [apply in_or_app; now left|exact H2]. }
    destruct (IH _ _ J2 G1 G2) as [more [F2 E2]]. exists (one ++ more). split; [apply Forall_app; auto|]. unfold clear_run in *. now rewrite fold_left_app.
Qed.
Lemma clear_finish h past s : clinv h (past ++ [cl_map s]) s -> exists more, Forall clear_only more /\ cl_end (clear_run s more) = true.
Proof.
  intros I. destruct (own_run h _ past _ (Nat.le_refl _) (ci_iter _ _ _ I)) as [own1 [O [C _]]].
  pose proof (clear_run_inv h (map CIter own1) past s I) as J. pose proof (own_lift own1 s O) as El.
  assert (J2 : clinv h ((past ++ map cl_map (clear_trace s (map CIter own1))) ++ [cl_map (clear_run s (map CIter own1))]) (clear_run s (map CIter own1))).
  { destruct J as [J1 J2 J3 J4]. split; auto; [now apply iinv_same|]. intros k Hk. destruct (J3 k Hk) as [H|[m [H1 H2]]]; [now left|].
    right. exists m. split; [apply in_or_app; now left|exact H2]. }
  assert (C' : ir_closed (cl_iter (clear_run s (map CIter own1))) = true) by (rewrite El; exact C).
  destruct (clear_drain h _ _ _ J2 C' eq_refl) as [more [F E]].
  exists (map CIter own1 ++ more). split.
  - apply Forall_app. split; [|exact F]. apply Forall_forall. intros l Hl. apply in_map_iff in Hl as [l' [<- Hl]].
    rewrite Forall_forall in O. specialize (O _ Hl). destruct l'; try destruct O; exact Logic.I.
  - unfold clear_run in *. now rewrite fold_left_app.
Qed.

(* MSet. *)
Lemma take_out_in {A} n (l : list A) x y : nth_error l n = Some x -> In y l -> y = x \/ In y (take_out n l).
Proof.
  revert n; induction l as [|a l IH]; intros [|n] E H; cbn in *; try discriminate.
  - injection E as ->. destruct H; auto.
  - destruct H as [H|H]; [auto|]. destruct (IH _ E H); auto.
Qed.
Lemma take_out_sub {A} n (l : list A) y : In y (take_out n l) -> In y l.
Proof. revert n; induction l as [|a l IH]; intros [|n] H; cbn in *; auto. destruct H; eauto. Qed.
Lemma take_out_nodup {A B} (f : A -> B) n l x : NoDup (map f l) -> nth_error l n = Some x ->
  NoDup (map f (take_out n l)) /\ ~ In (f x) (map f (take_out n l)).
Proof.
  revert n; induction l as [|a l IH]; intros [|n] N E; cbn in *; try discriminate; inversion N as [|? ? N1 N2]; subst.
  - injection E as ->. auto.
  - destruct (IH _ N2 E) as [H1 H2]. split.
    + constructor; [|exact H1]. intros H. apply in_map_iff in H as [y [Ey Hy]]. apply N1. rewrite <- Ey. apply in_map. eapply take_out_sub; eauto.
    + intros [H|H]; [|auto]. apply N1. rewrite H. apply in_map. eapply nth_error_In; eauto.
Qed.
Lemma mset_inv (s : mset V) l : minv (ms_map s) -> minv (ms_map (mset_step s l)).
Proof.
  intros I. destruct l as [o|n]; cbn; [now apply after_inv|]. destruct (nth_error (ms_rest s) n) as [[k v]|]; [now apply set_inv|exact I].
Qed.
Lemma mset_done ls : forall (s : mset V) k v, minv (ms_map s) -> NoDup (map fst (ms_rest s)) -> In (k, v) (ms_rest s) -> ms_rest (mset_run s ls) = [] ->
  exists (s' : mset V), In s' (mset_trace s ls) /\ sm_get (ms_map s') k = Some v.
Proof.
  induction ls as [|l ls IH]; intros s k v I N Hin E; cbn [mset_run fold_left] in E; [rewrite E in Hin; destruct Hin|].
  assert (D : (exists (s' : mset V), In s' (mset_trace (mset_step s l) ls) /\ sm_get (ms_map s') k = Some v) -> exists (s' : mset V), In s' (mset_trace s (l :: ls)) /\ sm_get (ms_map s') k = Some v).
  { intros [s' [H1 H2]]. exists s'. split; [now right|exact H2]. }
  apply D. clear D. destruct l as [o|n].
  - apply IH; auto. now apply mset_inv.
  - cbn [mset_step] in *. destruct (nth_error (ms_rest s) n) as [[k' v']|] eqn:En; [|now apply IH].
    destruct (take_out_nodup fst n _ _ N En) as [N1 N2]. destruct (take_out_in _ _ _ _ En Hin) as [[= -> ->]|Hin'].
    + eexists. split; [destruct ls; left; reflexivity|]. cbn. rewrite set_get by exact I. now rewrite key_eqb_refl.
    + apply IH; auto. cbn. now apply set_inv.
Qed.
(* What is in the map under a key the others spare. *)
Lemma mset_key k ls : forall (s : mset V), minv (ms_map s) -> NoDup (map fst (ms_rest s)) -> Forall (mspares k) ls ->
  let s' := mset_run s ls in
  (forall v, In (k, v) (ms_rest s) -> In (k, v) (ms_rest s') \/ sm_get (ms_map s') k = Some v) /\
  (~ In k (map fst (ms_rest s)) -> sm_get (ms_map s') k = sm_get (ms_map s) k).
Proof.
  induction ls as [|l ls IH]; intros s I N F; cbn [mset_run fold_left]; [split; auto|]. inversion F as [|? ? F1 F2]; subst.
  destruct l as [o|n].
  - destruct (IH (mset_step s (MsOther o)) (mset_inv _ _ I) N F2) as [H1 H2]. split; [exact H1|].
    intros Hn. unfold mset_run in *. rewrite H2 by exact Hn. cbn. now apply after_get.
  - cbn [mset_step]. destruct (nth_error (ms_rest s) n) as [[k' v']|] eqn:En; [|now apply IH].
    destruct (take_out_nodup fst n _ _ N En) as [N1 N2].
    destruct (IH (MS (sm_set (ms_map s) k' v') (take_out n (ms_rest s))) (set_inv _ _ _ I) N1 F2) as [H1 H2].
    unfold mset_run in *. split.
    + intros v Hv. destruct (take_out_in _ _ _ _ En Hv) as [[= -> ->]|Hin']; [|now apply H1].
      right. rewrite H2 by exact N2. cbn. rewrite set_get by exact I. now rewrite key_eqb_refl.
    + intros Hn. rewrite H2.
      * cbn. rewrite set_get by exact I. destruct (key_eqb k' k) eqn:E; [|reflexivity]. apply key_eqb_eq in E; subst. exfalso. apply Hn. apply (in_map fst) in En || idtac. apply nth_error_In in En. now apply (in_map fst) in En.
      * cbn. intros H. apply Hn. apply in_map_iff in H as [y [<- Hy]]. apply in_map. eapply take_out_sub; eauto.
Qed.
End P.

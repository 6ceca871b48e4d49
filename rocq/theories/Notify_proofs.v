From Coq Require Import ZArith List Bool Permutation Lia ZifyBool.
From Verif Require Import Bytes ShardMap Spec_Map ShardMap_proofs Decimal Spec_ConnManager ConnManager_proofs Notify Spec_Notify.
Import ListNotations.
Local Open Scope Z_scope.

Record ninv (m : smap (option Z)) (a : reg) : Prop := {
  n_minv : minv m;
  n_key : forall k c, sm_get m k = Some c -> exists id, 0 <= id < 2 ^ 64 /\ k = format_uint id;
  n_get : forall id, 0 <= id < 2 ^ 64 -> sm_get m (format_uint id) = option_map Some (a id)
}.

Lemma key_fmt a b : 0 <= a < 2 ^ 64 -> 0 <= b < 2 ^ 64 -> key_eqb (format_uint a) (format_uint b) = (a =? b).
Proof. intros. now apply key_eqb_format. Qed.

Definition dec (e : key * option Z) : list (Z * Z) := match e with (k, Some c) => [(fst (parse_uint k), c)] | _ => [] end.
Lemma send_all_ok buff msg data : forall ord oks, (forall k, ~ In (k, None) ord) ->
  snd (send_all buff msg data ord oks) = true /\
  map (fun s => (se_conn s, se_buff s, se_msg s, se_data s)) (fst (send_all buff msg data ord oks)) = map (fun x => (snd x, buff, msg, data)) (flat_map dec ord).
Proof.
  induction ord as [|[k [c|]] ord IH]; intros oks H; [split; reflexivity| |exfalso; exact (H k (or_introl eq_refl))].
  cbn [send_all]. destruct (IH (tl oks) (fun k X => H k (or_intror X))) as (A & B). destruct (send_all buff msg data ord (tl oks)) as (ev & b). cbn in *. split; [exact A|]. now rewrite B.
Qed.

Lemma lists_dec m a ord : ninv m a -> Permutation ord (sm_entries m) -> lists_reg a (flat_map dec ord) /\ length (flat_map dec ord) = length ord /\ forall k, ~ In (k, None) ord.
Proof.
  intros [I K G] P.
  assert (M : forall k v, In (k, v) ord <-> sm_get m k = Some v).
  { intros k v. rewrite <- (entries_in m k v I). split; intros X; [exact (Permutation_in _ P X)|exact (Permutation_in _ (Permutation_sym P) X)]. }
  assert (No : forall k, ~ In (k, None) ord).
  { intros k X. apply M in X. destruct (K k _ X) as (id & R & ->). rewrite (G id R) in X. destruct (a id); discriminate. }
  assert (N : NoDup (map fst ord)) by (apply (Permutation_NoDup (Permutation_sym (Permutation_map fst P))); now apply entries_nodup).
  assert (Ky : forall k v, In (k, v) ord -> exists id, 0 <= id < 2 ^ 64 /\ k = format_uint id) by (intros k v X; apply M in X; eauto).
  split; [split|split; [|exact No]].
  - clear M P. induction ord as [|[k [c|]] ord IH]; [constructor| |exfalso; exact (No k (or_introl eq_refl))]. cbn [flat_map dec app map fst] in *. inversion N; subst.
    constructor; [|apply IH; [intros k0 X; exact (No k0 (or_intror X))|assumption|intros k0 v0 X; exact (Ky k0 v0 (or_intror X))]].
    intros X. apply in_map_iff in X. destruct X as ([id0 c0] & E & X). cbn [fst] in E. apply in_flat_map in X. destruct X as ([k0 [c1|]] & X & Y); [|destruct Y]. destruct Y as [Y|[]]. injection Y as Y1 Y2.
    destruct (Ky k (Some c) (or_introl eq_refl)) as (i1 & R1 & ->). destruct (Ky k0 (Some c1) (or_intror X)) as (i2 & R2 & ->). rewrite parse_format_uint in E, Y1 by assumption. cbn [fst] in E, Y1. subst id0. subst i2.
    apply H1. apply in_map_iff. exists (format_uint i1, Some c1). split; [reflexivity|exact X].
  - intros id c. rewrite in_flat_map. split.
    + intros ([k [c1|]] & X & Y); [|destruct Y]. destruct Y as [Y|[]]. injection Y as Y1 <-. destruct (Ky _ _ X) as (i1 & R1 & ->). rewrite parse_format_uint in Y1 by assumption. cbn in Y1. subst id. split; [exact R1|].
      apply M in X. rewrite (G _ R1) in X. destruct (a i1); [cbn in X; congruence|discriminate].
    + intros (R & E). exists (format_uint id, Some c). split; [apply M; rewrite (G _ R), E; reflexivity|]. cbn [dec]. rewrite parse_format_uint by assumption. now left.
  - clear - No. induction ord as [|[k [c|]] ord IH]; [reflexivity| |exfalso; exact (No k (or_introl eq_refl))]. cbn. rewrite IH; [reflexivity|]. intros k0 X. exact (No k0 (or_intror X)).
Qed.

Lemma n_sim m a o r ev m1 : ninv m a -> nop_ok o -> n_call m o r ev m1 -> exists a1, s_call a o r ev a1 /\ ninv m1 a1.
Proof.
  intros H Ok C. assert (Iv := H). destruct H as [I K G]. destruct C as [m id c|m id|m id|m|m id|m buff id msg data ok|m buff msg data oks ord P]; cbn [nop_ok] in Ok; unfold gen_id in *.
  - destruct Ok as (R & Nc). destruct c as [c|]; [|congruence]. eexists. split; [apply SSet|]. constructor.
    + now apply set_inv.
    + intros k c0. rewrite set_get by exact I. destruct (key_eqb _ k) eqn:E; [|apply K]. apply key_eqb_eq in E. subst k. eauto.
    + intros x Rx. rewrite set_get by exact I. rewrite key_fmt by assumption. unfold reg_set. rewrite Z.eqb_sym. destruct (x =? id); [reflexivity|auto].
  - eexists. split; [apply SDel|]. constructor.
    + now apply remove_inv.
    + intros k c0. rewrite remove_get by exact I. destruct (key_eqb _ k) eqn:E; [discriminate|apply K].
    + intros x Rx. rewrite remove_get by exact I. rewrite key_fmt by assumption. unfold reg_set. rewrite Z.eqb_sym. destruct (x =? id); [reflexivity|auto].
  - exists a. split; [|exact Iv]. apply SHas. unfold sm_has. fold (sm_get m (format_uint id)). rewrite (G id Ok). destruct (a id); cbn; split; congruence.
  - exists a. split; [|exact Iv]. destruct (lists_dec m a (sm_entries m) Iv (Permutation_refl _)) as (A & B & _). rewrite count_entries, <- B. now apply SNums.
  - exists a. split; [|exact Iv]. rewrite (G id Ok). replace (match option_map Some (a id) with Some (Some c) => NConn (Some c) | Some None => NPanic | None => NConn None end) with (NConn (a id)) by (destruct (a id); reflexivity). apply SGet.
  - exists a. split; [|exact Iv]. rewrite (G id Ok). destruct (a id) as [c|] eqn:E; cbn [option_map]; [now apply STo|now apply SToMissing].
  - exists a. split; [|exact Iv]. destruct (lists_dec m a ord Iv P) as (A & B & No). destruct (send_all_ok buff msg data ord oks No) as (E1 & E2). rewrite E1. now apply (SAll a buff msg data oks (flat_map dec ord)).
Qed.

Lemma n_new : ninv new_notify (fun _ => None).
Proof.
  assert (E : forall k, sm_get new_notify k = None) by (intros k; unfold new_notify, sm_get, get_shard, sm_new; cbn [sm_shards sm_hash]; now rewrite nth_repeat).
  constructor; [apply new_inv| |]; intros; rewrite E in *; try discriminate; reflexivity.
Qed.

Lemma n_refines h : forall m a m1, ninv m a -> Forall (fun x => nop_ok (fst (fst x))) h -> n_calls m h m1 -> exists a1, s_calls a h a1 /\ ninv m1 a1.
Proof.
  induction h as [|[[o r] ev] h IH]; intros m a m1 H F C; inversion C; subst.
  - exists a. split; [constructor|exact H].
  - inversion F; subst. cbn [fst] in *. lazymatch goal with X : n_call _ _ _ _ _ |- _ => destruct (n_sim _ _ _ _ _ _ H ltac:(eassumption) X) as (a1 & S1 & H1') end.
    lazymatch goal with X : n_calls _ h _ |- _ => destruct (IH _ _ _ H1' ltac:(eassumption) X) as (a2 & S2 & H2') end. exists a2. split; [econstructor; eassumption|exact H2'].
Qed.

(* What NotifyAll answers. *)
Lemma all_nil m buff msg data oks r ev m1 : n_call m (NAll buff msg data oks) r ev m1 -> r = NErr false \/ r = NPanic.
Proof. intros C. inversion C; subst. destruct (snd _); auto. Qed.

From Coq Require Import ZArith List Bool Arith Lia Permutation ZifyBool ZifyNat ZifyN.
From Verif Require Import Bytes GoSlice ShardMap Spec_Map ShardMap_proofs ShardConc_proofs Decimal ConnManager Spec_ConnManager.
Import ListNotations.
Local Open Scope Z_scope.
Ltac Zify.zify_post_hook ::= Z.div_mod_to_equations.

Lemma b2z_digit d : 0 <= d < 10 -> b2z (digit d) = 48 + d.
Proof.
  intros H. unfold digit.
  assert (C : d = 0 \/ d = 1 \/ d = 2 \/ d = 3 \/ d = 4 \/ d = 5 \/ d = 6 \/ d = 7 \/ d = 8 \/ d = 9) by lia.
  repeat (destruct C as [->|C]; [reflexivity|]). subst. reflexivity.
Qed.

(* Value of the digits printed. *)
Lemma parse_format fuel : forall n acc, 0 <= n < 10 ^ Z.of_nat fuel -> (0 < Z.of_nat fuel) -> n < 2^64 ->
  exists ds, format_loop fuel n acc = ds ++ acc /\ ds <> [] /\
   forall rest, parse_loop (ds ++ rest) 0 = parse_loop rest n.
Proof.
  induction fuel as [|fuel IH]; intros n acc Hn Hf H64; [lia|].
  cbn [format_loop]. destruct (Z.ltb_spec n 10) as [Hs|Hs].
  - exists [digit n]. split; [reflexivity|]. split; [discriminate|]. intros rest. cbn [app parse_loop].
    rewrite b2z_digit by lia.
    replace ((48 <=? 48 + n) && (48 + n <=? 57)) with true by lia.
    replace (10 * 0 + (48 + n - 48)) with n by lia. replace (n <? 2^64) with true by lia. reflexivity.
  - assert (Hn' : 0 <= n / 10 < 10 ^ Z.of_nat fuel).
    { rewrite Nat2Z.inj_succ, Z.pow_succ_r in Hn by lia. lia. }
    assert (Hf' : 0 < Z.of_nat fuel).
    { destruct fuel; [|lia]. cbn in Hn'. lia. }
    destruct (IH (n / 10) (digit (n mod 10) :: acc) Hn' Hf' ltac:(lia)) as (ds & E & Hne & Hp).
    exists (ds ++ [digit (n mod 10)]). rewrite E. split; [now rewrite <- app_assoc|]. split; [now destruct ds|].
    intros rest. rewrite <- app_assoc. rewrite Hp. cbn [app parse_loop]. rewrite b2z_digit by lia.
    replace ((48 <=? 48 + n mod 10) && (48 + n mod 10 <=? 57)) with true by lia.
    replace (10 * (n / 10) + (48 + n mod 10 - 48)) with n by lia. replace (n <? 2^64) with true by lia. reflexivity.
Qed.

Lemma parse_format_uint n : uint64 n -> parse_uint (format_uint n) = (n, true).
Proof.
  intros H. unfold uint64 in H. destruct (parse_format 20 n []) as (ds & E & Hne & Hp); try lia.
  unfold format_uint. rewrite E, app_nil_r. specialize (Hp []). rewrite app_nil_r in Hp. unfold parse_uint.
    destruct ds; [congruence|]. rewrite Hp. reflexivity.
Qed.
Lemma format_inj a b : uint64 a -> uint64 b -> format_uint a = format_uint b -> a = b.
Proof. intros Ha Hb E. apply (f_equal parse_uint) in E. rewrite !parse_format_uint in E by assumption. congruence. Qed.

Record cminv (os : list cmop) (m : manager) : Prop := {
  cm_inv : minv m;
  cm_key : forall k c, sm_get m k = Some c -> k = format_uint (cn_id c) /\ uint64 (cn_id c);
  cm_reg : forall id, uint64 id -> sm_get m (format_uint id) = registered os id
}.

Lemma registered_snoc os o id : registered (os ++ [o]) id = reg_step id (registered os id) o.
Proof. unfold registered. now rewrite fold_left_app. Qed.
Lemma reg_id os : forall id c, registered os id = Some c -> cn_id c = id.
Proof.
  induction os as [|o os IH] using rev_ind; intros id c; [discriminate|].
  rewrite registered_snoc. destruct o; cbn; eauto.
  - destruct (Z.eqb_spec (cn_id c0) id); [intros [= <-]; assumption|eauto].
  - destruct (Z.eqb_spec (cn_id c0) id); [discriminate|eauto].
Qed.

Lemma key_eqb_format a b : uint64 a -> uint64 b -> key_eqb (format_uint a) (format_uint b) = Z.eqb a b.
Proof.
  intros Ha Hb. destruct (Z.eqb_spec a b) as [->|N]; [apply key_eqb_refl|].
  apply key_eqb_neq. intros E. apply N. now apply format_inj.
Qed.

(* The entries of the map in terms of the registry. *)
Lemma entries_conns os m ord : cminv os m -> Permutation ord (sm_entries m) -> lists_conns os (map snd ord).
Proof.
  intros [I K R] P. destruct (lists_of_perm m ord (sm_get m) I (fun _ => eq_refl) P) as [N H]. split.
  - assert (G : forall l : list (key * conn), NoDup (map fst l) -> (forall k c, In (k, c) l -> k = format_uint (cn_id c)) -> NoDup (map snd l)).
    { induction l as [|[k c] l IH]; cbn; intros Hd Hk; [constructor|]. inversion Hd as [|? ? Hn Hd']; subst. constructor; [|apply IH; [exact Hd'|intros k0 c0 H0; apply Hk; now right]].
      intros Hin. apply in_map_iff in Hin as [[k' c'] [Ec Hin]]. cbn in Ec; subst c'.
      apply Hn. assert (Ek : k = k') by (rewrite (Hk k c (or_introl eq_refl)); symmetry; apply Hk; now right).
      subst k'. now apply (in_map fst) in Hin. }
    apply G; [exact N|]. intros k c Hin. apply H in Hin. now apply K in Hin.
  - intros c. split.
    + intros Hin. apply in_map_iff in Hin as [[k c'] [Ec Hin]]. cbn in Ec; subst c'. apply H in Hin.
      pose proof (K _ _ Hin) as [-> Hu]. split; [exact Hu|]. rewrite <- R by exact Hu. exact Hin.
    + intros [Hu E]. rewrite <- R in E by exact Hu. apply H in E. now apply (in_map snd) in E.
Qed.
Lemma entries_keys os m ord : cminv os m -> Permutation ord (map fst (sm_entries m)) ->
  lists_ids os (cm_ids ord) /\ ord = map format_uint (cm_ids ord).
Proof.
  intros [I K R] P. destruct (keys_of_perm m ord (sm_get m) I (fun _ => eq_refl) P) as [N H].
  assert (Hk : forall k, In k ord -> exists id, uint64 id /\ k = format_uint id).
  { intros k Hin. apply H in Hin. destruct (sm_get m k) as [c|] eqn:E; [|congruence]. apply K in E as [-> Hu]. eauto. }
  assert (E : ord = map format_uint (cm_ids ord)).
  { clear N H P. induction ord as [|k l IH]; [reflexivity|]. destruct (Hk k (or_introl eq_refl)) as (id & Hu & ->).
    unfold cm_ids; cbn [flat_map]. rewrite parse_format_uint by exact Hu. cbn [snd fst map app]. f_equal. apply IH. intros; apply Hk; now right. }
  assert (Hids : forall id, In id (cm_ids ord) -> uint64 id).
  { intros id Hin. apply in_flat_map in Hin as (k & Hin & Hid). destruct (Hk k Hin) as (id' & Hu & ->).
    rewrite parse_format_uint in Hid by exact Hu. cbn in Hid. destruct Hid as [<-|[]]. exact Hu. }
  split; [|exact E]. split.
  - rewrite E in N. now apply NoDup_map_inv in N.
  - intros id. split.
    + intros Hin. pose proof (Hids id Hin) as Hu. split; [exact Hu|]. rewrite <- R by exact Hu.
      apply H. rewrite E. now apply in_map.
    + intros [Hu Hr]. rewrite <- R in Hr by exact Hu. apply H in Hr. rewrite E in Hr. apply in_map_iff in Hr as (id' & Ei & Hin).
      apply format_inj in Ei; [now subst|auto|exact Hu].
Qed.

Lemma iter_perm m ord : iter_order m ord -> Permutation ord (sm_entries m).
Proof.
  intros (ords & F & ->). unfold sm_entries. induction F; cbn; [constructor|]. now apply Permutation_app.
Qed.

Lemma range_calls cb : forall l n e, (forall k c, In (k, c) l -> k = format_uint (cn_id c) /\ uint64 (cn_id c)) ->
  fst (range_loop cb n e l) = map (fun x => (cn_id (snd x), snd x)) l.
Proof.
  induction l as [|[k c] l IH]; intros n e Hk; cbn [range_loop map fst snd]; [reflexivity|].
  destruct (Hk k c (or_introl eq_refl)) as [-> Hu]. rewrite parse_format_uint by exact Hu. cbn [fst].
  specialize (IH (S n) (cb n (cn_id c) c) ltac:(intros; apply Hk; now right)).
  destruct (range_loop cb (S n) _ l). cbn [fst] in *. now rewrite IH.
Qed.
Lemma range2_calls cb : forall l n e, fst (range2_loop cb n e l) = map (fun x => (format_uint (cn_id (snd x)), snd x)) l.
Proof.
  induction l as [|[k c] l IH]; intros n e; cbn [range2_loop map fst snd]; [reflexivity|].
  specialize (IH (S n) (cb n (conn_id_str c) c)). destruct (range2_loop cb (S n) _ l). cbn [fst] in *. now rewrite IH.
Qed.

Lemma cm_step os m o r m1 : cminv os m -> cmop_ok o -> cm_call m o r m1 ->
  answer_ok os o r /\ cminv (os ++ [o]) m1.
Proof.
  intros I Ho C.
  assert (Same : (forall id, reg_step id (registered os id) o = registered os id) -> cminv (os ++ [o]) m).
  { intros E. destruct I as [I K R]. split; auto. intros id Hu. rewrite registered_snoc, E. auto. }
  destruct C; cbn in Ho.
  - split; [exact Logic.I|]. destruct I as [I K R]. unfold cm_add. split.
    + now apply set_inv.
    + intros k c'. rewrite set_get by exact I. destruct (key_eqb _ k) eqn:E; [|apply K].
      intros [= <-]. apply key_eqb_eq in E. split; [now rewrite <- E|exact Ho].
    + intros id Hu. rewrite set_get, registered_snoc by exact I. cbn [reg_step]. unfold conn_id_str.
      rewrite key_eqb_format by assumption. destruct (Z.eqb (cn_id c) id); auto.
  - split; [exact Logic.I|]. destruct I as [I K R]. unfold cm_remove. split.
    + now apply remove_inv.
    + intros k c'. rewrite remove_get by exact I. destruct (key_eqb _ k) eqn:E; [discriminate|apply K].
    + intros id Hu. rewrite remove_get, registered_snoc by exact I. cbn [reg_step]. unfold conn_id_str.
      rewrite key_eqb_format by assumption. destruct (Z.eqb (cn_id c) id); auto.
  - split; [|now apply Same]. cbn. unfold cm_get. now apply (cm_reg _ _ I).
  - split; [|now apply Same]. cbn. unfold cm_get2. split.
    + intros id Hu ->. now apply (cm_reg _ _ I).
    + intros Hn. destruct (sm_get m s) as [c|] eqn:E; [|reflexivity]. apply (cm_key _ _ I) in E as [-> Hu].
      now destruct (Hn _ Hu).
  - split; [|now apply Same]. cbn. destruct (entries_keys os m (map fst (sm_entries m)) I (Permutation_refl _)) as [L E].
    eexists. split; [exact L|]. unfold cm_len. rewrite count_entries, <- (map_length fst), E at 1. now rewrite map_length.
  - split; [|now apply Same]. cbn. now apply (entries_conns os m).
  - split; [|now apply Same]. cbn. now apply (entries_keys os m).
  - split; [|now apply Same]. cbn. exists (cm_ids ord). now apply (entries_keys os m).
  - split; [|now apply Same]. cbn [answer_ok]. apply iter_perm in H.
    assert (Hk : forall k c, In (k, c) ord -> k = format_uint (cn_id c) /\ uint64 (cn_id c)).
    { intros k c Hin. apply (cm_key _ _ I). apply entries_in; [apply (cm_inv _ _ I)|]. now apply (Permutation_in _ H). }
    unfold cm_range. rewrite range_calls by exact Hk. rewrite map_map. cbn [snd]. split; [now apply (entries_conns os m)|].
    intros id c Hin. apply in_map_iff in Hin as [[k c'] [E _]]. cbn [snd] in E. injection E as <- <-. reflexivity.
  - split; [|now apply Same]. cbn [answer_ok]. apply iter_perm in H.
    unfold cm_range2. rewrite range2_calls. rewrite map_map. cbn [snd]. split; [now apply (entries_conns os m)|].
    intros id c Hin. apply in_map_iff in Hin as [[k c'] [E _]]. cbn [snd] in E. injection E as <- <-. reflexivity.
Qed.

Lemma cm_new_inv : cminv [] cm_new.
Proof.
  split.
  - apply new_inv.
  - intros k c. unfold sm_get, get_shard, cm_new, sm_new; cbn [sm_shards sm_hash]. rewrite nth_repeat. discriminate.
  - intros id _. unfold sm_get, get_shard, cm_new, sm_new; cbn [sm_shards sm_hash]. now rewrite nth_repeat.
Qed.

Lemma cm_calls_inv h : forall os m m1, cminv os m -> Forall (fun x => cmop_ok (fst x)) h -> cm_calls m h m1 ->
  cminv (os ++ map fst h) m1 /\
  forall pre o r post, h = pre ++ (o, r) :: post -> answer_ok (os ++ map fst pre) o r.
Proof.
  induction h as [|[o r] h IH]; intros os m m1 I Hf C.
  - inversion C; subst. cbn. rewrite app_nil_r. split; [exact I|]. intros pre o r post E. destruct pre; discriminate.
  - inversion C as [|? ? ? m2 ? ? C1 Cs]; subst. inversion Hf as [|? ? Ho Hf']; subst. cbn in Ho.
    destruct (cm_step os m o r m2 I Ho C1) as [A I2]. destruct (IH _ _ _ I2 Hf' Cs) as [I3 A3].
    rewrite <- app_assoc in I3. split; [exact I3|].
    intros [|x pre] o' r' post E; cbn in E.
    + injection E as <- <- _. cbn. rewrite app_nil_r. exact A.
    + injection E as <- E2. cbn. specialize (A3 pre o' r' post E2). rewrite <- app_assoc in A3. exact A3.
Qed.

Lemma range_err cb : forall l n e, snd (range_loop cb n e l) =
  match l with [] => e | _ => last_failed cb n (fst (range_loop cb n e l)) end.
Proof.
  induction l as [|[k c] l IH]; intros n e; cbn [range_loop]; [reflexivity|].
  specialize (IH (S n) (cb n (fst (parse_uint k)) c)).
  destruct (range_loop cb (S n) (cb n (fst (parse_uint k)) c) l) as [calls e'] eqn:E. cbn [fst snd] in *.
  destruct l as [|[k2 c2] l].
  - cbn in E. injection E as <- <-. reflexivity.
  - subst e'. cbn [range_loop] in E. destruct (range_loop cb (S (S n)) _ l) as [cs e2]. injection E as <- _. reflexivity.
Qed.
Lemma range2_err cb : forall l n e, snd (range2_loop cb n e l) =
  match l with [] => e | _ => last_failed cb n (fst (range2_loop cb n e l)) end.
Proof.
  induction l as [|[k c] l IH]; intros n e; cbn [range2_loop]; [reflexivity|].
  specialize (IH (S n) (cb n (conn_id_str c) c)).
  destruct (range2_loop cb (S n) (cb n (conn_id_str c) c) l) as [calls e'] eqn:E. cbn [fst snd] in *.
  destruct l as [|[k2 c2] l].
  - cbn in E. injection E as <- <-. reflexivity.
  - subst e'. cbn [range2_loop] in E. destruct (range2_loop cb (S (S n)) _ l) as [cs e2]. injection E as <- _. reflexivity.
Qed.
Lemma range_last cb ord : snd (cm_range cb ord) = last_failed cb 0 (fst (cm_range cb ord)).
Proof. unfold cm_range. rewrite range_err. now destruct ord. Qed.
Lemma range2_last cb ord : snd (cm_range2 cb ord) = last_failed cb 0 (fst (cm_range2 cb ord)).
Proof. unfold cm_range2. rewrite range2_err. now destruct ord. Qed.
Lemma last_some {K} (cb : nat -> K -> conn -> bool) : forall l n, last_failed cb n l = true -> some_failed cb n l = true.
Proof.
  induction l as [|[k c] l IH]; intros n; [discriminate|]. destruct l as [|y l].
  - cbn. now intros ->.
  - intros H. change (last_failed cb (S n) (y :: l) = true) in H. apply IH in H. cbn [some_failed] in *. rewrite H. now rewrite orb_true_r.
Qed.

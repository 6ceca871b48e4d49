(* C90: JSON of the sharded map. *)
From Coq Require Import ZArith List Bool Permutation Arith Lia.
From Verif Require Import Bytes GoSlice ShardMap Spec_Map ShardMap_proofs ShardJson Spec_ShardJson.
Import ListNotations.

Section P.
Context {V : Type} (marshal : gomap V -> option (list byte)) (unmarshal : list byte -> option (gomap V)).
Lemma perm_nodup (a b : gomap V) : Permutation a b -> NoDup (map fst b) -> NoDup (map fst a).
Proof. intros P N. eapply Permutation_NoDup; [|exact N]. apply Permutation_map, Permutation_sym, P. Qed.
Lemma calls_inv (m : smap V) h m1 : sm_calls m h m1 -> Forall (fun c => op_ok (fst c)) h -> minv m -> minv m1.
Proof.
  induction 1 as [m|m o r m1 h m2 C Cs IH]; intros F I; [exact I|]. inversion F; subst.
  destruct (call_sim m (fun k => sm_get m k) o r m1 I (fun k => eq_refl) H1 C) as [I1 _]. auto.
Qed.
End P.

(* What the keys of a document name is set; every other entry is as it was, and no other call
   was made.  A document that is not a JSON object changes nothing and is reported. *)
Theorem C90_unmarshal : forall V (unmarshal : list byte -> option (gomap V)) hash h m b r, gives_maps unmarshal ->
  sm_calls (sm_new hash) h m -> Forall (fun c => op_ok (fst c)) h -> from_json unmarshal (Some m) b r ->
  match unmarshal b with
  | None => r = Err (Some m)
  | Some tmp => exists m', r = Done (Some m') /\ forall k, sm_get m' k = match gm_get k tmp with Some v => Some v | None => sm_get m k end
  end.
Proof.
  intros V unmarshal hash h m b r G C F J. pose proof (calls_inv _ _ _ C F (new_inv hash)) as I. destruct J as [E|tmp ord m0 E P M|E M|e tmp E M]; rewrite E; try discriminate M; [reflexivity|]. injection M as <-.
  exists (sm_mset m ord). split; [reflexivity|]. pose proof (G b tmp E) as N. pose proof (perm_nodup _ _ P N) as N'. destruct (mset_spec ord m I N') as (_ & A & B & _). intros k.
  destruct (gm_get k tmp) as [v|] eqn:X.
  - apply A. apply (Permutation_in (l := tmp)); [now apply Permutation_sym|]. now apply gm_in_get.
  - apply B. intros H. apply gm_get_none in X. apply X. eapply Permutation_in; [apply Permutation_map, P|exact H].
Qed.
Print Assumptions C90_unmarshal.

(* Round trip: the JSON of a map, read into a new map with any hash, gives the same entries. *)
Theorem C90_roundtrip : forall V marshal unmarshal (conv : V -> V) hash hash' h m b r, gives_maps unmarshal -> reads_back marshal unmarshal conv ->
  sm_calls (sm_new hash) h m -> Forall (fun c => op_ok (fst c)) h ->
  to_json marshal m (Some b) -> from_json unmarshal (Some (sm_new hash')) b r ->
  exists m', r = Done (Some m') /\ forall k, sm_get m' k = option_map conv (sm_get m k).
Proof.
  intros V marshal unmarshal conv hash hash' h m b r G R C F (ord & P & E) J. pose proof (calls_inv _ _ _ C F (new_inv hash)) as I. pose proof (entries_nodup m I) as N.
  destruct (R ord b (perm_nodup _ _ P N) (eq_sym E)) as (tmp & U & T).
  pose proof (C90_unmarshal V unmarshal hash' [] (sm_new hash') b r G (SMNil _) (Forall_nil _) J) as X. rewrite U in X. destruct X as (m' & -> & X). exists m'. split; [reflexivity|].
  intros k. rewrite X. pose proof (G b tmp U) as Nt. assert (sm_get (@sm_new V hash') k = None) as -> by (unfold sm_get, get_shard, sm_new; cbn [sm_shards sm_hash]; now rewrite nth_repeat).
  destruct (sm_get m k) as [w|] eqn:Em; cbn [option_map].
  - assert (H : In (k, conv w) tmp) by (apply T; exists w; split; [|reflexivity]; eapply Permutation_in; [apply Permutation_sym, P|]; now apply entries_in).
    apply gm_in_get in H; [|exact Nt]. now rewrite H.
  - destruct (gm_get k tmp) as [v|] eqn:Et; [|reflexivity]. apply gm_in_get in Et; [|exact Nt]. apply T in Et. destruct Et as (w & H & _).
    apply (Permutation_in _ P) in H. apply entries_in in H; [|exact I]. congruence.
Qed.
Print Assumptions C90_roundtrip.

(* A codec with these properties: each key byte after a 1, each value after a 0. *)
Definition enc1 (e : key * byte) : list byte := flat_map (fun b => [x01; b]) (fst e) ++ [x00; snd e].
Definition enc (m : gomap byte) : option (list byte) := Some (flat_map enc1 m).
Fixpoint dec (acc : key) (b : list byte) : gomap byte :=
  match b with
  | x :: c :: b' => if Byte.eqb x x01 then dec (acc ++ [c]) b' else gm_set acc c (dec [] b')
  | _ => []
  end.
(* A single byte is no document. *)
Definition dec_doc (b : list byte) : option (gomap byte) := match b with [_] => None | _ => Some (dec [] b) end.
Lemma dec_nodup n : forall acc b, length b <= n -> NoDup (map fst (dec acc b)).
Proof.
  induction n as [|n IH]; intros acc b L; [destruct b; [constructor|inversion L]|].
  destruct b as [|x [|c b]]; [constructor..|]. cbn in L. assert (L' : length b <= n) by lia. cbn [dec]. destruct (Byte.eqb x x01); [now apply IH|].
  unfold gm_set. cbn [map fst]. constructor; [|now apply gm_del_nodup, IH]. intros H. apply gm_del_in in H. now destruct H.
Qed.
Lemma dec_key k v rest : forall acc, dec acc (enc1 (k, v) ++ rest) = gm_set (acc ++ k) v (dec [] rest).
Proof.
  unfold enc1. cbn [fst snd]. induction k as [|b k IH]; intros acc; cbn [flat_map app dec]; [change (Byte.eqb x00 x01) with false; now rewrite app_nil_r|].
  change (Byte.eqb x01 x01) with true. cbn iota. rewrite IH, <- app_assoc. reflexivity.
Qed.
Lemma dec_enc m : NoDup (map fst m) -> dec [] (flat_map enc1 m) = m.
Proof.
  induction m as [|[k v] m IH]; intros N; [reflexivity|]. inversion N as [|? ? H N']; subst. cbn [flat_map]. rewrite dec_key, IH by exact N'. cbn [app]. unfold gm_set. f_equal.
  clear -H. unfold gm_del. cbn [fst] in H. induction m as [|[k' v'] m IH]; [reflexivity|]. cbn in *. destruct (key_eqb k' k) eqn:E; [apply key_eqb_eq in E; subst; tauto|]. cbn. f_equal. apply IH. tauto.
Qed.
Lemma enc_ok : gives_maps dec_doc /\ reads_back enc dec_doc (fun v => v).
Proof.
  split.
  - intros b tmp. unfold dec_doc. destruct b as [|x [|y b]]; intros [= <-]; [constructor|]. exact (dec_nodup (length (x :: y :: b)) [] (x :: y :: b) (le_n _)).
  - intros m b N [= <-]. exists m. split; [|intros k v; split; [eauto|intros (w & H & ->); exact H]]. pose proof (dec_enc m N) as D. unfold dec_doc.
    destruct m as [|[[|b k] v] m]; [reflexivity|cbn in *; now rewrite D..].
Qed.
Example C90_case : let m := sm_set (sm_set (sm_new fnv32) [x61] x05) [x62; x63] x07 in
  gives_maps dec_doc /\ reads_back enc dec_doc (fun v => v) /\ sm_calls (sm_new fnv32) [(MSet1 [x61] x05, RUnit); (MSet1 [x62; x63] x07, RUnit)] m /\
  (exists b, to_json enc m (Some b)) /\ exists r, from_json dec_doc (Some (sm_new (fun _ => 0%Z))) [x01; x61; x00; x05] r.
Proof.
  cbv zeta. split; [apply enc_ok|]. split; [apply enc_ok|]. split; [repeat (eapply SMCons; [constructor|]); constructor|]. split; [eexists; exists (sm_entries (sm_set (sm_set (sm_new fnv32) [x61] x05) [x62; x63] x07)); split; [reflexivity|unfold enc; reflexivity]|].
  eexists. eapply JDone; [reflexivity| |reflexivity]. reflexivity.
Qed.

(* Refuted (F91) for a ShardLockMaps that was declared and not made, json.Unmarshal's usual
   target: any document with an entry panics. *)
Theorem C90_zero_refuted : forall V (unmarshal : list byte -> option (gomap V)) b e tmp r, unmarshal b = Some (e :: tmp) -> from_json unmarshal None b r -> r = NilPanic.
Proof. intros V unmarshal b e tmp r E J. inversion J; subst; congruence. Qed.
Print Assumptions C90_zero_refuted.
Example C90_zero_case : dec_doc [x00; x05] = Some [([], x05)]. Proof. reflexivity. Qed.

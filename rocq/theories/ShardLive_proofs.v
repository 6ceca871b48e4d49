(* Concurrent calls on the shard map come back. *)
From Coq Require Import ZArith List Bool Arith Lia.
From Verif Require Import Bytes GoSlice ShardMap Spec_Map ShardMap_proofs ShardConc Spec_ShardLive.
From Verif Require ShardConc_proofs.
Import ListNotations.
Import ShardConc_proofs.

Section P.
Context {V : Type}.
Implicit Types (s : cst V) (o : mop V).

(* Whoever is registered in a lock is inside a call that took it. *)
Record linv (hash : key -> Z) s : Prop := {
  li_hash : sm_hash (cs_map s) = hash;
  li_len : length (cs_locks s) = shard_count;
  li_writer : forall i t, lk_writer (lock_of s i) = Some t -> exists o k, holds_lock (cs_thr s t) = Some o /\ op_key o = Some k /\ shard_of hash k = i /\ is_writer o = true;
  li_reader : forall i t, In t (lk_readers (lock_of s i)) -> exists o k, holds_lock (cs_thr s t) = Some o /\ op_key o = Some k /\ shard_of hash k = i /\ is_writer o = false;
  li_key : forall t, match cs_thr s t with PIdle => True | PCalled o | PHold o | PUnlock o _ | PDone o _ => op_key o <> None | PRead o _ => op_key o <> None /\ match o with MSet1 _ _ | MRemove _ => False | _ => True end end }.

Lemma lock_set s i l j : length (cs_locks s) = shard_count -> i < shard_count -> lock_of (set_lock s i l) j = if Nat.eqb j i then l else lock_of s j.
Proof. apply lock_of_set. Qed.

(* A step that leaves the locks alone and keeps t inside, outside or idle. *)
Lemma linv_thr hash s t p m : linv hash s -> sm_hash m = hash -> holds_lock p = holds_lock (cs_thr s t) ->
  match p with PIdle => True | PCalled o | PHold o | PUnlock o _ | PDone o _ => op_key o <> None | PRead o _ => op_key o <> None /\ match o with MSet1 _ _ | MRemove _ => False | _ => True end end ->
  linv hash (set_thr (set_map s m) t p).
Proof.
  intros [H L W R K] Hm E Kp. assert (Q : forall u, holds_lock (cs_thr (set_thr (set_map s m) t p) u) = holds_lock (cs_thr s u)) by (intros u; cbn; destruct (Nat.eqb_spec u t) as [->|]; auto).
  constructor; try assumption.
  - intros i u Hu. destruct (W i u Hu) as (o & k & A). exists o, k. now rewrite Q.
  - intros i u Hu. destruct (R i u Hu) as (o & k & A). exists o, k. now rewrite Q.
  - intros u. cbn. destruct (Nat.eqb_spec u t); [exact Kp|apply K].
Qed.
Lemma map_same s : set_map s (cs_map s) = s.
Proof. now destruct s. Qed.
Lemma hash_put (m : smap V) k g : sm_hash (put_shard m k g) = sm_hash m.
Proof. reflexivity. Qed.

Lemma linv_step hash s l : linv hash s -> linv hash (fst (cstep s l)).
Proof.
  intros I. assert (I0 := I). destruct I as [H L W R K]. destruct l as [t o|t]; cbn [cstep].
  - destruct (cs_thr s t) eqn:T; try exact I0. destruct (op_key o) eqn:Ko; [|exact I0]. cbn [fst]. rewrite <- (map_same s). apply linv_thr; [exact I0|exact H|now rewrite T|congruence].
  - assert (Kt := K t). destruct (cs_thr s t) as [|o|o|o v|o r|o r] eqn:T; [exact I0|..].
    + destruct (op_key o) as [k|] eqn:Ko; [|exact I0]. rewrite H. destruct (acquire (is_writer o) t (lock_of s (shard_of hash k))) as [l'|] eqn:A; [|exact I0]. cbn [fst].
      assert (Li : shard_of hash k < shard_count) by apply shard_of_lt.
      assert (LL : forall j, lock_of (set_thr (set_lock s (shard_of hash k) l') t (PHold o)) j = if Nat.eqb j (shard_of hash k) then l' else lock_of s j) by (intros j; apply (lock_set s _ l' j L Li)).
      assert (Ot : forall u o0, holds_lock (cs_thr s u) = Some o0 -> holds_lock (cs_thr (set_thr (set_lock s (shard_of hash k) l') t (PHold o)) u) = Some o0) by (intros u o0 Hu; cbn; destruct (Nat.eqb_spec u t) as [->|]; [rewrite T in Hu; discriminate|exact Hu]).
      unfold acquire in A. destruct (lk_writer (lock_of s (shard_of hash k))) eqn:Wk; [discriminate|]. constructor.
      * exact H.
      * cbn. now rewrite set_nth_len.
      * intros i u. rewrite LL. destruct (Nat.eqb_spec i (shard_of hash k)) as [->|].
        -- intros Hu. destruct (is_writer o) eqn:Wo; [destruct (lk_readers _); [|discriminate]|]; injection A as <-; cbn in Hu; [|discriminate]. injection Hu as <-. exists o, k. cbn. now rewrite Nat.eqb_refl.
        -- intros Hu. destruct (W i u Hu) as (o0 & k0 & A1 & A2). exists o0, k0. split; [now apply Ot|exact A2].
      * intros i u. rewrite LL. destruct (Nat.eqb_spec i (shard_of hash k)) as [->|].
        -- intros Hu. destruct (is_writer o) eqn:Wo; [destruct (lk_readers _); [|discriminate]; injection A as <-; destruct Hu|]. injection A as <-. cbn in Hu. destruct Hu as [<-|Hu]; [exists o, k; cbn; now rewrite Nat.eqb_refl|]. destruct (R _ u Hu) as (o0 & k0 & A1 & A2). exists o0, k0. split; [now apply Ot|exact A2].
        -- intros Hu. destruct (R i u Hu) as (o0 & k0 & A1 & A2). exists o0, k0. split; [now apply Ot|exact A2].
      * intros u. cbn. destruct (Nat.eqb_spec u t); [congruence|apply K].
    + destruct (op_key o) as [k|] eqn:Ko; [|exact I0]. cbn [fst].
      assert (Rd : (match o with MSet1 _ _ | MRemove _ => False | _ => True end) -> linv hash (set_thr s t (PRead o (gm_get k (get_shard (cs_map s) k))))).
      { intros Ho. rewrite <- (map_same s) at 1. apply linv_thr; [exact I0|exact H|now rewrite T|]. split; [congruence|exact Ho]. }
      destruct o; try discriminate Ko; unfold first_instr; try (apply Rd; exact Logic.I); cbn in Ko; (apply linv_thr; [exact I0|now rewrite hash_put|now rewrite T|discriminate]).
    + destruct (op_key o) as [k|] eqn:Ko; [|exact I0]. cbn [fst]. destruct Kt as (Kt & Ho).
      assert (Un : forall r, linv hash (set_thr s t (PUnlock o r))) by (intros r; rewrite <- (map_same s) at 1; apply linv_thr; [exact I0|exact H|now rewrite T|congruence]).
      assert (Up : forall r g, linv hash (set_thr (set_map s (put_shard (cs_map s) k g)) t (PUnlock o r))) by (intros r g; apply linv_thr; [exact I0|now rewrite hash_put|now rewrite T|congruence]).
      destruct o; try discriminate Ko; try destruct Ho; unfold second_instr; try (apply Un); try (apply Up); [destruct v; [apply Un|apply Up]|destruct (_ && _); [apply Up|apply Un]].
    + destruct (op_key o) as [k|] eqn:Ko; [|exact I0]. cbn [fst]. rewrite H. assert (Li : shard_of hash k < shard_count) by apply shard_of_lt. set (l' := release (is_writer o) t (lock_of s (shard_of hash k))).
      assert (LL : forall j, lock_of (set_thr (set_lock s (shard_of hash k) l') t (PDone o r)) j = if Nat.eqb j (shard_of hash k) then l' else lock_of s j) by (intros j; apply (lock_set s _ l' j L Li)).
      assert (Ot : forall u, u <> t -> cs_thr (set_thr (set_lock s (shard_of hash k) l') t (PDone o r)) u = cs_thr s u) by (intros u Hu; cbn; destruct (Nat.eqb_spec u t); congruence).
      constructor.
      * exact H.
      * cbn. now rewrite set_nth_len.
      * intros i u. rewrite LL. intros Hu. assert (Hs : lk_writer (lock_of s i) = Some u /\ u <> t).
        { destruct (Nat.eqb_spec i (shard_of hash k)) as [->|Hn].
          - unfold l', release in Hu. destruct (is_writer o) eqn:Wo; [discriminate|]. cbn in Hu. split; [exact Hu|]. intros ->. destruct (W _ _ Hu) as (o0 & k0 & A1 & _ & _ & A4). rewrite T in A1. injection A1 as <-. congruence.
          - split; [exact Hu|]. intros ->. destruct (W _ _ Hu) as (o0 & k0 & A1 & A2 & A3 & _). rewrite T in A1. injection A1 as <-. congruence. }
        destruct Hs as (Hs & Hne). destruct (W i u Hs) as (o0 & k0 & A). exists o0, k0. now rewrite Ot.
      * intros i u. rewrite LL. intros Hu. assert (Hs : In u (lk_readers (lock_of s i)) /\ u <> t).
        { destruct (Nat.eqb_spec i (shard_of hash k)) as [->|Hn].
          - unfold l', release in Hu. destruct (is_writer o) eqn:Wo; cbn in Hu.
            + split; [exact Hu|]. intros ->. destruct (R _ _ Hu) as (o0 & k0 & A1 & _ & _ & A4). rewrite T in A1. injection A1 as <-. congruence.
            + apply filter_In in Hu as (Hu & Hb). split; [exact Hu|]. intros ->. now rewrite Nat.eqb_refl in Hb.
          - split; [exact Hu|]. intros ->. destruct (R _ _ Hu) as (o0 & k0 & A1 & A2 & A3 & _). rewrite T in A1. injection A1 as <-. congruence. }
        destruct Hs as (Hs & Hne). destruct (R i u Hs) as (o0 & k0 & A). exists o0, k0. now rewrite Ot.
      * intros u. destruct (Nat.eq_dec u t) as [->|Hn]; [cbn; rewrite Nat.eqb_refl; congruence|]. rewrite Ot by exact Hn. apply K.
    + cbn [fst]. rewrite <- (map_same s). apply linv_thr; [exact I0|exact H|now rewrite T|exact Logic.I].
Qed.
Lemma linv_run hash : forall ls s, linv hash s -> linv hash (fst (crun s ls)).
Proof.
  induction ls as [|l ls IH]; intros s H; [exact H|]. cbn [crun]. assert (H1 := linv_step hash s l H). destruct (cstep s l) as [s1 e1]. specialize (IH s1 H1). now destruct (crun s1 ls).
Qed.
Lemma linv_init (m : smap V) : linv (sm_hash m) (conc_init m).
Proof.
  constructor; [reflexivity|reflexivity|..|intros t; exact Logic.I]; intros i t; unfold lock_of; cbn [cs_locks conc_init]; rewrite nth_repeat; [discriminate|intros []].
Qed.

Lemma holds_inside s t o : holds_lock (cs_thr s t) = Some o -> inside s t o.
Proof. unfold inside. destruct (cs_thr s t); cbn; congruence. Qed.
Lemma inside_holds s t o : inside s t o -> holds_lock (cs_thr s t) = Some o.
Proof. unfold inside. destruct (cs_thr s t); cbn; try tauto; congruence. Qed.
Lemma writer_changes o : is_writer o = true <-> changes o.
Proof. destruct o; cbn; split; intros; try discriminate; try tauto; reflexivity. Qed.

(* A call that cannot take the lock. *)
Lemma conflict hash s t o : linv hash s -> waiting s t o -> waiting (fst (cstep s (LStep t))) t o ->
  exists u o', u <> t /\ inside s u o' /\ same_shard hash o o' /\ (changes o \/ changes o').
Proof.
  intros [H L W R K] T T'. unfold waiting in *. assert (Kt := K t). rewrite T in Kt. cbn [cstep] in T'. rewrite T in T'. destruct (op_key o) as [k|] eqn:Ko; [|congruence]. rewrite H in T'. set (i := shard_of hash k) in *.
  destruct (acquire (is_writer o) t (lock_of s i)) as [l'|] eqn:A; [cbn in T'; rewrite Nat.eqb_refl in T'; discriminate|]. clear T'.
  assert (Fin : forall u o' k', holds_lock (cs_thr s u) = Some o' -> op_key o' = Some k' -> shard_of hash k' = i -> (changes o \/ changes o') -> exists u o', u <> t /\ inside s u o' /\ same_shard hash o o' /\ (changes o \/ changes o')).
  { intros u o' k' Hu Hk Hs Hc. exists u, o'. split; [intros ->; rewrite T in Hu; discriminate|]. split; [now apply holds_inside|]. split; [|exact Hc]. exists k, k'. now rewrite Hs. }
  unfold acquire in A. destruct (lk_writer (lock_of s i)) as [u|] eqn:Wu.
  - destruct (W i u Wu) as (o' & k' & A1 & A2 & A3 & A4). apply (Fin u o' k'); auto. right. now apply writer_changes.
  - destruct (is_writer o) eqn:Wo; [|discriminate]. destruct (lk_readers (lock_of s i)) as [|u rs] eqn:Rs; [discriminate|]. destruct (R i u) as (o' & k' & A1 & A2 & A3 & _); [rewrite Rs; now left|]. apply (Fin u o' k'); auto. left. now apply writer_changes.
Qed.

(* Goroutine t, once inside, is held up by nothing. *)
Definition rank (p : pc V) : nat := match p with PHold _ => 4 | PRead _ _ => 3 | PUnlock _ _ => 2 | PDone _ _ => 1 | _ => 0 end.
Lemma other_step s l t : (forall o, l <> LCall t o) -> l <> LStep t -> cs_thr (fst (cstep s l)) t = cs_thr s t.
Proof.
  intros N1 N2. destruct l as [u o|u]; cbn [cstep].
  - assert (u <> t) by (intros ->; now apply (N1 o)). destruct (cs_thr s u); try reflexivity. destruct (op_key o); [|reflexivity]. cbn. destruct (Nat.eqb_spec t u); congruence.
  - assert (Hu : u <> t) by congruence. assert (E : Nat.eqb t u = false) by (apply Nat.eqb_neq; congruence).
    destruct (cs_thr s u) as [|o|o|o v|o r|o r]; [reflexivity|..]; [| | | |cbn; now rewrite E]; (destruct (op_key o) as [k|]; [|reflexivity]).
    + destruct (acquire _ _ _); [cbn; now rewrite E|reflexivity].
    + destruct o; cbn; now rewrite E.
    + destruct o; cbn; rewrite ?E; try reflexivity; [destruct v; cbn; now rewrite E|]. destruct (_ && _); cbn; now rewrite E.
    + cbn. now rewrite E.
Qed.
Lemma own_step hash s t : linv hash s -> rank (cs_thr s t) <> 0 ->
  rank (cs_thr (fst (cstep s (LStep t))) t) < rank (cs_thr s t) /\
  (rank (cs_thr s t) = 1 -> exists r, snd (cstep s (LStep t)) = [CRet t r]) /\ (rank (cs_thr s t) > 1 -> 1 <= rank (cs_thr (fst (cstep s (LStep t))) t)).
Proof.
  intros [H L W R K] Hr. assert (Kt := K t). cbn [cstep]. destruct (cs_thr s t) as [|o|o|o v|o r|o r] eqn:T; cbn [rank] in *; try congruence.
  - destruct (op_key o) as [k|] eqn:Ko; [|congruence]. cbn [fst]. destruct o; try discriminate Ko; cbn; rewrite Nat.eqb_refl; cbn; lia.
  - destruct Kt as (Kt & Ho). destruct (op_key o) as [k|] eqn:Ko; [|congruence]. cbn [fst]. destruct o; try discriminate Ko; try destruct Ho; cbn; rewrite ?Nat.eqb_refl; cbn; try lia; [destruct v; cbn; rewrite Nat.eqb_refl; cbn; lia|]. destruct (_ && _); cbn; rewrite Nat.eqb_refl; cbn; lia.
  - destruct (op_key o) as [k|] eqn:Ko; [|congruence]. cbn. rewrite Nat.eqb_refl. cbn. lia.
  - cbn. rewrite Nat.eqb_refl. cbn. split; [lia|]. split; [eauto|lia].
Qed.
Lemma call_step s t o : cs_thr s t <> PIdle -> cs_thr (fst (cstep s (LCall t o))) t = cs_thr s t.
Proof. intros N. cbn. destruct (cs_thr s t) eqn:T; cbn; congruence. Qed.
Lemma comes_back hash : forall ls s t, linv hash s -> 1 <= rank (cs_thr s t) <= turns t ls -> exists r, In (CRet t r) (snd (crun s ls)).
Proof.
  induction ls as [|l ls IH]; intros s t I Hr; [cbn in Hr; lia|]. cbn [crun]. assert (I1 := linv_step hash s l I).
  assert (Go : cs_thr (fst (cstep s l)) t = cs_thr s t -> turns t (l :: ls) = turns t ls -> exists r, In (CRet t r) (snd (let '(s1, e1) := cstep s l in let '(s2, e2) := crun s1 ls in (s2, e1 ++ e2)))).
  { intros E1 E2. destruct (IH (fst (cstep s l)) t I1) as (r & Hi); [rewrite E1; lia|]. exists r. destruct (cstep s l) as [s1 e1]. cbn [fst] in Hi. destruct (crun s1 ls) as [s2 e2]. cbn [snd] in *. apply in_or_app. now right. }
  destruct l as [u o|u].
  - apply Go; [|reflexivity]. destruct (Nat.eq_dec u t) as [->|Hn]; [apply call_step; intros Z; rewrite Z in Hr; cbn in Hr; lia|]. apply other_step; [congruence|discriminate].
  - destruct (Nat.eq_dec u t) as [->|Hn].
    + destruct (own_step hash s t I ltac:(lia)) as (D & One & More). assert (E2 : turns t (LStep t :: ls) = S (turns t ls)) by (unfold turns; cbn; now rewrite Nat.eqb_refl).
      destruct (Nat.eq_dec (rank (cs_thr s t)) 1) as [E|E].
      * destruct (One E) as (r & Hs). exists r. destruct (cstep s (LStep t)) as [s1 e1]. cbn [snd] in Hs. subst e1. destruct (crun s1 ls). now left.
      * destruct (IH (fst (cstep s (LStep t))) t I1) as (r & Hi); [split; [apply More; lia|lia]|]. exists r. destruct (cstep s (LStep t)) as [s1 e1]. cbn [fst] in Hi. destruct (crun s1 ls) as [s2 e2]. cbn [snd] in *. apply in_or_app. now right.
    + apply Go; [apply other_step; congruence|]. unfold turns. cbn. destruct (Nat.eqb_spec u t); [congruence|reflexivity].
Qed.

(* Whoever is inside can leave. *)
Lemma crun_app : forall l1 s l2, fst (crun s (l1 ++ l2)) = fst (crun (fst (crun s l1)) l2) /\ snd (crun s (l1 ++ l2)) = snd (crun s l1) ++ snd (crun (fst (crun s l1)) l2).
Proof.
  induction l1 as [|l l1 IH]; intros s l2; cbn [app crun]; [auto|]. destruct (cstep s l) as [s1 e1]. destruct (IH s1 l2) as (A & B). destruct (crun s1 (l1 ++ l2)), (crun s1 l1). cbn [fst snd] in *. split; [exact A|]. now rewrite B, app_assoc.
Qed.
Lemma inner_step hash s u o : linv hash s -> inside s u o -> 2 < rank (cs_thr s u) ->
  inside (fst (cstep s (LStep u))) u o /\ cs_locks (fst (cstep s (LStep u))) = cs_locks s.
Proof.
  intros [H L W R K] U Hr. assert (Ku := K u). unfold inside in *. cbn [cstep]. destruct (cs_thr s u) as [|o'|o'|o' v|o' r|o' r] eqn:T; cbn [rank] in Hr; try lia; subst o'.
  - destruct (op_key o) as [k|] eqn:Ko; [|congruence]. destruct o; try discriminate Ko; cbn; rewrite Nat.eqb_refl; auto.
  - destruct Ku as (Ku & Ho). destruct (op_key o) as [k|] eqn:Ko; [|congruence]. destruct o; try discriminate Ko; try destruct Ho; cbn; rewrite ?Nat.eqb_refl; auto; [destruct v; cbn; rewrite Nat.eqb_refl; auto|]. destruct (_ && _); cbn; rewrite Nat.eqb_refl; auto.
Qed.
Lemma leave hash : forall n s u o k t, linv hash s -> inside s u o -> op_key o = Some k -> rank (cs_thr s u) <= n -> t <> u ->
  exists more, Forall no_new_calls more /\ cs_thr (fst (crun s more)) t = cs_thr s t /\
    lock_of (fst (crun s more)) (shard_of hash k) = release (is_writer o) u (lock_of s (shard_of hash k)).
Proof.
  induction n as [|n IH]; intros s u o k t I U Ko Ln Ht.
  - unfold inside in U. destruct (cs_thr s u); cbn in *; try tauto; lia.
  - destruct (Nat.lt_ge_cases 2 (rank (cs_thr s u))) as [Hr|Hr].
    + destruct (inner_step hash s u o I U Hr) as (U1 & L1). destruct (own_step hash s u I ltac:(lia)) as (D & _).
      destruct (IH (fst (cstep s (LStep u))) u o k t (linv_step hash s _ I) U1 Ko ltac:(lia) Ht) as (more & F & T & Lk). exists (LStep u :: more). split; [constructor; [exact Logic.I|exact F]|].
      cbn [crun]. assert (E := other_step s (LStep u) t ltac:(discriminate) ltac:(congruence)). destruct (cstep s (LStep u)) as [s1 e1]. cbn [fst] in *. destruct (crun s1 more) as [s2 e2]. cbn [fst] in *. split; [congruence|]. rewrite Lk. unfold lock_of. now rewrite L1.
    + exists [LStep u]. split; [repeat constructor|]. cbn [crun]. assert (E := other_step s (LStep u) t ltac:(discriminate) ltac:(congruence)). destruct I as [H L W R K].
      unfold inside in U. cbn [cstep] in *. destruct (cs_thr s u) as [|o'|o'|o' v|o' r|o' r] eqn:T; cbn [rank] in Hr; try tauto; try lia. subst o'. rewrite Ko in *. cbn [fst] in *. split; [exact E|]. rewrite H in *.
      change (lock_of (set_lock s (shard_of hash k) (release (is_writer o) u (lock_of s (shard_of hash k)))) (shard_of hash k) = release (is_writer o) u (lock_of s (shard_of hash k))). rewrite lock_set by (auto; apply shard_of_lt). now rewrite Nat.eqb_refl.
Qed.
Definition busy (l : rwlock) : nat := (match lk_writer l with Some _ => 1 | None => 0 end) + length (lk_readers l).
Lemma linv_runs hash ls s : linv hash s -> linv hash (fst (crun s ls)).
Proof. apply linv_run. Qed.
Lemma filter_shorter (u : nat) l : In u l -> length (filter (fun v => negb (Nat.eqb v u)) l) < length l.
Proof.
  assert (Le : forall l, length (filter (fun v => negb (Nat.eqb v u)) l) <= length l) by (intros l0; induction l0 as [|x l0 IH0]; cbn; [lia|]; destruct (Nat.eqb x u); cbn; lia).
  induction l as [|x l IH]; intros [].
  - subst x. cbn. rewrite Nat.eqb_refl. cbn. specialize (Le l). lia.
  - cbn. specialize (IH H). destruct (Nat.eqb x u); cbn; lia.
Qed.
Lemma freed hash t i : forall n s, linv hash s -> holds_lock (cs_thr s t) = None -> busy (lock_of s i) <= n ->
  exists more, Forall no_new_calls more /\ cs_thr (fst (crun s more)) t = cs_thr s t /\ busy (lock_of (fst (crun s more)) i) = 0.
Proof.
  induction n as [|n IH]; intros s I Ht Ln; [exists []; cbn; split; [constructor|]; split; [reflexivity|lia]|].
  assert (Go : forall u o k, holds_lock (cs_thr s u) = Some o -> op_key o = Some k -> shard_of hash k = i -> busy (release (is_writer o) u (lock_of s i)) < busy (lock_of s i) ->
    exists more, Forall no_new_calls more /\ cs_thr (fst (crun s more)) t = cs_thr s t /\ busy (lock_of (fst (crun s more)) i) = 0).
  { intros u o k Hu Ko Hi Hb. destruct (leave hash _ s u o k t I (holds_inside _ _ _ Hu) Ko (le_n _)) as (m1 & F1 & T1 & L1); [intros ->; congruence|]. rewrite Hi in L1.
    destruct (IH (fst (crun s m1)) (linv_run hash m1 s I)) as (m2 & F2 & T2 & L2); [now rewrite T1|rewrite L1; lia|].
    exists (m1 ++ m2). destruct (crun_app m1 s m2) as (E & _). rewrite E. split; [now apply Forall_app|]. split; [congruence|exact L2]. }
  destruct (lk_writer (lock_of s i)) as [u|] eqn:W.
  - destruct (li_writer _ _ I i u W) as (o & k & A1 & A2 & A3 & A4). apply (Go u o k A1 A2 A3). rewrite A4. unfold busy, release. cbn. rewrite W. lia.
  - destruct (lk_readers (lock_of s i)) as [|u rs] eqn:R.
    + exists []. cbn. split; [constructor|]. split; [reflexivity|]. unfold busy. now rewrite W, R.
    + destruct (li_reader _ _ I i u) as (o & k & A1 & A2 & A3 & A4); [rewrite R; now left|]. apply (Go u o k A1 A2 A3). rewrite A4. unfold busy, release. cbn. rewrite W. cbn. apply filter_shorter. rewrite R. now left.
Qed.
Lemma no_deadlock hash s t o : linv hash s -> waiting s t o -> exists more r, Forall no_new_calls more /\ In (CRet t r) (snd (crun s more)).
Proof.
  intros I T. unfold waiting in T. assert (Ko := li_key _ _ I t). rewrite T in Ko. destruct (op_key o) as [k|] eqn:K; [|congruence].
  destruct (freed hash t (shard_of hash k) _ s I ltac:(now rewrite T) (le_n _)) as (m1 & F1 & T1 & B). rewrite T in T1. set (s1 := fst (crun s m1)) in *. assert (I1 : linv hash s1) by now apply linv_run.
  assert (T2 : cs_thr (fst (cstep s1 (LStep t))) t = PHold o).
  { cbn [cstep]. rewrite T1, K, (li_hash _ _ I1). unfold busy in B. unfold acquire. destruct (lk_writer _); [lia|]. destruct (lk_readers _); [|cbn in B; lia]. destruct (is_writer o); cbn; now rewrite Nat.eqb_refl. }
  destruct (comes_back hash (repeat (LStep t) 4) (fst (cstep s1 (LStep t))) t (linv_step hash s1 _ I1)) as (r & Hr).
  { rewrite T2. cbn. rewrite Nat.eqb_refl. cbn. lia. }
  exists (m1 ++ LStep t :: repeat (LStep t) 4), r. split.
  - apply Forall_app. split; [exact F1|]. repeat constructor.
  - destruct (crun_app m1 s (LStep t :: repeat (LStep t) 4)) as (_ & ->). apply in_or_app. right. fold s1. revert Hr. generalize (repeat (@LStep V t) 4). intros L Hr. cbn [crun]. destruct (cstep s1 (LStep t)) as [s2 e2]. cbn [fst] in Hr. destruct (crun s2 L) as [s3 e3]. cbn [snd] in *. apply in_or_app. now right.
Qed.
End P.

(* With a clock that does not go back, archive names are distinct and in order. *)
From Coq Require Import ZArith List Bool Lia ZifyBool.
From Verif Require Import LogWriter Spec_LogWriter LogWriter_proofs.
Import ListNotations.
Local Open Scope Z_scope.

Lemma in_order_snoc l x : in_order l -> (forall y, In y l -> y < x) -> in_order (l ++ [x]).
Proof.
  intros H1 H2 a b before mid after E.
  destruct after as [|z after _] using rev_ind.
  - assert (E' : l = before ++ a :: mid /\ [x] = [b]).
    { replace (before ++ a :: mid ++ [b]) with ((before ++ a :: mid) ++ [b]) in E by now rewrite <- app_assoc. now apply app_inj_tail in E as (-> & ->). }
    destruct E' as (-> & [= ->]). apply H2. apply in_or_app. right. now left.
  - replace (before ++ a :: mid ++ b :: after ++ [z]) with ((before ++ a :: mid ++ b :: after) ++ [z]) in E by (now rewrite <- app_assoc; cbn; rewrite <- app_assoc).
    apply app_inj_tail in E as (-> & _). exact (H1 a b before mid after eq_refl).
Qed.
Lemma in_order_nodup l : in_order l -> NoDup l.
Proof.
  induction l as [|x l IH]; intros H; [constructor|]. constructor.
  - intros Hx. apply in_split in Hx. destruct Hx as (m & r & ->). specialize (H x x [] m r eq_refl). lia.
  - apply IH. intros a b before mid after ->. exact (H a b (x :: before) mid after eq_refl).
Qed.
Lemma last_cons {A} (x : A) a t : last (x :: a) t = last a x.
Proof. revert x t. induction a as [|y a IH]; intros x t; [reflexivity|]. change (last (y :: a) t = last (y :: a) x). now rewrite !IH. Qed.
Lemma not_back_app : forall a t b, not_back t (a ++ b) <-> not_back t a /\ not_back (last a t) b.
Proof. induction a as [|x a IH]; intros t b; [cbn; tauto|]. rewrite last_cons. cbn [app not_back]. rewrite IH. tauto. Qed.

Section Names.
Variables (zone : Z -> Z) (n0 : list Z).
Notation nm := (time2name zone).

Definition names (s : lstate) : list Z := n0 ++ l_used s.
Definition cur_ok (T : Z) (ns : list Z) (d : dir) : Prop :=
  match d_cur d with Some (_, m) => nm m <= T /\ forall n, In n ns -> n < nm m | None => True end.
Definition ninv (T : Z) (s : lstate) : Prop :=
  in_order (names s) /\ (forall n, In n (names s) -> n < T) /\ cur_ok T (names s) (l_dir s) /\
  (w_file (l_w s) = true -> nm (w_created (l_w s)) < T /\ forall n, In n (names s) -> n < nm (w_created (l_w s))).

Lemma ninv_later T T' s : T <= T' -> ninv T s -> ninv T' s.
Proof.
  intros H (A & B & C & D). split; [exact A|]. split; [intros n Hn; apply B in Hn; lia|]. split.
  - unfold cur_ok in *. destruct (d_cur (l_dir s)) as [[c m]|]; [|exact I]. split; [lia|apply C].
  - intros F. destruct (D F) as (D1 & D2). split; [lia|exact D2].
Qed.

Lemma append_cur T ns d p t : T <= nm t -> (forall n, In n ns -> n < T) -> cur_ok T ns d -> cur_ok (nm t) ns (append d p t).
Proof.
  intros H B C. unfold append, cur_ok in *. destruct (d_cur d) as [[c m]|] eqn:E; cbn; [|now rewrite E]. split; [lia|]. intros n Hn. apply B in Hn. lia.
Qed.
Lemma cur_later T T' ns d : T <= T' -> cur_ok T ns d -> cur_ok T' ns d.
Proof. unfold cur_ok. destruct (d_cur d) as [[c m]|]; [|auto]. intros H (C1 & C2). split; [lia|exact C2]. Qed.
Lemma flush_cur T ns d b t : T <= nm t -> (forall n, In n ns -> n < T) -> cur_ok T ns d -> cur_ok (nm t) ns (fst (bw_flush d b t)).
Proof.
  intros H B C. unfold bw_flush. destruct (b_err b); [now apply (cur_later T)|]. destruct (b_buf b); [now apply (cur_later T)|].
  destruct (b_open b); [now apply (append_cur T)|now apply (cur_later T)].
Qed.
Lemma write_cur T ns d b p t : T <= nm t -> (forall n, In n ns -> n < T) -> cur_ok T ns d -> cur_ok (nm t) ns (fst (fst (fst (bw_write d b p t)))).
Proof.
  intros H B C. assert (L : cur_ok (nm t) ns d) by now apply (cur_later T). unfold bw_write. destruct (b_err b); [exact L|].
  destruct (_ <=? _); [exact L|].
  destruct (b_buf b) as [|x l]; destruct (b_open b); try exact L; [now apply (append_cur T)|].
  destruct (_ <=? _); [now apply (append_cur T)|]. cbn [fst].
  assert (B' : forall n, In n ns -> n < nm t) by (intros n Hn; apply B in Hn; lia).
  apply (append_cur (nm t)); [lia|exact B'|now apply (append_cur T)].
Qed.

Lemma rotate_ninv T s e : ninv T s -> not_back T (map nm (rotation_readings e)) -> rotation_takes_time zone e ->
  ninv (nm (r_new e)) (fst (rotate zone false s e)).
Proof.
  intros (A & B & C & D) (N1 & N2 & N3 & _) W. unfold rotation_takes_time in W. unfold rotate.
  destruct (w_file (l_w s)) eqn:Ef.
  - destruct (D eq_refl) as (D1 & D2). clear D. destruct (w_bw (l_w s)) as [b|].
    + assert (F := flush_cur T (names s) (l_dir s) b (r_flush e) ltac:(lia) B C).
      destruct (bw_flush (l_dir s) b (r_flush e)) as [d1 b1]. cbn [fst] in F. cbn zeta.
      unfold archive_file, archive_name. destruct (d_cur d1) as [[c m]|] eqn:E1.
      * unfold cur_ok in F. rewrite E1 in F. destruct F as (F1 & F2). destruct (r_rename e).
        -- assert (G : in_order (n0 ++ l_used s ++ [nm (w_created (l_w s))])) by (rewrite app_assoc; now apply in_order_snoc).
           assert (G2 : forall n, In n (n0 ++ l_used s ++ [nm (w_created (l_w s))]) -> n < nm (r_now e)).
           { intros n Hn. rewrite app_assoc in Hn. apply in_app_or in Hn. destruct Hn as [Hn|[<-|[]]]; [apply B in Hn; lia|lia]. }
           cbn [d_cur d_arch]. destruct (r_zip e); destruct (r_open e); cbn [fst]; unfold ninv, names, cur_ok; cbn;
             (split; [exact G|]); (split; [intros n Hn; apply G2 in Hn; lia|]);
             (split; [first [exact I|split; [lia|intros n Hn; apply G2 in Hn; lia]]|]); intros _; (split; [lia|exact G2]).
        -- rewrite E1. destruct (r_open e); cbn [fst]; unfold ninv, names, cur_ok; cbn; rewrite ?E1; rewrite app_nil_r; fold (names s);
             (split; [exact A|]); (split; [intros n Hn; apply B in Hn; lia|]); (split; [split; [lia|exact F2]|]); intros _; (split; [lia|exact F2]).
      * rewrite E1. destruct (r_open e); cbn [fst]; unfold ninv, names, cur_ok; cbn; rewrite ?E1; rewrite app_nil_r; fold (names s);
          (split; [exact A|]); (split; [intros n Hn; apply B in Hn; lia|]);
          (split; [first [exact I|split; [lia|intros n Hn; apply B in Hn; lia]]|]); intros _; (split; [lia|intros n Hn; apply B in Hn; lia]).
    + unfold cur_ok in C. destruct (d_cur (l_dir s)) as [[c m]|] eqn:E1; destruct (r_open e); cbn [fst]; unfold ninv, names, cur_ok; cbn; rewrite ?E1; fold (names s);
        (split; [exact A|]); (split; [intros n Hn; apply B in Hn; lia|]);
        (split; [first [exact I|split; [lia|solve [apply C|intros n Hn; apply B in Hn; lia]]]|]); intros _; (split; [lia|solve [apply C|intros n Hn; apply B in Hn; lia]]).
  - unfold cur_ok in C. destruct (d_cur (l_dir s)) as [[c m]|] eqn:E1; destruct (r_open e); cbn [fst]; unfold ninv, names, cur_ok; cbn; rewrite ?E1; fold (names s);
        (split; [exact A|]); (split; [intros n Hn; apply B in Hn; lia|]);
        (split; [first [exact I|split; [lia|solve [apply C|intros n Hn; apply B in Hn; lia]]]|]); intros Hf; try (rewrite Ef in Hf; discriminate); (split; [lia|solve [apply C|intros n Hn; apply B in Hn; lia]]).
Qed.

Lemma write_ninv T s p e : ninv T s -> not_back T (map nm (readings (LWrite p e))) -> slow zone (LWrite p e) ->
  ninv (nm (e_write e)) (fst (fst (lw_write zone false s p e))).
Proof.
  intros N NB (W1 & W2 & W3). cbn [readings] in NB. rewrite !map_app in NB.
  apply not_back_app in NB. destruct NB as (NB1 & NB). apply not_back_app in NB. destruct NB as ((NB2 & _) & NB). cbn [map last] in NB2, NB.
  apply not_back_app in NB. destruct NB as (NB3 & NB). apply not_back_app in NB. destruct NB as (NB4 & (NB5 & _)). cbn [map last rotation_readings] in NB2, NB3, NB4, NB5.
  assert (T1 : T <= nm (r_new (e_first e))) by (cbn in NB1; lia).
  assert (T2 : nm (e_now e) <= nm (r_new (e_daily e))) by (cbn in NB3; lia).
  assert (T3 : nm (r_new (e_daily e)) <= nm (r_new (e_sized e))) by (cbn in NB4; lia).
  unfold lw_write.
  assert (A : ninv (nm (r_new (e_first e))) (fst (if w_file (l_w s) then (s, true) else rotate zone false s (e_first e)))).
  { destruct (w_file (l_w s)); [now apply (ninv_later T)|now apply (rotate_ninv T)]. }
  destruct (if w_file (l_w s) then (s, true) else rotate zone false s (e_first e)) as [s0 ok0]. cbn [fst] in A.
  destruct ok0; cbn [negb]; [|cbn [fst]; eapply ninv_later; [|exact A]; lia].
  assert (B : ninv (nm (r_new (e_daily e))) (fst (if day zone (w_created (l_w s0)) =? day zone (e_now e) then (s0, true) else rotate zone false s0 (e_daily e)))).
  { destruct (_ =? _); [eapply ninv_later; [|exact A]; lia|]. apply (rotate_ninv (nm (e_now e))); auto. eapply ninv_later; [|exact A]; lia. }
  destruct (if day zone (w_created (l_w s0)) =? day zone (e_now e) then (s0, true) else rotate zone false s0 (e_daily e)) as [s1 ok1]. cbn [fst] in B.
  destruct ok1; cbn [negb]; [|cbn [fst]; eapply ninv_later; [|exact B]; lia].
  assert (C : ninv (nm (r_new (e_sized e))) (fst (if w_max (l_w s1) <=? w_size (l_w s1) + zlen p + buffered (l_w s1) then rotate zone false s1 (e_sized e) else (s1, true)))).
  { destruct (_ <=? _); [|eapply ninv_later; [|exact B]; lia]. apply (rotate_ninv (nm (r_new (e_daily e)))); auto. }
  destruct (if w_max (l_w s1) <=? w_size (l_w s1) + zlen p + buffered (l_w s1) then rotate zone false s1 (e_sized e) else (s1, true)) as [s2 ok2]. cbn [fst] in C.
  destruct ok2; cbn [negb]; [|cbn [fst]; eapply ninv_later; [|exact C]; lia].
  destruct (w_bw (l_w s2)) as [b|]; [|cbn [fst]; eapply ninv_later; [|exact C]; lia].
  destruct C as (C1 & C2 & C3 & C4).
  assert (X := write_cur (nm (r_new (e_sized e))) (names s2) (l_dir s2) b p (e_write e) NB5 C2 C3).
  destruct (bw_write (l_dir s2) b p (e_write e)) as [[[d b'] n] ok]. cbn [fst] in X |- *.
  unfold ninv, names. cbn [l_used l_dir l_w w_file w_created]. fold (names s2). split; [exact C1|]. split; [intros k Hk; apply C2 in Hk; lia|]. split; [exact X|].
  intros F. destruct (C4 F) as (C5 & C6). split; [lia|exact C6].
Qed.

Lemma flush_ninv T s t : ninv T s -> T <= nm t -> ninv (nm t) (lw_flush s t).
Proof.
  intros N H. unfold lw_flush. destruct (w_bw (l_w s)) as [b|]; [|now apply (ninv_later T)].
  destruct N as (A & B & C & D). assert (X := flush_cur T (names s) (l_dir s) b t H B C). destruct (bw_flush (l_dir s) b t) as [d b']. cbn [fst] in X.
  unfold ninv, names. cbn [l_used l_dir l_w w_file w_created]. fold (names s). split; [exact A|]. split; [intros k Hk; apply B in Hk; lia|]. split; [exact X|].
  intros F. destruct (D F) as (D1 & D2). split; [lia|exact D2].
Qed.
Lemma close_ninv T s : ninv T s -> ninv T (lw_close s).
Proof.
  intros (A & B & C & D). unfold lw_close. destruct (w_file (l_w s)) eqn:E.
  - split; [exact A|]. split; [exact B|]. split; [exact C|]. discriminate.
  - split; [exact A|]. split; [exact B|]. split; [exact C|]. now rewrite E.
Qed.

Lemma step_ninv T s o : ninv T s -> no_expiry o -> not_back T (map nm (readings o)) -> slow zone o ->
  ninv (last (map nm (readings o)) T) (fst (lw_step zone false s o)).
Proof.
  intros N X NB W. destruct o; cbn [lw_step].
  - assert (L := write_ninv T s p e N NB W). destruct (lw_write zone false s p e) as [[s' n] ok]. exact L.
  - cbn in *. apply (flush_ninv T); tauto.
  - cbn in *. now apply close_ninv.
  - cbn in *. apply close_ninv. apply (flush_ninv T); tauto.
  - cbn in *. assert (L : ninv (nm t) (lw_close (lw_flush s t))) by (apply close_ninv; apply (flush_ninv T); tauto).
    assert (U : l_used (lw_close (lw_flush s t)) = l_used s).
    { unfold lw_close, lw_flush. destruct (w_bw (l_w s)) as [b|]; [destruct (bw_flush _ b t) as [d b']; cbn; now destruct (w_file (l_w s))|now destruct (w_file (l_w s))]. }
    destruct L as (L1 & L2 & L3 & L4). unfold ninv, names in *. rewrite U in *. cbn. split; [exact L1|]. split; [exact L2|]. split; [exact L3|discriminate].
  - cbn in *. unfold set_max. destruct (ms <? 1); exact N.
  - exact N.
  - now destruct (X now).
Qed.

Lemma run_ninv : forall os T s, ninv T s -> (forall o, In o os -> no_expiry o /\ slow zone o) -> not_back T (map nm (flat_map readings os)) ->
  exists T', ninv T' (fst (lw_run zone false s os)).
Proof.
  induction os as [|o os IH]; intros T s N A NB; cbn; [eauto|].
  cbn [flat_map] in NB. rewrite map_app in NB. apply not_back_app in NB. destruct NB as (NB1 & NB2). destruct (A o (or_introl eq_refl)) as (X & W).
  assert (L := step_ninv T s o N X NB1 W). destruct (lw_step zone false s o) as [s1 n]. cbn [fst] in L.
  destruct (IH _ s1 L (fun o' H => A o' (or_intror H)) NB2) as (T' & L'). destruct (lw_run zone false s1 os) as [s2 ns]. eauto.
Qed.
End Names.

Lemma steady_names zone d os : steady zone d os -> (forall o, In o os -> no_expiry o) ->
  in_order (map a_name (d_arch d) ++ l_used (fst (lw_run zone false (start d) os))).
Proof.
  intros (t & (O1 & O2 & O3) & NB & W) X.
  destruct (run_ninv zone (map a_name (d_arch d)) os t (start d)) as (T' & (A & _)).
  - unfold ninv, names, cur_ok, start. cbn. rewrite app_nil_r. split; [exact O1|]. split; [exact O2|]. split; [exact O3|discriminate].
  - intros o Ho. auto.
  - exact NB.
  - exact A.
Qed.

(* Proofs about the log writer: which records share a file. *)
From Coq Require Import ZArith List Bool Lia ZifyBool.
From Verif Require Import LogWriter Spec_LogWriter LogWriter_proofs.
Import ListNotations.
Local Open Scope Z_scope.

Section WithZone.
Variable zone : Z -> Z.
Variable old : list bytes.  (* archives there at the start *)
Variable n0 : list Z.       (* their names *)

Record dinv (s : lstate) (gs : list (list (Z * bytes))) (g : list (Z * bytes)) : Prop := {
  v_sound : sound s;
  v_names : map a_name (d_arch (l_dir s)) = n0 ++ l_used s;
  v_arch : map a_data (d_arch (l_dir s)) = old ++ map text gs;
  v_cur : current s ++ unflushed s = text g;
  v_days : forall x, In x gs -> one_day x;
  v_day : if w_file (l_w s) then forall r, In r g -> fst r = day zone (w_created (l_w s)) else g = [] /\ d_cur (l_dir s) = None
}.

Lemma rotate_ok s e : r_open e = true -> snd (rotate zone false s e) = true.
Proof.
  intros H. unfold rotate. destruct (if w_file (l_w s) then _ else _) as [[[d bw] size] used]. destruct (d_cur d) as [[c t]|]; rewrite H; reflexivity.
Qed.

Lemma rotate_day s e gs g : dinv s gs g -> r_open e = true -> r_rename e = true -> NoDup (n0 ++ l_used (fst (rotate zone false s e))) ->
  let s' := fst (rotate zone false s e) in
  dinv s' (if w_file (l_w s) then gs ++ [g] else gs) [] /\ w_file (l_w s') = true /\ w_created (l_w s') = r_now e.
Proof.
  intros [S N A C D Y] Ho Hr. unfold rotate. unfold sound in S. destruct (w_file (l_w s)) eqn:Ef.
  - destruct S as (buf & Eb & Hl & Hc). rewrite Eb. destruct (d_cur (l_dir s)) as [[c m]|] eqn:Ec; [|congruence].
    destruct (flush_open (l_dir s) buf (r_flush e) c m Ec) as (m' & ->). cbn zeta.
    unfold archive_file, archive_name. cbn [d_cur d_arch]. rewrite Hr.
    set (name := time2name zone (w_created (l_w s))).
    assert (T : c ++ buf = text g) by (rewrite <- C; unfold current, unflushed; now rewrite Ec, Eb).
    intros ND.
    assert (Fr : ~ In name (map a_name (d_arch (l_dir s)))).
    { intros Hi. assert (ND' : NoDup ((n0 ++ l_used s) ++ [name])) by (rewrite <- app_assoc; destruct (r_zip e); rewrite Ho in ND; exact ND).
      apply NoDup_remove_2 in ND'. apply ND'. rewrite app_nil_r, <- N. exact Hi. }
    assert (Pu : forall z, put_archive name z (c ++ buf) (filter (fun a => negb ((a_name a =? name) && negb (a_zip a))) (d_arch (l_dir s))) = d_arch (l_dir s) ++ [Archive name z (c ++ buf)]).
    { intros z. rewrite (filter_none _ (d_arch (l_dir s))); [now apply put_fresh|].
      intros a Ha. destruct (Z.eqb_spec (a_name a) name) as [Eq|]; [|reflexivity]. destruct Fr. rewrite <- Eq. now apply in_map. }
    assert (G : forall z, dinv (LState (LWriter true (Some (BufW true false [])) 0 (w_max (l_w s)) (w_age (l_w s)) (r_now e))
        (Dir (Some ([], r_new e)) (d_arch (l_dir s) ++ [Archive name z (c ++ buf)])) (l_used s ++ [name])) (gs ++ [g]) []).
    { intros z. constructor; cbn.
      - exists []. split; [reflexivity|]. split; [unfold zlen, buf_size; cbn; lia|discriminate].
      - now rewrite map_app, N, <- app_assoc.
      - rewrite !map_app, A, <- app_assoc. cbn. now rewrite T.
      - reflexivity.
      - intros x Hx. apply in_app_or in Hx as [Hx|[<-|[]]]; [auto|]. now exists (day zone (w_created (l_w s))).
      - intros r []. }
    destruct (r_zip e); [rewrite Pu|rewrite put_fresh by exact Fr]; cbn [d_cur d_arch]; rewrite Ho; cbn [fst]; (split; [apply G|split; reflexivity]).
  - destruct Y as [-> Ec]. cbn zeta. rewrite Ec, Ho. cbn. intros _. split; [|split; reflexivity]. constructor; cbn; auto.
    + exists []. split; [reflexivity|]. split; [unfold zlen, buf_size; cbn; lia|discriminate].
    + intros r [].
Qed.

Lemma dated_app a b : dated zone (a ++ b) = dated zone a ++ dated zone b.
Proof. unfold dated. apply flat_map_app. Qed.
Lemma text_app a b : text (a ++ b) = text a ++ text b.
Proof. unfold text. now rewrite map_app, concat_app. Qed.

Lemma write_day s p e gs g : dinv s gs g -> opens (LWrite p e) -> renames (LWrite p e) -> within_day zone (LWrite p e) ->
  NoDup (n0 ++ l_used (fst (lw_step zone false s (LWrite p e)))) ->
  exists gs' g', dinv (fst (lw_step zone false s (LWrite p e))) gs' g' /\ concat gs' ++ g' = (concat gs ++ g) ++ [(day zone (e_now e), p)] /\
    snd (lw_step zone false s (LWrite p e)) = zlen p.
Proof.
  intros I (O1 & O2 & O3) (R1 & R2 & R3) (W1 & W2 & W3). change (local_day zone) with (day zone) in W1, W2, W3. cbn [lw_step]. unfold lw_write.
  (* first *)
  assert (A1 : forall s0 ok0, (if w_file (l_w s) then (s, true) else rotate zone false s (e_first e)) = (s0, ok0) ->
     ok0 = true /\ (exists x, l_used s0 = l_used s ++ x) /\ (NoDup (n0 ++ l_used s0) -> exists gs' g', dinv s0 gs' g' /\ w_file (l_w s0) = true /\ concat gs' ++ g' = concat gs ++ g)).
  { intros s0 ok0 E. destruct (w_file (l_w s)) eqn:Ef.
    - injection E as <- <-. split; [reflexivity|]. split; [exists []; now rewrite app_nil_r|]. eauto 6.
    - pose proof (rotate_ok s _ O1) as K. pose proof (rotate_used zone false s (e_first e)) as U. pose proof (rotate_day s (e_first e) gs g I O1 R1) as L. rewrite E in K, U, L. cbn in K, U, L. split; [exact K|]. split; [exact U|].
      intros ND. destruct (L ND) as (J & F & _). rewrite Ef in J. exists gs, []. split; [exact J|]. split; [exact F|]. destruct I as [_ _ _ _ _ Y]. rewrite Ef in Y. destruct Y as [-> _]. reflexivity. }
  destruct (if w_file (l_w s) then (s, true) else rotate zone false s (e_first e)) as [s0 ok0]. destruct (A1 s0 ok0 eq_refl) as (-> & (x0 & U0) & I0). clear A1. cbn [negb].
  (* daily *)
  assert (A2 : forall s1 ok1, (if day zone (w_created (l_w s0)) =? day zone (e_now e) then (s0, true) else rotate zone false s0 (e_daily e)) = (s1, ok1) ->
     ok1 = true /\ (exists x, l_used s1 = l_used s0 ++ x) /\ (NoDup (n0 ++ l_used s1) -> NoDup (n0 ++ l_used s0) -> exists gs' g', dinv s1 gs' g' /\ w_file (l_w s1) = true /\ day zone (w_created (l_w s1)) = day zone (e_now e) /\ concat gs' ++ g' = concat gs ++ g)).
  { intros s1 ok1 E. destruct (Z.eqb_spec (day zone (w_created (l_w s0))) (day zone (e_now e))) as [Ed|Ed].
    - injection E as <- <-. split; [reflexivity|]. split; [exists []; now rewrite app_nil_r|]. intros ND _. destruct (I0 ND) as (gs' & g' & J & F & Q). exists gs', g'. auto.
    - pose proof (rotate_ok s0 _ O2) as K. pose proof (rotate_used zone false s0 (e_daily e)) as U. rewrite E in K, U. cbn in K, U. split; [exact K|]. split; [exact U|].
      intros ND ND0. destruct (I0 ND0) as (gs' & g' & J & F & Q). pose proof (rotate_day s0 (e_daily e) gs' g' J O2 R2) as L. rewrite E in L. cbn in L. destruct (L ND) as (J1 & F1 & C1). rewrite F in J1.
      exists (gs' ++ [g']), []. split; [exact J1|]. split; [exact F1|]. split; [congruence|]. rewrite concat_app, app_nil_r. cbn. now rewrite app_nil_r. }
  destruct (if day zone (w_created (l_w s0)) =? day zone (e_now e) then (s0, true) else rotate zone false s0 (e_daily e)) as [s1 ok1]. destruct (A2 s1 ok1 eq_refl) as (-> & (x1 & U1) & I1). clear A2. cbn [negb].
  (* sized *)
  assert (A3 : forall s2 ok2, (if w_max (l_w s1) <=? w_size (l_w s1) + zlen p + buffered (l_w s1) then rotate zone false s1 (e_sized e) else (s1, true)) = (s2, ok2) ->
     ok2 = true /\ (exists x, l_used s2 = l_used s1 ++ x) /\ (NoDup (n0 ++ l_used s2) -> NoDup (n0 ++ l_used s1) -> NoDup (n0 ++ l_used s0) ->
       exists gs' g', dinv s2 gs' g' /\ w_file (l_w s2) = true /\ day zone (w_created (l_w s2)) = day zone (e_now e) /\ concat gs' ++ g' = concat gs ++ g)).
  { intros s2 ok2 E. destruct (_ <=? _).
    - pose proof (rotate_ok s1 _ O3) as K. pose proof (rotate_used zone false s1 (e_sized e)) as U. rewrite E in K, U. cbn in K, U. split; [exact K|]. split; [exact U|].
      intros ND ND1 ND0. destruct (I1 ND1 ND0) as (gs' & g' & J & F & Y & Q). pose proof (rotate_day s1 (e_sized e) gs' g' J O3 R3) as L. rewrite E in L. cbn in L. destruct (L ND) as (J1 & F1 & C1). rewrite F in J1.
      exists (gs' ++ [g']), []. split; [exact J1|]. split; [exact F1|]. split; [congruence|]. rewrite concat_app, app_nil_r. cbn. now rewrite app_nil_r.
    - injection E as <- <-. split; [reflexivity|]. split; [exists []; now rewrite app_nil_r|]. intros _ ND ND0. destruct (I1 ND ND0) as (gs' & g' & J & F & Y & Q). exists gs', g'. auto. }
  destruct (if w_max (l_w s1) <=? w_size (l_w s1) + zlen p + buffered (l_w s1) then rotate zone false s1 (e_sized e) else (s1, true)) as [s2 ok2]. destruct (A3 s2 ok2 eq_refl) as (-> & (x2 & U2) & I2). clear A3. cbn [negb].
  intros ND.
  assert (ND2 : NoDup (n0 ++ l_used s2)) by (destruct (w_bw (l_w s2)) as [b|]; [destruct (bw_write (l_dir s2) b p (e_write e)) as [[[? ?] ?] ?]|]; exact ND).
  assert (ND1 : NoDup (n0 ++ l_used s1)) by (rewrite U2 in ND2; now apply nodup_prefix in ND2).
  assert (ND0 : NoDup (n0 ++ l_used s0)) by (rewrite U1 in ND1; now apply nodup_prefix in ND1).
  destruct (I2 ND2 ND1 ND0) as (gs' & g' & [S N A C D Y] & F & Yd & Q). clear I0 I1 I2.
  unfold sound in S. rewrite F in S, Y. destruct S as (buf & Eb & Hl & Hc). rewrite Eb. destruct (d_cur (l_dir s2)) as [[c m]|] eqn:Ec; [|congruence].
  destruct (write_open (l_dir s2) buf p (e_write e) c m Ec Hl) as (c' & m' & buf' & -> & Ew & Hl'). cbn [fst snd].
  exists gs', (g' ++ [(day zone (e_now e), p)]). split; [|split; [rewrite app_assoc, Q; reflexivity|reflexivity]].
  constructor; cbn; auto.
  - unfold sound. cbn. rewrite F. exists buf'. repeat split; auto. congruence.
  - unfold current, unflushed in *. cbn. rewrite Ec, Eb in C. cbn in C. rewrite text_app, <- C, Ew. cbn. now rewrite app_nil_r, <- app_assoc.
  - rewrite F. intros r Hr. apply in_app_or in Hr as [Hr|[<-|[]]]; [auto|]. cbn. congruence.
Qed.

Lemma flush_day s t gs g : dinv s gs g -> dinv (lw_flush s t) gs g.
Proof.
  intros [S N A C D Y]. unfold lw_flush. destruct (w_bw (l_w s)) as [b|] eqn:Eb; [|constructor; auto]. unfold sound in S. destruct (w_file (l_w s)) eqn:Ef.
  - destruct S as (buf & Eb' & Hl & Hc). rewrite Eb in Eb'. injection Eb' as ->. destruct (d_cur (l_dir s)) as [[c m]|] eqn:Ec; [|congruence].
    destruct (flush_open (l_dir s) buf t c m Ec) as (m' & ->). constructor; cbn; auto.
    + exists []. split; [reflexivity|]. split; [unfold zlen, buf_size; cbn; lia|discriminate].
    + unfold current, unflushed in *. cbn. rewrite Ec, Eb in C. cbn in C. now rewrite app_nil_r.
  - destruct S as (Eu & He). unfold unflushed in Eu. rewrite Eb in Eu. unfold bw_flush. rewrite (He b Eb), Eu.
    constructor; cbn; auto.
    + unfold sound. cbn. split; [exact Eu|]. intros b' [= <-]. auto.
    + unfold current, unflushed in *. cbn. rewrite Eb in C. exact C.
Qed.

Lemma run_day os : forall s gs g, dinv s gs g ->
  (forall o, In o os -> opens o /\ renames o /\ stays_open o /\ no_expiry o /\ within_day zone o) ->
  NoDup (n0 ++ l_used (fst (lw_run zone false s os))) ->
  exists gs' g', dinv (fst (lw_run zone false s os)) gs' g' /\ concat gs' ++ g' = (concat gs ++ g) ++ dated zone os.
Proof.
  induction os as [|o os IH]; intros s gs g I H ND; [exists gs, g; split; [exact I|now rewrite app_nil_r]|].
  destruct (H o (or_introl eq_refl)) as (Ho & Hr & Hs & He & Hw).
  assert (U : exists x, l_used (fst (lw_run zone false (fst (lw_step zone false s o)) os)) = l_used (fst (lw_step zone false s o)) ++ x).
  { apply run_used. intros o' Ho'. destruct (H o' (or_intror Ho')) as (_ & _ & K & _). intros ->. now destruct (K 0) as (_ & _ & ?). }
  cbn [lw_run] in *. change (dated zone (o :: os)) with (dated zone ([o] ++ os)). rewrite dated_app.
  assert (P : NoDup (n0 ++ l_used (fst (lw_step zone false s o))) -> exists gs1 g1, dinv (fst (lw_step zone false s o)) gs1 g1 /\ concat gs1 ++ g1 = (concat gs ++ g) ++ dated zone [o]).
  { intros ND1. destruct o; try (now destruct (Hs t)); try (exists gs, g; split; [|now rewrite app_nil_r]).
    - destruct (write_day s p e gs g I Ho Hr Hw ND1) as (gs1 & g1 & J & Q & _). eauto.
    - now apply flush_day.
    - now destruct (Hs 0) as (_ & _ & ?).
    - cbn. unfold set_max. destruct (ms <? 1); [exact I|]. destruct I as [S N A C D Y]. constructor; auto.
    - destruct I as [S N A C D Y]. constructor; auto.
    - now destruct (He now). }
  destruct (lw_step zone false s o) as [s1 n]. cbn [fst] in *. specialize (IH s1). destruct (lw_run zone false s1 os) as [s2 ns]. cbn [fst] in *.
  destruct U as (x & U). destruct P as (gs1 & g1 & J & Q); [rewrite U in ND; now apply nodup_prefix in ND|].
  destruct (IH gs1 g1 J (fun o' K => H o' (or_intror K)) ND) as (gs2 & g2 & J2 & Q2). exists gs2, g2. split; [exact J2|]. now rewrite Q2, Q, <- app_assoc.
Qed.
End WithZone.

Lemma daily zone d os : d_cur d = None ->
  (forall o, In o os -> opens o /\ renames o /\ stays_open o /\ no_expiry o /\ within_day zone o) ->
  names_distinct d (fst (lw_run zone false (start d) os)) ->
  exists days, concat days = dated zone os /\ (forall x, In x days -> one_day x) /\
    log_files (fst (lw_run zone false (start d) os)) = map a_data (d_arch d) ++ map text days.
Proof.
  intros Hd H ND.
  assert (I : dinv zone (map a_data (d_arch d)) (map a_name (d_arch d)) (start d) [] []).
  { constructor; cbn; auto.
    - split; [reflexivity|discriminate].
    - now rewrite app_nil_r.
    - now rewrite app_nil_r.
    - unfold current, unflushed. cbn. now rewrite Hd. 
    - intros x []. }
  destruct (run_day zone _ _ os _ _ _ I H ND) as (gs & g & [S N A C D Y] & Q). cbn in Q.
  exists (gs ++ [g]). split; [rewrite concat_app; cbn; now rewrite app_nil_r|]. split.
  - intros x Hx. apply in_app_or in Hx as [Hx|[<-|[]]]; [auto|]. destruct (w_file _); [eexists; exact Y|]. destruct Y as [-> _]. now exists 0.
  - unfold log_files. now rewrite A, C, map_app, app_assoc.
Qed.

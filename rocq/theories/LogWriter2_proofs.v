(* Proof of the size bound of the log writer. *)
From Coq Require Import ZArith List Bool Lia ZifyBool.
From Verif Require Import LogWriter Spec_LogWriter LogWriter_proofs.
Import ListNotations.
Local Open Scope Z_scope.

Section Bound.
Variables (zone : Z -> Z) (zs : bool) (M : Z) (recs old : list bytes).
Hypothesis HM : 1 <= M.

Definition okf (c : bytes) : Prop := zlen c <= M \/ In c recs \/ In c old.
Definition arch_ok (d : dir) : Prop := forall a, In a (d_arch d) -> okf (a_data a).
Definition bnd (s : lstate) : Prop :=
  sound s /\ w_max (l_w s) <= M /\ arch_ok (l_dir s) /\ okf (current s ++ unflushed s) /\
  (if w_file (l_w s) then w_size (l_w s) = zlen (current s) + zlen (unflushed s) else d_cur (l_dir s) = None -> w_size (l_w s) = 0).

Lemma okf_nil : okf [].
Proof. left. unfold zlen. cbn. lia. Qed.

Lemma archive_none e created d c m : d_cur d = Some (c, m) -> r_rename e = true -> okf c -> arch_ok d ->
  d_cur (archive_file zone zs e created d) = None /\ arch_ok (archive_file zone zs e created d).
Proof.
  intros E Hr Hc Ha. unfold archive_file. rewrite E, Hr. destruct zs; [|destruct (r_zip e)]; (split; [reflexivity|]); intros a; cbn.
  - intros H. apply filter_In in H. now apply Ha.
  - unfold put_archive. intros H. apply in_app_or in H. destruct H as [H|[<-|[]]]; [|exact Hc].
    apply filter_In in H. destruct H as (H & _). apply filter_In in H. now apply Ha.
  - unfold put_archive. intros H. apply in_app_or in H. destruct H as [H|[<-|[]]]; [|exact Hc]. apply filter_In in H. now apply Ha.
Qed.

Lemma rotate_bnd s e : bnd s -> r_open e = true -> r_rename e = true ->
  let s' := fst (rotate zone zs s e) in
  snd (rotate zone zs s e) = true /\ bnd s' /\ w_file (l_w s') = true /\ unflushed s' = [] /\ (w_file (l_w s) = true -> current s' = []).
Proof.
  intros (S & Hm & Ha & Hk & Hz) Ho Hr. unfold rotate. assert (S' := S). unfold sound in S. destruct (w_file (l_w s)) eqn:Ef.
  - destruct S as (buf & Eb & Hl & Hc). rewrite Eb. destruct (d_cur (l_dir s)) as [[c m]|] eqn:Ec; [|congruence].
    unfold current, unflushed in Hk. rewrite Ec, Eb in Hk. cbn in Hk.
    destruct (flush_open (l_dir s) buf (r_flush e) c m Ec) as (m' & ->). cbn zeta.
    destruct (archive_none e (w_created (l_w s)) (Dir (Some (c ++ buf, m')) (d_arch (l_dir s))) (c ++ buf) m' eq_refl Hr Hk Ha) as (A & B).
    rewrite A, Ho. cbn. split; [reflexivity|]. split; [|auto]. unfold bnd, sound, current, unflushed. cbn.
    split; [exists []; fresh_buf|]. split; [exact Hm|]. split; [exact B|]. split; [exact okf_nil|reflexivity].
  - destruct S as (Eu & _). rewrite Eu, app_nil_r in Hk. unfold current in Hk.
    destruct (d_cur (l_dir s)) as [[c m]|] eqn:Ec; rewrite Ho; cbn; unfold bnd, sound, current, unflushed; cbn; rewrite ?Ec, ?app_nil_r.
    + split; [reflexivity|]. split; [|split; [reflexivity|split; [reflexivity|discriminate]]].
      split; [exists []; fresh_buf|]. split; [exact Hm|]. split; [exact Ha|]. split; [exact Hk|]. unfold zlen. cbn. lia.
    + split; [reflexivity|]. split; [|split; [reflexivity|split; [reflexivity|discriminate]]].
      split; [exists []; fresh_buf|]. split; [exact Hm|]. split; [exact Ha|]. split; [exact okf_nil|]. now apply Hz.
Qed.

Lemma write_bnd s p e : bnd s -> opens (LWrite p e) -> renames (LWrite p e) -> In p recs ->
  bnd (fst (fst (lw_write zone zs s p e))).
Proof.
  intros B (O1 & O2 & O3) (R1 & R2 & R3) Hp. unfold lw_write.
  assert (A : let r := if w_file (l_w s) then (s, true) else rotate zone zs s (e_first e) in
     snd r = true /\ bnd (fst r) /\ w_file (l_w (fst r)) = true).
  { destruct (w_file (l_w s)) eqn:Ef; cbv zeta; [auto|]. destruct (rotate_bnd s (e_first e) B O1 R1) as (P1 & P2 & P3 & _). auto. }
  destruct (if w_file (l_w s) then (s, true) else rotate zone zs s (e_first e)) as [s0 ok0]. cbn [fst snd] in A. destruct A as (-> & B0 & F0). cbn [negb].
  assert (A : let r := if day zone (w_created (l_w s0)) =? day zone (e_now e) then (s0, true) else rotate zone zs s0 (e_daily e) in
     snd r = true /\ bnd (fst r) /\ w_file (l_w (fst r)) = true).
  { destruct (_ =? _); cbv zeta; [auto|]. destruct (rotate_bnd s0 (e_daily e) B0 O2 R2) as (P1 & P2 & P3 & _). auto. }
  destruct (if day zone (w_created (l_w s0)) =? day zone (e_now e) then (s0, true) else rotate zone zs s0 (e_daily e)) as [s1 ok1]. cbn [fst snd] in A. destruct A as (-> & B1 & F1). cbn [negb].
  assert (A : let r := if w_max (l_w s1) <=? w_size (l_w s1) + zlen p + buffered (l_w s1) then rotate zone zs s1 (e_sized e) else (s1, true) in
     snd r = true /\ bnd (fst r) /\ w_file (l_w (fst r)) = true /\ (current (fst r) = [] /\ unflushed (fst r) = [] \/ w_size (l_w (fst r)) + zlen p <= M)).
  { destruct (Z.leb_spec (w_max (l_w s1)) (w_size (l_w s1) + zlen p + buffered (l_w s1))) as [H|H]; cbv zeta.
    - destruct (rotate_bnd s1 (e_sized e) B1 O3 R3) as (P1 & P2 & P3 & P4 & P5). auto 7.
    - cbn. split; [reflexivity|]. split; [exact B1|]. split; [exact F1|]. right. destruct B1 as (_ & Hm & _).
      assert (0 <= buffered (l_w s1)) by (unfold buffered; destruct (w_bw (l_w s1)); [apply zlen_nonneg|lia]). lia. }
  destruct (if w_max (l_w s1) <=? w_size (l_w s1) + zlen p + buffered (l_w s1) then rotate zone zs s1 (e_sized e) else (s1, true)) as [s2 ok2].
  cbn [fst snd] in A. destruct A as (-> & B2 & F2 & A). cbn [negb].
  destruct B2 as (S2 & Hm & Ha & Hk & Hz). rewrite F2 in Hz. unfold sound in S2. rewrite F2 in S2. destruct S2 as (buf & Eb & Hl & Hc). rewrite Eb.
  destruct (d_cur (l_dir s2)) as [[c m]|] eqn:Ec; [|congruence].
  destruct (write_open (l_dir s2) buf p (e_write e) c m Ec Hl) as (c' & m' & buf' & -> & Ew & Hl'). cbn.
  unfold current, unflushed in *. rewrite Ec, Eb in *. cbn in *.
  unfold bnd, sound, current, unflushed, arch_ok in *. cbn. rewrite F2. split; [exists buf'; repeat split; auto; congruence|].
  split; [exact Hm|]. split; [exact Ha|]. rewrite Ew.
  assert (L : zlen c' + zlen buf' = zlen c + (zlen buf + zlen p)) by (rewrite <- !zlen_app; now f_equal).
  split; [|lia]. destruct A as [(A1 & A2)|A].
  - rewrite A1, A2. right. left. exact Hp.
  - left. rewrite !zlen_app. lia.
Qed.

Lemma flush_bnd s t : bnd s -> bnd (lw_flush s t) /\ unflushed (lw_flush s t) = [].
Proof.
  intros (S & Hm & Ha & Hk & Hz). unfold lw_flush. destruct (w_bw (l_w s)) as [b|] eqn:Eb.
  2:{ split; [split; [exact S|]; split; [exact Hm|]; split; [exact Ha|]; split; [exact Hk|exact Hz]|unfold unflushed; now rewrite Eb]. }
  assert (S' := S). unfold sound in S. destruct (w_file (l_w s)) eqn:Ef.
  - destruct S as (buf & Eb' & Hl & Hc). rewrite Eb in Eb'. injection Eb' as ->. destruct (d_cur (l_dir s)) as [[c m]|] eqn:Ec; [|congruence].
    destruct (flush_open (l_dir s) buf t c m Ec) as (m' & ->). cbn. split; [|reflexivity].
    unfold bnd, sound, current, unflushed, arch_ok in *. rewrite Ec, Eb in *. cbn in *. split; [exists []; fresh_buf|].
    split; [exact Hm|]. split; [exact Ha|]. rewrite app_nil_r. split; [exact Hk|]. rewrite zlen_app. change (zlen (@nil Z)) with 0. lia.
  - destruct S as (Eu & He). unfold unflushed in Eu. rewrite Eb in Eu. unfold bw_flush. rewrite (He b Eb), Eu. cbn.
    unfold bnd, sound, current, unflushed, arch_ok in *. rewrite ?Eb in *. cbn. rewrite Eu in *.
    split; [|reflexivity]. split; [split; [reflexivity|]; intros b0 [= <-]; now apply He|]. auto.
Qed.

Lemma close_bnd s : bnd s -> unflushed s = [] -> bnd (lw_close s).
Proof.
  intros (S & Hm & Ha & Hk & Hz) E. unfold lw_close. assert (S' := S). unfold sound in S. destruct (w_file (l_w s)) eqn:Ef.
  2:{ split; [exact S'|]. split; [exact Hm|]. split; [exact Ha|]. split; [exact Hk|]. now rewrite Ef. }
  destruct S as (buf & Eb & Hl & Hc). rewrite Eb. unfold bnd, sound, current, unflushed, arch_ok in *. rewrite Eb in *. cbn in *. subst buf.
  split; [split; [reflexivity|]; now intros b [= <-]|]. split; [exact Hm|]. split; [exact Ha|]. split; [exact Hk|]. intros; congruence.
Qed.

Lemma step_bnd s o : bnd s -> opens o -> renames o -> whole_close o -> no_restart o -> max_at_most M o ->
  (forall p e, o = LWrite p e -> In p recs) -> bnd (fst (lw_step zone zs s o)).
Proof.
  intros B O R W N X I. destruct o; cbn in *.
  - assert (L := write_bnd s p e B O R (I p e eq_refl)). now destruct (lw_write zone zs s p e) as [[s' n] ok].
  - now apply flush_bnd.
  - now destruct W.
  - destruct (flush_bnd s t B) as (A & C). now apply close_bnd.
  - now destruct (N t).
  - unfold set_max. destruct (ms <? 1); [exact B|]. unfold bnd, sound, current, unflushed, arch_ok in *. cbn. tauto.
  - exact B.
  - unfold lw_delete. destruct (_ <=? 0); [exact B|]. unfold bnd, sound, current, unflushed, arch_ok in *. cbn. destruct B as (B1 & B2 & B3 & B4).
    split; [exact B1|]. split; [exact B2|]. split; [|exact B4]. intros a H. apply filter_In in H. now apply B3.
Qed.

Lemma run_bnd : forall os s, bnd s ->
  (forall o, In o os -> opens o /\ renames o /\ whole_close o /\ no_restart o /\ max_at_most M o) ->
  (forall p, In p (records os) -> In p recs) -> bnd (fst (lw_run zone zs s os)).
Proof.
  induction os as [|o os IH]; intros s B A I; cbn; [exact B|].
  destruct (A o (or_introl eq_refl)) as (O & R & W & N & X).
  assert (B1 : bnd (fst (lw_step zone zs s o))).
  { apply step_bnd; auto. intros p e ->. apply I. cbn. now left. }
  destruct (lw_step zone zs s o) as [s1 n]. cbn in B1.
  assert (B2 : bnd (fst (lw_run zone zs s1 os))).
  { apply IH; [exact B1|intros o' Ho; apply A; now right|]. intros p Hp. apply I. unfold records. cbn. apply in_or_app. now right. }
  now destruct (lw_run zone zs s1 os).
Qed.
End Bound.

Lemma start_bnd M recs d ms : 1 <= ms <= M -> bnd M recs (files_of d) (start_with d ms).
Proof.
  intros H. unfold start_with, set_max. destruct (Z.ltb_spec ms 1); [lia|]. unfold bnd, sound, current, unflushed, arch_ok, okf, files_of, start. cbn.
  split; [split; [reflexivity|discriminate]|]. split; [lia|]. split; [|split; [|reflexivity]].
  - intros a Ha. right. right. apply in_or_app. left. now apply in_map.
  - right. right. apply in_or_app. right. rewrite app_nil_r. now left.
Qed.

(* Removing expired archives. *)
Lemma delete_spec s now : l_w (lw_delete s now) = l_w s /\ d_cur (l_dir (lw_delete s now)) = d_cur (l_dir s) /\
  (forall a, In a (d_arch (l_dir s)) ->
    (In a (d_arch (l_dir (lw_delete s now))) <-> ~ (0 < w_age (l_w s) /\ a_zip a = true /\ a_name a * microsecond < now - w_age (l_w s) * day_length))) /\
  (forall a, In a (d_arch (l_dir (lw_delete s now))) -> In a (d_arch (l_dir s))).
Proof.
  unfold lw_delete. destruct (Z.leb_spec (w_age (l_w s)) 0) as [H|H]; cbn [l_w l_dir d_cur d_arch].
  - repeat split; auto. intros _ (X & _). lia.
  - split; [reflexivity|]. split; [reflexivity|]. split; [|intros a Ha; now apply filter_In in Ha].
    intros a Ha. rewrite filter_In. destruct (a_zip a); destruct (Z.ltb_spec (a_name a * microsecond) (now - w_age (l_w s) * day_length)); cbn; (split; intros X; [intros (X1 & X2 & X3); destruct X as (_ & X); try discriminate; lia|split; [exact Ha|]; try reflexivity; destruct X; auto]).
Qed.

Lemma rotate_age zone zs s e : w_age (l_w (fst (rotate zone zs s e))) = w_age (l_w s).
Proof.
  unfold rotate. destruct (if w_file (l_w s) then _ else _) as [[[d bw] size] used]. destruct (d_cur d) as [[c t]|]; destruct (r_open e); reflexivity.
Qed.
Lemma step_age zone zs s o : w_age (l_w (fst (lw_step zone zs s o))) = match o with LSetAge ma => ma | LRestart _ => 31 | _ => w_age (l_w s) end.
Proof.
  destruct o; cbn [lw_step]; try reflexivity.
  - unfold lw_write.
    assert (A0 : forall s0 ok0, (if w_file (l_w s) then (s, true) else rotate zone zs s (e_first e)) = (s0, ok0) -> w_age (l_w s0) = w_age (l_w s)).
    { intros s0 ok0 E. destruct (w_file (l_w s)); [now injection E as <- _|]. pose proof (rotate_age zone zs s (e_first e)) as R. rewrite E in R. exact R. }
    destruct (if w_file (l_w s) then _ else _) as [s0 ok0]. specialize (A0 s0 ok0 eq_refl). destruct (negb ok0); [exact A0|].
    assert (A1 : forall s1 ok1, (if day zone (w_created (l_w s0)) =? day zone (e_now e) then (s0, true) else rotate zone zs s0 (e_daily e)) = (s1, ok1) -> w_age (l_w s1) = w_age (l_w s)).
    { intros s1 ok1 E. destruct (_ =? _); [injection E as <- _; exact A0|]. pose proof (rotate_age zone zs s0 (e_daily e)) as R. rewrite E in R. cbn in R. congruence. }
    destruct (if day zone _ =? _ then _ else _) as [s1 ok1]. specialize (A1 s1 ok1 eq_refl). destruct (negb ok1); [exact A1|].
    assert (A2 : forall s2 ok2, (if w_max (l_w s1) <=? w_size (l_w s1) + zlen p + buffered (l_w s1) then rotate zone zs s1 (e_sized e) else (s1, true)) = (s2, ok2) -> w_age (l_w s2) = w_age (l_w s)).
    { intros s2 ok2 E. destruct (_ <=? _); [|injection E as <- _; exact A1]. pose proof (rotate_age zone zs s1 (e_sized e)) as R. rewrite E in R. cbn in R. congruence. }
    destruct (if w_max _ <=? _ then _ else _) as [s2 ok2]. specialize (A2 s2 ok2 eq_refl). destruct (negb ok2); [exact A2|].
    destruct (w_bw (l_w s2)) as [b|]; [|exact A2]. destruct (bw_write _ b p _) as [[[d b'] n] ok]. exact A2.
  - unfold lw_flush. cbn. destruct (w_bw (l_w s)) as [b|]; [|reflexivity]. now destruct (bw_flush _ b _).
  - unfold lw_close. cbn. now destruct (w_file (l_w s)).
  - cbn [fst]. assert (F : w_age (l_w (lw_flush s t)) = w_age (l_w s)) by (unfold lw_flush; destruct (w_bw (l_w s)) as [b|]; [|reflexivity]; now destruct (bw_flush _ b _)).
    rewrite <- F. unfold lw_close. now destruct (w_file (l_w (lw_flush s t))).
  - cbn. unfold set_max. now destruct (ms <? 1).
  - cbn. unfold lw_delete. now destruct (w_age (l_w s) <=? 0).
Qed.
Lemma run_age zone zs os : forall s, w_age (l_w (fst (lw_run zone zs s os))) = fold_left (fun a o => match o with LSetAge ma => ma | LRestart _ => 31 | _ => a end) os (w_age (l_w s)).
Proof.
  induction os as [|o os IH]; intros s; cbn [lw_run fold_left]; [reflexivity|]. pose proof (step_age zone zs s o) as A. destruct (lw_step zone zs s o) as [s1 n]. cbn [fst] in A.
  specialize (IH s1). destruct (lw_run zone zs s1 os) as [s2 ns]. cbn [fst] in *. rewrite IH, A. reflexivity.
Qed.

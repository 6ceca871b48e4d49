(* Proofs for what happens to archived log files. *)
From Coq Require Import ZArith List Bool Lia ZifyBool.
From Verif Require Import LogWriter Spec_LogWriter LogWriter_proofs.
Import ListNotations.
Local Open Scope Z_scope.

Section Z.
Variable zone : Z -> Z.
Variable zs : bool.

Section Rel.
Variable R : lstate -> lstate -> Prop.
Variable ok : renv -> Prop.
Hypothesis R_frame : forall s s', d_arch (l_dir s') = d_arch (l_dir s) -> l_used s' = l_used s -> R s s'.
Hypothesis R_trans : forall s s1 s2, R s s1 -> R s1 s2 -> R s s2.
Hypothesis R_rotate : forall s e, ok e -> R s (fst (rotate zone zs s e)).

Lemma append_arch d p t : d_arch (append d p t) = d_arch d.
Proof. unfold append. destruct (d_cur d) as [[? ?]|]; reflexivity. Qed.
Lemma flush_arch d b t : d_arch (fst (bw_flush d b t)) = d_arch d.
Proof. unfold bw_flush. destruct (b_err b); [reflexivity|]. destruct (b_buf b); [reflexivity|]. destruct (b_open b); cbn; [apply append_arch|reflexivity]. Qed.
Lemma bwrite_arch d b p t : d_arch (fst (fst (fst (bw_write d b p t)))) = d_arch d.
Proof.
  unfold bw_write. destruct (b_err b); [reflexivity|]. cbv zeta. destruct (_ <=? _); [reflexivity|]. destruct (b_buf b); destruct (b_open b); try reflexivity; cbn [fst]; [apply append_arch|].
  destruct (_ <=? _); cbn [fst]; rewrite ?append_arch; reflexivity.
Qed.
Lemma flush_rel s t : d_arch (l_dir (lw_flush s t)) = d_arch (l_dir s) /\ l_used (lw_flush s t) = l_used s.
Proof. unfold lw_flush. destruct (w_bw (l_w s)) as [b|]; [|auto]. pose proof (flush_arch (l_dir s) b t) as F. destruct (bw_flush (l_dir s) b t). cbn in *. auto. Qed.
Lemma close_rel s : d_arch (l_dir (lw_close s)) = d_arch (l_dir s) /\ l_used (lw_close s) = l_used s.
Proof. unfold lw_close. destruct (w_file (l_w s)); auto. Qed.

Lemma write_rel s p e : ok (e_first e) -> ok (e_daily e) -> ok (e_sized e) -> R s (fst (fst (lw_write zone zs s p e))).
Proof.
  intros O1 O2 O3. unfold lw_write.
  assert (R0 : forall s, R s s) by (intros; now apply R_frame).
  assert (A : R s (fst (if w_file (l_w s) then (s, true) else rotate zone zs s (e_first e)))) by (destruct (w_file (l_w s)); cbn; auto).
  destruct (if w_file (l_w s) then (s, true) else rotate zone zs s (e_first e)) as [s0 ok0]. cbn [fst] in A. destruct ok0; cbn [negb]; [|exact A].
  assert (B : R s0 (fst (if day zone (w_created (l_w s0)) =? day zone (e_now e) then (s0, true) else rotate zone zs s0 (e_daily e)))) by (destruct (_ =? _); cbn; auto).
  destruct (if day zone (w_created (l_w s0)) =? day zone (e_now e) then (s0, true) else rotate zone zs s0 (e_daily e)) as [s1 ok1]. cbn [fst] in B. apply (R_trans _ _ _ A) in B. destruct ok1; cbn [negb]; [|exact B].
  assert (C : R s1 (fst (if w_max (l_w s1) <=? w_size (l_w s1) + zlen p + buffered (l_w s1) then rotate zone zs s1 (e_sized e) else (s1, true)))) by (destruct (_ <=? _); cbn; auto).
  destruct (if w_max (l_w s1) <=? w_size (l_w s1) + zlen p + buffered (l_w s1) then rotate zone zs s1 (e_sized e) else (s1, true)) as [s2 ok2]. cbn [fst] in C. apply (R_trans _ _ _ B) in C. destruct ok2; cbn [negb]; [|exact C].
  destruct (w_bw (l_w s2)) as [b|]; [|exact C]. pose proof (bwrite_arch (l_dir s2) b p (e_write e)) as F. destruct (bw_write (l_dir s2) b p (e_write e)) as [[[d b'] n] k]. cbn [fst] in *.
  apply (R_trans _ _ _ C). now apply R_frame.
Qed.

Definition ok_op (o : lop) : Prop := match o with LWrite _ e => ok (e_first e) /\ ok (e_daily e) /\ ok (e_sized e) | _ => True end.
Lemma step_rel s o : ok_op o -> no_expiry o -> R s (fst (lw_step zone zs s o)).
Proof.
  intros O N. destruct o; cbn [lw_step].
  - destruct O as (O1 & O2 & O3). pose proof (write_rel s p e O1 O2 O3) as W. destruct (lw_write zone zs s p e) as [[s' n] k]. exact W.
  - destruct (flush_rel s t). now apply R_frame.
  - destruct (close_rel s). now apply R_frame.
  - destruct (flush_rel s t), (close_rel (lw_flush s t)). apply R_frame; cbn; congruence.
  - destruct (flush_rel s t), (close_rel (lw_flush s t)). apply R_frame; cbn; congruence.
  - unfold set_max. destruct (_ <? _); now apply R_frame.
  - now apply R_frame.
  - now destruct (N now).
Qed.
Lemma run_rel : forall os s, (forall o, In o os -> ok_op o /\ no_expiry o) -> R s (fst (lw_run zone zs s os)).
Proof.
  induction os as [|o os IH]; intros s A; cbn; [now apply R_frame|]. destruct (A o (or_introl eq_refl)) as (O & N).
  pose proof (step_rel s o O N) as S1. destruct (lw_step zone zs s o) as [s1 n]. cbn [fst] in S1.
  specialize (IH s1 (fun o' H => A o' (or_intror H))). destruct (lw_run zone zs s1 os) as [s2 ns]. cbn [fst] in *. eauto.
Qed.
End Rel.

(* What a rotation does to the archives. *)
Lemma rotate_arch s e : (d_arch (l_dir (fst (rotate zone zs s e))) = d_arch (l_dir s) /\ l_used (fst (rotate zone zs s e)) = l_used s) \/
  exists d, d_arch d = d_arch (l_dir s) /\ d_arch (l_dir (fst (rotate zone zs s e))) = d_arch (archive_file zone zs e (w_created (l_w s)) d) /\
            l_used (fst (rotate zone zs s e)) = l_used s ++ archive_name zone e (w_created (l_w s)) d.
Proof.
  unfold rotate. destruct (w_file (l_w s)).
  - destruct (w_bw (l_w s)) as [b|].
    + right. pose proof (flush_arch (l_dir s) b (r_flush e)) as F. destruct (bw_flush (l_dir s) b (r_flush e)) as [d1 b1]. cbn [fst] in F. cbn zeta.
      exists d1. split; [exact F|]. destruct (d_cur (archive_file zone zs e (w_created (l_w s)) d1)) as [[? ?]|] eqn:E; destruct (r_open e); cbn; rewrite ?E; auto.
    + left. destruct (d_cur (l_dir s)) as [[? ?]|] eqn:E; destruct (r_open e); cbn; rewrite ?E; auto.
  - left. destruct (d_cur (l_dir s)) as [[? ?]|] eqn:E; destruct (r_open e); cbn; rewrite ?E; auto.
Qed.

Definition kept (s s' : lstate) : Prop :=
  exists used, l_used s' = l_used s ++ used /\ forall a, In a (d_arch (l_dir s)) -> In a (d_arch (l_dir s')) \/ In (a_name a) used.
Lemma kept_rotate s e : kept s (fst (rotate zone zs s e)).
Proof.
  destruct (rotate_arch s e) as [(A & U)|(d & D & A & U)].
  - exists []. rewrite app_nil_r, A. auto.
  - eexists. split; [exact U|]. intros a Ha. rewrite A. rewrite <- D in Ha. unfold archive_file, archive_name. destruct (d_cur d) as [[c m]|]; [|auto].
    destruct (r_rename e); [|auto]. destruct (Z.eqb_spec (a_name a) (time2name zone (w_created (l_w s)))) as [Eq|Ne]; [right; left; congruence|]. left.
    apply Z.eqb_neq in Ne. destruct zs; [|destruct (r_zip e)]; cbn [d_arch]; unfold put_archive; rewrite ?in_app_iff, ?filter_In, Ne; cbn; auto 6.
Qed.
Lemma kept_frame s s' : d_arch (l_dir s') = d_arch (l_dir s) -> l_used s' = l_used s -> kept s s'.
Proof. intros A U. exists []. rewrite app_nil_r, A. auto. Qed.
Lemma kept_trans s s1 s2 : kept s s1 -> kept s1 s2 -> kept s s2.
Proof.
  intros (u1 & U1 & K1) (u2 & U2 & K2). exists (u1 ++ u2). split; [rewrite U2, U1; now rewrite app_assoc|]. intros a Ha.
  destruct (K1 a Ha) as [H|H]; [|right; apply in_or_app; auto]. destruct (K2 a H) as [H'|H']; [auto|right; apply in_or_app; auto].
Qed.
Lemma run_kept os s : (forall o, In o os -> no_expiry o) -> kept s (fst (lw_run zone zs s os)).
Proof.
  intros A. apply (run_rel kept (fun _ => True) kept_frame kept_trans (fun s e _ => kept_rotate s e)). intros o Ho. split; [destruct o; cbn; auto|auto].
Qed.

Definition new_are (b : bool) (s s' : lstate) : Prop := forall a, In a (d_arch (l_dir s')) -> In a (d_arch (l_dir s)) \/ a_zip a = b.
Lemma new_rotate b s e : r_zip e = b -> new_are b s (fst (rotate zone zs s e)).
Proof.
  intros Z a. destruct (rotate_arch s e) as [(A & U)|(d & D & A & U)]; rewrite A; [auto|]. rewrite <- D. unfold archive_file. destruct (d_cur d) as [[c m]|]; [|auto].
  destruct (r_rename e); [|auto]. destruct zs; [|rewrite Z; destruct b]; cbn [d_arch]; unfold put_archive; rewrite ?in_app_iff, ?filter_In; intros H;
  repeat match goal with H : _ /\ _ |- _ => destruct H | H : _ \/ _ |- _ => destruct H | H : In _ [_] |- _ => destruct H; [subst|easy] end; cbn; auto.
Qed.
Lemma run_new b os s : (forall o, In o os -> (forall p e, o = LWrite p e -> r_zip (e_first e) = b /\ r_zip (e_daily e) = b /\ r_zip (e_sized e) = b) /\ no_expiry o) ->
  new_are b s (fst (lw_run zone zs s os)).
Proof.
  intros A. apply (run_rel (new_are b) (fun e => r_zip e = b)).
  - intros s0 s' E _ a. rewrite E. auto.
  - intros s0 s1 s2 H1 H2 a Ha. destruct (H2 a Ha); auto.
  - intros s0 e. apply new_rotate.
  - intros o Ho. destruct (A o Ho) as (B & N). split; [|exact N]. destruct o; cbn; auto. now apply B with (p := p).
Qed.

(* What Write returns. *)
Lemma bwrite_result d b p t : zlen (b_buf b) <= buf_size -> let '(_, b', n, ok) := bw_write d b p t in
  0 <= n <= zlen p /\ (ok = true -> n = zlen p) /\ (ok = false -> n < zlen p \/ p = []) /\ zlen (b_buf b') <= buf_size.
Proof.
  intros L. pose proof (zlen_nonneg p). unfold bw_write. destruct (b_err b); [|cbv zeta; destruct (zlen p <=? buf_size - zlen (b_buf b)) eqn:E].
  - split; [lia|]. split; [discriminate|]. split; [|exact L]. intros _. destruct p; [auto|left; unfold zlen; cbn [length]; lia].
  - split; [lia|]. split; [lia|]. split; [discriminate|]. cbn. rewrite zlen_app. lia.
  - assert (Q : zlen (firstn (Z.to_nat (buf_size - zlen (b_buf b))) p) = buf_size - zlen (b_buf b)).
    { unfold zlen in *. rewrite firstn_length. lia. }
    assert (P : buf_size > 0) by reflexivity. destruct (b_buf b) as [|x l] eqn:Eb.
    + destruct (b_open b); cbn [b_buf]; rewrite ?Eb; change (zlen (@nil Z)) with 0 in *; repeat split; try lia; try discriminate.
    + destruct (b_open b).
      * destruct (zlen (skipn _ p) <=? buf_size) eqn:Er; cbn [b_buf]; change (zlen (@nil Z)) with 0; repeat split; try lia; discriminate.
      * cbn [b_buf]. rewrite zlen_app, Q. repeat split; try lia; discriminate.
Qed.

Definition fits (s : lstate) : Prop := forall b, w_bw (l_w s) = Some b -> zlen (b_buf b) <= buf_size.
Lemma bflush_fits d b t : zlen (b_buf b) <= buf_size -> zlen (b_buf (snd (bw_flush d b t))) <= buf_size.
Proof. unfold bw_flush. intros L. destruct (b_err b); [exact L|]. destruct (b_buf b) eqn:E; [cbn; now rewrite E|]. destruct (b_open b); [discriminate|exact L]. Qed.
Lemma rotate_fits s e : fits s -> fits (fst (rotate zone zs s e)).
Proof.
  unfold fits, rotate. intros F. assert (P : zlen (@nil Z) <= buf_size) by discriminate. destruct (w_file (l_w s)); [destruct (w_bw (l_w s)) as [b|] eqn:Eb|].
  - pose proof (bflush_fits (l_dir s) b (r_flush e) (F b eq_refl)) as G. destruct (bw_flush (l_dir s) b (r_flush e)) as [d1 b1]. cbn zeta.
    destruct (d_cur (archive_file _ _ _ _ d1)) as [[? ?]|]; destruct (r_open e); cbn; intros b' [= <-]; assumption.
  - destruct (d_cur (l_dir s)) as [[? ?]|]; destruct (r_open e); cbn; intros b' [= <-]; assumption.
  - destruct (d_cur (l_dir s)) as [[? ?]|]; destruct (r_open e); cbn; intros b' H; (now apply F) || (injection H as <-; assumption).
Qed.
Lemma write_result s p e : fits s -> let '(s', n, k) := lw_write zone zs s p e in
  fits s' /\ 0 <= n <= zlen p /\ (k = true -> n = zlen p) /\ (k = false -> n < zlen p \/ p = []).
Proof.
  intros F. unfold lw_write. assert (Z0 : 0 <= 0 <= zlen p) by (pose proof (zlen_nonneg p); lia). assert (Z1 : 0 < zlen p \/ p = []) by (destruct p; [auto|left; unfold zlen; cbn [length]; lia]).
  assert (A : fits (fst (if w_file (l_w s) then (s, true) else rotate zone zs s (e_first e)))) by (destruct (w_file (l_w s)); [exact F|now apply rotate_fits]).
  destruct (if w_file (l_w s) then (s, true) else rotate zone zs s (e_first e)) as [s0 ok0]. cbn [fst] in A. destruct ok0; cbn [negb]; [|split; [exact A|split; [exact Z0|split; [discriminate|auto]]]].
  assert (B : fits (fst (if day zone (w_created (l_w s0)) =? day zone (e_now e) then (s0, true) else rotate zone zs s0 (e_daily e)))) by (destruct (_ =? _); [exact A|now apply rotate_fits]).
  destruct (if day zone (w_created (l_w s0)) =? day zone (e_now e) then (s0, true) else rotate zone zs s0 (e_daily e)) as [s1 ok1]. cbn [fst] in B. destruct ok1; cbn [negb]; [|split; [exact B|split; [exact Z0|split; [discriminate|auto]]]].
  assert (C : fits (fst (if w_max (l_w s1) <=? w_size (l_w s1) + zlen p + buffered (l_w s1) then rotate zone zs s1 (e_sized e) else (s1, true)))) by (destruct (_ <=? _); [now apply rotate_fits|exact B]).
  destruct (if w_max (l_w s1) <=? w_size (l_w s1) + zlen p + buffered (l_w s1) then rotate zone zs s1 (e_sized e) else (s1, true)) as [s2 ok2]. cbn [fst] in C. destruct ok2; cbn [negb]; [|split; [exact C|split; [exact Z0|split; [discriminate|auto]]]].
  destruct (w_bw (l_w s2)) as [b|] eqn:Eb; [|split; [exact C|split; [exact Z0|split; [discriminate|auto]]]].
  pose proof (bwrite_result (l_dir s2) b p (e_write e) (C b Eb)) as G. destruct (bw_write (l_dir s2) b p (e_write e)) as [[[d b'] n] k]. destruct G as (G1 & G2 & G3 & G4).
  split; [|auto]. intros b0. cbn. now intros [= <-].
Qed.
Lemma step_fits s o : fits s -> fits (fst (lw_step zone zs s o)).
Proof.
  assert (Fl : forall s t, fits s -> fits (lw_flush s t)).
  { unfold fits, lw_flush. intros s0 t F. destruct (w_bw (l_w s0)) as [b|] eqn:Eb; [|now rewrite Eb]. pose proof (bflush_fits (l_dir s0) b t (F b eq_refl)) as G. destruct (bw_flush (l_dir s0) b t). cbn in *. now intros b' [= <-]. }
  assert (Fc : forall s, fits s -> fits (lw_close s)).
  { unfold fits, lw_close. intros s0 F. destruct (w_file (l_w s0)); [|exact F]. cbn. destruct (w_bw (l_w s0)) as [b|] eqn:Eb; [|discriminate]. intros b' [= <-]. now apply (F b). }
  intros F. destruct o; cbn [lw_step].
  - pose proof (write_result s p e F) as W. destruct (lw_write zone zs s p e) as [[s' n] k]. apply W.
  - now apply Fl.
  - now apply Fc.
  - now apply Fc, Fl.
  - intros b. discriminate.
  - unfold set_max. destruct (_ <? _); exact F.
  - exact F.
  - unfold lw_delete. cbv zeta. destruct (_ <=? _); exact F.
Qed.
Lemma run_fits : forall os s, fits s -> fits (fst (lw_run zone zs s os)).
Proof.
  induction os as [|o os IH]; intros s F; cbn; [exact F|]. pose proof (step_fits s o F) as F1. destruct (lw_step zone zs s o) as [s1 n]. cbn [fst] in F1.
  specialize (IH s1 F1). destruct (lw_run zone zs s1 os) as [s2 ns]. exact IH.
Qed.
End Z.

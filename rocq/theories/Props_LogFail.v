(* C45: what becomes of the log after a Write that returned an error. *)
From Coq Require Import ZArith List Bool Lia.
From Verif Require Import LogWriter Spec_LogWriter LogArch_proofs.
Import ListNotations.
Local Open Scope Z_scope.

(* What the files in the directory contain. *)
Definition contents (d : dir) : list bytes := map a_data (d_arch d) ++ match d_cur d with Some (c, _) => [c] | None => [] end.
(* Every attempt to open the log file during the operation fails. *)
Definition never_opens (o : lop) : Prop :=
  match o with LWrite _ e => r_open (e_first e) = false /\ r_open (e_daily e) = false /\ r_open (e_sized e) = false | _ => True end.

Definition shut (w : lwriter) : Prop := match w_bw w with Some b => b_open b = false | None => True end.
Definition fit (w : lwriter) : Prop := (w_file w = false -> shut w) /\ match w_bw w with Some b => b_err b = true -> b_open b = false | None => True end.

Section F.
Variables (zone : Z -> Z) (zs : bool).

Lemma flush_fit d b t : (b_err b = true -> b_open b = false) ->
  let b' := snd (bw_flush d b t) in (b_err b' = true -> b_open b' = false) /\ (b_open b = false -> b_open b' = false /\ fst (bw_flush d b t) = d).
Proof.
  intros H. unfold bw_flush. destruct (b_err b) eqn:E; [cbn; rewrite E; auto|]. destruct (b_buf b); [cbn; rewrite E; auto|].
  destruct (b_open b); cbn; split; auto; discriminate.
Qed.
Lemma write_fit d b p t : (b_err b = true -> b_open b = false) ->
  let '(d', b', n, ok) := bw_write d b p t in
  (b_err b' = true -> b_open b' = false) /\ (b_open b = false -> b_open b' = false /\ d' = d) /\ (ok = false -> b_open b' = false).
Proof.
  intros H. unfold bw_write. destruct (b_err b) eqn:E; [rewrite E; auto|]. cbv zeta.
  destruct (_ <=? _); [cbn; repeat split; auto; discriminate|]. destruct (b_buf b).
  - destruct (b_open b) eqn:O; cbn; rewrite ?O, ?E; repeat split; auto; discriminate.
  - destruct (b_open b) eqn:O; [destruct (_ <=? _)|]; cbn; repeat split; auto; discriminate.
Qed.

Lemma archive_incl e c d : incl (contents (archive_file zone zs e c d)) (contents d).
Proof.
  unfold archive_file, contents. destruct (d_cur d) as [[x t]|] eqn:E; [|rewrite E; apply incl_refl].
  assert (G : forall f, incl (map a_data (filter f (d_arch d))) (map a_data (d_arch d))).
  { intros f y Hy. apply in_map_iff in Hy as (a & <- & Ha). apply filter_In in Ha as (Ha & _). now apply in_map. }
  destruct (r_rename e); [|rewrite E; apply incl_refl].
  destruct zs; [cbn; rewrite app_nil_r; intros y Hy; apply in_or_app; left; exact (G _ y Hy)|].
  destruct (r_zip e); cbn [d_arch d_cur]; unfold put_archive; rewrite map_app, app_nil_r; cbn [map a_data];
  (intros y Hy; apply in_app_or in Hy as [Hy|Hy]; apply in_or_app; [left|now right]).
  - apply in_map_iff in Hy as (a & <- & Ha). apply filter_In in Ha as (Ha & _). apply filter_In in Ha as (Ha & _). now apply in_map.
  - exact (G _ y Hy).
Qed.

Lemma rotate_fit s e : fit (l_w s) ->
  let s' := fst (rotate zone zs s e) in fit (l_w s') /\ (snd (rotate zone zs s e) = false -> shut (l_w s')) /\
  (shut (l_w s) -> r_open e = false -> shut (l_w s') /\ incl (contents (l_dir s')) (contents (l_dir s))) /\ (snd (rotate zone zs s e) = r_open e).
Proof.
  intros (F1 & F2). cbv zeta. unfold rotate.
  assert (R : exists d bw size used,
    (if w_file (l_w s) then
      match w_bw (l_w s) with
      | Some b => let '(d1, b1) := bw_flush (l_dir s) b (r_flush e) in
                  (archive_file zone zs e (w_created (l_w s)) d1, Some (BufW false (b_err b1) (b_buf b1)), 0, l_used s ++ archive_name zone e (w_created (l_w s)) d1)
      | None => (l_dir s, None, 0, l_used s)
      end
    else (l_dir s, w_bw (l_w s), w_size (l_w s), l_used s)) = (d, bw, size, used) /\
    match bw with Some b => b_open b = false | None => True end /\ (shut (l_w s) -> incl (contents d) (contents (l_dir s)))).
  { unfold shut in *. destruct (w_file (l_w s)).
    - destruct (w_bw (l_w s)) as [b|].
      + pose proof (flush_fit (l_dir s) b (r_flush e) F2) as (A & B). destruct (bw_flush (l_dir s) b (r_flush e)) as [d1 b1]. cbn [fst snd] in *.
        do 4 eexists. split; [reflexivity|]. split; [reflexivity|]. intros O. destruct (B O) as (_ & ->). apply archive_incl.
      + do 4 eexists. split; [reflexivity|]. split; [exact I|]. intros _. apply incl_refl.
    - do 4 eexists. split; [reflexivity|]. split; [now apply F1|]. intros _. apply incl_refl. }
  destruct R as (d & bw & size & used & -> & S & C).
  destruct (d_cur d) as [[x t]|] eqn:E; destruct (r_open e); cbn [fst snd l_w l_dir w_file w_bw shut fit]; unfold fit, shut; cbn [w_file w_bw b_err b_open];
  (split; [split; [try discriminate; auto|]|split; [auto|split; [auto|reflexivity]]]); try discriminate; auto;
  destruct bw as [b|]; auto.
Qed.

Lemma lw_write_fit s p e : fit (l_w s) -> let '(s', n, ok) := lw_write zone zs s p e in
  fit (l_w s') /\ (ok = false -> shut (l_w s')) /\
  (shut (l_w s) -> never_opens (LWrite p e) -> shut (l_w s') /\ incl (contents (l_dir s')) (contents (l_dir s))).
Proof.
  intros F. unfold lw_write. cbn [never_opens].
  assert (R0 : let '(s0, ok0) := if w_file (l_w s) then (s, true) else rotate zone zs s (e_first e) in
     fit (l_w s0) /\ (ok0 = false -> shut (l_w s0)) /\ (shut (l_w s) -> r_open (e_first e) = false -> shut (l_w s0) /\ incl (contents (l_dir s0)) (contents (l_dir s)))).
  { destruct (w_file (l_w s)); [split; [exact F|split; [discriminate|intros H _; split; [exact H|apply incl_refl]]]|].
    destruct (rotate_fit s (e_first e) F) as (A & B & C & _). destruct (rotate zone zs s (e_first e)). auto. }
  destruct (if w_file (l_w s) then _ else _) as [s0 ok0]. destruct R0 as (F0 & B0 & C0).
  destruct ok0; cbn [negb]; [|split; [exact F0|split; [exact B0|intros H (O & _); auto]]].
  assert (R1 : let '(s1, ok1) := if day zone (w_created (l_w s0)) =? day zone (e_now e) then (s0, true) else rotate zone zs s0 (e_daily e) in
     fit (l_w s1) /\ (ok1 = false -> shut (l_w s1)) /\ (shut (l_w s0) -> r_open (e_daily e) = false -> shut (l_w s1) /\ incl (contents (l_dir s1)) (contents (l_dir s0)))).
  { destruct (_ =? _); [split; [exact F0|split; [discriminate|intros H _; split; [exact H|apply incl_refl]]]|].
    destruct (rotate_fit s0 (e_daily e) F0) as (A & B & C & _). destruct (rotate zone zs s0 (e_daily e)). auto. }
  destruct (if day zone _ =? _ then _ else _) as [s1 ok1]. destruct R1 as (F1 & B1 & C1).
  assert (G1 : shut (l_w s) -> r_open (e_first e) = false /\ r_open (e_daily e) = false /\ r_open (e_sized e) = false -> shut (l_w s1) /\ incl (contents (l_dir s1)) (contents (l_dir s))).
  { intros H (O1 & O2 & O3). destruct (C0 H O1) as (H0 & I0). destruct (C1 H0 O2) as (H1 & I1). split; [exact H1|exact (incl_tran I1 I0)]. }
  destruct ok1; cbn [negb]; [|split; [exact F1|split; [exact B1|exact G1]]].
  assert (R2 : let '(s2, ok2) := if w_max (l_w s1) <=? w_size (l_w s1) + zlen p + buffered (l_w s1) then rotate zone zs s1 (e_sized e) else (s1, true) in
     fit (l_w s2) /\ (ok2 = false -> shut (l_w s2)) /\ (shut (l_w s1) -> r_open (e_sized e) = false -> shut (l_w s2) /\ incl (contents (l_dir s2)) (contents (l_dir s1)))).
  { destruct (_ <=? _); [|split; [exact F1|split; [discriminate|intros H _; split; [exact H|apply incl_refl]]]].
    destruct (rotate_fit s1 (e_sized e) F1) as (A & B & C & _). destruct (rotate zone zs s1 (e_sized e)). auto. }
  destruct (if _ <=? _ then _ else _) as [s2 ok2]. destruct R2 as (F2 & B2 & C2).
  assert (G2 : shut (l_w s) -> r_open (e_first e) = false /\ r_open (e_daily e) = false /\ r_open (e_sized e) = false -> shut (l_w s2) /\ incl (contents (l_dir s2)) (contents (l_dir s))).
  { intros H O. destruct (G1 H O) as (H1 & I1). destruct O as (_ & _ & O). destruct (C2 H1 O) as (H2 & I2). split; [exact H2|exact (incl_tran I2 I1)]. }
  destruct ok2; cbn [negb]; [|split; [exact F2|split; [exact B2|exact G2]]].
  destruct F2 as (F2 & F2'). unfold shut in *. destruct (w_bw (l_w s2)) as [b|] eqn:E.
  - pose proof (write_fit (l_dir s2) b p (e_write e) F2') as W. destruct (bw_write (l_dir s2) b p (e_write e)) as [[[d' b'] n] ok].
    destruct W as (W1 & W2 & W3). unfold fit, shut. cbn [l_w l_dir w_file w_bw].
    split; [split; [intros H; destruct (W2 (F2 H)); assumption|exact W1]|]. split; [exact W3|].
    intros H O. destruct (G2 H O) as (S2 & I2). destruct (W2 S2) as (W & ->). auto.
  - unfold fit, shut. rewrite E. split; [split; auto|split; auto].
Qed.

Lemma step_fit s o : fit (l_w s) -> fit (l_w (fst (lw_step zone zs s o))) /\
  (shut (l_w s) -> never_opens o -> shut (l_w (fst (lw_step zone zs s o))) /\ incl (contents (l_dir (fst (lw_step zone zs s o)))) (contents (l_dir s))).
Proof.
  intros F.
  assert (FL : forall t, fit (l_w (lw_flush s t)) /\ (shut (l_w s) -> shut (l_w (lw_flush s t)) /\ l_dir (lw_flush s t) = l_dir s)).
  { intros t. unfold lw_flush. destruct F as (F1 & F2). unfold fit, shut in *. destruct (w_bw (l_w s)) as [b|] eqn:E.
    - pose proof (flush_fit (l_dir s) b t F2) as (A & B). destruct (bw_flush (l_dir s) b t) as [d' b']. cbn [fst snd l_w l_dir w_file w_bw] in *.
      split; [split; [intros H; now destruct (B (F1 H))|exact A]|exact B].
    - rewrite E. auto. }
  assert (CL : forall x, fit (l_w x) -> fit (l_w (lw_close x)) /\ (shut (l_w x) -> shut (l_w (lw_close x))) /\ l_dir (lw_close x) = l_dir x).
  { intros x (X1 & X2). unfold lw_close. destruct (w_file (l_w x)) eqn:W; [|repeat split; auto]. unfold fit, shut in *. cbn [l_w l_dir w_file w_bw].
    destruct (w_bw (l_w x)); cbn; auto. }
  destruct o as [p e|t| |t|t|ms|ma|now]; cbn [lw_step].
  - pose proof (lw_write_fit s p e F) as H. destruct (lw_write zone zs s p e) as [[s' n] ok]. cbn [fst]. destruct H as (A & _ & C). auto.
  - destruct (FL t) as (A & B). cbn [fst]. split; [exact A|]. intros H _. destruct (B H) as (B1 & ->). split; [exact B1|apply incl_refl].
  - destruct (CL s F) as (A & B & C). cbn [fst]. split; [exact A|]. intros H _. rewrite C. split; [auto|apply incl_refl].
  - destruct (FL t) as (A & B). destruct (CL _ A) as (A' & B' & C'). cbn [fst]. split; [exact A'|]. intros H _. destruct (B H) as (B1 & B2). rewrite C', B2. split; [auto|apply incl_refl].
  - destruct (FL t) as (A & B). destruct (CL _ A) as (A' & B' & C'). cbn [fst l_w l_dir]. split; [split; cbn; auto|]. intros H _. destruct (B H) as (B1 & B2). rewrite C', B2. split; [exact I|apply incl_refl].
  - cbn [fst]. unfold set_max. destruct (ms <? 1); [split; [exact F|intros H _; split; [exact H|apply incl_refl]]|].
    cbn [l_w l_dir]. split; [exact F|]. intros H _. split; [exact H|apply incl_refl].
  - cbn [fst set_age l_w l_dir]. split; [exact F|]. intros H _. split; [exact H|apply incl_refl].
  - cbn [fst]. unfold lw_delete. destruct (_ <=? 0); cbn [l_w l_dir]; (split; [exact F|]); intros H _; (split; [exact H|]); [apply incl_refl|].
    unfold contents. cbn [d_arch d_cur]. intros y Hy. apply in_app_or in Hy as [Hy|Hy]; apply in_or_app; [left|now right].
    apply in_map_iff in Hy as (a & <- & Ha). apply filter_In in Ha as (Ha & _). now apply in_map.
Qed.
Lemma run_fit os : forall s, fit (l_w s) -> fit (l_w (fst (lw_run zone zs s os))) /\
  (shut (l_w s) -> Forall never_opens os -> incl (contents (l_dir (fst (lw_run zone zs s os)))) (contents (l_dir s))).
Proof.
  induction os as [|o os IH]; intros s F; cbn [lw_run]; [split; [exact F|intros _ _; apply incl_refl]|].
  destruct (step_fit s o F) as (F1 & C1). destruct (lw_step zone zs s o) as [s1 n]. cbn [fst] in *.
  destruct (IH s1 F1) as (F2 & C2). destruct (lw_run zone zs s1 os) as [s2 ns]. cbn [fst] in *.
  split; [exact F2|]. intros H N. inversion N; subst. destruct (C1 H H2) as (H1 & I1). exact (incl_tran (C2 H1 H3) I1).
Qed.
End F.

(* C45. Once a Write has returned an error, nothing that is written reaches a file until
   the log file can be opened again: whatever calls follow, what a file contains then is
   what a file contained when that Write returned. *)
Theorem C45_after_error zone zs d os p e s' n more :
  lw_write zone zs (fst (lw_run zone zs (start d) os)) p e = (s', n, false) -> Forall never_opens more ->
  incl (contents (l_dir (fst (lw_run zone zs s' more)))) (contents (l_dir s')).
Proof.
  intros E N. destruct (run_fit zone zs os (start d)) as (F & _); [split; cbn; auto|].
  pose proof (lw_write_fit zone zs _ p e F) as W. rewrite E in W. destruct W as (F1 & S & _).
  destruct (run_fit zone zs more s' F1) as (_ & C). exact (C (S eq_refl) N).
Qed.
Print Assumptions C45_after_error.
(* The new file cannot be opened when the log is rotated by size: the Write fails, the
   Writes after it are accepted and lost, and stay lost. *)
Example C45_after_error_case :
  let r t ok := REnv t t true true ok t in
  let e t ok := WEnv (r t ok) t (r t ok) (r t ok) t in
  let s := fst (lw_run (fun _ => 0) false (start (Dir None [])) [LSetMax 4; LWrite [1; 2] (e 1000 true)]) in
  let w := lw_write (fun _ => 0) false s [3; 4] (e 2000 false) in
  let more := [LWrite [5] (e 3000 false); LFlush 4000] in
  snd w = false /\ Forall never_opens more /\ snd (lw_run (fun _ => 0) false (fst (fst w)) more) = [1; 0] /\
  contents (l_dir (fst (lw_run (fun _ => 0) false (fst (fst w)) more))) = [[1; 2]].
Proof. vm_compute. repeat split; repeat constructor. Qed.

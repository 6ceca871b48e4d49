(* C45: the log writer keeps every byte.  C46: the size of log files. *)
From Coq Require Import ZArith List Bool Lia.
From Verif Require Import LogWriter Spec_LogWriter LogWriter_proofs LogWriter2_proofs LogWriter3_proofs.
Import ListNotations.
Local Open Scope Z_scope.

(* C45. Full statement: after any run, disk plus buffer is what was there before followed by
   every byte accepted.  Proved for any directory left by earlier sessions, any
   writes, flushes, whole Close calls, restarts, day changes, size limits, failing renames and
   failing compressions, when the log file can be opened, archives get distinct names and
   expired archives are not being removed.  The refuted cases follow. *)
Theorem C45_every_byte_partial zone d os :
  (forall o, In o os -> opens o /\ whole_close o /\ no_expiry o) ->
  names_distinct d (fst (lw_run zone false (start d) os)) ->
  let r := lw_run zone false (start d) os in
  on_disk (fst r) ++ unflushed (fst r) = on_disk (start d) ++ accepted os (snd r) /\
  (forall o before, os = before ++ [o] -> is_flush o -> unflushed (fst r) = []).
Proof.
  intros A N. assert (S : sound (start d)) by (split; [reflexivity|discriminate]).
  assert (H : holds (start d) (map a_name (d_arch d)) (on_disk (start d))) by (split; cbn; now rewrite app_nil_r).
  destruct (run_holds zone os (start d) _ _ S H A N) as (_ & (R & _) & F). split; [exact R|exact F].
Qed.
Print Assumptions C45_every_byte_partial.

(* The names are distinct, and in the order of the data, when the local clock does not go back
   and archiving a file takes at least a microsecond. *)
Theorem C45_steady_clock_partial zone d os :
  (forall o, In o os -> opens o /\ whole_close o /\ no_expiry o) -> steady zone d os ->
  let r := lw_run zone false (start d) os in
  on_disk (fst r) ++ unflushed (fst r) = on_disk (start d) ++ accepted os (snd r) /\
  in_order (map a_name (d_arch (l_dir (fst r)))).
Proof.
  intros A St. assert (O := steady_names zone d os St (fun o H => proj2 (proj2 (A o H)))).
  assert (S : sound (start d)) by (split; [reflexivity|discriminate]).
  assert (H : holds (start d) (map a_name (d_arch d)) (on_disk (start d))) by (split; cbn; now rewrite app_nil_r).
  destruct (run_holds zone os (start d) _ _ S H A (in_order_nodup _ O)) as (_ & (R & N) & F). split; [exact R|]. rewrite N. exact O.
Qed.
Print Assumptions C45_steady_clock_partial.

(* Every Write in such a run accepts its whole record. *)
Theorem C45_accepts_all zone d os p e :
  (forall o, In o os -> opens o /\ whole_close o /\ no_expiry o) -> opens (LWrite p e) ->
  names_distinct d (fst (lw_run zone false (start d) os)) ->
  names_distinct d (fst (fst (lw_write zone false (fst (lw_run zone false (start d) os)) p e))) ->
  snd (fst (lw_write zone false (fst (lw_run zone false (start d) os)) p e)) = zlen p /\
  snd (lw_write zone false (fst (lw_run zone false (start d) os)) p e) = true.
Proof.
  intros A O N N'. assert (S : sound (start d)) by (split; [reflexivity|discriminate]).
  assert (H : holds (start d) (map a_name (d_arch d)) (on_disk (start d))) by (split; cbn; now rewrite app_nil_r).
  destruct (run_holds zone os (start d) _ _ S H A N) as (S' & H' & _). destruct (write_holds zone _ p e _ _ S' H' O N') as (_ & _ & X). exact X.
Qed.
Print Assumptions C45_accepts_all.

(* A realistic case: yesterday's log is there, of 3 bytes; the limit is 5.  Two writes
   (the second triggers a size rotation), a flush, a restart, and a record longer than the
   4096-byte buffer. *)
Definition utc (t : Z) : Z := 0.
Definition renv_at (t : Z) : renv := REnv t t true true true (t + 2000).
Definition wenv_at (t : Z) : wenv := WEnv (renv_at t) (t + 2000) (renv_at (t + 3000)) (renv_at (t + 6000)) (t + 9000).
Definition yesterday : dir := Dir (Some ([1; 2; 3], 86399000000000)) [Archive 5 true [0]].
Definition today (k : Z) : Z := 86400000000000 + k * 1000000000.
Definition case_ops : list lop :=
  [LSetMax 5; LWrite [4; 5] (wenv_at (today 1)); LWrite [6; 7] (wenv_at (today 2)); LWrite [8; 9] (wenv_at (today 3)); LFlush (today 4);
   LRestart (today 5); LWrite [10] (wenv_at (today 6)); LWrite (repeat 11 4097) (wenv_at (today 7)); LClose (today 8)].

Example C45_case :
  (forall o, In o case_ops -> opens o /\ whole_close o /\ no_expiry o) /\ steady utc yesterday case_ops /\
  map a_data (d_arch (l_dir (fst (lw_run utc false (start yesterday) case_ops)))) = [[0]; [1; 2; 3]; [4; 5]; [6; 7]] /\
  accepted case_ops (snd (lw_run utc false (start yesterday) case_ops)) = [4; 5; 6; 7; 8; 9; 10] ++ repeat 11 4097.
Proof.
  split; [|split; [|split; vm_compute; reflexivity]].
  - intros o Ho. cbn in Ho. repeat (destruct Ho as [<-|Ho]; [split; [cbn; auto|split; [discriminate|intros now; discriminate]]|]). contradiction.
  - exists 86399000000. split; [split; [|split]|split].
    + intros a b before mid after E. destruct before as [|x before]; [destruct mid; discriminate|]. destruct before; discriminate.
    + intros n [<-|[]]. vm_compute. reflexivity.
    + cbn. split; [vm_compute; discriminate|]. intros n [<-|[]]. vm_compute. reflexivity.
    + vm_compute. repeat split; discriminate.
    + intros o Ho. cbn in Ho. repeat (destruct Ho as [<-|Ho]; [cbn; auto; unfold rotation_takes_time, time2name, local, utc; cbn; repeat split; vm_compute; reflexivity|]). contradiction.
Qed.

(* Refuted: a clock that returns the same microsecond for two rotations loses an archived file. *)
Theorem C45_same_microsecond_refuted :
  let e := WEnv (REnv 0 0 true true true 0) 0 (REnv 0 0 true true true 0) (REnv 0 0 true true true 0) 0 in
  let os := [LSetMax 4; LWrite [1; 2] e; LWrite [3; 4] e; LWrite [5; 6] e; LClose 0] in
  let r := lw_run utc false (start (Dir None [])) os in
  (forall o, In o os -> opens o /\ renames o /\ whole_close o /\ no_expiry o) /\
  accepted os (snd r) = [1; 2; 3; 4; 5; 6] /\ on_disk (fst r) = [3; 4; 5; 6] /\ unflushed (fst r) = [].
Proof.
  cbv zeta. split; [|vm_compute; auto].
  intros o Ho. cbn in Ho. repeat (destruct Ho as [<-|Ho]; [split; [cbn; auto|split; [cbn; auto|split; [discriminate|intros now; discriminate]]]|]). contradiction.
Qed.
Print Assumptions C45_same_microsecond_refuted.

(* Refuted: a Write between the two locked sections of a Close is accepted and lost. *)
Theorem C45_close_race_refuted :
  let os := [LWrite [1; 2] (wenv_at (today 1)); LFlush (today 2); LWrite [3; 4] (wenv_at (today 2)); LCloseFile; LWrite [5] (wenv_at (today 3)); LClose (today 4)] in
  let r := lw_run utc false (start (Dir None [])) os in
  (forall o, In o os -> opens o /\ renames o /\ no_expiry o) /\
  accepted os (snd r) = [1; 2; 3; 4; 5] /\ on_disk (fst r) = [1; 2; 5] /\ unflushed (fst r) = [].
Proof.
  cbv zeta. split; [|vm_compute; auto].
  intros o Ho. cbn in Ho. repeat (destruct Ho as [<-|Ho]; [split; [cbn; auto|split; [cbn; auto|intros now; discriminate]]|]). contradiction.
Qed.
Print Assumptions C45_close_race_refuted.

(* Refuted: when a rotation cannot open the new file that Write fails, but the next Write
   succeeds (into the buffer of the closed file) and its bytes are lost. *)
Theorem C45_open_failure_refuted :
  let bad := WEnv (renv_at (today 2)) (today 2) (renv_at (today 2)) (REnv (today 2) (today 2) true true false (today 2)) (today 2) in
  let os := [LSetMax 4; LWrite [1; 2] (wenv_at (today 1)); LWrite [3; 4] bad; LWrite [5] (wenv_at (today 3)); LClose (today 4)] in
  let r := lw_run utc false (start (Dir None [])) os in
  (forall o, In o os -> whole_close o /\ no_expiry o) /\
  accepted os (snd r) = [1; 2; 5] /\ on_disk (fst r) = [1; 2] /\ unflushed (fst r) = [5].
Proof.
  cbv zeta. split; [|vm_compute; auto].
  intros o Ho. cbn in Ho. repeat (destruct Ho as [<-|Ho]; [split; [discriminate|intros now; discriminate]|]). contradiction.
Qed.
Print Assumptions C45_open_failure_refuted.

(* Refuted: a log path ending in ".zip" loses every rotated file. *)
Theorem C45_zip_path_refuted :
  let os := [LSetMax 4; LWrite [1; 2] (wenv_at (today 1)); LWrite [3; 4] (wenv_at (today 2)); LClose (today 4)] in
  let r := lw_run utc true (start (Dir None [])) os in
  (forall o, In o os -> opens o /\ renames o /\ whole_close o /\ no_expiry o) /\ accepted os (snd r) = [1; 2; 3; 4] /\ on_disk (fst r) = [3; 4] /\ unflushed (fst r) = [].
Proof.
  cbv zeta. split; [|vm_compute; auto].
  intros o Ho. cbn in Ho. repeat (destruct Ho as [<-|Ho]; [split; [cbn; auto|split; [cbn; auto|split; [discriminate|intros now; discriminate]]]|]). contradiction.
Qed.
Print Assumptions C45_zip_path_refuted.

(* Removing old archives, at any point of a session, touches nothing but zip archives older than
   the age set last. *)
Theorem C45_expiry zone zs d os now :
  let s := fst (lw_run zone zs (start d) os) in
  let s' := fst (lw_step zone zs s (LDelete now)) in
  l_w s' = l_w s /\ d_cur (l_dir s') = d_cur (l_dir s) /\
  (forall a, In a (d_arch (l_dir s)) ->
    (In a (d_arch (l_dir s')) <-> ~ (0 < age_set os /\ a_zip a = true /\ a_name a * 1000 < now - age_set os * day_length))) /\
  (forall a, In a (d_arch (l_dir s')) -> In a (d_arch (l_dir s))).
Proof.
  cbv zeta. assert (E : age_set os = w_age (l_w (fst (lw_run zone zs (start d) os)))) by (symmetry; apply run_age).
  rewrite E. apply delete_spec.
Qed.
Print Assumptions C45_expiry.

Example C45_expiry_case :
  d_arch (l_dir (lw_delete (start (Dir None [Archive 1000 true [1]; Archive 1000 false [2]; Archive 2764800000000 true [3]])) (62 * day_length))) =
  [Archive 1000 false [2]; Archive 2764800000000 true [3]].
Proof. reflexivity. Qed.
Example C45_expiry_set_case :
  d_arch (l_dir (fst (lw_run (fun t => t) false (start (Dir None [Archive 1000 true [1]; Archive 2764800000000 true [3]])) [LSetAge 62; LDelete (62 * day_length)]))) =
  [Archive 1000 true [1]; Archive 2764800000000 true [3]].
Proof. reflexivity. Qed.

(* C46. After any session (any directory to start with, any clock, zone, flushes, closes and
   reopenings, expiry) with maximum at most M, each log file has at most M bytes, or
   is one single record, or was there, with that content, when the session started.  Renames and
   opens are assumed to succeed. *)
Theorem C46_bound zone zs d ms M os : 1 <= ms <= M ->
  (forall o, In o os -> opens o /\ renames o /\ whole_close o /\ no_restart o /\ max_at_most M o) ->
  let s := fst (lw_run zone zs (start_with d ms) os) in
  forall f, In f (log_files s) -> zlen f <= M \/ In f (records os) \/ In f (files_of d).
Proof.
  intros H A. cbv zeta. intros f Hf.
  destruct (run_bnd zone zs M (records os) (files_of d) ltac:(lia) os (start_with d ms) (start_bnd M (records os) d ms H) A (fun p Hp => Hp)) as (_ & _ & Ha & Hk & _).
  unfold log_files in Hf. apply in_app_or in Hf. destruct Hf as [Hf|[<-|[]]]; [|exact Hk].
  apply in_map_iff in Hf. destruct Hf as (a & <- & Hi). exact (Ha a Hi).
Qed.
Print Assumptions C46_bound.

Example C46_case :
  let os := [LWrite [4; 5] (wenv_at (today 1)); LWrite [6; 7; 8; 9; 10; 11] (wenv_at (today 2)); LClose (today 3); LWrite [12] (wenv_at (today 4)); LWrite [13] (wenv_at (today 5))] in
  (forall o, In o os -> opens o /\ renames o /\ whole_close o /\ no_restart o /\ max_at_most 4 o) /\
  log_files (fst (lw_run utc false (start_with (Dir (Some ([1; 2; 3; 4; 5], today 0)) []) 4) os)) = [[1; 2; 3; 4; 5]; [4; 5]; [6; 7; 8; 9; 10; 11]; [12; 13]].
Proof.
  cbv zeta. split; [|vm_compute; reflexivity].
  intros o Ho. cbn in Ho. repeat (destruct Ho as [<-|Ho]; [split; [cbn; auto|split; [cbn; auto|split; [discriminate|split; [intros now; discriminate|exact I]]]]|]). contradiction.
Qed.

(* With a rename that fails, a file grows past the maximum without being one record. *)
Theorem C46_rename_failure_refuted :
  let bad := WEnv (renv_at (today 2)) (today 2) (renv_at (today 2)) (REnv (today 2) (today 2) false true true (today 2)) (today 2) in
  let os := [LWrite [1; 2] (wenv_at (today 1)); LWrite [3; 4; 5] bad] in
  (forall o, In o os -> opens o /\ whole_close o /\ no_restart o /\ max_at_most 4 o) /\
  log_files (fst (lw_run utc false (start_with (Dir None []) 4) os)) = [[1; 2; 3; 4; 5]].
Proof.
  cbv zeta. split; [|vm_compute; reflexivity].
  intros o Ho. cbn in Ho. repeat (destruct Ho as [<-|Ho]; [split; [cbn; auto|split; [discriminate|split; [intros now; discriminate|exact I]]]|]). contradiction.
Qed.
Print Assumptions C46_rename_failure_refuted.

(* C45, further: archived log files, and what Write returns. *)
From Coq Require Import ZArith List Bool Lia.
From Verif Require Import LogWriter Spec_LogWriter LogWriter_proofs LogArch_proofs.
Import ListNotations.
Local Open Scope Z_scope.

(* Every compression during the call succeeds (b = true), or every one fails. *)
Definition compression (b : bool) (o : lop) : Prop :=
  forall p e, o = LWrite p e -> r_zip (e_first e) = b /\ r_zip (e_daily e) = b /\ r_zip (e_sized e) = b.

(* An archived file stays as it is, whatever is written, flushed, closed, reopened, set, and
   whatever fails, until the expiry removes it or another file is archived under its name.
   [zs]: also with a path ending in ".zip". *)
Theorem C45_archives_stay zone zs d os more :
  (forall o, In o more -> no_expiry o) ->
  let s := fst (lw_run zone zs (start d) os) in
  let s' := fst (lw_run zone zs s more) in
  exists used, l_used s' = l_used s ++ used /\
    forall a, In a (d_arch (l_dir s)) -> In a (d_arch (l_dir s')) \/ In (a_name a) used.
Proof. intros A. cbv zeta. now apply run_kept. Qed.
Print Assumptions C45_archives_stay.

(* Rotated files are compressed exactly when compressing works. *)
Theorem C45_compressed zone zs d b os :
  (forall o, In o os -> compression b o /\ no_expiry o) ->
  forall a, In a (d_arch (l_dir (fst (lw_run zone zs (start d) os)))) -> In a (d_arch d) \/ a_zip a = b.
Proof. intros A. apply (run_new zone zs b os (start d)). exact A. Qed.
Print Assumptions C45_compressed.

(* What Write returns, at any point of any session, whatever fails: a nil error means that
   the whole record was taken; with an error, not all of it was. *)
Theorem C45_write_result zone zs d os p e :
  let '(_, n, ok) := lw_write zone zs (fst (lw_run zone zs (start d) os)) p e in
  0 <= n <= zlen p /\ (ok = true -> n = zlen p) /\ (ok = false -> n < zlen p \/ p = []).
Proof.
  assert (F : fits (fst (lw_run zone zs (start d) os))) by (apply run_fits; discriminate). pose proof (write_result zone zs _ p e F) as W.
  destruct (lw_write _ _ _ p e) as [[s' n] k]. apply W.
Qed.
Print Assumptions C45_write_result.

(* Two files are archived, the second uncompressed, and later a third one under a new name. *)
Definition plain : Z -> Z := fun _ => 0.
Definition turn (z : bool) (t : Z) : renv := REnv t t true z true t.
Definition at_time (z : bool) (t : Z) : wenv := WEnv (turn z t) t (turn z t) (turn z t) t.
Example C45_archives_case :
  let s := fst (lw_run plain false (start (Dir None [])) [LWrite [1] (at_time true 1000); LSetMax 1; LWrite [2] (at_time true 5000); LWrite [3] (at_time false 9000)]) in
  let s' := fst (lw_run plain false s [LWrite [4] (at_time true 20000)]) in
  d_arch (l_dir s) = [Archive 1 true [1]; Archive 5 false [2]] /\ l_used s = [1; 5] /\
  d_arch (l_dir s') = [Archive 1 true [1]; Archive 5 false [2]; Archive 9 true [3]] /\ l_used s' = [1; 5; 9].
Proof. vm_compute. auto. Qed.
(* A Write fails after the file could not be opened. *)
Example C45_write_error_case :
  let bad := REnv 0 0 true true false 0 in
  let '(_, n, ok) := lw_write plain false (start (Dir None [])) [1; 2] (WEnv bad 0 bad bad 0) in n = 0 /\ ok = false.
Proof. vm_compute. auto. Qed.

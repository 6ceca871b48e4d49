(* C78, further: a file that does not open, with copies to standard error. *)
From Coq Require Import String ZArith List Bool Lia.
From Verif Require Import Bytes LogCore Spec_LogCore LogCore_proofs Props_LogCore LogWriter Spec_LogWriter LogWriter_proofs Props_LogWriter LogFile Spec_LogFile LogFile_proofs Props_LogFile.
Import ListNotations.
Local Open Scope list_scope.
Local Open Scope Z_scope.

(* C78 is false of a file that does not open when SetCons is on: standard error shows the line
   twice, the copy and the line that could not be put in the file. *)
Theorem C78_unopened_copy_refuted zone d path t e m : r_open (e_first e) = false ->
  let s := f_run zone (new_lf [] 0 d) [FSet path t; FCons true; FLog (LStart Method 1 m) e; FLog (LLook 0 t0 here) e; FLog (LEmit 0) e] in
  f_err s = [content m; content m] /\ forall p, disk s p = dir_text (d p).
Proof.
  intros O s.
  set (s1 := f_run zone (new_lf [] 0 d) [FSet path t; FCons true; FLog (LStart Method 1 m) e; FLog (LLook 0 t0 here) e]).
  assert (E : s = run_hook s1 (write_out zone (with_lg s1 (l_step (f_lg s1) (LEmit 0))) (content m) e) (content m)) by reflexivity.
  assert (R : rotate zone false (LState new_writer (d path) []) (e_first e) = (LState (LWriter false None (match d_cur (d path) with Some (c, _) => zlen c | None => 0 end) (1024 * 1024 * 64) 31 (match d_cur (d path) with Some (_, x) => x | None => r_now (e_first e) end)) (d path) [], false)).
  { unfold rotate. cbn [l_w new_writer w_file l_dir w_bw w_size w_max w_age l_used]. destruct (d_cur (d path)) as [[c x]|]; now rewrite O. }
  rewrite E. clear E. unfold write_out. cbv zeta. change (f_cur (with_lg s1 (l_step (f_lg s1) (LEmit 0)))) with (Some 0%nat). cbv beta iota zeta.
  change (nth_error (f_sinks (with_lg s1 (l_step (f_lg s1) (LEmit 0)))) 0) with (Some (Sink path new_writer true)). cbv beta iota zeta.
  change (state_of (with_lg s1 (l_step (f_lg s1) (LEmit 0))) (Sink path new_writer true)) with (LState new_writer (d path) []).
  unfold lw_write. rewrite R. cbn [k_cons l_w new_writer w_file k_w snd fst negb andb put f_err to_err with_lg run_hook f_hook]. change (f_hook s1) with (@None hook). cbn [f_err]. split; [reflexivity|].
  intros p. unfold disk. match goal with |- dir_text (f_dirs ?x p) = _ => change (f_dirs x p) with (on_path d path (d path) p) end. unfold on_path. destruct (Z.eqb_spec p path) as [->|]; reflexivity.
Qed.
Print Assumptions C78_unopened_copy_refuted.
Example C78_unopened_copy_case : r_open (e_first (WEnv (REnv 0 0 true true false 0) 0 (renv_at 0) (renv_at 0) 0)) = false. Proof. reflexivity. Qed.

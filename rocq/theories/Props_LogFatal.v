(* C62, further: Fatal, and only Fatal, ends the process. *)
From Coq Require Import String ZArith List Bool Lia.
From Verif Require Import Bytes LogCore Spec_LogCore.
Import ListNotations.
Local Open Scope list_scope.
Local Open Scope Z_scope.

(* A record of Fatal or Fatalf was written. *)
Definition fatal_written (s : lg) : Prop := exists r, In r (g_out s) /\ e_by r = Method /\ e_level r = LogFatal.
Definition fatal_rec (r : rec) : bool := match e_by r with Method => e_level r =? LogFatal | _ => false end.

Lemma exit_step s l : g_exit s = existsb fatal_rec (g_out s) /\ (g_dead s = true -> g_exit s = true) ->
  g_exit (l_step s l) = existsb fatal_rec (g_out (l_step s l)) /\ (g_dead (l_step s l) = true -> g_exit (l_step s l) = true).
Proof.
  intros (A & B). unfold l_step. destruct (g_dead s) eqn:D; [now rewrite D|].
  destruct l; cbn [g_exit g_out g_dead]; try (split; [exact A|discriminate]).
  - destruct (match by_ with Method => g_iso s >? level | _ => false end); [split; [exact A|rewrite D; discriminate]|split; [exact A|discriminate]].
  - destruct (nth_error (g_pend s) i) as [[o level m [w|]]|]; try (split; [exact A|rewrite D; discriminate]). destruct (look (g_flag s) caller). split; [exact A|discriminate].
  - destruct (nth_error (g_pend s) i) as [[o level m [[[t file] line]|]]|]; try (split; [exact A|rewrite D; discriminate]).
    destruct (format_header _ _ _ _ _ _); cbn [g_exit g_out g_dead]; [|split; [exact A|discriminate]]. rewrite existsb_app, <- A. cbn [existsb]. unfold fatal_rec. cbn [e_by e_level]. rewrite orb_false_r. split; [reflexivity|discriminate].
  - destruct (g_exit s) eqn:E; [|rewrite D, E; split; [exact A|discriminate]]. cbn. split; [exact A|reflexivity].
Qed.
Lemma exit_run ls : forall s, g_exit s = existsb fatal_rec (g_out s) /\ (g_dead s = true -> g_exit s = true) ->
  g_exit (l_run s ls) = existsb fatal_rec (g_out (l_run s ls)) /\ (g_dead (l_run s ls) = true -> g_exit (l_run s ls) = true).
Proof. unfold l_run. induction ls as [|l ls IH]; intros s A; [exact A|]. cbn. apply IH. now apply exit_step. Qed.
Lemma fatal_spec s : existsb fatal_rec (g_out s) = true <-> fatal_written s.
Proof.
  rewrite existsb_exists. unfold fatal_written, fatal_rec. split; intros (r & I & H); exists r; split; auto.
  - destruct (e_by r); [|discriminate..]. split; [reflexivity|now apply Z.eqb_eq].
  - destruct H as (-> & ->). reflexivity.
Qed.

(* Whatever the goroutines do, the process ends only after a record of Fatal was written; *)
Theorem C62_only_fatal_exits : forall prefix flag ls, let s := l_run (new_lg prefix flag) ls in g_dead s = true -> fatal_written s.
Proof. intros prefix flag ls s D. apply fatal_spec. destruct (exit_run ls (new_lg prefix flag)) as (A & B); [split; [reflexivity|discriminate]|]. fold s in A, B. rewrite <- A. now apply B. Qed.
Print Assumptions C62_only_fatal_exits.

(* and once one was written, nothing but the exit itself is left to do for the Fatal call. *)
Theorem C62_fatal_exits : forall prefix flag ls, let s := l_run (new_lg prefix flag) ls in g_dead (l_step s LExit) = true <-> fatal_written s.
Proof.
  intros prefix flag ls s. destruct (exit_run ls (new_lg prefix flag)) as (A & B); [split; [reflexivity|discriminate]|]. fold s in A, B. rewrite <- fatal_spec, <- A. unfold l_step.
  destruct (g_dead s) eqn:D; [rewrite D; split; auto|]. destruct (g_exit s); [split; auto|rewrite D; split; auto].
Qed.
Print Assumptions C62_fatal_exits.

Example C62_fatal_case : exists t c, let s := l_run (new_lg [] 0) [LStart Method LogFatal (str "x"); LStart Direct LogFatal (str "y"); LLook 0 t c; LLook 1 t c; LEmit 1; LExit; LEmit 0] in
  fatal_written s /\ g_dead s = false /\ List.length (g_out s) = 2%nat /\ g_dead (l_step s LExit) = true.
Proof.
  exists (Time 2024 1 2 3 4 5 6), None. vm_compute. split; [|auto]. eexists. split; [right; left; reflexivity|]. split; reflexivity.
Qed.

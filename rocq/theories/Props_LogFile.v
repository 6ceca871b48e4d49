(* C78: every log line reaches its place, once and in order. *)
From Coq Require Import String ZArith List Bool Lia Permutation.
From Verif Require Import Bytes LogCore Spec_LogCore LogCore_proofs Props_LogCore LogWriter Spec_LogWriter LogWriter_proofs Props_LogWriter LogFile Spec_LogFile LogFile_proofs.
Import ListNotations.
Local Open Scope list_scope.
Local Open Scope Z_scope.

(* C78. Full statement: whatever the goroutines and the clock do, each line completed goes whole,
   once and in order to the file SetLogFile set last (to standard error if none was), and ends up
   there.  Proved when SetLogFile does not overlap log calls, files can be opened, archives get
   distinct names and are not being removed, and the hook does not log; for any number of
   SetLogFile calls, to new or old paths, and any file system to start with.  [waiting] is what
   the process still holds in memory. *)
Theorem C78_lines_partial zone prefix flag d tr : (forall l, In l tr -> calm l) ->
  let s := f_run zone (new_lf prefix flag d) tr in distinct_names d s ->
  let ls := lines (new_lg prefix flag) None tr in
  (forall p, disk s p ++ waiting s p = dir_text (d p) ++ text_of (lines_of (Some p) ls)) /\
  f_err s = shown (new_lg prefix flag) false false tr /\
  f_seen s = heard (new_lg prefix flag) false tr.
Proof.
  intros C s ND ls.
  destruct (run_ok zone (fun p => map a_name (d_arch (d p))) tr (new_lf prefix flag d) None false (fun p => dir_text (d p)) eq_refl
    ltac:(intros lv; discriminate) (start_ok _ prefix flag d (fun p => eq_refl)) C ND) as ((cur & cons & F) & E & S & _).
  split; [intros p; exact (waiting_ok _ _ _ _ _ p F)|]. split; [exact E|exact S].
Qed.
Print Assumptions C78_lines_partial.

(* The lines are those of the calls: each call at a level in force has one line, with its header
   and its message, or is still under way; nothing else is written. *)
Theorem C78_calls_partial zone prefix flag d tr : (forall l, In l tr -> calm l) -> methods_only (calls tr) -> levels_ok (calls tr) ->
  let s := f_run zone (new_lf prefix flag d) tr in distinct_names d s -> g_dead (f_lg s) = false ->
  exists made, Forall2 line_of made (map snd (lines (new_lg prefix flag) None tr)) /\ Permutation (due 0 (calls tr)) (made ++ under_way (f_lg s)).
Proof.
  intros C M L s ND D.
  destruct (run_ok zone (fun p => map a_name (d_arch (d p))) tr (new_lf prefix flag d) None false (fun p => dir_text (d p)) eq_refl
    ltac:(intros lv; discriminate) (start_ok _ prefix flag d (fun p => eq_refl)) C ND) as (_ & _ & _ & G & _).
  fold s in G. cbn [f_lg new_lf] in G. rewrite lg_calls in G. rewrite G in *.
  destruct (calls_lines prefix flag (calls tr) M L D) as (made & F & P). exists made. split; [|exact P].
  rewrite (lines_all tr (new_lg prefix flag) None) in F. exact F.
Qed.
Print Assumptions C78_calls_partial.

(* One goroutine that logs a program of calls to one file: the file gains exactly the framed lines
   of the calls at a level in force, in order. *)
Definition logged (p : list (llabel * time * option (list byte * Z))) (e : wenv) : list flabel := map (fun l => FLog l e) (solo p).
Theorem C78_sequence_partial zone prefix flag d path t p e : let tr := FSet path t :: logged p e in
  opens (LWrite [] e) -> methods_only (solo p) -> levels_ok (solo p) ->
  let s := f_run zone (new_lf prefix flag d) tr in distinct_names d s -> g_dead (f_lg s) = false ->
  exists ls, Forall2 line_of (due 0 (solo p)) ls /\ disk s path ++ waiting s path = dir_text (d path) ++ text_of ls.
Proof.
  intros tr O M L s ND D.
  assert (C : forall l, In l tr -> calm l).
  { intros l [<-|H]; [exact I|]. apply in_map_iff in H. destruct H as (x & <- & _). exact O. }
  assert (Ec : calls tr = solo p).
  { unfold tr, logged. cbn. apply calls_log. }
  destruct (run_ok zone (fun p => map a_name (d_arch (d p))) tr (new_lf prefix flag d) None false (fun p => dir_text (d p)) eq_refl
    ltac:(intros lv; discriminate) (start_ok _ prefix flag d (fun p => eq_refl)) C ND) as (_ & _ & _ & G & _).
  fold s in G. cbn [f_lg new_lf] in G. rewrite lg_calls, Ec in G. rewrite G in D.
  destruct (C78_lines_partial zone prefix flag d tr C ND) as (A & _). exists (map e_bytes (g_out (l_run (new_lg prefix flag) (solo p)))). split.
  - destruct (solo_due p (new_lg prefix flag) eq_refl D L) as (_ & E). change (written (l_run (new_lg prefix flag) (solo p)) = due 0 (solo p)) in E. rewrite <- E. unfold written. rewrite filter_true.
    2:{ intros r Hr. destruct (out_from prefix flag (solo p) r Hr) as (X & _). now rewrite (M _ _ _ X). }
    assert (K : forall r, In r (g_out (l_run (new_lg prefix flag) (solo p))) -> exists h, e_bytes r = h ++ content (e_msg r)) by (intros r Hr; apply (out_from prefix flag (solo p) r Hr)).
    induction (g_out (l_run (new_lg prefix flag) (solo p))) as [|r rs IH]; [constructor|]. cbn. constructor; [|apply IH; intros x Hx; apply K; now right].
    destruct (K r (or_introl eq_refl)) as (h & ->). exists h. cbn. split; [intros X; now apply content_framed|intros ->; now rewrite app_nil_r].
  - specialize (A path). fold s in A. rewrite A. f_equal. f_equal.
    pose proof (lines_all tr (new_lg prefix flag) None) as Q. rewrite Ec in Q. rewrite Q. cbn [new_lg g_out map app]. unfold tr. cbn [lines].
    unfold lines_of. rewrite filter_true; [reflexivity|].
    assert (W : forall l g x, In x (lines g (Some path) (map (fun c => FLog c e) l)) -> same (fst x) (Some path) = true).
    { induction l as [|y l IH]; intros g x; [intros []|]. cbn [map lines]. rewrite in_app_iff. intros [H|H]; [|now apply (IH _ _ H)].
      apply in_map_iff in H. destruct H as (r & <- & _). cbn. apply Z.eqb_refl. }
    exact (W (solo p) (new_lg prefix flag)).
Qed.
Print Assumptions C78_sequence_partial.

(* SetLogFile leaves nothing in memory: every line so far is on disk. *)
Theorem C78_set_flushes_partial zone prefix flag d tr q t : (forall l, In l tr -> calm l) ->
  let s := f_run zone (new_lf prefix flag d) (tr ++ [FSet q t]) in distinct_names d s -> g_dead (f_lg s) = false ->
  forall p, waiting s p = [] /\ disk s p = dir_text (d p) ++ text_of (lines_of (Some p) (lines (new_lg prefix flag) None tr)).
Proof.
  intros C s ND D p.
  assert (C' : forall l, In l (tr ++ [FSet q t]) -> calm l) by (intros l H; apply in_app_or in H; destruct H as [H|[<-|[]]]; [auto|exact I]).
  destruct (C78_lines_partial zone prefix flag d _ C' ND) as (A & _). specialize (A p). fold s in A.
  assert (El : lines (new_lg prefix flag) None (tr ++ [FSet q t]) = lines (new_lg prefix flag) None tr).
  { generalize (new_lg prefix flag) (@None Z). clear. induction tr as [|l tr IH]; intros g cur; [reflexivity|]. cbn [app]. rewrite (lines_cons g cur l (tr ++ _)), (lines_cons g cur l tr). now rewrite IH. }
  rewrite El in A.
  assert (W : waiting s p = []).
  { unfold s. rewrite f_run_app. cbn [f_run fold_left]. set (s0 := f_run zone (new_lf prefix flag d) tr).
    assert (D0 : g_dead (f_lg s0) = false).
    { unfold s in D. rewrite f_run_app in D. fold s0 in D. cbn in D. unfold f_step in D. destruct (g_dead (f_lg s0)) eqn:Q; [congruence|reflexivity]. }
    assert (ND0 : distinct_names d s0).
    { intros x. specialize (ND x). unfold s in ND. rewrite f_run_app in ND. fold s0 in ND. destruct (used_run zone [FSet q t] s0 x) as (y & E). rewrite E in ND. now apply nodup_prefix in ND. }
    destruct (run_ok zone (fun p => map a_name (d_arch (d p))) tr (new_lf prefix flag d) None false (fun p => dir_text (d p)) eq_refl
      ltac:(intros lv; discriminate) (start_ok _ prefix flag d (fun p => eq_refl)) C ND0) as ((cur & cons & F) & _).
    fold s0 in F. unfold f_step. rewrite D0. destruct (closing zone _ s0 cur cons _ t F) as (_ & Fc & _).
    change (match f_cur s0 with Some n => on_sink s0 n (fun st => lw_close (lw_flush st t)) | None => s0 end) with (after_close s0 t).
    unfold waiting. cbn [new_sink f_sinks]. rewrite map_app, concat_app. cbn. rewrite app_nil_r.
    replace (if q =? p then _ else _) with (@nil Z) by now destruct (q =? p). rewrite ?app_nil_r.
    clear - Fc. induction Fc as [|x l (Hf & Hx) Fc IH]; [reflexivity|]. cbn. rewrite IH, app_nil_r. destruct (k_path x =? p); [|reflexivity]. destruct (w_bw (k_w x)) as [b|]; [now apply Hx|reflexivity]. }
  split; [exact W|]. rewrite W, app_nil_r in A. exact A.
Qed.
Print Assumptions C78_set_flushes_partial.

(* A flush of the current Writer (its goroutine flushes every five seconds) leaves nothing in memory. *)
Theorem C78_flush_partial zone prefix flag d tr : (forall l, In l tr -> calm l) ->
  let s := f_run zone (new_lf prefix flag d) tr in distinct_names d s -> g_dead (f_lg s) = false ->
  exists k, forall t p, let s' := f_run zone s [FFlush k t] in
    waiting s' p = [] /\ disk s' p = dir_text (d p) ++ text_of (lines_of (Some p) (lines (new_lg prefix flag) None tr)).
Proof.
  intros C s ND D. exists (match f_cur s with Some n => n | None => O end). intros t p.
  destruct (run_ok zone (fun p => map a_name (d_arch (d p))) tr (new_lf prefix flag d) None false (fun p => dir_text (d p)) eq_refl
    ltac:(intros lv; discriminate) (start_ok _ prefix flag d (fun p => eq_refl)) C ND) as ((cur & cons & F) & _). fold s in F.
  set (k := match f_cur s with Some n => n | None => O end). cbv zeta. cbn [f_run fold_left]. unfold f_step. rewrite D.
  pose proof (waiting_ok _ _ _ _ _ p (flush_any zone _ s cur cons _ k t F)) as W. cbn [new_lf f_lg] in W.
  assert (E : waiting (on_sink s k (fun st => lw_flush st t)) p = []); [|rewrite E, app_nil_r in W; auto].
  destruct F as (N & F). destruct cur as [p0|].
  - destruct F as (old & k0 & E1 & E2 & E3 & E4 & Fc & S & Hd & O). unfold k, on_sink. rewrite E2, E1, nth_last.
    destruct (flush_holds zone (state_of s k0) t _ _ S (conj Hd (N _))) as (_ & _ & U & _).
    unfold waiting. cbn [put f_sinks]. rewrite E1, set_last, map_app, concat_app. cbn [map concat k_path k_w]. unfold unflushed in U. rewrite app_nil_r, U.
    replace (if k_path k0 =? p then _ else _) with (@nil Z) by now destruct (k_path k0 =? p). rewrite app_nil_r.
    clear - Fc. induction Fc as [|x l (Hf & Hx) Fc IH]; [reflexivity|]. cbn. rewrite IH, app_nil_r. destruct (k_path x =? p); [|reflexivity]. destruct (w_bw (k_w x)) as [b|]; [now apply Hx|reflexivity].
  - destruct F as (E & E' & _). unfold on_sink, waiting. rewrite E'. destruct k; cbn; now rewrite E'.
Qed.
Print Assumptions C78_flush_partial.

(* The size and age limits are the current file's: those set since its SetLogFile. *)
Theorem C78_limits zone prefix flag d tr w : (forall l, In l tr -> calm l) ->
  let s := f_run zone (new_lf prefix flag d) tr in g_dead (f_lg s) = false -> writer_now s = Some w ->
  w_max w = size_in_force tr /\ w_age w = age_in_force tr.
Proof.
  intros C s D E.
  assert (H : forall y, now_lim s = Some y -> y = fold_left next_lim tr (64 * 1024 * 1024, 31)).
  { apply lim_run; auto; [intros lv; discriminate|intros y; discriminate]. }
  specialize (H (lim w)). unfold now_lim in H. rewrite E in H. specialize (H eq_refl). rewrite fold_lim in H. unfold lim in H.
  unfold size_in_force, age_in_force. injection H as -> ->. auto.
Qed.
Print Assumptions C78_limits.

(* A file that cannot be opened: the line goes to standard error instead. *)
Theorem C78_unopened zone d path t e m : r_open (e_first e) = false ->
  let s := f_run zone (new_lf [] 0 d) [FSet path t; FLog (LStart Method 1 m) e; FLog (LLook 0 t0 here) e; FLog (LEmit 0) e] in
  f_err s = [content m] /\ forall p, disk s p = dir_text (d p).
Proof.
  intros O s.
  set (s1 := f_run zone (new_lf [] 0 d) [FSet path t; FLog (LStart Method 1 m) e; FLog (LLook 0 t0 here) e]).
  assert (E : s = run_hook s1 (write_out zone (with_lg s1 (l_step (f_lg s1) (LEmit 0))) (content m) e) (content m)) by reflexivity.
  assert (R : rotate zone false (LState new_writer (d path) []) (e_first e) = (LState (LWriter false None (match d_cur (d path) with Some (c, _) => zlen c | None => 0 end) (1024 * 1024 * 64) 31 (match d_cur (d path) with Some (_, x) => x | None => r_now (e_first e) end)) (d path) [], false)).
  { unfold rotate. cbn [l_w new_writer w_file l_dir w_bw w_size w_max w_age l_used]. destruct (d_cur (d path)) as [[c x]|]; now rewrite O. }
  rewrite E. clear E. unfold write_out. cbv zeta. change (f_cur (with_lg s1 (l_step (f_lg s1) (LEmit 0)))) with (Some 0%nat). cbv beta iota zeta.
  change (nth_error (f_sinks (with_lg s1 (l_step (f_lg s1) (LEmit 0)))) 0) with (Some (Sink path new_writer false)). cbv beta iota zeta.
  change (state_of (with_lg s1 (l_step (f_lg s1) (LEmit 0))) (Sink path new_writer false)) with (LState new_writer (d path) []).
  unfold lw_write. rewrite R. cbn [k_cons l_w new_writer w_file k_w snd fst negb andb put f_err to_err with_lg run_hook f_hook]. change (f_hook s1) with (@None hook). cbn [f_err]. split; [reflexivity|].
  intros p. unfold disk. match goal with |- dir_text (f_dirs ?x p) = _ => change (f_dirs x p) with (on_path d path (d path) p) end. unfold on_path. destruct (Z.eqb_spec p path) as [->|]; reflexivity.
Qed.
Print Assumptions C78_unopened.
Example C78_unopened_case : r_open (e_first (WEnv (REnv 0 0 true true false 0) 0 (renv_at 0) (renv_at 0) 0)) = false. Proof. reflexivity. Qed.

(* Two goroutines and two files: a line to standard error, a line and a longer one to file 1 (with
   a copy to standard error and a hook), then a line to file 2, and back to file 1. *)
Definition ev (k : Z) : wenv := wenv_at (today k).
Definition fs0 : Z -> dir := fun _ => Dir None [].
Definition say (m : string) (k : Z) : list flabel := [FLog (LStart Method 1 (str m)) (ev k); FLog (LLook 0 t0 here) (ev k); FLog (LEmit 0) (ev k)].
Definition trace : list flabel :=
  say "a" 1 ++ [FSet 1 (today 2); FLog (LStart Method 1 (str "b")) (ev 3); FLog (LStart Method 0 (str "c")) (ev 3); FLog (LLook 0 t0 here) (ev 3);
    FLog (LLook 1 t0 here) (ev 3); FHook (Some HPlain); FCons true; FLog (LEmit 1) (ev 3); FFlush 0 (today 4); FLog (LEmit 0) (ev 5); FSet 2 (today 6)] ++
  say "d" 7 ++ [FSet 1 (today 8)] ++ say "e" 9 ++ [FMax 1] ++ say "f" 10.
Example C78_case : (forall l, In l trace -> calm l) /\ distinct_names fs0 (f_run utc (new_lf [] 0 fs0) trace) /\
  methods_only (calls trace) /\ levels_ok (calls trace) /\ g_dead (f_lg (f_run utc (new_lf [] 0 fs0) trace)) = false /\
  lines (new_lg [] 0) None trace = [(None, str "a" ++ [nl]); (Some 1, str "c" ++ [nl]); (Some 1, str "b" ++ [nl]); (Some 2, str "d" ++ [nl]); (Some 1, str "e" ++ [nl]); (Some 1, str "f" ++ [nl])] /\
  (disk (f_run utc (new_lf [] 0 fs0) trace) 1, waiting (f_run utc (new_lf [] 0 fs0) trace) 1) = (map b2z (str "c" ++ [nl] ++ str "b" ++ [nl] ++ str "e" ++ [nl]), map b2z (str "f" ++ [nl])) /\
  disk (f_run utc (new_lf [] 0 fs0) trace) 2 = map b2z (str "d" ++ [nl]) /\
  f_err (f_run utc (new_lf [] 0 fs0) trace) = [str "a" ++ [nl]; str "c" ++ [nl]; str "b" ++ [nl]] /\
  f_seen (f_run utc (new_lf [] 0 fs0) trace) = [str "c" ++ [nl]; str "b" ++ [nl]; str "d" ++ [nl]; str "e" ++ [nl]; str "f" ++ [nl]].
Proof.
  split.
  { intros l H. cbn [trace say app In] in H. repeat (destruct H as [<-|H]; [vm_compute; auto|]). destruct H. }
  split.
  { intros p. cbn [fs0 d_arch map app]. destruct (Z.eq_dec p 1) as [->|N1]; [vm_compute; repeat constructor; cbn; intuition discriminate|].
    destruct (Z.eq_dec p 2) as [->|N2]; [vm_compute; constructor|].
    assert (E : f_used (f_run utc (new_lf [] 0 fs0) trace) p = []).
    { rewrite away_run; [reflexivity|constructor|]. unfold trace, say. cbn [app forallb sets negb andb]. destruct (Z.eqb_spec 1 p); [congruence|]. destruct (Z.eqb_spec 2 p); [congruence|]. reflexivity. }
    rewrite E. constructor. }
  split.
  { intros o level m H. vm_compute in H. repeat (destruct H as [H|H]; [try discriminate H; now injection H as <- _ _|]). destruct H. }
  split.
  { intros level m H. vm_compute in H. repeat (destruct H as [H|H]; [try discriminate H; injection H as <- _; lia|]). destruct H. }
  vm_compute. repeat split.
Qed.

(* The end of the process leaves every file as it is: what is waiting in memory is lost. *)
Theorem C78_exit_loses zone s tr : g_dead (f_lg s) = true -> forall p, disk (f_run zone s tr) p = disk s p.
Proof. intros D p. now rewrite dead_run. Qed.
Print Assumptions C78_exit_loses.
(* C78 is false of Fatal: it writes its record to the file's buffer and exits; neither the record
   nor the lines since the last flush reach the file. *)
Theorem C78_fatal_refuted : let tr := [FSet 1 (today 0)] ++ say "a" 1 ++ [FLog (LStart Method 5 (str "why")) (ev 2); FLog (LLook 0 t0 here) (ev 2); FLog (LEmit 0) (ev 2); FLog LExit (ev 2)] in
  let s := f_run utc (new_lf [] 0 fs0) tr in
  (forall l, In l tr -> calm l) /\ lines (new_lg [] 0) None tr = [(Some 1, str "a" ++ [nl]); (Some 1, str "why" ++ [nl])] /\
  g_dead (f_lg s) = true /\ forall tr', disk (f_run utc s tr') 1 = [].
Proof.
  cbv zeta. split; [intros l H; cbn [say app In] in H; repeat (destruct H as [<-|H]; [vm_compute; auto|]); destruct H|].
  split; [vm_compute; reflexivity|]. split; [vm_compute; reflexivity|]. intros tr'. rewrite C78_exit_loses by (vm_compute; reflexivity). vm_compute. reflexivity.
Qed.
Print Assumptions C78_fatal_refuted.

(* C78 is false when SetLogFile overlaps a log call: the line "b", completed between the two halves
   of Close, is in neither file, whatever is flushed afterwards. *)
Definition overlap : list flabel := [FSet 1 (today 0)] ++ say "a" 1 ++ [FFlush 0 (today 2)] ++ say "b" 3 ++ [FCloseFile 0; FNew 2] ++ say "c" 4 ++ [FFlush 1 (today 5)].
Theorem C78_overlap_refuted : let s := f_run utc (new_lf [] 0 fs0) overlap in
  map snd (lines (new_lg [] 0) None overlap) = [str "a" ++ [nl]; str "b" ++ [nl]; str "c" ++ [nl]] /\
  disk s 1 = map b2z (str "a" ++ [nl]) /\ disk s 2 = map b2z (str "c" ++ [nl]) /\
  forall ts, disk (f_run utc s (map (fun t => FFlush 0 t) ts)) 1 = map b2z (str "a" ++ [nl]).
Proof.
  cbv zeta. split; [vm_compute; reflexivity|]. split; [vm_compute; reflexivity|]. split; [vm_compute; reflexivity|].
  intros [|t ts]; [vm_compute; reflexivity|]. cbn [map]. cbn [f_run fold_left]. fold (f_run utc).
  set (s1 := f_step utc (f_run utc (new_lf [] 0 fs0) overlap) (FFlush 0 t)).
  assert (P : exists k w, g_dead (f_lg s1) = false /\ f_sinks s1 = k :: w /\ k_path k = 1 /\ disk s1 1 = map b2z (str "a" ++ [nl]) /\ exists b, w_bw (k_w k) = Some b /\ b_err b = true).
  { eexists _, _. split; [vm_compute; reflexivity|]. split; [vm_compute; reflexivity|]. split; [vm_compute; reflexivity|]. split; [vm_compute; reflexivity|]. eexists. split; vm_compute; reflexivity. }
  clearbody s1. revert s1 P. induction ts as [|u ts IH]; intros s1 (k & w & D & E & Ep & Ed & b & Eb & Er); [exact Ed|].
  cbn [map f_run fold_left]. apply IH. unfold f_step. rewrite D. unfold on_sink. rewrite E. cbn [nth_error].
  assert (Fx : lw_flush (state_of s1 k) u = state_of s1 k).
  { unfold lw_flush, state_of. cbn [l_w l_dir l_used]. rewrite Eb. unfold bw_flush. rewrite Er. rewrite <- Eb. now destruct (k_w k). }
  rewrite Fx. eexists _, _. split; [exact D|]. cbn [put f_sinks]. rewrite E. cbn [set_nth]. split; [reflexivity|]. cbn [k_path k_w state_of l_w]. split; [exact Ep|].
  split; [|now exists b]. rewrite <- Ed. unfold disk. cbn [put f_dirs state_of l_dir]. unfold on_path. rewrite Ep. reflexivity.
Qed.
Print Assumptions C78_overlap_refuted.

(* C78 is false of a hook that logs: the call waits for the lock it holds, and no line is ever
   written again. *)
Theorem C78_hook_refuted zone d e level m : 0 <= level <= 5 ->
  let s := f_run zone (new_lf [] 0 d) [FHook (Some (HLogs level)); FLog (LStart Method level m) e; FLog (LLook 0 t0 here) e; FLog (LEmit 0) e] in
  map e_bytes (g_out (f_lg s)) = [content m] /\ forall tr, g_out (f_lg (f_run zone s tr)) = g_out (f_lg s).
Proof.
  intros L s. assert (E : map e_bytes (g_out (f_lg s)) = [content m] /\ f_hung s = true).
  { unfold s. clear s. assert (level = 0 \/ level = 1 \/ level = 2 \/ level = 3 \/ level = 4 \/ level = 5) as Q by lia.
    destruct Q as [->|[->|[->|[->|[->| ->]]]]]; vm_compute; auto. }
  destruct E as (E & H). split; [exact E|]. intros tr. now apply hung_stays.
Qed.
Print Assumptions C78_hook_refuted.

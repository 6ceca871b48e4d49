(* C89: what one log call does. *)
From Coq Require Import ZArith List Bool Lia String.
From Verif Require Import Bytes LogCore Spec_LogCore LogCall Spec_LogCall LogCall_proofs.
Import ListNotations.
Local Open Scope Z_scope.
Local Open Scope list_scope.

(* C89.  A level method of the user's own logger, a package function, or a method of Ins() while
   no logger was set: after any settings, at any place, called by whatever chain of functions,
   the call writes one record.  Its header has the severity of the method and the file and line
   of the call; the hook, if there is one, gets the same bytes.  Then Panic panics with the text,
   Fatal ends the process, and the others return.  Missing: without a time flag (C64), and the
   calls refuted below. *)
Theorem C89_record_partial prefix flag os t stack file line e s trace p0 f0 xs m :
  asks prefix flag os e p0 f0 xs m -> made_at stack file line -> time_ok t -> nat63 line -> timed (flags_of f0 xs) = true ->
  m = Stack \/ threshold xs <= severity m -> s <> [] ->
  exists m' h b, said m s trace m' /\ header_is (prefix_of p0 xs) (flags_of f0 xs) t file line (severity m) h /\ framed h m' b /\
    call (lops (begin prefix flag) os) t stack e s trace = (ctx_of e ++ Wrote b :: (if hooked xs then [Hooked b] else []), ends_as m m').
Proof.
  intros A (callers & ->) T N F I S. rewrite lops_is. cbn [begin s_std s_own s_custom].
  destruct A as [m|m|d C]; cbn [call s_own s_std s_custom].
  - rewrite sets_is. assert (X : text m s trace <> []) by (destruct m, s; cbn; congruence).
    destruct (method_ok (Core (prefix_of prefix (own_settings os)) (flags_of flag (own_settings os)) (threshold (own_settings os)) 2 (hooked (own_settings os))) t ((file, line) :: callers) m s trace file line T N F X I eq_refl) as (h & b & M & P & Q).
    exists (text m s trace), h, b. split; [apply said_text|]. split; [exact P|]. split; [exact Q|exact M].
  - rewrite sets_is. assert (X : text m s trace <> []) by (destruct m, s; cbn; congruence). unfold pkg.
    destruct (method_ok (Core (prefix_of [] (std_settings os)) (flags_of BitDefault (std_settings os)) (threshold (std_settings os)) 3 (hooked (std_settings os))) t ((str "zlog/stdzlog.go", std_line m) :: (file, line) :: callers) m s trace file line T N F X I eq_refl) as (h & b & M & P & Q).
    exists (text m s trace), h, b. split; [apply said_text|]. split; [exact P|]. split; [exact Q|exact M].
  - rewrite sets_is, C. cbn [orb]. unfold default_log. replace (def_meth d) with (kind d) by (symmetry; apply kind_is). assert (X : text (kind d) s [] <> []) by (destruct d, s; cbn; congruence).
    destruct (method_ok (Core (prefix_of [] (std_settings os)) (flags_of BitDefault (std_settings os)) (threshold (std_settings os)) 3 (hooked (std_settings os))) t ((str "zlog/default.go", def_line d) :: (file, line) :: callers) (kind d) s [] file line T N F X I eq_refl) as (h & b & M & P & Q).
    exists (text (kind d) s []), h, b. split; [destruct d; reflexivity|]. split; [exact P|]. split; [exact Q|].
    cbn [c_prefix c_flag c_iso c_depth c_hook std_core new_core orb] in *. unfold threshold in M. rewrite M. destruct d; reflexivity.
Qed.
Print Assumptions C89_record_partial.

(* Below the threshold nothing is written and the call returns, Panic and Fatal too; Stack apart (C62). *)
Theorem C89_quiet prefix flag os t stack e s trace p0 f0 xs m :
  asks prefix flag os e p0 f0 xs m -> m <> Stack -> severity m < threshold xs ->
  call (lops (begin prefix flag) os) t stack e s trace = (ctx_of e, Returns).
Proof.
  intros A S I. rewrite lops_is. cbn [begin s_std s_own s_custom]. destruct A as [m|m|d C]; cbn [call s_own s_std s_custom].
  - rewrite sets_is. now apply method_quiet.
  - rewrite sets_is. unfold pkg. now apply method_quiet.
  - rewrite sets_is, C. cbn [orb]. unfold default_log. replace (def_meth d) with (kind d) by (symmetry; apply kind_is). rewrite method_quiet by assumption. destruct d; reflexivity.
Qed.
Print Assumptions C89_quiet.

(* After SetLogger the methods of Ins() are the user's logger's and write no record of their own;
   the package functions are as before, by the theorems above. *)
Theorem C89_custom prefix flag os t stack d s trace : custom os = true ->
  call (lops (begin prefix flag) os) t stack (Ins d) s trace = ([ToCustom d s], Returns).
Proof. intros C. rewrite lops_is. cbn. now rewrite C. Qed.
Print Assumptions C89_custom.

Definition t1 : time := Time 2023 4 5 6 7 8 9.
Definition at_main : list frame := [(str "/app/main.go", 12); (str "/go/runtime/proc.go", 267)].
Example C89_case :
  let os := [OnOwn (SetLogLevel 2); OnStd (SetPrefix (str "z")); SetLogger] in let p := lops (begin (str "p") BitDefault) os in
  asks (str "p") BitDefault os (Own Warn) (str "p") BitDefault [SetLogLevel 2] Warn /\ made_at at_main (str "/app/main.go") 12 /\ time_ok t1 /\ timed (flags_of BitDefault [SetLogLevel 2]) = true /\
  call p t1 at_main (Own Info) (str "x") [] = ([], Returns) /\
  call p t1 at_main (Own Warn) (str "x") [] = ([Wrote (str "<p>2023/04/05 06:07:08 [WARN]main.go:12: x" ++ [nl])], Returns) /\
  call p t1 at_main (Pkg Panicf) (str "y") [] = ([Wrote (str "<z>2023/04/05 06:07:08 [PANIC]main.go:12: y" ++ [nl])], Panics (str "y")) /\
  call p t1 at_main (Ins InfoF) (str "x") [] = ([ToCustom InfoF (str "x")], Returns) /\
  call (begin [] 0) t1 at_main (Ins ErrorFX) (str "x") [] = ([PrintedCtx; Wrote (str "2023/04/05 06:07:08 [ERROR]main.go:12: x" ++ [nl])], Returns).
Proof.
  cbv zeta. split; [exact (AskOwn _ _ [OnOwn (SetLogLevel 2); OnStd (SetPrefix (str "z")); SetLogger] Warn)|]. split; [eexists; reflexivity|].
  split; [unfold time_ok, nat63, t1; cbn; lia|]. split; [vm_compute; reflexivity|]. repeat split; vm_compute; reflexivity.
Qed.

(* Refuted (F89) for the methods of StdZinxLog called by themselves, and for OutPut: the record
   names the place that called the function the log call is in. *)
Theorem C89_direct_refuted prefix flag os t file line file' line' callers m level s trace :
  time_ok t -> nat63 line' -> 0 <= level <= 5 -> s <> [] ->
  let stack := (file, line) :: (file', line') :: callers in let p := lops (begin prefix flag) os in
  (timed (flags_of BitDefault (std_settings os)) = true -> m = Stack \/ threshold (std_settings os) <= severity m ->
   exists m' h b, said m s trace m' /\ header_is (prefix_of [] (std_settings os)) (flags_of BitDefault (std_settings os)) t file' line' (severity m) h /\ framed h m' b /\
     In (Wrote b) (fst (call p t stack (StdDirect m) s trace))) /\
  (timed (flags_of flag (own_settings os)) = true ->
   exists h b, header_is (prefix_of prefix (own_settings os)) (flags_of flag (own_settings os)) t file' line' level h /\ framed h s b /\
     In (Wrote b) (fst (call p t stack (OwnOutPut level) s trace))).
Proof.
  intros T N L S stack p. subst stack p. rewrite lops_is. cbn [begin s_std s_own s_custom call]. split.
  - intros F I. rewrite sets_is. assert (X : text m s trace <> []) by (destruct m, s; cbn; congruence).
    destruct (method_ok (Core (prefix_of [] (std_settings os)) (flags_of BitDefault (std_settings os)) (threshold (std_settings os)) 3 (hooked (std_settings os))) t ((file, line) :: (file', line') :: callers) m s trace file' line' T N F X I eq_refl) as (h & b & M & P & Q).
    exists (text m s trace), h, b. split; [apply said_text|]. split; [exact P|]. split; [exact Q|].
    cbn [c_prefix c_flag c_iso c_depth c_hook std_core new_core orb] in *. unfold threshold in M. rewrite M. now left.
  - intros F. rewrite sets_is.
    destruct (out_put_ok (Core (prefix_of prefix (own_settings os)) (flags_of flag (own_settings os)) (threshold (own_settings os)) 2 (hooked (own_settings os))) t ((file, line) :: (file', line') :: callers) level s file' line' T L N F S eq_refl) as (h & b & M & P & Q).
    exists h, b. split; [exact P|]. split; [exact Q|].
    cbn [c_prefix c_flag c_iso c_depth c_hook std_core new_core orb] in *. unfold threshold in M. rewrite M. now left.
Qed.
Print Assumptions C89_direct_refuted.
Example C89_direct_case :
  call (begin [] BitDefault) t1 ((str "/app/db.go", 3) :: at_main) (StdDirect Infof) (str "x") [] = ([Wrote (str "2023/04/05 06:07:08 [INFO]main.go:12: x" ++ [nl])], Returns) /\
  call (begin [] BitDefault) t1 ((str "/app/db.go", 3) :: at_main) (OwnOutPut 1) (str "x") [] = ([Wrote (str "2023/04/05 06:07:08 [INFO]main.go:12: x" ++ [nl])], Returns).
Proof. vm_compute. auto. Qed.
(* Refuted (F90): below the threshold the methods with a context still print the context, on
   standard output and not in the log. *)
Theorem C89_ctx_refuted prefix flag t stack d s trace v : v > 3 -> with_ctx d = true ->
  call (lops (begin prefix flag) [OnStd (SetLogLevel v)]) t stack (Ins d) s trace = ([PrintedCtx], Returns).
Proof.
  intros V W. assert (H : severity (kind d) < threshold [SetLogLevel v]) by (destruct d; cbn; lia).
  rewrite (C89_quiet prefix flag [OnStd (SetLogLevel v)] t stack (Ins d) s trace [] BitDefault [SetLogLevel v] (kind d)); [destruct d; try discriminate W; reflexivity|exact (AskIns _ _ [OnStd (SetLogLevel v)] d eq_refl)|destruct d; discriminate|exact H].
Qed.
Print Assumptions C89_ctx_refuted.

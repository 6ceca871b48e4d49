From Coq Require Import ZArith List Bool Lia.
From Verif Require Import Bytes LogCore Spec_LogCore LogCore_proofs LogCall Spec_LogCall.
Import ListNotations.
Local Open Scope Z_scope.

Definition sets (l : core) (xs : list setting) : core := fold_left set1 xs l.
Lemma sets_is xs : forall l, sets l xs =
  Core (prefix_of (c_prefix l) xs) (flags_of (c_flag l) xs) (fold_left (fun v x => match x with SetLogLevel w => w | _ => v end) xs (c_iso l)) (c_depth l) (c_hook l || hooked xs).
Proof.
  induction xs as [|x xs IH]; intros l; [destruct l; cbn; now rewrite orb_false_r|]. unfold sets in *. cbn [fold_left]. rewrite IH. destruct l, x; cbn; try reflexivity.
  now rewrite orb_true_r.
Qed.
Lemma lops_is os : forall p, lops p os = Logs (sets (s_std p) (std_settings os)) (sets (s_own p) (own_settings os)) (s_custom p || custom os).
Proof.
  induction os as [|o os IH]; intros p; [destruct p; cbn; now rewrite orb_false_r|]. unfold lops in *. cbn [fold_left]. rewrite IH. destruct p, o; cbn; try reflexivity.
  now rewrite orb_true_r.
Qed.
Lemma severity_is m : level_of m = severity m. Proof. now destruct m. Qed.
Lemma kind_is d : def_meth d = kind d. Proof. now destruct d. Qed.
Lemma said_text m s trace : said m s trace (text m s trace). Proof. destruct m; reflexivity. Qed.

Lemma out_put_ok l t stack level s file line : time_ok t -> 0 <= level <= 5 -> nat63 line -> timed (c_flag l) = true -> s <> [] ->
  nth_error ((core_file, 208) :: stack) (c_depth l) = Some (file, line) ->
  exists h b, out_put l t stack level s = (Wrote b :: (if c_hook l then [Hooked b] else []), Returns) /\ header_is (c_prefix l) (c_flag l) t file line level h /\ framed h s b.
Proof.
  intros T L N F S E. unfold out_put. rewrite E. unfold look. rewrite has_file. destruct (wants_file (c_flag l)) eqn:W.
  - destruct (header_ok (c_prefix l) (c_flag l) t file line level T L N F) as (h & H & P). rewrite H. exists h, (h ++ content s). split; [reflexivity|]. split; [exact P|]. now apply content_framed.
  - destruct (header_ok (c_prefix l) (c_flag l) t [] 0 level T L ltac:(unfold nat63; lia) F) as (h & H & P). rewrite H. exists h, (h ++ content s). split; [reflexivity|].
    split; [|now apply content_framed]. destruct P as (d & c & w & P1 & P2 & P3 & P4). exists d, c, w. rewrite W in *. auto.
Qed.
Lemma method_ok l t stack m s trace file line : time_ok t -> nat63 line -> timed (c_flag l) = true -> text m s trace <> [] ->
  m = Stack \/ c_iso l <= severity m -> nth_error ((core_file, 208) :: (core_file, core_line m) :: stack) (c_depth l) = Some (file, line) ->
  exists h b, method l t stack m s trace = (Wrote b :: (if c_hook l then [Hooked b] else []), ends_as m (text m s trace)) /\ header_is (c_prefix l) (c_flag l) t file line (severity m) h /\ framed h (text m s trace) b.
Proof.
  intros T N F S I E. unfold method. assert (X : isolated l m = false).
  { unfold isolated. rewrite severity_is. destruct I as [->|I]; [reflexivity|]. assert (G : (c_iso l >? severity m) = false) by (rewrite Z.gtb_ltb; apply Z.ltb_ge; lia). destruct m; auto. }
  rewrite X, severity_is. destruct (out_put_ok l t ((core_file, core_line m) :: stack) (severity m) (text m s trace) file line T ltac:(destruct m; cbn; lia) N F S E) as (h & b & O & P & Q).
  rewrite O. exists h, b. split; [|auto]. destruct m; reflexivity.
Qed.
Lemma method_quiet l t stack m s trace : m <> Stack -> severity m < c_iso l -> method l t stack m s trace = ([], Returns).
Proof. intros S I. unfold method. assert (X : isolated l m = true) by (unfold isolated; rewrite severity_is; destruct m; try congruence; apply Z.gtb_lt; lia). now rewrite X. Qed.

From Coq Require Import ZArith List Bool Lia ZifyBool.
From Verif Require Import Bytes Conf Spec_Conf.
Import ListNotations.
Local Open Scope Z_scope.

Lemma ov_str l old : overrides [] l old (if is_empty l then old else l).
Proof. destruct l; split; cbn [is_empty]; congruence. Qed.
Lemma ov_int z old : overrides 0 z old (if z =? 0 then old else z).
Proof. split; intros H; destruct (Z.eqb_spec z 0); congruence. Qed.
Lemma ov_bool b old : overrides false b old (if b then b else old).
Proof. destruct b; split; congruence. Qed.

(* Each field after one statement, kept as a conditional on the user's value alone. *)
Lemma strs_exec u st s f : strs (fst (exec u st s)) f =
  match s with
  | S f' => if sfield_beq f f' then (if is_empty (strs u f') then strs (fst st) f else strs u f') else strs (fst st) f
  | File => if sfield_beq f LogFile then (if is_empty (strs u LogFile) then strs (fst st) f else strs u LogFile) else strs (fst st) f
  | _ => strs (fst st) f
  end.
Proof.
  destruct st as [g l], s as [f'|f'|f'| | |]; cbn [exec fst]; try reflexivity.
  - destruct (is_empty (strs u f')); cbn [put_s strs]; destruct (sfield_beq f f'); reflexivity.
  - destruct (ints u f' =? 0); reflexivity.
  - destruct (bools u f'); reflexivity.
  - destruct (negb (bools u KcpStreamMode)); reflexivity.
  - destruct (is_empty (strs u LogFile)); cbn [put_s strs fst]; destruct (sfield_beq f LogFile); reflexivity.
Qed.
Lemma ints_exec u st s f : ints (fst (exec u st s)) f =
  match s with
  | I f' => if ifield_beq f f' then (if ints u f' =? 0 then ints (fst st) f else ints u f') else ints (fst st) f
  | Level => if ifield_beq f LogIsolationLevel then ints u LogIsolationLevel else ints (fst st) f
  | _ => ints (fst st) f
  end.
Proof.
  destruct st as [g l], s as [f'|f'|f'| | |]; cbn [exec fst]; try reflexivity.
  - destruct (is_empty (strs u f')); reflexivity.
  - destruct (ints u f' =? 0); cbn [put_i ints]; destruct (ifield_beq f f'); reflexivity.
  - destruct (bools u f'); reflexivity.
  - destruct (negb (bools u KcpStreamMode)); reflexivity.
  - destruct (is_empty (strs u LogFile)); reflexivity.
Qed.
Lemma bools_exec u st s f : bools (fst (exec u st s)) f =
  match s with
  | B f' => if bfield_beq f f' then (if bools u f' then bools u f' else bools (fst st) f) else bools (fst st) f
  | Stream => if bfield_beq f KcpStreamMode then (if bools u KcpStreamMode then bools (fst st) f else false) else bools (fst st) f
  | _ => bools (fst st) f
  end.
Proof.
  destruct st as [g l], s as [f'|f'|f'| | |]; cbn [exec fst]; try reflexivity.
  - destruct (is_empty (strs u f')); reflexivity.
  - destruct (ints u f' =? 0); reflexivity.
  - destruct (bools u f') eqn:E; cbn [put_b bools]; destruct (bfield_beq f f'); congruence.
  - destruct (bools u KcpStreamMode) eqn:E; cbn [negb put_b bools]; destruct (bfield_beq f KcpStreamMode); congruence.
  - destruct (is_empty (strs u LogFile)); reflexivity.
Qed.

Definition next_s u f (old : list byte) (s : stmt) : list byte :=
  match s with
  | S f' => if sfield_beq f f' then (if is_empty (strs u f') then old else strs u f') else old
  | File => if sfield_beq f LogFile then (if is_empty (strs u LogFile) then old else strs u LogFile) else old
  | _ => old
  end.
Definition next_i u f (old : Z) (s : stmt) : Z :=
  match s with
  | I f' => if ifield_beq f f' then (if ints u f' =? 0 then old else ints u f') else old
  | Level => if ifield_beq f LogIsolationLevel then ints u LogIsolationLevel else old
  | _ => old
  end.
Definition next_b u f (old : bool) (s : stmt) : bool :=
  match s with
  | B f' => if bfield_beq f f' then (if bools u f' then bools u f' else old) else old
  | Stream => if bfield_beq f KcpStreamMode then (if bools u KcpStreamMode then old else false) else old
  | _ => old
  end.
Lemma strs_run u f : forall p st, strs (fst (fold_left (exec u) p st)) f = fold_left (next_s u f) p (strs (fst st) f).
Proof. induction p as [|s p IH]; intros st; [reflexivity|]. cbn [fold_left]. rewrite IH. f_equal. apply strs_exec. Qed.
Lemma ints_run u f : forall p st, ints (fst (fold_left (exec u) p st)) f = fold_left (next_i u f) p (ints (fst st) f).
Proof. induction p as [|s p IH]; intros st; [reflexivity|]. cbn [fold_left]. rewrite IH. f_equal. apply ints_exec. Qed.
Lemma bools_run u f : forall p st, bools (fst (fold_left (exec u) p st)) f = fold_left (next_b u f) p (bools (fst st) f).
Proof. induction p as [|s p IH]; intros st; [reflexivity|]. cbn [fold_left]. rewrite IH. f_equal. apply bools_exec. Qed.

Lemma strs_final u g l f : str_ok u g (fst (user_conf_to_global u (g, l))) f.
Proof.
  unfold str_ok, user_conf_to_global. rewrite strs_run. cbn [fst].
  destruct f; cbn [fold_left overlay_code next_s sfield_beq]; apply ov_str.
Qed.
Lemma ints_final u g l f : f <> LogIsolationLevel -> f <> LogSaveDays -> f <> LogFileSize -> int_ok u g (fst (user_conf_to_global u (g, l))) f.
Proof.
  intros N1 N2 N3. unfold int_ok, user_conf_to_global. rewrite ints_run. cbn [fst].
  destruct f; try congruence; cbn [fold_left overlay_code next_i ifield_beq]; apply ov_int.
Qed.
Lemma ints_odd u g l : let r := fst (user_conf_to_global u (g, l)) in
  ints r LogIsolationLevel = ints u LogIsolationLevel /\ ints r LogSaveDays = ints g LogSaveDays /\ ints r LogFileSize = ints g LogFileSize.
Proof. unfold user_conf_to_global. rewrite !ints_run. cbn [fst fold_left overlay_code next_i ifield_beq]. auto. Qed.
Lemma bools_final u g l f : f <> KcpStreamMode -> f <> LogCons -> bool_ok u g (fst (user_conf_to_global u (g, l))) f.
Proof.
  intros N1 N2. unfold bool_ok, user_conf_to_global. rewrite bools_run. cbn [fst].
  destruct f; try congruence; cbn [fold_left overlay_code next_b bfield_beq]; apply ov_bool.
Qed.
Lemma bools_odd u g l : let r := fst (user_conf_to_global u (g, l)) in
  bools r KcpStreamMode = bools u KcpStreamMode && bools g KcpStreamMode /\ bools r LogCons = bools g LogCons.
Proof. unfold user_conf_to_global. rewrite !bools_run. cbn [fst fold_left overlay_code next_b bfield_beq]. destruct (bools u KcpStreamMode); auto. Qed.

Definition plain (s : stmt) : bool := match s with Level | File | S LogDir => false | _ => true end.
Lemma plain_exec u st s : plain s = true -> snd (exec u st s) = snd st /\ strs (fst (exec u st s)) LogDir = strs (fst st) LogDir.
Proof.
  destruct st as [g l]. intros P. rewrite strs_exec. destruct s as [f|f|f| | |]; try discriminate P; (split; [reflexivity|]); try reflexivity.
  destruct f; try discriminate P; reflexivity.
Qed.
Lemma plain_run u : forall p st, forallb plain p = true -> snd (fold_left (exec u) p st) = snd st /\ strs (fst (fold_left (exec u) p st)) LogDir = strs (fst st) LogDir.
Proof.
  induction p as [|s p IH]; intros st F; [auto|]. cbn [forallb] in F. apply andb_true_iff in F. destruct F as [P F].
  cbn [fold_left]. destruct (IH (exec u st s) F) as [-> ->]. now apply plain_exec.
Qed.
Lemma logger_final u g l : let r := user_conf_to_global u (g, l) in
  o_level (snd r) = (if ints u LogIsolationLevel >? 0 then ints u LogIsolationLevel else o_level l) /\
  o_file (snd r) = (if is_empty (strs u LogFile) then o_file l else Some (Writer (strs (fst r) LogDir) (strs u LogFile) defMaxAge defMaxSize false)).
Proof.
  unfold user_conf_to_global. rewrite <- (firstn_skipn 11 overlay_code), fold_left_app.
  destruct (plain_run u (firstn 11 overlay_code) (g, l) eq_refl) as [E1 E2].
  remember (fold_left (exec u) (firstn 11 overlay_code) (g, l)) as st1 eqn:X. clear X. cbn [fst snd] in E1, E2.
  change (skipn 11 overlay_code) with ([Level; S LogDir; File] ++ skipn 14 overlay_code). rewrite fold_left_app.
  remember (fold_left (exec u) [Level; S LogDir; File] st1) as st2 eqn:X.
  destruct (plain_run u (skipn 14 overlay_code) st2 eq_refl) as [F1 F2]. cbn zeta. rewrite F1, F2. clear F1 F2.
  destruct st1 as [g1 l1]. cbn [fst snd] in E1, E2. subst l1. cbn [fold_left] in X. unfold exec in X. cbn [put_i ints ifield_beq] in X.
  destruct (is_empty (strs u LogDir)) eqn:D; destruct (is_empty (strs u LogFile)) eqn:F; destruct (ints u LogIsolationLevel >? 0) eqn:L;
    subst st2; cbn [fst snd set_log_file set_level o_level o_file put_s put_i strs sfield_beq]; auto.
Qed.

Lemma init_ok g : ints g LogIsolationLevel >= 0 -> reflects g (init_log_config g (Logger 0 None)).
Proof.
  intros L. unfold init_log_config, reflects. cbn zeta. destruct (strs g LogFile) as [|c f] eqn:E; cbn [is_empty].
  - split; [|split; [congruence|intros _]].
    + destruct (0 <? ints g LogSaveDays), (0 <? ints g LogFileSize); destruct (ints g LogIsolationLevel >? 0) eqn:X; cbn; lia.
    + destruct (0 <? ints g LogSaveDays), (0 <? ints g LogFileSize); destruct (ints g LogIsolationLevel >? 0) eqn:X; reflexivity.
  - split; [|split; [intros _|congruence]].
    + destruct (0 <? ints g LogSaveDays), (0 <? ints g LogFileSize); destruct (ints g LogIsolationLevel >? 0) eqn:X; cbn; lia.
    + exists (Writer (strs g LogDir) (c :: f) (if 0 <? ints g LogSaveDays then ints g LogSaveDays else defMaxAge) (if 0 <? ints g LogFileSize then ints g LogFileSize else defMaxSize) (bools g LogCons)).
      cbn [w_dir w_file w_cons w_age w_size]. split; [|repeat split; try reflexivity; intros H; match goal with |- context [if ?b then _ else _] => destruct b eqn:Y end; lia].
      destruct (0 <? ints g LogSaveDays) eqn:A; destruct (0 <? ints g LogFileSize) eqn:B; destruct (ints g LogIsolationLevel >? 0) eqn:X; cbn;
        rewrite ?E; try reflexivity; replace (ints g LogFileSize <? 1) with false by lia; reflexivity.
Qed.

(* C93: the configuration file. *)
From Coq Require Import String ZArith List Bool Lia.
From Verif Require Import Bytes Conf Spec_Conf Conf_proofs ConfFile Spec_ConfFile ConfFile_proofs Props_Conf.
Import ListNotations.
Local Open Scope list_scope.
Local Open Scope Z_scope.
Notation str := list_byte_of_string.

(* For every file whose values fit and every configuration in force: Reload returns, a field
   the file gives has the value given last, and every other field is as before. *)
Theorem C93_file : forall ms g l, fits ms -> let r := reload (Object ms) g l in
  snd r = false /\ forall f, (forall v, given ms f v -> has (fst (fst r)) f = v) /\ (silent ms f -> has (fst (fst r)) f = has g f).
Proof.
  intros ms g l F r. unfold r, reload. pose proof (unmarshal_bad_gen ms g) as B. unfold unmarshal.
  pose proof (fun f => unmarshal_has ms f g false) as U. destruct (fold_left store ms (g, false)) as [g' b]. cbn [fst snd] in *. rewrite (proj2 B F). split; [reflexivity|].
  intros f. destruct (U f) as (U1 & U2). split; [|exact U2]. intros v G. apply U1; [exact G|].
  destruct G as (m1 & k & m2 & -> & G & _). apply (F (k, v) f); [apply in_or_app; right; now left|exact G].
Qed.
Print Assumptions C93_file.
(* Every field is one or the other. *)
Theorem C93_said : forall ms f, (exists v, given ms f v) \/ silent ms f.
Proof. exact given_or_silent. Qed.
Print Assumptions C93_said.

(* Without a file (or with the JSON null) nothing changes. *)
Theorem C93_none : forall fl g l, fl = Missing \/ fl = NoStat \/ fl = NullDoc -> snd (reload fl g l) = false /\ fst (fst (reload fl g l)) = g.
Proof. intros fl g l [-> | [-> | ->]]; split; reflexivity. Qed.
Print Assumptions C93_none.

(* Reload panics exactly on a file that cannot be read, is no JSON object, or has a value that
   does not fit; if there is no object to read, nothing has changed. *)
Theorem C93_stops : forall fl g l, let r := reload fl g l in
  (snd r = true <-> fl = NoRead \/ fl = NotJson \/ fl = NotObject \/ exists ms, fl = Object ms /\ ~ fits ms) /\
  (fl = NoRead \/ fl = NotJson \/ fl = NotObject -> fst r = (g, l)).
Proof.
  intros fl g l r. split; [|intros [-> | [-> | ->]]; reflexivity].
  destruct fl as [ | | | | | |ms]; cbn in r; try (split; [intros H; discriminate H|intros [H|[H|[H|(ms & H & _)]]]; discriminate H]); try (split; [intros _; tauto|reflexivity]).
  unfold r, unmarshal. pose proof (unmarshal_bad_gen ms g) as B. destruct (fold_left store ms (g, false)) as [g' []]; cbn [snd] in *; split.
  - intros _. right. right. right. exists ms. split; [reflexivity|]. intros F. apply B in F. discriminate.
  - reflexivity.
  - discriminate.
  - intros [H|[H|[H|(ms' & H & N)]]]; try discriminate. injection H as <-. exfalso. now apply N, B.
Qed.
Print Assumptions C93_stops.

(* When the program starts: each field has the file's value, or the built-in one; and the
   logger does what that configuration says. *)
Theorem C93_start : forall pwd fl, let r := start pwd fl in snd r = false ->
  (forall f, (forall ms v, fl = Object ms -> given ms f v -> has (fst (fst r)) f = v) /\
             ((forall ms, fl = Object ms -> silent ms f) -> has (fst (fst r)) f = built_in pwd f)) /\
  (ints (fst (fst r)) LogIsolationLevel >= 0 -> reflects (fst (fst r)) (snd (fst r))).
Proof.
  intros pwd fl r H. assert (D : forall f, has (defaults pwd) f = built_in pwd f) by (intros [f|f|f]; destruct f; reflexivity).
  split.
  - intros f. destruct fl as [ | | | | | |ms]; try discriminate H; try (split; [intros ms v E; discriminate E|intros _; apply D]).
    destruct (C93_stops (Object ms) (defaults pwd) (Logger 0 None)) as (B & _).
    assert (F : fits ms).
    { apply (unmarshal_bad_gen ms (defaults pwd)). unfold r, start, reload, unmarshal in H. now destruct (fold_left store ms (defaults pwd, false)) as [g' []]. }
    destruct (C93_file ms (defaults pwd) (Logger 0 None) F) as (_ & K). destruct (K f) as (K1 & K2). split.
    + intros ms' v E. injection E as <-. apply K1.
    + intros S. unfold r, start. rewrite (K2 (S ms eq_refl)). apply D.
  - unfold r, start, reload. destruct fl; try (intros L; apply C66_loaded; exact L); try discriminate H.
    unfold r, start, reload in H. destruct (unmarshal ms (defaults pwd)) as [g' []]; [discriminate H|]. intros L. now apply C66_loaded.
Qed.
Print Assumptions C93_start.

(* A later Reload, whatever the logger did before: it does what the new configuration says if
   that names a log file and a level above 0.  Missing: without a log file, or with level 0; false
   (below). *)
Theorem C93_again_partial : forall fl g l, let r := reload fl g l in snd r = false ->
  strs (fst (fst r)) LogFile <> [] -> ints (fst (fst r)) LogIsolationLevel > 0 -> reflects (fst (fst r)) (snd (fst r)).
Proof.
  intros fl g l r H. assert (E : snd (fst r) = init_log_config (fst (fst r)) l).
  { unfold r, reload in *. destruct fl; try reflexivity; try discriminate H. destruct (unmarshal ms g) as [g' []]; [discriminate H|reflexivity]. }
  rewrite E. clearbody r. destruct r as [[g' l'] b]. cbn [fst snd] in *. clear E H. intros Nf Lv.
  unfold init_log_config, reflects. destruct (strs g' LogFile) as [|c s] eqn:Ef; [congruence|]. cbn [is_empty].
  destruct (Z.gtb_spec (ints g' LogIsolationLevel) 0); [|lia].
  split; [reflexivity|]. split; [|congruence]. intros _.
  destruct (Z.ltb_spec 0 (ints g' LogSaveDays)), (Z.ltb_spec 0 (ints g' LogFileSize)); cbn; (destruct (Z.ltb_spec (ints g' LogFileSize) 1); [lia|]) || idtac; eexists; repeat split; try reflexivity; cbn; lia.
Qed.
Print Assumptions C93_again_partial.

(* Refuted (F96): a Reload does not take the logger back: to level 0 the logger keeps filtering, and
   without a log file it keeps writing to the one it had. *)
Theorem C93_again_refuted : forall fl g l, let r := reload fl g l in snd r = false ->
  (ints (fst (fst r)) LogIsolationLevel = 0 /\ o_level l <> 0) \/ (strs (fst (fst r)) LogFile = [] /\ o_file l <> None) ->
  ~ reflects (fst (fst r)) (snd (fst r)).
Proof.
  intros fl g l r H. assert (E : snd (fst r) = init_log_config (fst (fst r)) l).
  { unfold r, reload in *. destruct fl; try reflexivity; try discriminate H. destruct (unmarshal ms g) as [g' []]; [discriminate H|reflexivity]. }
  rewrite E. clearbody r. destruct r as [[g' l'] b]. cbn [fst snd] in *. clear E H.
  assert (Lv : ints g' LogIsolationLevel = 0 -> o_level (init_log_config g' l) = o_level l).
  { intros Z0. unfold init_log_config. rewrite Z0. cbn. destruct (is_empty (strs g' LogFile)), (0 <? ints g' LogSaveDays), (0 <? ints g' LogFileSize); reflexivity. }
  assert (Fl : strs g' LogFile = [] -> o_file l <> None -> o_file (init_log_config g' l) <> None).
  { intros Z0 N. unfold init_log_config. rewrite Z0. cbn [is_empty]. destruct (o_file l) as [w|] eqn:W; [|congruence].
    destruct (0 <? ints g' LogSaveDays), (0 <? ints g' LogFileSize), (ints g' LogIsolationLevel >? 0); cbn; rewrite W; discriminate. }
  intros [[A B]|[A B]] (R1 & R2 & R3).
  - rewrite (Lv A) in R1. congruence.
  - now apply (Fl A B), R3.
Qed.
Print Assumptions C93_again_refuted.

(* A file that names a log file and a level, gives the port twice (the second time in small letters), a null and a name zinx does not know; later
   the level is put back to 0. *)
Definition some_file : members :=
  [(str "TCPPort", JInt 7000); (str "LogFile", JStr (str "a.log")); (str "LogIsolationLevel", JInt 2); (str "Host", JNull);
   (str "Unknown", JOther); (str "tcpport", JInt 7001)].
Definition level_0 : members := [(str "LogIsolationLevel", JInt 0)].
Lemma fits_of ms : snd (fold_left store ms (defaults [], false)) = false -> fits ms.
Proof. apply unmarshal_bad_gen. Qed.
Example C93_case : fits some_file /\ given some_file (FI TCPPort) (JInt 7001) /\ silent some_file (FS Host) /\
  let r := start (str "/w") (Object some_file) in snd r = false /\ ints (fst (fst r)) TCPPort = 7001 /\ strs (fst (fst r)) Host = str "0.0.0.0" /\
  snd (fst r) = Logger 2 (Some (Writer (str "/w/log") (str "a.log") 31 (64 * 1024 * 1024) false)) /\
  let q := reload (Object level_0) (fst (fst r)) (snd (fst r)) in snd q = false /\ ints (fst (fst q)) LogIsolationLevel = 0 /\ o_level (snd (fst r)) <> 0 /\ o_level (snd (fst q)) = 2.
Proof.
  split; [apply fits_of; reflexivity|]. split; [|split].
  - exists (firstn 5 some_file), (str "tcpport"), []. split; [reflexivity|]. split; [|intros m []]. split; [apply field_of_some; reflexivity|discriminate].
  - intros m I (M & N). cbn in I. repeat destruct I as [<-|I]; try (cbn in N; congruence); try contradiction; apply field_of_some in M; vm_compute in M; discriminate.
  - repeat split; try reflexivity. discriminate.
Qed.
(* Files that stop the program. *)
Example C93_names_case : means (str "mAXpACKETsIZE") (FI MaxPacketSize) /\ ~ means (str "Max_Conn") (FI MaxConn) /\ fits [(str "NAME", JStr []); (str "HeartBeatMax", JInt (-1)); (str "MAXPACKETSIZE", JInt (2 ^ 32 - 1))].
Proof. split; [apply field_of_some; reflexivity|]. split; [rewrite <- field_of_some; vm_compute; discriminate|apply fits_of; reflexivity]. Qed.
Example C93_stops_case : ~ fits [(str "MaxConn", JStr (str "3"))] /\ ~ fits [(str "WorkerPoolSize", JInt (-1))] /\ ~ fits [(str "TCPPort", JInt (2^63))] /\
  snd (start (str "/w") (Object [(str "MaxConn", JStr (str "3")); (str "Name", JStr (str "x"))])) = true.
Proof.
  assert (N : forall ms, snd (fold_left store ms (defaults [], false)) = true -> ~ fits ms) by (intros ms H F; apply (unmarshal_bad_gen ms (defaults [])) in F; congruence).
  repeat split; try (apply N; reflexivity). 
Qed.

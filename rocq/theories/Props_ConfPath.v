(* C111: where the configuration is read from. *)
From Coq Require Import List Bool Ascii String Lia.
From Verif Require Import ConfPath Spec_ConfPath.
Import ListNotations.

Lemma eqpP a b : reflect (a = b) (eqp a b).
Proof. unfold eqp. destruct (list_eq_dec ascii_dec a b); constructor; assumption. Qed.
Lemma split_cons p : exists s r, split p = s :: r.
Proof. destruct p as [|c p]; cbn; [eauto|]. destruct (Ascii.eqb c slash); [eauto|]. destruct (split p); eauto. Qed.
Lemma split_noslash p : Forall (fun s => ~ In slash s) (split p).
Proof.
  induction p as [|c p IH]; cbn; [repeat constructor; auto|]. destruct (Ascii.eqb_spec c slash) as [E|E]; [constructor; auto|].
  destruct (split p) as [|s r]; [repeat constructor; intros [H|[]]; auto|]. inversion IH; subst. constructor; auto. intros [H'|H']; auto.
Qed.
Lemma split_app a b : split (a ++ slash :: b) = split a ++ split b.
Proof.
  induction a as [|c a IH]; [reflexivity|]. cbn [app split]. destruct (Ascii.eqb c slash); [now rewrite IH|]. rewrite IH. destruct (split_cons a) as (s & r & E). rewrite E. reflexivity.
Qed.
Lemma split_one s : ~ In slash s -> split s = [s].
Proof. induction s as [|c s IH]; intros N; [reflexivity|]. cbn [split]. destruct (Ascii.eqb_spec c slash) as [->|E]; [exfalso; apply N; now left|]. rewrite IH; [reflexivity|]. intros H. apply N. now right. Qed.
Lemma split_join l : l <> [] -> Forall a_name l -> split (join l) = l.
Proof.
  induction l as [|s l IH]; [congruence|]. intros _ F. inversion F as [|? ? (_ & _ & _ & N) F']; subst. destruct l as [|s2 l]; [now apply split_one|].
  change (join (s :: s2 :: l)) with (s ++ slash :: join (s2 :: l)). rewrite split_app, split_one by assumption. rewrite IH by (congruence || assumption). reflexivity.
Qed.
Lemma walk_app f l1 l2 d : walk f d (l1 ++ l2) = match walk f d l1 with Some d1 => walk f d1 l2 | None => None end.
Proof. revert d. induction l1 as [|s l1 IH]; intros d; [reflexivity|]. cbn. destruct (walk1 f d s); [apply IH|reflexivity]. Qed.
Lemma names_plain f cwd l : is_dir f (root f) = true -> Forall a_name l -> names f cwd (slash :: join l) = walk f (root f) l.
Proof.
  intros D F. unfold names. cbn [is_abs]. rewrite Ascii.eqb_refl. cbn [split]. rewrite Ascii.eqb_refl. cbn [walk]. unfold walk1 at 1. rewrite D. cbn.
  destruct l as [|s l]; [cbn; unfold walk1; rewrite D; reflexivity|]. rewrite split_join by (congruence || assumption). reflexivity.
Qed.
Lemma walk1_name f d s : a_name s -> walk1 f d s = if is_dir f d then child f d s else None.
Proof. intros (N1 & N2 & N3 & _). unfold walk1. destruct (eqpP s []); [contradiction|]. destruct (eqpP s dot); [contradiction|]. destruct (eqpP s dotdot); [contradiction|]. reflexivity. Qed.

(* Clean on an absolute path keeps names only. *)
Lemma kept_names l st : Forall (fun s => ~ In slash s) l -> Forall a_name st -> Forall a_name (fold_left (clean_step true) l st).
Proof.
  revert st. induction l as [|s l IH]; intros st N F; [exact F|]. inversion N; subst. cbn [fold_left]. apply IH; [assumption|]. unfold clean_step.
  destruct (eqpP s []) as [->|N1]; [exact F|]. destruct (eqpP s dot) as [->|N2]; [exact F|]. cbn [orb]. destruct (eqpP s dotdot) as [->|N3]; [|constructor; [repeat split; assumption|exact F]].
  destruct st as [|top st]; [constructor|]. inversion F as [|? ? (_ & _ & T & _) F']; subst. destruct (eqpP top dotdot); [contradiction|exact F'].
Qed.
Lemma clean_plain p : is_abs p = true -> plain (clean p).
Proof. intros A. unfold clean. rewrite A. eexists. split; [reflexivity|]. apply Forall_rev, kept_names; [apply split_noslash|constructor]. Qed.
(* ... and leads to the same file when there are no links, or no "..". *)
Lemma kept_walk f l st d d' : no_links f \/ ~ In dotdot l -> Forall (fun s => ~ In slash s) l -> Forall a_name st -> walk f (root f) (rev st) = Some d -> walk f d l = Some d' ->
  walk f (root f) (rev (fold_left (clean_step true) l st)) = Some d'.
Proof.
  revert st d. induction l as [|s l IH]; intros st d O N F W G; [cbn in *; congruence|]. inversion N; subst. cbn [walk] in G. destruct (walk1 f d s) as [d1|] eqn:E; [|discriminate]. cbn [fold_left].
  assert (O' : no_links f \/ ~ In dotdot l) by (destruct O as [O|O]; [now left|right; intros J; apply O; now right]).
  assert (F1 : Forall a_name (clean_step true st s)) by (apply (kept_names [s] st); [repeat constructor; assumption|exact F]).
  apply (IH _ d1 O'); auto. clear IH G F1. unfold walk1 in E. destruct (is_dir f d) eqn:D; [|discriminate]. unfold clean_step.
  destruct (eqpP s []) as [->|N1]; [cbn in E |- *; congruence|]. destruct (eqpP s dot) as [->|N2]; [cbn in E |- *; congruence|]. cbn [orb] in *. destruct (eqpP s dotdot) as [->|N3].
  - destruct O as [(R & L)|O]; [|exfalso; apply O; now left]. injection E as <-. destruct st as [|top st]; [cbn in W |- *; congruence|]. inversion F as [|? ? T F']; subst. destruct (eqpP top dotdot) as [->|_]; [destruct T as (_ & _ & T & _); congruence|].
    cbn [rev] in W. rewrite walk_app in W. destruct (walk f (root f) (rev st)) as [d0|]; [|discriminate]. cbn [walk] in W. rewrite walk1_name in W by exact T. destruct (is_dir f d0); [|discriminate]. destruct (child f d0 top) as [c|] eqn:Ec; [|discriminate]. injection W as ->. now rewrite (L _ _ _ Ec).
  - cbn [rev]. rewrite walk_app, W. cbn [walk]. rewrite walk1_name by (repeat split; assumption). now rewrite D, E.
Qed.
Lemma walk_abs f p file : is_abs p = true -> walk f (root f) (split p) = Some file -> is_dir f (root f) = true.
Proof. destruct p as [|c p]; [discriminate|]. cbn [is_abs split]. intros ->. cbn [walk]. unfold walk1. destruct (is_dir f (root f)); [reflexivity|discriminate]. Qed.
Lemma clean_file f cwd p file : is_abs p = true -> no_links f \/ ~ In dotdot (split p) -> walk f (root f) (split p) = Some file -> names f cwd (clean p) = Some file.
Proof.
  intros A O W. pose proof (walk_abs f p file A W) as D. unfold clean. rewrite A. rewrite names_plain; [|exact D|apply Forall_rev, kept_names; [apply split_noslash|constructor]].
  eapply kept_walk; [exact O|apply split_noslash|constructor|reflexivity|exact W].
Qed.
Lemma plain_split p : plain p -> is_abs p = true /\ ~ In dotdot (split p).
Proof.
  intros (l & -> & F). cbn [is_abs split]. rewrite Ascii.eqb_refl. split; [reflexivity|]. intros [J|J]; [discriminate|]. destruct l as [|s l]; [destruct J as [J|[]]; discriminate|]. rewrite split_join in J by (congruence || assumption).
  rewrite Forall_forall in F. destruct (F _ J) as (_ & _ & K & _). congruence.
Qed.
Lemma abs_app p q : is_abs p = true -> is_abs (p ++ q) = true.
Proof. destruct p; [discriminate|auto]. Qed.

(* The path is absolute and has no empty elements, "." or "..". *)
Theorem C111_plain : forall env pwd, is_abs pwd = true -> plain (config_path env pwd).
Proof.
  intros env pwd A. assert (J : forall q, plain (join2 pwd q)) by (intros q; destruct pwd as [|c pwd]; [discriminate|]; apply clean_plain, abs_app; exact A).
  unfold config_path, abs. destruct (is_abs (match env with [] => join2 pwd default_path | _ => env end)) eqn:E; [now apply clean_plain|apply J].
Qed.
Print Assumptions C111_plain.

Lemma file_found f pwd cwd c0 env file : is_abs pwd = true -> names f c0 pwd = Some cwd -> meant f cwd env = Some file -> no_links f \/ (~ In dotdot (split pwd) /\ ~ In dotdot (split env)) ->
  forall c1, names f c1 (config_path env pwd) = Some file.
Proof.
  intros A P M O c1. unfold names in P. rewrite A in P.
  assert (J : forall q, walk f cwd (split q) = Some file -> no_links f \/ ~ In dotdot (split q) -> no_links f \/ ~ In dotdot (split pwd) -> forall c, names f c (join2 pwd q) = Some file).
  { intros q W Oq Op c. destruct pwd as [|ch pwd]; [discriminate|]. unfold join2. assert (X : names f c (clean ((ch :: pwd) ++ slash :: q)) = Some file); [|destruct q; exact X]. apply clean_file; [now apply abs_app|..].
    - destruct Oq as [|Oq]; [now left|]. destruct Op as [|Op]; [now left|]. right. rewrite split_app. intros I. apply in_app_or in I. tauto.
    - rewrite split_app, walk_app, P. exact W. }
  unfold config_path, abs. destruct env as [|e env].
  - assert (W : walk f cwd (split default_path) = Some file).
    { change (walk f cwd (split (list_ascii_of_string "conf/zinx.json")) = Some file) in M. change (split default_path) with ([] :: split (list_ascii_of_string "conf/zinx.json")).
      destruct (split_cons (list_ascii_of_string "conf/zinx.json")) as (s & r & E). rewrite E in *. cbn [walk] in *. unfold walk1 at 1. destruct (is_dir f cwd) eqn:D; [exact M|]. exfalso. unfold walk1 in M. rewrite D in M. discriminate. }
    assert (Pl : plain (join2 pwd default_path)) by (destruct pwd as [|c pwd]; [discriminate|]; apply clean_plain, abs_app; exact A). destruct (plain_split _ Pl) as (A2 & N2). rewrite A2. apply clean_file; [exact A2|now right|].
    assert (X : names f c1 (join2 pwd default_path) = Some file) by (apply J; [exact W|right; cbn; intuition discriminate|tauto]). unfold names in X. rewrite A2 in X. exact X.
  - unfold meant, names in M. destruct (is_abs (e :: env)) eqn:E; [apply clean_file; [exact E|tauto|exact M]|apply J; [exact M|tauto|tauto]].
Qed.
(* Without symbolic links to directories it names the file the user means, in whatever directory it is used later. *)
Theorem C111_file_partial : forall f pwd cwd c0 env file, no_links f -> is_abs pwd = true -> names f c0 pwd = Some cwd -> meant f cwd env = Some file ->
  forall c1, names f c1 (config_path env pwd) = Some file.
Proof. intros. eapply file_found; eauto. Qed.
Print Assumptions C111_file_partial.
(* With links too, if the variable's value has no "..". *)
Theorem C111_links_partial : forall f pwd cwd c0 env file, plain pwd -> names f c0 pwd = Some cwd -> ~ In dotdot (split env) -> meant f cwd env = Some file ->
  forall c1, names f c1 (config_path env pwd) = Some file.
Proof. intros f pwd cwd c0 env file Pl P N M. destruct (plain_split _ Pl) as (A & N2). eapply file_found; eauto. Qed.
Print Assumptions C111_links_partial.

(* The file is the same for the whole life of the program. *)
Theorem C111_fixed : forall env pwd ls p, In p (opened env pwd ls) -> p = config_path env pwd.
Proof.
  intros env pwd ls p. unfold opened. assert (K : forall ls s, p_conf s = config_path env pwd -> forall q, In q (snd (p_run s ls)) -> q = config_path env pwd); [|apply K; reflexivity].
  clear. induction ls as [|l ls IH]; intros s E q I; [destruct I|]. cbn [p_run] in I. destruct l as [e|d|]; cbn [p_step] in I.
  - specialize (IH (Prog e (p_pwd s) (p_conf s)) E q). destruct (p_run _ ls). exact (IH I).
  - specialize (IH (Prog (p_env s) d (p_conf s)) E q). destruct (p_run _ ls). exact (IH I).
  - specialize (IH s E q). destruct (p_run s ls). destruct I as [<-|I]; [exact E|exact (IH I)].
Qed.
Print Assumptions C111_fixed.
(* Every Reload, and the start, opens it. *)
Theorem C111_read : forall env pwd ls, List.length (opened env pwd ls) = S (List.length (filter (fun l => match l with LReload => true | _ => false end) ls)).
Proof.
  intros env pwd ls. unfold opened. assert (K : forall ls s, List.length (snd (p_run s ls)) = List.length (filter (fun l => match l with LReload => true | _ => false end) ls)); [|rewrite K; reflexivity].
  clear. induction ls as [|l ls IH]; intros s; [reflexivity|]. cbn [p_run]. destruct l as [e|d|]; cbn [p_step filter].
  - specialize (IH (Prog e (p_pwd s) (p_conf s))). destruct (p_run _ ls). exact IH.
  - specialize (IH (Prog (p_env s) d (p_conf s))). destruct (p_run _ ls). exact IH.
  - specialize (IH s). destruct (p_run s ls). cbn in *. now rewrite IH.
Qed.
Print Assumptions C111_read.

(* "l/../n" with l a link to a directory elsewhere, or with no l at all: the operating system finds another file, or none; the program reads n. *)
Lemma step_name st s : a_name s -> clean_step true st s = s :: st.
Proof. intros (N1 & N2 & N3 & _). unfold clean_step. destruct (eqpP s []); [contradiction|]. destruct (eqpP s dot); [contradiction|]. destruct (eqpP s dotdot); [contradiction|reflexivity]. Qed.
Lemma step_back top st : a_name top -> clean_step true (top :: st) dotdot = st.
Proof. intros (_ & _ & N3 & _). change (clean_step true (top :: st) dotdot) with (if eqp top dotdot then dotdot :: top :: st else st). destruct (eqpP top dotdot); [contradiction|reflexivity]. Qed.
Lemma config_back l n pl : a_name l -> a_name n -> Forall a_name pl -> config_path (l ++ slash :: dotdot ++ slash :: n) (slash :: join pl) = slash :: join (pl ++ [n]).
Proof.
  intros Ln Nn F. assert (Al : is_abs (l ++ slash :: dotdot ++ slash :: n) = false). { destruct Ln as (L1 & _ & _ & L4). destruct l as [|c l]; [congruence|]. cbn. destruct (Ascii.eqb_spec c slash) as [->|]; [exfalso; apply L4; now left|reflexivity]. }
  unfold config_path, abs. destruct (l ++ slash :: dotdot ++ slash :: n) as [|e env] eqn:E; [destruct l; discriminate|]. rewrite Al. unfold join2. cbn [app]. rewrite <- E. unfold clean. cbn [is_abs]. rewrite Ascii.eqb_refl. f_equal.
  cbn [split]. rewrite Ascii.eqb_refl. rewrite !split_app. cbn [fold_left]. change (clean_step true [] []) with (@nil path). rewrite !fold_left_app.
  assert (K : fold_left (clean_step true) (split (join pl)) [] = rev pl).
  { destruct pl as [|s pl]; [reflexivity|]. rewrite split_join by (congruence || assumption). assert (K : forall l st, Forall a_name l -> fold_left (clean_step true) l st = rev l ++ st); [|rewrite K by assumption; apply app_nil_r].
    clear. induction l as [|s l IH]; intros st F; [reflexivity|]. inversion F as [|? ? (N1 & N2 & N3 & _) F']; subst. cbn [fold_left rev]. rewrite IH by assumption. unfold clean_step. destruct (eqpP s []); [contradiction|]. destruct (eqpP s dot); [contradiction|]. destruct (eqpP s dotdot); [contradiction|]. cbn. now rewrite <- app_assoc. }
  rewrite K. rewrite !split_one by (apply Ln || apply Nn || (cbn; intuition discriminate)). cbn [fold_left]. rewrite (step_name _ l Ln), (step_back l _ Ln), (step_name _ n Nn). cbn [rev]. now rewrite rev_involutive.
Qed.
Theorem C111_link_refuted : forall f pl cwd l n far c2 c1, Forall a_name pl -> is_dir f (root f) = true -> walk f (root f) pl = Some cwd -> is_dir f cwd = true -> a_name l -> a_name n ->
  child f cwd n = Some c2 -> let env := l ++ slash :: dotdot ++ slash :: n in let pwd := slash :: join pl in
  names f c1 pwd = Some cwd /\ names f c1 (config_path env pwd) = Some c2 /\
  (child f cwd l = None -> meant f cwd env = None) /\
  (child f cwd l = Some far -> is_dir f far = true -> is_dir f (parent f far) = true -> meant f cwd env = child f (parent f far) n).
Proof.
  intros f pl cwd l n far c2 c1 F D W Dc Ln Nn C env pwd. subst env pwd. rewrite config_back by assumption. rewrite !names_plain by (assumption || (apply Forall_app; repeat constructor; assumption || apply Nn)).
  assert (M : meant f cwd (l ++ slash :: dotdot ++ slash :: n) = walk f cwd [l; dotdot; n]).
  { assert (Al : is_abs (l ++ slash :: dotdot ++ slash :: n) = false). { destruct Ln as (L1 & _ & _ & L4). destruct l as [|c l]; [congruence|]. cbn. destruct (Ascii.eqb_spec c slash) as [->|]; [exfalso; apply L4; now left|reflexivity]. }
    unfold meant. destruct (l ++ slash :: dotdot ++ slash :: n) as [|e env] eqn:E; [destruct l; discriminate|]. unfold names. rewrite Al, <- E, !split_app. destruct Ln as (_ & _ & _ & L4). destruct Nn as (_ & _ & _ & N4). rewrite (split_one l L4), (split_one n N4). reflexivity. }
  rewrite M. cbn [walk]. rewrite walk_app, W. cbn [walk]. rewrite !walk1_name by assumption. rewrite Dc, C. repeat split; auto.
  - intros ->. reflexivity.
  - intros -> D1 D2. unfold walk1 at 1. rewrite D1. cbn. rewrite walk1_name by assumption. rewrite D2. destruct (child f (parent f far) n); reflexivity.
Qed.
Print Assumptions C111_link_refuted.

(* /srv with conf/zinx.json in it; /srv/l a link to /far/in, /far/zinx.json another file. *)
Definition str := list_ascii_of_string.
Definition used_fs (link : bool) : fs := {| root := 0; is_dir := fun d => negb (Nat.eqb d 4 || Nat.eqb d 7);
  child := fun d s => if Nat.eqb d 0 then if eqp s (str "srv") then Some 1 else if eqp s (str "far") then Some 5 else None
    else if Nat.eqb d 1 then if eqp s (str "conf") then Some 2 else if eqp s (str "zinx.json") then Some 3 else if eqp s (str "l") && link then Some 6 else None
    else if Nat.eqb d 2 then if eqp s (str "zinx.json") then Some 4 else None
    else if Nat.eqb d 5 then if eqp s (str "in") then Some 6 else if eqp s (str "zinx.json") then Some 7 else None else None;
  parent := fun d => match d with 2 => 1 | 3 => 1 | 4 => 2 | 6 => 5 | 7 => 5 | _ => 0 end |}.
Example C111_file_used : no_links (used_fs false) /\ names (used_fs false) 0 (str "/srv") = Some 1 /\ meant (used_fs false) 1 [] = Some 4 /\ config_path [] (str "/srv") = str "/srv/conf/zinx.json" /\
  meant (used_fs false) 1 (str "./conf/../../far//in/../zinx.json") = Some 7 /\ config_path (str "./conf/../../far//in/../zinx.json") (str "/srv") = str "/far/zinx.json" /\
  config_path (str "/../a/./b/") (str "/srv") = str "/a/b".
Proof.
  split; [|repeat split; reflexivity]. split; [reflexivity|]. intros d s c. unfold used_fs. cbn [child parent]. repeat match goal with |- context [Nat.eqb d ?k] => destruct (PeanoNat.Nat.eqb_spec d k) as [->|_] end; rewrite ?andb_false_r; repeat match goal with |- context [eqp s ?k] => destruct (eqp s k) end; intros E; try discriminate; injection E as <-; reflexivity.
Qed.
Example C111_links_used : plain (str "/srv") /\ ~ In dotdot (split (str "l/")) /\ names (used_fs true) 0 (str "/srv") = Some 1 /\ meant (used_fs true) 1 (str "l/") = Some 6 /\ config_path (str "l/") (str "/srv") = str "/srv/l".
Proof.
  split; [exists [str "srv"]; split; [reflexivity|repeat constructor; cbn; intuition discriminate]|]. repeat split; try reflexivity. cbn. intuition discriminate.
Qed.
Example C111_fixed_used : opened [] (str "/srv") [LChdir (str "/far"); LSetenv (str "x"); LReload] = [str "/srv/conf/zinx.json"; str "/srv/conf/zinx.json"].
Proof. reflexivity. Qed.
Example C111_link_used : names (used_fs true) 0 (config_path (str "l/../zinx.json") (str "/srv")) = Some 3 /\ meant (used_fs true) 1 (str "l/../zinx.json") = Some 7 /\ meant (used_fs false) 1 (str "l/../zinx.json") = None.
Proof. repeat split; reflexivity. Qed.

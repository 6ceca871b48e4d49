(* Proofs about several servers in one process (C77). *)
From Coq Require Import ZArith List Bool Lia ZifyBool.
From Verif Require Import Bytes Conf Spec_Conf Conf_proofs Servers Spec_Servers.
Import ListNotations.
Local Open Scope Z_scope.

Lemma str_eq_spec a b : str_eq a b = true <-> a = b.
Proof. unfold str_eq. destruct (list_eq_dec _ a b); split; congruence. Qed.
Lemma str_eq_false a b : str_eq a b = false <-> a <> b.
Proof. unfold str_eq. destruct (list_eq_dec _ a b); split; congruence. Qed.
Lemma str_eq_refl a : str_eq a a = true.
Proof. now apply str_eq_spec. Qed.

Lemma put_same {A} (a : A) : forall l n, (n < length l)%nat -> nth_error (put n a l) n = Some a.
Proof. induction l as [|h l IH]; intros [|n] L; cbn in *; try lia; auto. apply IH. lia. Qed.
Lemma put_other {A} (a : A) : forall l n m, n <> m -> nth_error (put n a l) m = nth_error l m.
Proof. induction l as [|h l IH]; intros [|n] [|m] N; cbn; auto; try congruence. Qed.
Lemma put_length {A} (a : A) : forall l n, length (put n a l) = length l.
Proof. induction l as [|h l IH]; intros [|n]; cbn; auto. Qed.
Lemma in_drop {A} (x : A) : forall l n, In x (drop_nth n l) -> In x l.
Proof. induction l as [|h l IH]; intros [|n]; cbn; auto. intros [H|H]; auto. right. eapply IH; eauto. Qed.

Lemma find_id_tl {A} id k (v : A) l x : find_id id l = Some x -> find_id k l = None -> find_id id ((k, v) :: l) = Some x.
Proof. intros H N. cbn. destruct (Z.eqb_spec k id); [subst; congruence|exact H]. Qed.

(* What no step changes in a server. *)
Definition kept (s s' : server) : Prop :=
  identity s' = identity s /\
  (v_free s = None -> v_free s' = None) /\ (v_extra s = None -> v_extra s' = None) /\
  (v_stuck s = true -> v_stuck s' = true) /\
  (forall id h, find_id id (v_apis s) = Some h -> find_id id (v_apis s') = Some h) /\
  (forall id h, find_id id (v_hands s) = Some h -> find_id id (v_hands s') = Some h) /\
  (v_slices s = false -> v_hands s = [] -> v_hands s' = []).
Lemma kept_refl s : kept s s.
Proof. repeat (split; auto). Qed.
Lemma kept_trans a b c : kept a b -> kept b c -> kept a c.
Proof.
  intros (A1 & A2 & A3 & A4 & A5 & A6 & A7) (B1 & B2 & B3 & B4 & B5 & B6 & B7). unfold kept. split; [congruence|].
  split; [auto|]. split; [auto|]. split; [auto|]. split; [auto|]. split; [auto|]. intros S H. apply B7; [|auto]. unfold identity in A1. congruence.
Qed.

Lemma use_kept g s pick w s' : use_worker g s pick = Some (w, s') -> kept s s' /\ v_conns s' = v_conns s /\ v_cid s' = v_cid s.
Proof.
  unfold use_worker. destruct (is_bind g), (is_dynamic g), (v_stuck s) eqn:T; try discriminate;
  destruct (v_free s) as [f|] eqn:F; cbn [length];
  repeat match goal with |- context [nth_error ?x ?y] => destruct (nth_error x y) eqn:? end; intros [= <- <-];
  try (split; [apply kept_refl|auto]; fail);
  try (split; [unfold kept, identity; cbn; rewrite ?F; repeat (split; auto; try congruence)|cbn; auto]; fail);
  destruct (Nat.modulo pick 0); discriminate.
Qed.
Lemma free_kept g s w : kept s (free_worker g s w) /\ v_conns (free_worker g s w) = v_conns s.
Proof.
  unfold free_worker. destruct (is_bind g), (is_dynamic g); repeat match goal with |- context [if ?b then _ else _] => destruct b eqn:? end;
  try (split; [apply kept_refl|auto]; fail);
  destruct (v_free s) eqn:F; try destruct (v_extra s) eqn:E; try (split; [apply kept_refl|auto]; fail);
  (split; [unfold kept, identity; cbn; rewrite ?F, ?E; repeat (split; auto; try congruence)|cbn; auto]).
Qed.

(* A step other than a constructor changes one server at most, and the mux. *)
Lemma conns_kept s x n : kept s (set_conns s x n).
Proof. unfold kept, identity. cbn. repeat (split; auto). Qed.

Lemma admit_kept p i s pick : nth_error (p_servers p) i = Some s ->
  let p' := fst (admit_conn p i s pick) in
  p_conf p' = p_conf p /\ p_log p' = p_log p /\ p_mux p' = p_mux p /\ p_down p' = p_down p /\ exists s', p_servers p' = put i s' (p_servers p) /\ kept s s'.
Proof.
  intros N. unfold admit_conn. destruct (zlen (v_conns s) >=? ints (p_conf p) MaxConn).
  - cbn. repeat (split; auto). exists s. split; [|apply kept_refl].
    clear - N. revert i N. induction (p_servers p) as [|h l IH]; intros [|i] N; cbn in *; try discriminate; [congruence|f_equal; auto].
  - destruct (use_worker _ _ pick) as [[w s2]|] eqn:U; cbn; repeat (split; auto); eexists; (split; [reflexivity|]).
    + apply use_kept in U. destruct U as (K & _). eapply kept_trans; [apply conns_kept|]. eapply kept_trans; [exact K|apply conns_kept].
    + eapply kept_trans; apply conns_kept.
Qed.

Lemma put_self {A} (s : A) : forall l i, nth_error l i = Some s -> put i s l = l.
Proof. induction l as [|h l IH]; intros [|i] N; cbn in *; try discriminate; [congruence|f_equal; auto]. Qed.

Lemma listen_ws_frame p i s : let p' := fst (listen_ws p i s) in p_conf p' = p_conf p /\ p_log p' = p_log p /\ p_servers p' = p_servers p.
Proof. unfold listen_ws. destruct (find_path _ _); cbn; auto. Qed.
Lemma start_frame p i s : let p' := fst (start_server p i s) in p_conf p' = p_conf p /\ p_log p' = p_log p /\ p_servers p' = p_servers p.
Proof.
  unfold start_server. pose proof (listen_ws_frame p i s) as L. destruct (str_eq _ m_tcp); [cbn; auto|]. destruct (str_eq _ m_ws).
  - destruct (listen_ws p i s); exact L.
  - destruct (str_eq _ m_kcp); [cbn; auto|]. cbn [listen_tcp]. destruct (listen_ws p i s); exact L.
Qed.

Lemma step_one p o : makes_none o -> let p' := fst (step p o) in
  p_conf p' = (match o with NewClient => if p_down p then p_conf p else handle_conf (p_conf p) | _ => p_conf p end) /\ p_log p' = p_log p /\
  (p_servers p' = p_servers p \/ exists i s s', nth_error (p_servers p) i = Some s /\ p_servers p' = put i s' (p_servers p) /\ kept s s').
Proof.
  intros M. unfold step. destruct (p_down p) eqn:D; [destruct o; cbn; auto|].
  destruct o as [c| |i id h|i id hs|i|i pick|j path pick|i k id|i k|i idle]; try contradiction M.
  - cbn. auto.
  - destruct (nth_error (p_servers p) i) as [s|] eqn:N; [|cbn; auto]. destruct (v_slices s) eqn:S; [cbn; auto|]. destruct (find_id id (v_apis s)) eqn:F; [cbn; auto|].
    cbn. split; [auto|]. split; [auto|]. right. exists i, s, (set_apis s ((id, h) :: v_apis s)). split; [exact N|]. split; [reflexivity|].
    unfold kept, identity. cbn. repeat (split; auto). intros id0 h0 H. apply (find_id_tl id0 id h _ h0 H F).
  - destruct (nth_error (p_servers p) i) as [s|] eqn:N; [|cbn; auto]. destruct (v_slices s) eqn:S; [|cbn; auto]. destruct (find_id id (v_hands s)) eqn:F; [cbn; auto|].
    cbn. split; [auto|]. split; [auto|]. right. exists i, s, (set_hands s ((id, hs) :: v_hands s)). split; [exact N|]. split; [reflexivity|].
    unfold kept, identity. cbn. repeat (split; auto); [|congruence]. intros id0 h0 H. apply (find_id_tl id0 id hs _ h0 H F).
  - destruct (nth_error (p_servers p) i) as [s|] eqn:N; [|cbn; auto]. destruct (start_frame p i s) as (A & B & C). auto.
  - destruct (nth_error (p_servers p) i) as [s|] eqn:N; [|cbn; auto]. destruct (admit_kept p i s pick N) as (A & B & _ & _ & s' & C & K). split; [exact A|]. split; [exact B|]. right. exists i, s, s'. auto.
  - destruct (find_path path (p_mux p)) as [i|]; [|cbn; auto]. destruct (nth_error (p_servers p) i) as [s|] eqn:N; [|cbn; auto].
    destruct (admit_kept p i s pick N) as (A & B & _ & _ & s' & C & K). destruct (admit_conn p i s pick) as [p1 es]. cbn [fst] in *.
    split; [exact A|]. split; [exact B|]. right. exists i, s, s'. auto.
  - destruct (nth_error (p_servers p) i) as [s|] eqn:N; [|cbn; auto]. destruct (nth_error (v_conns s) k) as [[w|]|]; cbn; auto.
  - destruct (nth_error (p_servers p) i) as [s|] eqn:N; [|cbn; auto]. destruct (nth_error (v_conns s) k) as [[w|]|]; [|cbn; auto|cbn; auto].
    cbn. split; [auto|]. split; [auto|]. right. eexists i, s, _. split; [exact N|]. split; [reflexivity|].
    eapply kept_trans; [apply conns_kept|apply free_kept].
  - destruct (nth_error (p_servers p) i) as [s|] eqn:N; cbn; auto.
Qed.

Lemma step_keep p o i s : nth_error (p_servers p) i = Some s -> exists s', nth_error (p_servers (fst (step p o))) i = Some s' /\ kept s s'.
Proof.
  intros N. assert (G : makes_none o -> exists s', nth_error (p_servers (fst (step p o))) i = Some s' /\ kept s s').
  { intros M. destruct (step_one p o M) as (_ & _ & [E|(j & a & a' & Nj & E & K)]); rewrite E; [exists s; split; [exact N|apply kept_refl]|].
    destruct (Nat.eq_dec j i) as [->|D].
    - exists a'. split; [apply put_same; apply nth_error_Some; congruence|congruence].
    - exists s. split; [now rewrite put_other|apply kept_refl]. }
  destruct o as [c| | | | | | | | |]; try (apply G; exact Logic.I). clear G.
  exists s. split; [|apply kept_refl]. unfold step. destruct (p_down p); [exact N|]. destruct (construct c _ _) as [[[s0 g] l]|]; [|exact N]. cbn.
  rewrite nth_error_app1; [exact N|]. apply nth_error_Some. congruence.
Qed.
Lemma run_keep os : forall p i s, nth_error (p_servers p) i = Some s -> exists s', nth_error (p_servers (run p os)) i = Some s' /\ kept s s'.
Proof.
  induction os as [|o os IH]; intros p i s N; [exists s; split; [exact N|apply kept_refl]|]. cbn [run].
  destruct (step_keep p o i s N) as (s1 & N1 & K1). destruct (IH _ _ _ N1) as (s2 & N2 & K2). exists s2. split; [exact N2|]. eapply kept_trans; eauto.
Qed.

(* The configuration. *)
Lemma run_app os1 : forall p os2, run p (os1 ++ os2) = run (run p os1) os2.
Proof. induction os1 as [|o os IH]; intros p os2; [reflexivity|]. cbn. apply IH. Qed.
Lemma seen_app os1 : forall p os2, seen p (os1 ++ os2) = seen p os1 ++ seen (run p os1) os2.
Proof. induction os1 as [|o os IH]; intros p os2; [reflexivity|]. cbn. now rewrite IH, app_assoc. Qed.

Lemma overlay_s u g l f : strs (fst (user_conf_to_global u (g, l))) f = asked_s u g f.
Proof. destruct (strs_final u g l f) as (A & B). unfold asked_s. destruct (strs u f) eqn:E; [now apply B|now apply A]. Qed.
Lemma overlay_i u g l f : f <> LogIsolationLevel -> f <> LogSaveDays -> f <> LogFileSize -> ints (fst (user_conf_to_global u (g, l))) f = asked_i u g f.
Proof. intros N1 N2 N3. destruct (ints_final u g l f N1 N2 N3) as (A & B). unfold asked_i. destruct (Z.eqb_spec (ints u f) 0); auto. Qed.
Lemma overlay_slices u g l : bools (fst (user_conf_to_global u (g, l))) RouterSlicesMode = bools u RouterSlicesMode || bools g RouterSlicesMode.
Proof.
  destruct (bools_final u g l RouterSlicesMode) as (A & B); try discriminate. destruct (bools u RouterSlicesMode) eqn:E; cbn; [now apply A|now apply B].
Qed.

Lemma handle_s g f : strs (handle_conf g) f = strs g f.
Proof. unfold handle_conf. now destruct (is_bind g). Qed.
Lemma handle_b g f : bools (handle_conf g) f = bools g f.
Proof. unfold handle_conf. now destruct (is_bind g). Qed.
Lemma handle_i g f : f <> WorkerPoolSize -> ints (handle_conf g) f = ints g f.
Proof. intros N. unfold handle_conf. destruct (is_bind g); [|reflexivity]. cbn. destruct (ifield_beq f WorkerPoolSize) eqn:E; [|reflexivity]. apply internal_ifield_dec_bl in E. congruence. Qed.
Lemma new_server_conf g : snd (new_server g) = handle_conf g.
Proof. reflexivity. Qed.

Lemma step_conf p o : p_down p = false -> let p' := fst (step p o) in
  (forall f, strs (p_conf p') f = match brings o with Some u => asked_s u (p_conf p) f | None => strs (p_conf p) f end) /\
  (forall f, f <> LogIsolationLevel -> f <> LogSaveDays -> f <> LogFileSize -> f <> WorkerPoolSize ->
     ints (p_conf p') f = match brings o with Some u => asked_i u (p_conf p) f | None => ints (p_conf p) f end) /\
  bools (p_conf p') RouterSlicesMode = slices_on o || bools (p_conf p) RouterSlicesMode.
Proof.
  intros D. assert (G : makes_none o -> p_conf (fst (step p o)) = match o with NewClient => handle_conf (p_conf p) | _ => p_conf p end).
  { intros M. destruct (step_one p o M) as (A & _). rewrite A, D. reflexivity. }
  destruct o as [c| | | | | | | | |]; cbn zeta; try (rewrite (G Logic.I); cbn; auto; fail).
  - clear G. unfold step. rewrite D. destruct c as [|u| |u]; cbn [construct].
    + cbn. split; [intros; apply handle_s|]. split; [intros; now apply handle_i|apply handle_b].
    + destruct (user_conf_to_global u (p_conf p, p_log p)) as [g1 l1] eqn:E. cbn. assert (G : g1 = fst (user_conf_to_global u (p_conf p, p_log p))) by now rewrite E.
      split; [intros f; rewrite handle_s, G; apply overlay_s|]. split; [intros f N1 N2 N3 N4; rewrite handle_i, G by auto; now apply overlay_i|].
      rewrite handle_b, G. apply overlay_slices.
    + cbn. split; [intros; now rewrite handle_s|]. split; [intros; now rewrite handle_i|]. now rewrite handle_b.
    + cbn [brings slices_on]. destruct (bools u RouterSlicesMode) eqn:U; [|cbn; auto].
      destruct (user_conf_to_global u (p_conf p, p_log p)) as [g1 l1] eqn:E. cbn. assert (G : g1 = fst (user_conf_to_global u (p_conf p, p_log p))) by now rewrite E.
      split; [intros f; rewrite handle_s, G; apply overlay_s|]. split; [intros f N1 N2 N3 N4; rewrite handle_i, G by auto; now apply overlay_i|].
      rewrite handle_b, G, overlay_slices, U. reflexivity.
  - rewrite (G Logic.I). cbn. split; [intros; apply handle_s|]. split; [intros; now apply handle_i|apply handle_b].
Qed.

(* Once down, down for good. *)
Lemma down_step p o : p_down p = true -> step p o = (p, []).
Proof. intros D. unfold step. now rewrite D. Qed.
Lemma down_run os : forall p, p_down p = true -> run p os = p /\ seen p os = [].
Proof. induction os as [|o os IH]; intros p D; [auto|]. cbn. rewrite (down_step _ _ D). cbn. now apply IH. Qed.
Lemma up_before os : forall p, p_down (run p os) = false -> p_down p = false.
Proof. intros p H. destruct (p_down p) eqn:D; [|reflexivity]. destruct (down_run os p D) as [R _]. congruence. Qed.

Lemma latest os : forall p, p_down (run p os) = false ->
  (forall f, strs (p_conf (run p os)) f = last_s f os (strs (p_conf p) f)) /\
  (forall f, f <> LogIsolationLevel -> f <> LogSaveDays -> f <> LogFileSize -> f <> WorkerPoolSize -> ints (p_conf (run p os)) f = last_i f os (ints (p_conf p) f)) /\
  bools (p_conf (run p os)) RouterSlicesMode = bools (p_conf p) RouterSlicesMode || existsb slices_on os.
Proof.
  induction os as [|o os IH]; intros p D.
  - cbn. rewrite orb_false_r. auto.
  - cbn [run] in *. pose proof (up_before (o :: os) p D) as D0. destruct (step_conf p o D0) as (A & B & C). destruct (IH _ D) as (A1 & B1 & C1).
    split; [|split].
    + intros f. rewrite A1, A. cbn. destruct (brings o); reflexivity.
    + intros f N1 N2 N3 N4. rewrite B1, B by auto. cbn. destruct (brings o); reflexivity.
    + rewrite C1, C. cbn. destruct (slices_on o), (bools (p_conf p) RouterSlicesMode); reflexivity.
Qed.

(* Decisions. *)
Lemma tls_spec g : tls_on g = true <-> strs g CertFile <> [] /\ strs g PrivateKeyFile <> [].
Proof. unfold tls_on. destruct (strs g CertFile), (strs g PrivateKeyFile); cbn; split; intros; try discriminate; try tauto; try (split; discriminate); destruct H; congruence. Qed.
Lemma admit_follows p i s pick : Forall (follows (in_force p)) (snd (admit_conn p i s pick)).
Proof.
  unfold admit_conn. destruct (Z.geb_spec (zlen (v_conns s)) (ints (p_conf p) MaxConn)).
  - repeat constructor. cbn. lia.
  - destruct (use_worker _ _ pick) as [[w s2]|]; repeat constructor; cbn; lia.
Qed.
Lemma ws_follows p i s c : opens (l_mode c) Ws -> Forall (follows c) (snd (listen_ws p i s)).
Proof. intros O. unfold listen_ws. destruct (find_path _ _); (constructor; [|constructor]); cbn; [exact Logic.I|]. split; [exact O|]. split; [discriminate|intros (E & _); discriminate]. Qed.
Lemma start_follows p i s : Forall (follows (in_force p)) (snd (start_server p i s)).
Proof.
  unfold start_server. set (m := strs (p_conf p) Mode). assert (Em : l_mode (in_force p) = m) by reflexivity.
  assert (T : opens m Tcp -> follows (in_force p) (Listening i Tcp (v_host s) (v_tcp s) (tls_on (p_conf p)))).
  { intros O. cbn. fold m. split; [exact O|]. rewrite tls_spec. tauto. }
  destruct (str_eq m m_tcp) eqn:E1.
  { apply str_eq_spec in E1. constructor; [reflexivity|]. constructor; [|constructor]. apply T. rewrite E1. split; discriminate. }
  destruct (str_eq m m_ws) eqn:E2.
  { apply str_eq_spec in E2. pose proof (ws_follows p i s (in_force p)) as W. rewrite Em, E2 in W. destruct (listen_ws p i s) as [p' es]. cbn [snd] in *.
    constructor; [reflexivity|]. apply W. split; discriminate. }
  destruct (str_eq m m_kcp) eqn:E3.
  { apply str_eq_spec in E3. constructor; [reflexivity|]. constructor; [|constructor]. cbn. split; [exact E3|]. split; [discriminate|intros (X & _); discriminate]. }
  apply str_eq_false in E1, E2, E3. cbn [listen_tcp]. pose proof (ws_follows p i s (in_force p)) as W. rewrite Em in W. destruct (listen_ws p i s) as [p' es]. cbn [snd] in *.
  constructor; [reflexivity|]. constructor; [apply T; split; auto|]. apply W. split; auto.
Qed.
Lemma dispatch_follows g i s id c : follows c (dispatch g i s id).
Proof. unfold dispatch. destruct (bools g RouterSlicesMode), (find_id id (v_hands s)), (find_id id (v_apis s)); exact Logic.I. Qed.
Lemma step_follows p o : Forall (follows (in_force p)) (snd (step p o)).
Proof.
  unfold step. destruct (p_down p) eqn:D; [constructor|]. destruct o as [c| |i id h|i id hs|i|i pick|j path pick|i k id|i k|i idle].
  - destruct (construct c _ _) as [[[s g] l]|]; repeat constructor.
  - constructor.
  - destruct (nth_error (p_servers p) i) as [s|]; [|constructor]. destruct (v_slices s); [repeat constructor|]. destruct (find_id id (v_apis s)); repeat constructor.
  - destruct (nth_error (p_servers p) i) as [s|]; [|constructor]. destruct (v_slices s); [|repeat constructor]. destruct (find_id id (v_hands s)); repeat constructor.
  - destruct (nth_error (p_servers p) i) as [s|]; [|constructor]. apply start_follows.
  - destruct (nth_error (p_servers p) i) as [s|]; [|constructor]. apply admit_follows.
  - destruct (find_path path (p_mux p)) as [i|]; [|constructor]. destruct (nth_error (p_servers p) i) as [s|]; [|constructor].
    pose proof (admit_follows p i s pick) as A. destruct (admit_conn p i s pick) as [p1 es]. constructor; [exact Logic.I|exact A].
  - destruct (nth_error (p_servers p) i) as [s|]; [|constructor]. destruct (nth_error (v_conns s) k) as [[w|]|]; repeat constructor. apply dispatch_follows.
  - destruct (nth_error (p_servers p) i) as [s|]; [|constructor]. destruct (nth_error (v_conns s) k) as [[w|]|]; repeat constructor.
  - destruct (nth_error (p_servers p) i) as [s|]; [|constructor]. constructor; [|constructor]. cbn. lia.
Qed.

Lemma in_force_steady p o : makes_none o -> in_force (fst (step p o)) = in_force p.
Proof.
  intros M. destruct (p_down p) eqn:D; [now rewrite down_step|].
  destruct (step_conf p o D) as (A & B & _). assert (E : brings o = None) by (destruct o; try reflexivity; contradiction M). rewrite E in *.
  unfold in_force. rewrite !A, !B by discriminate. reflexivity.
Qed.
Lemma seen_follows os : forall p, Forall makes_none os -> Forall (follows (in_force p)) (seen p os).
Proof.
  induction os as [|o os IH]; intros p F; [constructor|]. inversion_clear F as [|? ? M F']. cbn. apply Forall_app. split; [apply step_follows|].
  rewrite <- (in_force_steady p o M). now apply IH.
Qed.

Lemma created u p : p_down p = false -> in_force (fst (step p (New (NewUserConfServer u)))) = own_limits u (p_conf p).
Proof.
  intros D. destruct (step_conf p (New (NewUserConfServer u)) D) as (A & B & _). cbn [brings] in *. unfold in_force, own_limits. rewrite !A, !B by discriminate. reflexivity.
Qed.

(* The identity a user configuration gives. *)
Lemma new_identity u p : p_down p = false -> exists s,
  nth_error (p_servers (fst (step p (New (NewUserConfServer u))))) (length (p_servers p)) = Some s /\
  v_name s = asked_s u (p_conf p) Name /\ v_host s = asked_s u (p_conf p) Host /\ v_path s = asked_s u (p_conf p) WsPath /\
  v_tcp s = asked_i u (p_conf p) TCPPort /\ v_ws s = asked_i u (p_conf p) WsPort /\ v_kcp s = asked_i u (p_conf p) KcpPort /\
  v_slices s = bools u RouterSlicesMode || bools (p_conf p) RouterSlicesMode /\
  v_workers s = (if str_eq (asked_s u (p_conf p) WorkerMode) w_bind then asked_i u (p_conf p) MaxConn else asked_i u (p_conf p) WorkerPoolSize).
Proof.
  intros D. unfold step. rewrite D. cbn [construct].
  destruct (user_conf_to_global u (p_conf p, p_log p)) as [g1 l1] eqn:E. assert (G : g1 = fst (user_conf_to_global u (p_conf p, p_log p))) by now rewrite E.
  cbn [fst new_server p_servers]. eexists. split; [rewrite nth_error_app2 by lia; now rewrite Nat.sub_diag|].
  cbn [v_name v_host v_path v_tcp v_ws v_kcp v_slices v_workers]. rewrite handle_b.
  rewrite G at 1 2 3 4 5 6 7. rewrite !overlay_s, !overlay_i, overlay_slices by discriminate. repeat (split; [reflexivity|]).
  unfold handle_conf, is_bind. rewrite G, overlay_s. destruct (str_eq _ w_bind); cbn [ints put_i ifield_beq]; now rewrite overlay_i by discriminate.
Qed.

Lemma start_listens p i s j q h n t : In (Listening j q h n t) (snd (start_server p i s)) ->
  j = i /\ h = v_host s /\ n = (match q with Tcp => v_tcp s | Ws => v_ws s | Kcp => v_kcp s end).
Proof.
  unfold start_server, listen_tcp, listen_kcp, listen_ws. destruct (str_eq (strs (p_conf p) Mode) m_tcp), (str_eq (strs (p_conf p) Mode) m_ws), (str_eq (strs (p_conf p) Mode) m_kcp); destruct (find_path (v_path s) (p_mux p)); cbn; intros H;
  repeat match goal with H : _ \/ _ |- _ => destruct H end; try contradiction; try discriminate;
  match goal with H : _ = _ |- _ => injection H; intros; subst; auto end.
Qed.
Lemma admit_listens p i s pick j q h n t : ~ In (Listening j q h n t) (snd (admit_conn p i s pick)).
Proof.
  unfold admit_conn. destruct (zlen _ >=? _); [cbn; intros [H|[]]; discriminate|]. destruct (use_worker _ _ pick) as [[w s2]|]; cbn; intros [H|[H|[]]]; discriminate.
Qed.
Lemma step_listens p o j q h n t : In (Listening j q h n t) (snd (step p o)) ->
  exists s, nth_error (p_servers p) j = Some s /\ h = v_host s /\ n = (match q with Tcp => v_tcp s | Ws => v_ws s | Kcp => v_kcp s end).
Proof.
  unfold step. destruct (p_down p) eqn:D; [contradiction|]. destruct o as [c| |i id h0|i id hs|i|i pick|j0 path pick|i k id|i k|i idle].
  - destruct (construct c _ _) as [[[s g] l]|]; cbn; intros [H|[]]; discriminate.
  - contradiction.
  - destruct (nth_error (p_servers p) i) as [s|]; [|contradiction]. destruct (v_slices s); [cbn; intros [H|[]]; discriminate|]. destruct (find_id id (v_apis s)); cbn; [intros [H|[]]; discriminate|contradiction].
  - destruct (nth_error (p_servers p) i) as [s|]; [|contradiction]. destruct (v_slices s); [|cbn; intros [H|[]]; discriminate]. destruct (find_id id (v_hands s)); cbn; [intros [H|[]]; discriminate|contradiction].
  - destruct (nth_error (p_servers p) i) as [s|] eqn:N; [|contradiction]. intros H. apply start_listens in H. destruct H as (-> & H). exists s. auto.
  - destruct (nth_error (p_servers p) i) as [s|]; [|contradiction]. intros H. now apply admit_listens in H.
  - destruct (find_path path (p_mux p)) as [i|]; [|contradiction]. destruct (nth_error (p_servers p) i) as [s|]; [|contradiction].
    pose proof (admit_listens p i s pick j q h n t) as A. destruct (admit_conn p i s pick) as [p1 es]. cbn. intros [H|H]; [discriminate|now apply A in H].
  - destruct (nth_error (p_servers p) i) as [s|]; [|contradiction]. destruct (nth_error (v_conns s) k) as [[w|]|]; cbn; try contradiction. unfold dispatch.
    destruct (bools (p_conf p) RouterSlicesMode), (find_id id (v_hands s)), (find_id id (v_apis s)); intros [H|[]]; discriminate.
  - destruct (nth_error (p_servers p) i) as [s|]; [|contradiction]. destruct (nth_error (v_conns s) k) as [[w|]|]; contradiction.
  - destruct (nth_error (p_servers p) i) as [s|]; [|contradiction]. cbn; intros [H|[]]; discriminate.
Qed.
Lemma run_listens os : forall p j q h n t s, nth_error (p_servers p) j = Some s -> In (Listening j q h n t) (seen p os) ->
  h = v_host s /\ n = (match q with Tcp => v_tcp s | Ws => v_ws s | Kcp => v_kcp s end).
Proof.
  induction os as [|o os IH]; intros p j q h n t s N H; [contradiction|]. cbn in H. apply in_app_or in H. destruct H as [H|H].
  - apply step_listens in H. destruct H as (s1 & N1 & H). replace s with s1 by congruence. exact H.
  - destruct (step_keep p o j s N) as (s1 & N1 & K). destruct (IH _ _ _ _ _ _ _ N1 H) as (A & B). destruct K as (K & _). unfold identity in K.
    injection K as E1 E2 E3 E4 E5 E6 E7 E8 E9. split; [congruence|]. rewrite B. destruct q; congruence.
Qed.

(* Routing. *)
Lemma router_added p i s id h : p_down p = false -> nth_error (p_servers p) i = Some s -> snd (step p (AddRouter i id h)) = [] ->
  exists s1, nth_error (p_servers (fst (step p (AddRouter i id h)))) i = Some s1 /\ find_id id (v_apis s1) = Some h /\ v_slices s = false.
Proof.
  intros D N. unfold step. rewrite D, N. destruct (v_slices s) eqn:S; [discriminate|]. destruct (find_id id (v_apis s)); [discriminate|]. intros _. cbn.
  eexists. split; [apply put_same; apply nth_error_Some; congruence|]. cbn. rewrite Z.eqb_refl. auto.
Qed.
Lemma slices_added p i s id hs : p_down p = false -> nth_error (p_servers p) i = Some s -> snd (step p (AddRouterSlices i id hs)) = [] ->
  exists s1, nth_error (p_servers (fst (step p (AddRouterSlices i id hs)))) i = Some s1 /\ find_id id (v_hands s1) = Some hs /\ v_slices s = true.
Proof.
  intros D N. unfold step. rewrite D, N. destruct (v_slices s) eqn:S; [|discriminate]. destruct (find_id id (v_hands s)); [discriminate|]. intros _. cbn.
  eexists. split; [apply put_same; apply nth_error_Some; congruence|]. cbn. rewrite Z.eqb_refl. auto.
Qed.
Lemma message_seen p i k id : snd (step p (Message i k id)) <> [] -> exists s w, p_down p = false /\ nth_error (p_servers p) i = Some s /\ nth_error (v_conns s) k = Some (Some w) /\
  snd (step p (Message i k id)) = [dispatch (p_conf p) i s id].
Proof.
  unfold step. destruct (p_down p) eqn:D; [intros H; now destruct H|]. destruct (nth_error (p_servers p) i) as [s|] eqn:N; [|intros H; now destruct H].
  destruct (nth_error (v_conns s) k) as [[w|]|] eqn:C; intros H; try now destruct H. exists s, w. auto.
Qed.

(* A server of one kind never has routes of the other. *)
Definition own_routes (p : proc) : Prop := forall i s, nth_error (p_servers p) i = Some s -> (v_slices s = false -> v_hands s = []) /\ (v_slices s = true -> v_apis s = []).
Lemma new_routes c g l s g' l' : construct c g l = Some (s, g', l') -> v_hands s = [] /\ v_apis s = [].
Proof.
  destruct c as [|u| |u]; cbn [construct]; [|destruct (user_conf_to_global u (g, l)) as [g1 l1]| |destruct (bools u RouterSlicesMode); [destruct (user_conf_to_global u (g, l)) as [g1 l1]|discriminate]];
  intros [= <- <- <-]; auto.
Qed.

Lemma admit_routes p i s pick : nth_error (p_servers p) i = Some s -> exists s', p_servers (fst (admit_conn p i s pick)) = put i s' (p_servers p) /\ v_slices s' = v_slices s /\ v_apis s' = v_apis s /\ v_hands s' = v_hands s.
Proof.
  intros N. unfold admit_conn. destruct (zlen (v_conns s) >=? _); [exists s; cbn; rewrite (put_self s) by exact N; auto|].
  unfold use_worker. set (s1 := set_conns s (v_conns s) (v_cid s + 1)).
  destruct (is_bind (p_conf p)), (is_dynamic (p_conf p)), (v_stuck s1); repeat match goal with |- context [match nth_error ?x ?y with _ => _ end] => destruct (nth_error x y) end;
  eexists; cbn; (split; [reflexivity|]); auto.
Qed.
Lemma free_routes g s w : v_slices (free_worker g s w) = v_slices s /\ v_apis (free_worker g s w) = v_apis s /\ v_hands (free_worker g s w) = v_hands s.
Proof.
  unfold free_worker. destruct (is_bind g), (is_dynamic g), (w <? v_workers s), (v_stuck s), (v_free s), (v_extra s); auto.
Qed.
Lemma own_put p i s' : own_routes p -> (v_slices s' = false -> v_hands s' = []) -> (v_slices s' = true -> v_apis s' = []) -> own_routes (put_server p i s').
Proof.
  intros O A B j s N. cbn in N. destruct (Nat.eq_dec i j) as [<-|D].
  - assert (L : (i < length (p_servers p))%nat) by (rewrite <- (put_length s' _ i); apply nth_error_Some; congruence). rewrite put_same in N by exact L. injection N as <-. auto.
  - rewrite put_other in N by exact D. now apply (O j).
Qed.
Lemma own_step p o : own_routes p -> own_routes (fst (step p o)).
Proof.
  intros O. unfold step. destruct (p_down p) eqn:D; [exact O|]. destruct o as [c| |i id h|i id hs|i|i pick|j path pick|i k id|i k|i idle].
  - destruct (construct c _ _) as [[[s g] l]|] eqn:C; [|exact O]. apply new_routes in C. destruct C as [C1 C2]. intros i s' N. cbn in N.
    destruct (Nat.lt_ge_cases i (length (p_servers p))) as [L|L]; [rewrite nth_error_app1 in N by exact L; now apply (O i)|].
    rewrite nth_error_app2 in N by exact L. destruct (i - length (p_servers p))%nat as [|m]; cbn in N; [injection N as <-; auto|destruct m; discriminate].
  - exact O.
  - destruct (nth_error (p_servers p) i) as [s|] eqn:N; [|exact O]. destruct (O i s N) as [A B]. destruct (v_slices s) eqn:S; [exact O|]. destruct (find_id id (v_apis s)); [exact O|].
    apply own_put; [exact O|cbn; auto|cbn; congruence].
  - destruct (nth_error (p_servers p) i) as [s|] eqn:N; [|exact O]. destruct (O i s N) as [A B]. destruct (v_slices s) eqn:S; [|exact O]. destruct (find_id id (v_hands s)); [exact O|].
    apply own_put; [exact O|cbn; congruence|cbn; auto].
  - destruct (nth_error (p_servers p) i) as [s|] eqn:N; [|exact O]. destruct (start_frame p i s) as (_ & _ & E). intros j s' N'. rewrite E in N'. now apply (O j).
  - destruct (nth_error (p_servers p) i) as [s|] eqn:N; [|exact O]. destruct (O i s N) as [A B]. destruct (admit_routes p i s pick N) as (s' & E & E1 & E2 & E3).
    intros j t Nt. rewrite E in Nt. apply (own_put p i s' O) with (i := j); [rewrite E1, E3; exact A|rewrite E1, E2; exact B|exact Nt].
  - destruct (find_path path (p_mux p)) as [i|]; [|exact O]. destruct (nth_error (p_servers p) i) as [s|] eqn:N; [|exact O].
    destruct (O i s N) as [A B]. destruct (admit_routes p i s pick N) as (s' & E & E1 & E2 & E3). destruct (admit_conn p i s pick) as [p1 es]. cbn [fst] in *.
    intros j' t Nt. rewrite E in Nt. apply (own_put p i s' O) with (i := j'); [rewrite E1, E3; exact A|rewrite E1, E2; exact B|exact Nt].
  - destruct (nth_error (p_servers p) i) as [s|] eqn:N; [|exact O]. destruct (nth_error (v_conns s) k) as [[w|]|]; exact O.
  - destruct (nth_error (p_servers p) i) as [s|] eqn:N; [|exact O]. destruct (O i s N) as [A B]. destruct (nth_error (v_conns s) k) as [[w|]|]; try exact O. cbn [fst].
    destruct (free_routes (p_conf p) (set_conns s (drop_nth k (v_conns s)) (v_cid s)) w) as (E1 & E2 & E3). apply own_put; [exact O|rewrite E1, E3; exact A|rewrite E1, E2; exact B].
  - destruct (nth_error (p_servers p) i) as [s|] eqn:N; exact O.
Qed.
Lemma own_run os : forall p, own_routes p -> own_routes (run p os).
Proof. induction os as [|o os IH]; intros p O; [exact O|]. cbn. apply IH. now apply own_step. Qed.
Lemma own_begin g l : own_routes (begin g l).
Proof. intros [|i] s H; discriminate H. Qed.

(* The mux. *)
Lemma find_path_app w l k v : find_path w (l ++ [(k, v)]) = match find_path w l with Some x => Some x | None => if str_eq k w then Some v else None end.
Proof. induction l as [|[a b] l IH]; cbn; [reflexivity|]. destruct (str_eq a w); auto. Qed.
Lemma find_path_in w l x : find_path w l = Some x -> In (w, x) l.
Proof. induction l as [|[a b] l IH]; cbn; [discriminate|]. destruct (str_eq a w) eqn:E; [intros [= <-]; apply str_eq_spec in E; subst; auto|auto]. Qed.

(* A step leaves the mux alone, or is the start of a server that adds its own path, or crashes. *)
Lemma step_mux p o : let p' := fst (step p o) in
  (p_mux p' = p_mux p /\ p_down p' = p_down p /\ ~ In Crash (snd (step p o)) /\ (forall i h n t, ~ In (Listening i Ws h n t) (snd (step p o)))) \/
  (exists i s, o = Start i /\ p_down p = false /\ nth_error (p_servers p) i = Some s /\ opens (strs (p_conf p) Mode) Ws /\
     ((find_path (v_path s) (p_mux p) = None /\ p_mux p' = p_mux p ++ [(v_path s, i)] /\ p_down p' = false /\ ~ In Crash (snd (step p o)) /\ In (Listening i Ws (v_host s) (v_ws s) false) (snd (step p o))) \/
      (find_path (v_path s) (p_mux p) <> None /\ p_mux p' = p_mux p /\ p_down p' = true /\ In Crash (snd (step p o)) /\ (forall i h n t, ~ In (Listening i Ws h n t) (snd (step p o)))))).
Proof.
  unfold step. destruct (p_down p) eqn:D; [left; cbn; auto|]. destruct o as [c| |i id h|i id hs|i|i pick|j path pick|i k id|i k|i idle].
  - left. destruct (construct c _ _) as [[[s g] l]|]; cbn; (split; [auto|]; split; [auto|]; split; [intros [H|[]]; discriminate|intros i h n t [H|[]]; discriminate]).
  - left. cbn. auto.
  - left. destruct (nth_error (p_servers p) i) as [s|]; [|cbn; auto]. destruct (v_slices s); [|destruct (find_id id (v_apis s))]; cbn; (split; [auto|]; split; [auto|]; split; [intros H|intros i0 h0 n9 t9 H]; try contradiction; destruct H as [H|[]]; discriminate).
  - left. destruct (nth_error (p_servers p) i) as [s|]; [|cbn; auto]. destruct (v_slices s); [destruct (find_id id (v_hands s))|]; cbn; (split; [auto|]; split; [auto|]; split; [intros H|intros i0 h0 n9 t9 H]; try contradiction; destruct H as [H|[]]; discriminate).
  - destruct (nth_error (p_servers p) i) as [s|] eqn:N; [|left; cbn; auto]. unfold start_server. set (m := strs (p_conf p) Mode).
    destruct (str_eq m m_tcp) eqn:E1; [left; cbn; (split; [auto|]; split; [auto|]; split; [intros [H|[H|[]]]|intros i0 h0 n9 t9 [H|[H|[]]]]; discriminate)|].
    destruct (str_eq m m_ws) eqn:E2.
    { apply str_eq_spec in E2. right. exists i, s. split; [auto|]. split; [auto|]. split; [auto|]. split; [fold m; rewrite E2; split; discriminate|].
      unfold listen_ws. destruct (find_path (v_path s) (p_mux p)) eqn:F; [right|left]; (split; [congruence|]); cbn; (split; [auto|]; split; [auto|]); split; auto.
      - intros i0 h0 n9 t9 [H|[H|[]]]; discriminate.
      - intros [H|[H|[]]]; discriminate. }
    destruct (str_eq m m_kcp) eqn:E3; [left; cbn; (split; [auto|]; split; [auto|]; split; [intros [H|[H|[]]]|intros i0 h0 n9 t9 [H|[H|[]]]]; discriminate)|].
    right. exists i, s. apply str_eq_false in E1, E2, E3. split; [auto|]. split; [auto|]. split; [auto|]. split; [fold m; split; auto|].
    unfold listen_tcp, listen_ws. destruct (find_path (v_path s) (p_mux p)) eqn:F; [right|left]; (split; [congruence|]); cbn; (split; [auto|]; split; [auto|]); split; auto.
    + intros i0 h0 n9 t9 [H|[H|[H|[]]]]; discriminate.
    + intros [H|[H|[H|[]]]]; discriminate.
  - left. destruct (nth_error (p_servers p) i) as [s|] eqn:N; [|cbn; auto]. destruct (admit_kept p i s pick N) as (_ & _ & A & B & _). rewrite D in B. split; [exact A|]. split; [exact B|].
    split; [|intros; apply admit_listens]. unfold admit_conn. destruct (zlen _ >=? _); [cbn; intros [H|[]]; discriminate|]. destruct (use_worker _ _ pick) as [[w s2]|]; cbn; intros [H|[H|[]]]; discriminate.
  - left. destruct (find_path path (p_mux p)) as [i|]; [|cbn; auto]. destruct (nth_error (p_servers p) i) as [s|] eqn:N; [|cbn; auto].
    destruct (admit_kept p i s pick N) as (_ & _ & A & B & _). rewrite D in B.
    assert (C : ~ In Crash (snd (admit_conn p i s pick))).
    { unfold admit_conn. destruct (zlen _ >=? _); [cbn; intros [H|[]]; discriminate|]. destruct (use_worker _ _ pick) as [[w s2]|]; cbn; intros [H|[H|[]]]; discriminate. }
    pose proof (fun i0 h n t => admit_listens p i s pick i0 Ws h n t) as L. destruct (admit_conn p i s pick) as [p1 es]. cbn [fst snd] in *.
    split; [exact A|]. split; [exact B|]. split; [intros [H|H]; [discriminate|auto]|]. intros i0 h n t [H|H]; [discriminate|now apply L in H].
  - left. destruct (nth_error (p_servers p) i) as [s|]; [|cbn; auto]. destruct (nth_error (v_conns s) k) as [[w|]|]; [|cbn; auto|cbn; auto].
    cbn. split; [auto|]. split; [auto|]. unfold dispatch. destruct (bools (p_conf p) RouterSlicesMode), (find_id id (v_hands s)), (find_id id (v_apis s)); (split; [intros [H|[]]|intros i0 h0 n9 t9 [H|[]]]; discriminate).
  - left. destruct (nth_error (p_servers p) i) as [s|]; [|cbn; auto]. destruct (nth_error (v_conns s) k) as [[w|]|]; cbn; auto.
  - left. destruct (nth_error (p_servers p) i) as [s|]; [|cbn; auto]. cbn. split; [auto|]. split; [auto|]. (split; [intros [H|[]]|intros i0 h0 n9 t9 [H|[]]]; discriminate).
Qed.

Lemma mux_grows p o w x : find_path w (p_mux p) = Some x -> find_path w (p_mux (fst (step p o))) = Some x.
Proof.
  intros H. destruct (step_mux p o) as [(E & _)|(i & s & _ & _ & _ & _ & [(F & E & _)|(_ & E & _)])]; rewrite E; auto. rewrite find_path_app, H. reflexivity.
Qed.
Lemma mux_grows_run os : forall p w x, find_path w (p_mux p) = Some x -> find_path w (p_mux (run p os)) = Some x.
Proof. induction os as [|o os IH]; intros p w x H; [exact H|]. cbn. apply IH. now apply mux_grows. Qed.

Lemma listened os : forall p i h n t s, nth_error (p_servers p) i = Some s -> In (Listening i Ws h n t) (seen p os) -> find_path (v_path s) (p_mux (run p os)) <> None.
Proof.
  induction os as [|o os IH]; intros p i h n t s N H; [contradiction|]. cbn in *. destruct (step_keep p o i s N) as (s1 & N1 & K).
  apply in_app_or in H. destruct H as [H|H].
  - destruct (step_mux p o) as [(_ & _ & _ & C)|(j & s2 & E & D & Nj & _ & [(F & M & _)|(_ & _ & _ & _ & C)])]; try (now apply C in H).
    assert (j = i). { subst o. cbn [step] in H. unfold step in H. rewrite D, Nj in H. apply start_listens in H. destruct H as [H _]. congruence. }
    subst j. replace s2 with s in * by congruence.
    assert (G : find_path (v_path s) (p_mux (fst (step p o))) = Some i) by (rewrite M, find_path_app, F, str_eq_refl; reflexivity).
    rewrite (mux_grows_run os _ _ _ G). discriminate.
  - destruct K as (K & _). unfold identity in K. replace (v_path s) with (v_path s1) by congruence. eapply IH; eauto.
Qed.

Lemma crash_down os : forall p, In Crash (seen p os) -> p_down (run p os) = true.
Proof.
  induction os as [|o os IH]; intros p H; [contradiction|]. cbn in *. apply in_app_or in H. destruct H as [H|H]; [|now apply IH].
  assert (D : p_down (fst (step p o)) = true).
  { destruct (step_mux p o) as [(_ & _ & C & _)|(i & s & _ & _ & _ & _ & [(_ & _ & _ & C & _)|(_ & _ & D & _)])]; try (now apply C in H). exact D. }
  destruct (down_run os _ D) as [E _]. now rewrite E.
Qed.

(* Every registered path is its server's, and that server was started. *)
Definition mux_ok (p : proc) (done : list nat) : Prop := forall w i, In (w, i) (p_mux p) -> In i done /\ exists s, nth_error (p_servers p) i = Some s /\ v_path s = w.
Lemma mux_ok_step p o done : mux_ok p done -> mux_ok (fst (step p o)) (done ++ starts [o]).
Proof.
  intros M w i H.
  assert (G : In (w, i) (p_mux p) -> In i (done ++ starts [o]) /\ exists s, nth_error (p_servers (fst (step p o))) i = Some s /\ v_path s = w).
  { intros H0. destruct (M w i H0) as (A & s & N & P). split; [apply in_or_app; auto|]. destruct (step_keep p o i s N) as (s1 & N1 & K & _). exists s1. split; [exact N1|]. unfold identity in K. congruence. }
  destruct (step_mux p o) as [(E & _)|(j & s & O & D & N & _ & [(F & E & _)|(_ & E & _)])]; rewrite E in H; try (now apply G).
  apply in_app_or in H. destruct H as [H|[H|[]]]; [now apply G|]. injection H as <- <-. split; [apply in_or_app; right; subst o; cbn; auto|].
  destruct (step_keep p o j s N) as (s1 & N1 & K & _). exists s1. split; [exact N1|]. unfold identity in K. congruence.
Qed.
Lemma starts_app a b : starts (a ++ b) = starts a ++ starts b.
Proof. apply flat_map_app. Qed.

Lemma stays_up os : forall p done, p_down p = false -> mux_ok p done -> NoDup (done ++ starts os) ->
  (forall i j si sj, In i (done ++ starts os) -> In j (done ++ starts os) -> nth_error (p_servers (run p os)) i = Some si -> nth_error (p_servers (run p os)) j = Some sj -> v_path si = v_path sj -> i = j) ->
  p_down (run p os) = false.
Proof.
  induction os as [|o os IH]; intros p done D M ND P; [exact D|]. cbn [run]. change (o :: os) with ([o] ++ os) in ND, P. rewrite starts_app in ND. setoid_rewrite starts_app in P. cbn [app run] in P. 
  assert (D1 : p_down (fst (step p o)) = false).
  { destruct (step_mux p o) as [(_ & E & _)|(i & s & O & _ & N & _ & [(_ & _ & E & _)|(F & _ & _ & _)])]; [congruence|exact E|]. exfalso.
    destruct (find_path (v_path s) (p_mux p)) as [j|] eqn:Fj; [|congruence]. apply find_path_in in Fj. destruct (M _ _ Fj) as (Ij & sj & Nj & Pj).
    destruct (step_keep p o i s N) as (s1 & N1 & K1 & _). destruct (step_keep p o j sj Nj) as (s2 & N2 & K2 & _).
    destruct (run_keep os _ _ _ N1) as (s3 & N3 & K3 & _). destruct (run_keep os _ _ _ N2) as (s4 & N4 & K4 & _). unfold identity in *.
    assert (i = j). { apply (P i j s3 s4); [apply in_or_app; right; subst o; cbn; auto|apply in_or_app; auto|exact N3|exact N4|congruence]. }
    subst j o. cbn in ND. apply NoDup_remove_2 in ND. apply ND. apply in_or_app. auto. }
  apply (IH _ (done ++ starts [o])); [exact D1|now apply mux_ok_step|rewrite <- app_assoc; exact ND|].
  intros i j si sj. rewrite <- app_assoc. apply P.
Qed.

Lemma ws_served p done o j i w : mux_ok p done -> In (WsRequest j i w) (snd (step p o)) -> exists s, nth_error (p_servers p) i = Some s /\ v_path s = w.
Proof.
  intros M H. unfold step in H. destruct (p_down p); [contradiction|]. destruct o as [c| |a id h|a id hs|a|a pick|j0 path pick|a k id|a k|a idle].
  - destruct (construct c _ _) as [[[s g] l]|]; destruct H as [H|[]]; discriminate.
  - contradiction.
  - destruct (nth_error (p_servers p) a) as [s|]; [|contradiction]. destruct (v_slices s); [destruct H as [H|[]]; discriminate|]. destruct (find_id id (v_apis s)); [destruct H as [H|[]]; discriminate|contradiction].
  - destruct (nth_error (p_servers p) a) as [s|]; [|contradiction]. destruct (v_slices s); [|destruct H as [H|[]]; discriminate]. destruct (find_id id (v_hands s)); [destruct H as [H|[]]; discriminate|contradiction].
  - destruct (nth_error (p_servers p) a) as [s|]; [|contradiction]. exfalso. revert H. unfold start_server, listen_tcp, listen_kcp, listen_ws.
    destruct (str_eq (strs (p_conf p) Mode) m_tcp), (str_eq (strs (p_conf p) Mode) m_ws), (str_eq (strs (p_conf p) Mode) m_kcp); destruct (find_path (v_path s) (p_mux p)); cbn; intros H;
    repeat match goal with H : _ \/ _ |- _ => destruct H end; try contradiction; discriminate.
  - destruct (nth_error (p_servers p) a) as [s|]; [|contradiction]. exfalso. revert H. unfold admit_conn. destruct (zlen _ >=? _); [cbn; intros [H|[]]; discriminate|].
    destruct (use_worker _ _ pick) as [[w0 s2]|]; cbn; intros [H|[H|[]]]; discriminate.
  - destruct (find_path path (p_mux p)) as [i0|] eqn:F; [|contradiction]. destruct (nth_error (p_servers p) i0) as [s|] eqn:N; [|contradiction].
    assert (C : ~ In (WsRequest j i w) (snd (admit_conn p i0 s pick))).
    { unfold admit_conn. destruct (zlen _ >=? _); [cbn; intros [X|[]]; discriminate|]. destruct (use_worker _ _ pick) as [[w0 s2]|]; cbn; intros [X|[X|[]]]; discriminate. }
    destruct (admit_conn p i0 s pick) as [p1 es]. destruct H as [H|H]; [|now apply C in H]. injection H as <- <- <-. apply find_path_in in F. now apply M in F.
  - destruct (nth_error (p_servers p) a) as [s|]; [|contradiction]. destruct (nth_error (v_conns s) k) as [[w0|]|]; try contradiction. exfalso. revert H. cbn. unfold dispatch.
    destruct (bools (p_conf p) RouterSlicesMode), (find_id id (v_hands s)), (find_id id (v_apis s)); intros [H|[]]; discriminate.
  - destruct (nth_error (p_servers p) a) as [s|]; [|contradiction]. destruct (nth_error (v_conns s) k) as [[w0|]|]; contradiction.
  - destruct (nth_error (p_servers p) a) as [s|]; [|contradiction]. destruct H as [H|[]]; discriminate.
Qed.
Lemma mux_ok_run os : forall p done, mux_ok p done -> mux_ok (run p os) (done ++ starts os).
Proof.
  induction os as [|o os IH]; intros p done M; [cbn; now rewrite app_nil_r|]. cbn [run]. change (o :: os) with ([o] ++ os). rewrite starts_app, app_assoc. apply IH. now apply mux_ok_step.
Qed.
Lemma mux_ok_begin g l : mux_ok (begin g l) [].
Proof. intros w i []. Qed.
Lemma ws_served_run os : forall p done j i w, mux_ok p done -> In (WsRequest j i w) (seen p os) -> exists s, nth_error (p_servers (run p os)) i = Some s /\ v_path s = w.
Proof.
  induction os as [|o os IH]; intros p done j i w M H; [contradiction|]. cbn in *. apply in_app_or in H. destruct H as [H|H].
  - apply (ws_served p done) in H; [|exact M]. destruct H as (s & N & P). destruct (step_keep p o i s N) as (s1 & N1 & K1 & _). destruct (run_keep os _ _ _ N1) as (s2 & N2 & K2 & _).
    exists s2. split; [exact N2|]. unfold identity in *. congruence.
  - eapply IH; [|exact H]. apply mux_ok_step. exact M.
Qed.

(* Workers of a server made in Hash mode. *)
Definition hashed (s : server) : Prop := v_free s = None /\ v_extra s = None /\ 0 < v_workers s /\ forall w, In (Some w) (v_conns s) -> w < v_workers s.
Lemma use_hashed g s pick w s' : hashed s -> use_worker g s pick = Some (w, s') -> s' = s /\ w < v_workers s.
Proof.
  intros (F & X & W & _). unfold use_worker. rewrite F, X. cbn [length].
  assert (Z0 : forall n, nth_error (@nil Z) n = None) by (intros [|]; reflexivity). rewrite !Z0.
  pose proof (Z.mod_pos_bound (v_cid s) (v_workers s) W). destruct (Z.eqb_spec (v_workers s) 0); [lia|].
  destruct (is_bind g), (is_dynamic g), (v_stuck s); intros [= <- <-]; split; auto; lia.
Qed.
Lemma free_hashed g s w : hashed s -> hashed (free_worker g s w).
Proof.
  intros (F & X & W & C). unfold free_worker. rewrite F, X. destruct (is_bind g), (is_dynamic g), (w <? v_workers s), (v_stuck s); repeat (split; auto).
Qed.

Lemma admit_hashed p i s pick : hashed s -> nth_error (p_servers p) i = Some s -> exists s', nth_error (p_servers (fst (admit_conn p i s pick))) i = Some s' /\ hashed s'.
Proof.
  intros H N. assert (L : (i < length (p_servers p))%nat) by (apply nth_error_Some; congruence).
  unfold admit_conn. destruct (zlen _ >=? _); [exists s; auto|]. set (s1 := set_conns s (v_conns s) (v_cid s + 1)).
  assert (H1 : hashed s1) by exact H. destruct (use_worker _ s1 pick) as [[w s2]|] eqn:U.
  - destruct (use_hashed _ _ _ _ _ H1 U) as [-> B]. cbn. eexists. split; [now apply put_same|]. destruct H as (F & X & W & C). split; [exact F|]. split; [exact X|]. split; [exact W|].
    cbn. intros w0 I0. apply in_app_or in I0. destruct I0 as [I0|[[= <-]|[]]]; [now apply C|exact B].
  - cbn. eexists. split; [now apply put_same|]. destruct H as (F & X & W & C). split; [exact F|]. split; [exact X|]. split; [exact W|].
    cbn. intros w0 I0. apply in_app_or in I0. destruct I0 as [I0|[I0|[]]]; [now apply C|discriminate].
Qed.
Lemma admit_elsewhere p i s pick j : i <> j -> nth_error (p_servers (fst (admit_conn p i s pick))) j = nth_error (p_servers p) j.
Proof. intros D. unfold admit_conn. destruct (zlen _ >=? _); [reflexivity|]. destruct (use_worker _ _ pick) as [[w s2]|]; cbn; now rewrite put_other. Qed.

Lemma hashed_step p o i s : hashed s -> nth_error (p_servers p) i = Some s -> exists s', nth_error (p_servers (fst (step p o))) i = Some s' /\ hashed s'.
Proof.
  intros H N. assert (L : (i < length (p_servers p))%nat) by (apply nth_error_Some; congruence).
  unfold step. destruct (p_down p) eqn:D; [exists s; auto|]. destruct o as [c| |a id h|a id hs|a|a pick|j path pick|a k id|a k|a idle].
  - destruct (construct c _ _) as [[[s0 g] l]|]; [|exists s; auto]. cbn. exists s. rewrite nth_error_app1 by exact L. auto.
  - exists s. auto.
  - destruct (nth_error (p_servers p) a) as [t|] eqn:Na; [|exists s; auto]. destruct (v_slices t); [exists s; auto|]. destruct (find_id id (v_apis t)); [exists s; auto|]. cbn.
    destruct (Nat.eq_dec a i) as [->|E]; [|exists s; rewrite put_other by exact E; auto]. eexists. split; [now apply put_same|]. replace t with s by congruence. exact H.
  - destruct (nth_error (p_servers p) a) as [t|] eqn:Na; [|exists s; auto]. destruct (v_slices t); [|exists s; auto]. destruct (find_id id (v_hands t)); [exists s; auto|]. cbn.
    destruct (Nat.eq_dec a i) as [->|E]; [|exists s; rewrite put_other by exact E; auto]. eexists. split; [now apply put_same|]. replace t with s by congruence. exact H.
  - destruct (nth_error (p_servers p) a) as [t|] eqn:Na; [|exists s; auto]. destruct (start_frame p a t) as (_ & _ & E). rewrite E. exists s. auto.
  - destruct (nth_error (p_servers p) a) as [t|] eqn:Na; [|exists s; auto]. destruct (Nat.eq_dec a i) as [->|E].
    + replace t with s by congruence. now apply admit_hashed.
    + exists s. rewrite admit_elsewhere by exact E. auto.
  - destruct (find_path path (p_mux p)) as [a|]; [|exists s; auto]. destruct (nth_error (p_servers p) a) as [t|] eqn:Na; [|exists s; auto]. 
    assert (G : exists s', nth_error (p_servers (fst (admit_conn p a t pick))) i = Some s' /\ hashed s').
    { destruct (Nat.eq_dec a i) as [->|E].
      + replace t with s by congruence. now apply admit_hashed.
      + exists s. rewrite admit_elsewhere by exact E. auto. }
    destruct (admit_conn p a t pick) as [p1 es]. exact G.
  - destruct (nth_error (p_servers p) a) as [t|] eqn:Na; [|exists s; auto]. destruct (nth_error (v_conns t) k) as [[w|]|]; exists s; auto.
  - destruct (nth_error (p_servers p) a) as [t|] eqn:Na; [|exists s; auto]. destruct (nth_error (v_conns t) k) as [[w|]|]; try (exists s; auto; fail). cbn.
    destruct (Nat.eq_dec a i) as [->|E]; [|exists s; rewrite put_other by exact E; auto]. eexists. split; [now apply put_same|]. apply free_hashed. replace t with s by congruence.
    destruct H as (F & X & W & C). split; [exact F|]. split; [exact X|]. split; [exact W|]. cbn. intros w0 I0. apply C. eapply in_drop; eauto.
  - destruct (nth_error (p_servers p) a) as [t|] eqn:Na; exists s; auto.
Qed.
Lemma hashed_run os : forall p i s, hashed s -> nth_error (p_servers p) i = Some s -> exists s', nth_error (p_servers (run p os)) i = Some s' /\ hashed s'.
Proof.
  induction os as [|o os IH]; intros p i s H N; [exists s; auto|]. cbn. destruct (hashed_step p o i s H N) as (s1 & N1 & H1). eapply IH; eauto.
Qed.

(* With the lock left behind and the mode DynamicBind, nobody is served any more. *)
Lemma stuck_step p o i s : is_dynamic (p_conf p) = true -> nth_error (p_servers p) i = Some s -> v_stuck s = true -> forall w, ~ In (Serving i w) (snd (step p o)).
Proof.
  intros Y N T w H. assert (A : forall a t pick, nth_error (p_servers p) a = Some t -> ~ In (Serving i w) (snd (admit_conn p a t pick))).
  { intros a t pick Na. unfold admit_conn. destruct (zlen _ >=? _); [cbn; intros [X|[]]; discriminate|].
    destruct (use_worker (p_conf p) (set_conns t (v_conns t) (v_cid t + 1)) pick) as [[w0 s2]|] eqn:U; cbn; intros [X|[X|[]]]; try discriminate.
    injection X as -> ->. replace t with s in * by congruence. unfold use_worker in U. cbn [v_stuck set_conns] in U. rewrite T, Y in U. destruct (is_bind (p_conf p)); discriminate. }
  unfold step in H. destruct (p_down p); [contradiction|]. destruct o as [c| |a id h|a id hs|a|a pick|j0 path pick|a k id|a k|a idle].
  - destruct (construct c _ _) as [[[s0 g] l]|]; destruct H as [H|[]]; discriminate.
  - contradiction.
  - destruct (nth_error (p_servers p) a) as [t|]; [|contradiction]. destruct (v_slices t); [destruct H as [H|[]]; discriminate|]. destruct (find_id id (v_apis t)); [destruct H as [H|[]]; discriminate|contradiction].
  - destruct (nth_error (p_servers p) a) as [t|]; [|contradiction]. destruct (v_slices t); [|destruct H as [H|[]]; discriminate]. destruct (find_id id (v_hands t)); [destruct H as [H|[]]; discriminate|contradiction].
  - destruct (nth_error (p_servers p) a) as [t|]; [|contradiction]. revert H. unfold start_server, listen_tcp, listen_kcp, listen_ws.
    destruct (str_eq (strs (p_conf p) Mode) m_tcp), (str_eq (strs (p_conf p) Mode) m_ws), (str_eq (strs (p_conf p) Mode) m_kcp); destruct (find_path (v_path t) (p_mux p)); cbn; intros H;
    repeat match goal with H : _ \/ _ |- _ => destruct H end; try contradiction; discriminate.
  - destruct (nth_error (p_servers p) a) as [t|] eqn:Na; [|contradiction]. now apply (A a t pick Na).
  - destruct (find_path path (p_mux p)) as [a|]; [|contradiction]. destruct (nth_error (p_servers p) a) as [t|] eqn:Na; [|contradiction].
    pose proof (A a t pick Na) as B. destruct (admit_conn p a t pick) as [p1 es]. destruct H as [H|H]; [discriminate|now apply B].
  - destruct (nth_error (p_servers p) a) as [t|]; [|contradiction]. destruct (nth_error (v_conns t) k) as [[w0|]|]; try contradiction. revert H. cbn. unfold dispatch.
    destruct (bools (p_conf p) RouterSlicesMode), (find_id id (v_hands t)), (find_id id (v_apis t)); intros [H|[]]; discriminate.
  - destruct (nth_error (p_servers p) a) as [t|]; [|contradiction]. destruct (nth_error (v_conns t) k) as [[w0|]|]; contradiction.
  - destruct (nth_error (p_servers p) a) as [t|]; [|contradiction]. destruct H as [H|[]]; discriminate.
Qed.
Lemma dynamic_steady p o : makes_none o -> is_dynamic (p_conf p) = true -> is_dynamic (p_conf (fst (step p o))) = true.
Proof.
  intros M Y. destruct (p_down p) eqn:D; [now rewrite down_step|]. destruct (step_conf p o D) as (A & _). assert (E : brings o = None) by (destruct o; try reflexivity; contradiction M).
  rewrite E in A. unfold is_dynamic. now rewrite A.
Qed.
Lemma stuck_run os : forall p i s, Forall makes_none os -> is_dynamic (p_conf p) = true -> nth_error (p_servers p) i = Some s -> v_stuck s = true -> forall w, ~ In (Serving i w) (seen p os).
Proof.
  induction os as [|o os IH]; intros p i s F Y N T w H; [contradiction|]. inversion_clear F as [|? ? M F']. cbn in H. apply in_app_or in H. destruct H as [H|H]; [eapply stuck_step; eauto|].
  destruct (step_keep p o i s N) as (s1 & N1 & _ & _ & _ & K & _). apply (IH (fst (step p o)) i s1 F' (dynamic_steady p o M Y) N1 (K T) w H).
Qed.

Lemma closed_stuck p i s k w : p_down p = false -> is_dynamic (p_conf p) = true -> nth_error (p_servers p) i = Some s -> hashed s -> nth_error (v_conns s) k = Some (Some w) ->
  exists s', nth_error (p_servers (fst (step p (Close i k)))) i = Some s' /\ v_stuck s' = true.
Proof.
  intros D Y N (F & X & W & C) K. unfold step. rewrite D, N, K. cbn [fst put_server set_servers p_servers]. eexists. split; [apply put_same; apply nth_error_Some; congruence|].
  assert (B : is_bind (p_conf p) = false). { unfold is_bind, is_dynamic in *. apply str_eq_spec in Y. rewrite Y. reflexivity. }
  unfold free_worker. rewrite B, Y. cbn [v_workers set_conns v_stuck v_free]. apply nth_error_In in K. apply C in K. destruct (Z.ltb_spec w (v_workers s)); [|lia]. rewrite F.
  destruct (v_stuck s) eqn:T; [exact T|reflexivity].
Qed.

Lemma new_hashed c p i : p_down p = false -> let p' := fst (step p (New c)) in snd (step p (New c)) = [Created i] ->
  strs (p_conf p') WorkerMode <> w_bind -> strs (p_conf p') WorkerMode <> w_dynamic -> ints (p_conf p') WorkerPoolSize > 0 ->
  exists s, nth_error (p_servers p') i = Some s /\ hashed s.
Proof.
  intros D. unfold step. rewrite D. destruct (construct c (p_conf p) (p_log p)) as [[[s g] l]|] eqn:E; [|discriminate]. cbn [fst snd p_conf p_servers]. intros [= <-] B Y W.
  exists s. split; [rewrite nth_error_app2 by lia; now rewrite Nat.sub_diag|].
  assert (G : exists g0, s = fst (new_server g0) /\ g = handle_conf g0).
  { destruct c as [|u| |u]; cbn [construct] in E; [|destruct (user_conf_to_global u _) as [g1 l1]| |destruct (bools u RouterSlicesMode); [destruct (user_conf_to_global u _) as [g1 l1]|discriminate]];
    injection E as <- <- <-; [exists (p_conf p)|exists g1|exists (put_b (p_conf p) RouterSlicesMode true)|exists g1]; split; reflexivity. }
  destruct G as (g0 & -> & Eg). apply str_eq_false in B, Y. assert (HB : is_bind g = false) by exact B. assert (HY : is_dynamic g = false) by exact Y.
  cbn [fst new_server]. rewrite <- Eg. unfold hashed, handle_free, handle_extra. cbn [v_free v_extra v_workers v_conns]. rewrite HB, HY. split; [auto|]. split; [auto|]. split; [lia|]. intros w [].
Qed.

(* A slice-routing server implies slice routing in force. *)
Definition slices_agree (p : proc) : Prop := forall i s, nth_error (p_servers p) i = Some s -> v_slices s = true -> bools (p_conf p) RouterSlicesMode = true.
Lemma step_length p o : makes_none o -> length (p_servers (fst (step p o))) = length (p_servers p).
Proof. intros M. destruct (step_one p o M) as (_ & _ & [E|(j & a & a' & Nj & E & K)]); rewrite E; [reflexivity|apply put_length]. Qed.
Lemma slices_agree_step p o : slices_agree p -> slices_agree (fst (step p o)).
Proof.
  intros A. destruct (p_down p) eqn:D; [now rewrite down_step|]. intros i s N S. destruct (step_conf p o D) as (_ & _ & C).
  destruct (nth_error (p_servers p) i) as [s0|] eqn:N0.
  - destruct (step_keep p o i s0 N0) as (s1 & N1 & K & _). unfold identity in K. rewrite C, (A i s0 N0) by congruence. apply orb_true_r.
  - assert (G : ~ makes_none o).
    { intros M. apply nth_error_None in N0. assert (L : (i < length (p_servers p))%nat) by (rewrite <- (step_length p o M); apply nth_error_Some; congruence). lia. }
    destruct o as [c| | | | | | | | |]; try (exfalso; apply G; exact Logic.I). clear G C.
    unfold step in *. rewrite D in *. destruct (construct c (p_conf p) (p_log p)) as [[[s1 g] l]|] eqn:E; [|cbn in N; congruence]. cbn [fst p_servers p_conf] in *.
    apply nth_error_None in N0. rewrite nth_error_app2 in N by exact N0. destruct (i - length (p_servers p))%nat as [|m]; cbn in N; [injection N as <-|destruct m; discriminate].
    destruct c as [|u| |u]; cbn [construct] in E; [|destruct (user_conf_to_global u _) as [g1 l1]| |destruct (bools u RouterSlicesMode); [destruct (user_conf_to_global u _) as [g1 l1]|discriminate]];
    injection E as <- <- <-; exact S.
Qed.
Lemma slices_agree_run os : forall p, slices_agree p -> slices_agree (run p os).
Proof. induction os as [|o os IH]; intros p O; [exact O|]. cbn. apply IH. now apply slices_agree_step. Qed.

(* Lemmas for C91. *)
From Coq Require Import ZArith List Bool Lia Arith.
From Verif Require Import WsAdmit Spec_WsAdmit.
Import ListNotations.

Lemma set_nth_length {A} n (x : A) l : length (set_nth n x l) = length l.
Proof. revert n. induction l as [|y l IH]; intros [|n]; cbn; auto. Qed.
Lemma set_nth_same {A} n (x y : A) l : nth_error l n = Some y -> nth_error (set_nth n x l) n = Some x.
Proof. revert n. induction l as [|z l IH]; intros [|n]; cbn; try discriminate; auto. Qed.
Lemma set_nth_other {A} n m (x : A) l : n <> m -> nth_error (set_nth n x l) m = nth_error l m.
Proof. revert n m. induction l as [|z l IH]; intros [|n] [|m] H; cbn; auto; congruence. Qed.
Lemma set_nth_fst (l : list (wsreq * wpc)) n r p p' : nth_error l n = Some (r, p) -> map fst (set_nth n (r, p') l) = map fst l.
Proof. revert n. induction l as [|[a b] l IH]; intros [|n]; cbn; try discriminate; [intros E; injection E as <- <-; reflexivity|intros E; now rewrite (IH _ E)]. Qed.

Section Limit.
Variable mc : Z.

(* A step of handler k touches nothing but its own entry. *)
Lemma handler_reqs s k r p ok : nth_error (w_reqs s) k = Some (r, p) ->
  exists p', w_reqs (fst (handler_step mc s k r p ok)) = set_nth k (r, p') (w_reqs s).
Proof.
  intros N. assert (Id : w_reqs s = set_nth k (r, p) (w_reqs s)).
  { clear -N. revert k N. induction (w_reqs s) as [|x l IH]; intros [|k]; cbn; try discriminate; [intros E; now injection E as ->|intros E; now rewrite <- (IH _ E)]. }
  destruct p; cbn.
  - destruct (w_len s >=? mc)%Z; cbn; eauto.
  - destruct (w_auth s) as [f|]; [destruct (f r)|]; cbn; eauto.
  - destruct (q_header r); cbn; eauto.
  - destruct (q_good r && ok); cbn; eauto.
  - eauto.
  - exists PDone. exact Id.
Qed.
Lemma handler_events s k r p ok e : In e (snd (handler_step mc s k r p ok)) ->
  match e with Answered j _ => j = k | Opened j r' _ _ => j = k /\ r' = r end.
Proof.
  destruct p; cbn.
  - destruct (w_len s >=? mc)%Z; cbn; [intros [<-|[]]; reflexivity|intros []].
  - destruct (w_auth s) as [f|]; [destruct (f r)|]; cbn; [intros []|intros [<-|[]]; reflexivity|intros []].
  - intros [].
  - destruct (q_good r && ok); cbn; intros [<-|[]]; reflexivity.
  - intros [<-|[]]; auto.
  - intros [].
Qed.
Lemma handler_auth s k r p ok : w_auth (fst (handler_step mc s k r p ok)) = w_auth s.
Proof.
  destruct p; cbn; auto.
  - destruct (w_len s >=? mc)%Z; reflexivity.
  - destruct (w_auth s) as [f|] eqn:E; [destruct (f r)|]; cbn; auto.
  - destruct (q_header r); reflexivity.
  - destruct (q_good r && ok); reflexivity.
Qed.

Lemma answers_app h a b : answers h (a ++ b) = answers h a ++ answers h b. Proof. apply flat_map_app. Qed.
Lemma opened_app h a b : opened h (a ++ b) = opened h a ++ opened h b. Proof. apply flat_map_app. Qed.

Lemma quiet_handler s k r p ok h : k <> h -> answers h (snd (handler_step mc s k r p ok)) = [] /\ opened h (snd (handler_step mc s k r p ok)) = [].
Proof.
  intros N. pose proof (handler_events s k r p ok) as H. revert H. generalize (snd (handler_step mc s k r p ok)). intros es H.
  induction es as [|e es IH]; [auto|]. change (answers h (e :: es)) with (answers h ([e] ++ es)). change (opened h (e :: es)) with (opened h ([e] ++ es)). rewrite answers_app, opened_app. specialize (H e (or_introl eq_refl)) as He.
  assert (IH' : answers h es = [] /\ opened h es = []) by (apply IH; intros x Hx; apply H; now right). destruct IH' as (-> & ->). cbn.
  destruct e as [j a|j r' c i]; [subst j|destruct He as (-> & _)]; (destruct (Nat.eqb_spec k h); [congruence|auto]).
Qed.

(* The entry of handler h after a step that is not its own. *)
Definition of_h (h : nat) (l : wlabel) : bool := match l with WStep k _ => Nat.eqb k h | _ => false end.
Lemma other_step s l h x : of_h h l = false -> nth_error (w_reqs s) h = Some x ->
  nth_error (w_reqs (fst (ws_step mc s l))) h = Some x /\ answers h (snd (ws_step mc s l)) = [] /\ opened h (snd (ws_step mc s l)) = [].
Proof.
  intros O N. destruct l as [r|k ok|f|n c]; cbn in *; auto.
  - split; [|auto]. rewrite nth_error_app1; [exact N|]. apply nth_error_Some. congruence.
  - apply Nat.eqb_neq in O. destruct (nth_error (w_reqs s) k) as [[r p]|] eqn:E; [|auto].
    destruct (handler_reqs s k r p ok E) as (p' & ->). split; [now rewrite set_nth_other|]. now apply quiet_handler.
Qed.

(* What a handler's remaining statements can still do; n: how many it is given. *)
Section Future.
Variable F : list (option wsauth).
Variable r : wsreq.
Definition quiet (A : list answer) (O : list (Z * Z)) : Prop := A = [] /\ O = [].
Definition fin_m (i : Z) (n : nat) (A : list answer) (O : list (Z * Z)) : Prop := A = [] /\ ((n = 0 /\ O = []) \/ (1 <= n /\ exists c, O = [(c, i)])).
Definition offered (p : option Z) : Prop := match p with None => True | Some q => In q (q_protos r) end.
Definition fin_u (i : Z) (n : nat) A O : Prop :=
  (n = 0 /\ quiet A O) \/ (1 <= n /\ A = [Failed] /\ O = []) \/ (1 <= n /\ exists p A', A = Switching p :: A' /\ offered p /\ fin_m i (n - 1) A' O).
Definition fin_p (i : Z) (n : nat) A O : Prop := (n = 0 /\ quiet A O) \/ (1 <= n /\ fin_u i (n - 1) A O).
Definition fin_a (n : nat) A O : Prop :=
  (n = 0 /\ quiet A O) \/ (1 <= n /\ A = [Unauthorized] /\ O = [] /\ exists f, In f F /\ lets_in f r = None) \/
  (1 <= n /\ exists f i, In f F /\ lets_in f r = Some i /\ fin_p i (n - 1) A O).
Definition fin_l (n : nat) A O : Prop := (n = 0 /\ quiet A O) \/ (1 <= n /\ A = [Plain] /\ O = []) \/ (1 <= n /\ fin_a (n - 1) A O).
Definition fin (p : wpc) (n : nat) A O : Prop :=
  match p with PDone => quiet A O | PMake i _ => fin_m i n A O | PUpgrade i => fin_u i n A O | PProto i => fin_p i n A O | PAuth => fin_a n A O | PLimit => fin_l n A O end.
End Future.

Lemma select_offered r subs : offered r (select_proto subs (q_protos r)).
Proof.
  unfold select_proto, offered. destruct (find _ subs) as [q|] eqn:E; [|exact I]. apply find_some in E. destruct E as (_ & E).
  apply existsb_exists in E. destruct E as (x & X & E). apply Z.eqb_eq in E. now subst.
Qed.

Lemma turns_cons h l tr : turns h (l :: tr) = (if of_h h l then S (turns h tr) else turns h tr).
Proof. unfold turns. cbn. destruct l as [q|k ok|f|n c]; cbn; auto. destruct (Nat.eqb k h); reflexivity. Qed.

Lemma future F h tr : forall s r p, nth_error (w_reqs s) h = Some (r, p) -> In (w_auth s) F -> (forall f, In (WSetAuth f) tr -> In f F) ->
  fin F r p (turns h tr) (answers h (ws_seen mc s tr)) (opened h (ws_seen mc s tr)).
Proof.
  induction tr as [|l tr IH]; intros s r p N HF HT.
  - cbn. destruct p; cbn; unfold fin_l, fin_a, fin_p, fin_u, fin_m, quiet; auto.
  - cbn [ws_seen]. rewrite answers_app, opened_app, turns_cons.
    assert (HF' : In (w_auth (fst (ws_step mc s l))) F).
    { destruct l as [q|k ok|f|n c]; cbn; auto; [|apply HT; now left]. destruct (nth_error (w_reqs s) k) as [[q p']|]; [rewrite handler_auth|]; exact HF. }
    assert (HT' : forall f, In (WSetAuth f) tr -> In f F) by (intros f Hf; apply HT; now right).
    destruct (of_h h l) eqn:O.
    + destruct l as [q|k ok|f|n c]; try discriminate. cbn in O. apply Nat.eqb_eq in O. subst k. cbn [ws_step] in *. rewrite N in *.
      destruct p as [| |i|i|i pr|]; cbn [handler_step] in *.
      * right. destruct (w_len s >=? mc)%Z; cbn [fst snd] in *.
        { left. specialize (IH (at_pc s h r PDone) r PDone (set_nth_same _ _ _ _ N) HF' HT'). destruct IH as (-> & ->). cbn. rewrite Nat.eqb_refl. cbn. split; [lia|auto]. }
        { right. split; [lia|]. replace (S (turns h tr) - 1) with (turns h tr) by lia. exact (IH (at_pc s h r PAuth) r PAuth (set_nth_same _ _ _ _ N) HF' HT'). }
      * right. replace (S (turns h tr) - 1) with (turns h tr) by lia. destruct (w_auth s) as [f|] eqn:EA; [destruct (f r) as [i|] eqn:Ef|]; cbn [fst snd] in *.
        { right. split; [lia|]. exists (Some f), i. split; [exact HF|]. split; [exact Ef|]. exact (IH (at_pc s h r (PProto i)) r (PProto i) (set_nth_same _ _ _ _ N) HF' HT'). }
        { left. split; [lia|]. specialize (IH (at_pc s h r PDone) r PDone (set_nth_same _ _ _ _ N) HF' HT'). destruct IH as (-> & ->). cbn. rewrite Nat.eqb_refl. cbn. split; [auto|]. split; [auto|]. exists (Some f). split; [exact HF|exact Ef]. }
        { right. split; [lia|]. exists None, (q_info r). split; [exact HF|]. split; [reflexivity|]. exact (IH (at_pc s h r (PProto (q_info r))) r (PProto (q_info r)) (set_nth_same _ _ _ _ N) HF' HT'). }
      * right. split; [lia|]. replace (S (turns h tr) - 1) with (turns h tr) by lia.
        assert (N' : forall s', w_reqs s' = set_nth h (r, PUpgrade i) (w_reqs s) -> nth_error (w_reqs s') h = Some (r, PUpgrade i)) by (intros s' ->; eapply set_nth_same, N).
        destruct (q_header r); cbn [fst snd] in *; refine (IH _ r (PUpgrade i) _ HF' HT'); now apply N'.
      * right. replace (S (turns h tr) - 1) with (turns h tr) by lia. destruct (q_good r && ok); cbn [fst snd] in *.
        { right. split; [lia|]. eexists _, _. split; [cbn; rewrite Nat.eqb_refl; reflexivity|]. split; [apply select_offered|]. cbn. exact (IH (at_pc s h r (PMake i _)) r (PMake i _) (set_nth_same _ _ _ _ N) HF' HT'). }
        { left. split; [lia|]. specialize (IH (at_pc s h r PDone) r PDone (set_nth_same _ _ _ _ N) HF' HT'). destruct IH as (-> & ->). cbn. rewrite Nat.eqb_refl. auto. }
      * cbn [fst snd] in *. assert (Q : quiet (answers h (ws_seen mc (Wsrv (w_auth (at_pc s h r PDone)) (w_subs (at_pc s h r PDone)) (w_len (at_pc s h r PDone) + 1) (w_cid (at_pc s h r PDone) + 1) (w_reqs (at_pc s h r PDone))) tr))
          (opened h (ws_seen mc (Wsrv (w_auth (at_pc s h r PDone)) (w_subs (at_pc s h r PDone)) (w_len (at_pc s h r PDone) + 1) (w_cid (at_pc s h r PDone) + 1) (w_reqs (at_pc s h r PDone))) tr))) by exact (IH (Wsrv (w_auth (at_pc s h r PDone)) (w_subs (at_pc s h r PDone)) (w_len (at_pc s h r PDone) + 1) (w_cid (at_pc s h r PDone) + 1) (w_reqs (at_pc s h r PDone))) r PDone (set_nth_same _ _ _ _ N) HF' HT').
        destruct Q as (-> & ->). cbn. rewrite Nat.eqb_refl. cbn. split; [reflexivity|]. right. split; [lia|]. eauto.
      * cbn [fst snd] in *. exact (IH _ r PDone N HF' HT').
    + destruct (other_step s l h _ O N) as (N' & -> & ->). cbn. exact (IH _ r p N' HF' HT').
Qed.

Lemma run_app tr1 tr2 s : ws_run mc s (tr1 ++ tr2) = ws_run mc (ws_run mc s tr1) tr2.
Proof. revert s. induction tr1 as [|l tr1 IH]; intros s; cbn; auto. Qed.
Lemma seen_app tr1 tr2 s : ws_seen mc s (tr1 ++ tr2) = ws_seen mc s tr1 ++ ws_seen mc (ws_run mc s tr1) tr2.
Proof. revert s. induction tr1 as [|l tr1 IH]; intros s; cbn; auto. rewrite IH. apply app_assoc. Qed.

Lemma step_fst s l : map fst (w_reqs (fst (ws_step mc s l))) = map fst (w_reqs s) ++ requests [l].
Proof.
  destruct l as [r|k ok|f|n c]; cbn; rewrite ?app_nil_r; auto.
  - rewrite map_app. reflexivity.
  - destruct (nth_error (w_reqs s) k) as [[r p]|] eqn:E; [|reflexivity]. destruct (handler_reqs s k r p ok E) as (p' & ->). eapply set_nth_fst, E.
Qed.
Lemma requests_cons l tr : requests (l :: tr) = requests [l] ++ requests tr.
Proof. unfold requests. cbn. now rewrite app_nil_r. Qed.
Lemma run_fst tr s : map fst (w_reqs (ws_run mc s tr)) = map fst (w_reqs s) ++ requests tr.
Proof.
  revert s. induction tr as [|l tr IH]; intros s; [cbn; now rewrite app_nil_r|]. cbn [ws_run]. rewrite IH, step_fst, (requests_cons l tr), <- app_assoc. reflexivity.
Qed.

(* Nothing is done for a handler that is not there yet. *)
Lemma before h tr s : (length (map fst (w_reqs s) ++ requests tr) <= h)%nat -> answers h (ws_seen mc s tr) = [] /\ opened h (ws_seen mc s tr) = [].
Proof.
  revert s. induction tr as [|l tr IH]; intros s L; [auto|]. cbn [ws_seen]. rewrite answers_app, opened_app.
  destruct (IH (fst (ws_step mc s l))) as (-> & ->); [now rewrite step_fst, <- app_assoc, <- requests_cons|]. rewrite !app_nil_r.
  rewrite app_length, map_length in L.
  destruct l as [r|k ok|f|n c]; cbn; auto. destruct (nth_error (w_reqs s) k) as [[r p]|] eqn:E; [|auto]. apply quiet_handler.
  assert (k < length (w_reqs s))%nat by (apply nth_error_Some; congruence). lia.
Qed.

Lemma opened_req tr : forall s h r c i, In (Opened h r c i) (ws_seen mc s tr) -> nth_error (map fst (w_reqs s) ++ requests tr) h = Some r.
Proof.
  induction tr as [|l tr IH]; intros s h r c i; [intros []|]. cbn [ws_seen]. rewrite in_app_iff. intros [H|H].
  - destruct l as [q|k ok|f|n c']; try now destruct H. cbn in H. destruct (nth_error (w_reqs s) k) as [[q p]|] eqn:E; [|destruct H].
    destruct (handler_events _ _ _ _ _ _ H) as (-> & ->). rewrite nth_error_app1; [now apply map_nth_error with (f := fst) in E|]. rewrite map_length. apply nth_error_Some. congruence.
  - apply IH in H. now rewrite step_fst, <- app_assoc, <- requests_cons in H.
Qed.
Lemma opened_in h r c i es : In (Opened h r c i) es -> In (c, i) (opened h es).
Proof. intros H. apply in_flat_map. exists (Opened h r c i). split; [exact H|]. cbn. rewrite Nat.eqb_refl. now left. Qed.

(* The subprotocol, while the others set the same or nothing. *)
Lemma select_same l : select_proto l l = hd_error l.
Proof. unfold select_proto. destruct l as [|x l]; [reflexivity|]. cbn. now rewrite Z.eqb_refl. Qed.
Definition early (p : wpc) : Prop := match p with PLimit | PAuth | PProto _ => True | _ => False end.
Definition settled (s : wsrv) (r : wsreq) (p : wpc) : Prop := early p \/ p = PDone \/ (exists i q, p = PMake i q) \/ select_proto (w_subs s) (q_protos r) = hd_error (q_protos r).
Definition others (h : nat) (r : wsreq) (s : wsrv) (tr : list wlabel) : Prop :=
  forall k r', k <> h -> nth_error (map fst (w_reqs s) ++ requests tr) k = Some r' -> q_header r' = true -> q_protos r' = q_protos r \/ turns k tr = 0.
Lemma others_step h r s l tr : others h r s (l :: tr) -> others h r (fst (ws_step mc s l)) tr.
Proof.
  intros O k r' K N H. rewrite step_fst, <- app_assoc, <- requests_cons in N. destruct (O k r' K N H) as [E|E]; [auto|]. right.
  rewrite turns_cons in E. destruct (of_h k l); lia.
Qed.

Lemma protocol h tr : forall s r p, nth_error (w_reqs s) h = Some (r, p) -> (q_header r = false -> q_protos r = []) ->
  settled s r p -> others h r s tr -> forall q, In (Switching q) (answers h (ws_seen mc s tr)) -> q = hd_error (q_protos r).
Proof.
  induction tr as [|l tr IH]; intros s r p N W S O q; [intros []|]. cbn [ws_seen]. rewrite answers_app, in_app_iff. pose proof (others_step _ _ _ _ _ O) as O'.
  destruct (of_h h l) eqn:E.
  - destruct l as [x|k ok|f|n c]; try discriminate. cbn in E. apply Nat.eqb_eq in E. subst k. cbn [ws_step] in *. rewrite N in *.
    destruct p as [| |i|i|i pr|]; cbn [handler_step] in *.
    + destruct (w_len s >=? mc)%Z; cbn [fst snd] in *.
      * cbn. rewrite Nat.eqb_refl. intros [[H|[]]|H]; [discriminate|]. refine (IH (at_pc s h r PDone) r PDone (set_nth_same _ _ _ _ N) W _ O' q H). unfold settled. auto.
      * intros [[]|H]. refine (IH (at_pc s h r PAuth) r PAuth (set_nth_same _ _ _ _ N) W _ O' q H). left. exact I.
    + destruct (w_auth s) as [f|]; [destruct (f r) as [i|]|]; cbn [fst snd] in *.
      * intros [[]|H]. refine (IH (at_pc s h r (PProto i)) r (PProto i) (set_nth_same _ _ _ _ N) W _ O' q H). left. exact I.
      * cbn. rewrite Nat.eqb_refl. intros [[H|[]]|H]; [discriminate|]. refine (IH (at_pc s h r PDone) r PDone (set_nth_same _ _ _ _ N) W _ O' q H). unfold settled. auto.
      * intros [[]|H]. refine (IH (at_pc s h r (PProto _)) r (PProto _) (set_nth_same _ _ _ _ N) W _ O' q H). left. exact I.
    + intros [[]|H]. pose proof W as W0. revert H. destruct (q_header r) eqn:Hd in W, O' |- *; cbn [fst snd] in *; intros H.
      * refine (IH (Wsrv _ _ _ _ _) r (PUpgrade i) (set_nth_same _ _ _ _ N) W0 _ O' q H). right. right. right. cbn. apply select_same.
      * refine (IH (at_pc s h r (PUpgrade i)) r (PUpgrade i) (set_nth_same _ _ _ _ N) W0 _ O' q H). right. right. right. rewrite (W0 Hd). unfold select_proto. cbn [hd_error].
        clear. induction (w_subs (at_pc s h r (PUpgrade i))); [reflexivity|]. cbn. exact IHl.
    + destruct (q_good r && ok); cbn [fst snd] in *.
      * cbn. rewrite Nat.eqb_refl. intros [[H|[]]|H].
        { injection H as <-. destruct S as [S|[S|[(a & b & S)|S]]]; [destruct S|discriminate|discriminate|exact S]. }
        { refine (IH (at_pc s h r (PMake i _)) r (PMake i _) (set_nth_same _ _ _ _ N) W _ O' q H). right. right. left. eauto. }
      * cbn. rewrite Nat.eqb_refl. intros [[H|[]]|H]; [discriminate|]. refine (IH (at_pc s h r PDone) r PDone (set_nth_same _ _ _ _ N) W _ O' q H). unfold settled. auto.
    + intros [[]|H]. refine (IH (Wsrv _ _ _ _ _) r PDone (set_nth_same _ _ _ _ N) W _ O' q H). unfold settled. auto.
    + intros [[]|H]. refine (IH _ r PDone N W _ O' q H). unfold settled. auto.
  - destruct (other_step s l h _ E N) as (N' & -> & _). intros [[]|H]. refine (IH _ r p N' W _ O' q H).
    destruct S as [S|[S|[S|S]]]; [left; exact S|right; left; exact S|right; right; left; exact S|]. right. right. right.
    destruct l as [x|k ok|f|n c]; cbn in *; auto. apply Nat.eqb_neq in E. destruct (nth_error (w_reqs s) k) as [[r' p']|] eqn:Nk; [|exact S].
    assert (Z : w_subs (fst (handler_step mc s k r' p' ok)) = w_subs s \/ (q_header r' = true /\ w_subs (fst (handler_step mc s k r' p' ok)) = q_protos r')).
    { destruct p'; cbn; auto; [destruct (w_len s >=? mc)%Z; auto|destruct (w_auth s) as [f|]; [destruct (f r')|]; auto|destruct (q_header r'); auto|destruct (q_good r' && ok); auto]. }
    destruct Z as [->|(Hd & ->)]; [exact S|].
    destruct (O k r' E) as [->|T]; [rewrite nth_error_app1; [now apply map_nth_error with (f := fst) in Nk|rewrite map_length; apply nth_error_Some; congruence]|exact Hd|apply select_same|].
    rewrite turns_cons in T. cbn in T. rewrite Nat.eqb_refl in T. discriminate.
Qed.
End Limit.

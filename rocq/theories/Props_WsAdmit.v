(* C91: what becomes of websocket requests. *)
From Coq Require Import ZArith List Bool Lia Arith.
From Verif Require Import WsAdmit Spec_WsAdmit WsAdmit_proofs.
Import ListNotations.

(* What a run does for the request that comes in between [tr1] and [tr2]. *)
Lemma split_run mc auth tr1 r tr2 : let s := ws_run mc (new_wsrv auth) (tr1 ++ [WReq r]) in let h := length (requests tr1) in
  nth_error (w_reqs s) h = Some (r, PLimit) /\
  answers h (ws_seen mc (new_wsrv auth) (tr1 ++ WReq r :: tr2)) = answers h (ws_seen mc s tr2) /\
  opened h (ws_seen mc (new_wsrv auth) (tr1 ++ WReq r :: tr2)) = opened h (ws_seen mc s tr2).
Proof.
  intros s h. assert (L : length (w_reqs (ws_run mc (new_wsrv auth) tr1)) = h).
  { rewrite <- (map_length fst), run_fst. reflexivity. }
  split.
  - unfold s. rewrite run_app. cbn. rewrite nth_error_app2 by lia. now rewrite L, Nat.sub_diag.
  - change (tr1 ++ WReq r :: tr2) with (tr1 ++ [WReq r] ++ tr2). rewrite app_assoc, seen_app. fold s. rewrite answers_app, opened_app, seen_app, answers_app, opened_app.
    destruct (before mc h tr1 (new_wsrv auth)) as (-> & ->); [cbn; unfold h; lia|]. cbn. auto.
Qed.
Lemma auth_in mc tr : forall s, In (w_auth (ws_run mc s tr)) (checks (w_auth s) tr).
Proof.
  induction tr as [|l tr IH]; intros s; [now left|]. cbn [ws_run]. specialize (IH (fst (ws_step mc s l))).
  destruct IH as [IH|IH].
  - rewrite <- IH. destruct l as [q|k ok|f|n c]; cbn; auto. destruct (nth_error (w_reqs s) k) as [[q p]|]; [rewrite handler_auth|]; auto.
  - right. destruct l; cbn; auto.
Qed.
Lemma future_of mc auth tr1 r tr2 : let es := ws_seen mc (new_wsrv auth) (tr1 ++ WReq r :: tr2) in let h := length (requests tr1) in
  fin (checks auth (tr1 ++ WReq r :: tr2)) r PLimit (turns h tr2) (answers h es) (opened h es).
Proof.
  intros es h. destruct (split_run mc auth tr1 r tr2) as (N & EA & EO). unfold es, h. rewrite EA, EO. apply future with (s := ws_run mc (new_wsrv auth) (tr1 ++ [WReq r])); [exact N| |].
  - pose proof (auth_in mc (tr1 ++ [WReq r]) (new_wsrv auth)) as H. destruct H as [H|H]; [left; exact H|right].
    rewrite flat_map_app in *. cbn in *. rewrite app_nil_r in H. apply in_or_app. now left.
  - intros f Hf. right. apply in_flat_map. exists (WSetAuth f). split; [|now left]. apply in_or_app. right. now right.
Qed.
Lemma opened_split mc auth tr h r c i : In (Opened h r c i) (ws_seen mc (new_wsrv auth) tr) -> exists tr1 tr2, tr = tr1 ++ WReq r :: tr2 /\ length (requests tr1) = h.
Proof.
  intros H. apply opened_req in H. cbn in H. revert h H. induction tr as [|l tr IH]; intros h H; [destruct h; discriminate|].
  destruct l as [q|k ok|f|n c']; try (destruct (IH h H) as (tr1 & tr2 & -> & <-); eexists (_ :: tr1), tr2; split; reflexivity).
  destruct h as [|h]; cbn in H.
  - injection H as <-. exists [], tr. auto.
  - destruct (IH h H) as (tr1 & tr2 & -> & <-). exists (WReq q :: tr1), tr2. auto.
Qed.

(* C91. A connection is made only for a request that came in and that a check in force let in;
   it is made once, after the answer 101, and carries what that check put in this request. *)
Theorem C91_let_in mc auth tr h r cid info : let es := ws_seen mc (new_wsrv auth) tr in In (Opened h r cid info) es ->
  nth_error (requests tr) h = Some r /\ (exists f, In f (checks auth tr) /\ lets_in f r = Some info) /\
  (exists p, answers h es = [Switching p]) /\ opened h es = [(cid, info)].
Proof.
  intros es H. pose proof (opened_req _ _ _ _ _ _ _ H) as E. split; [exact E|].
  destruct (opened_split _ _ _ _ _ _ _ H) as (tr1 & tr2 & -> & <-). pose proof (opened_in _ _ _ _ _ H) as I.
  pose proof (future_of mc auth tr1 r tr2) as G. cbv zeta in G. fold es in G. revert I G. fold es. generalize (opened (length (requests tr1)) es) (answers (length (requests tr1)) es).
  intros O A I G. cbn in G. unfold fin_l, fin_a, fin_p, fin_u, fin_m, quiet in G.
  repeat match goal with H : _ \/ _ |- _ => destruct H | H : _ /\ _ |- _ => destruct H | H : exists _, _ |- _ => destruct H end; subst; try destruct I as [I|[]]; try contradiction.
  injection I as <- <-. eauto 10.
Qed.
Print Assumptions C91_let_in.

(* A request that every check in force refuses gets no connection; it is told so, unless the
   server is full. *)
Theorem C91_refused mc auth tr1 r tr2 : let tr := tr1 ++ WReq r :: tr2 in let es := ws_seen mc (new_wsrv auth) tr in let h := length (requests tr1) in
  (forall f, In f (checks auth tr) -> lets_in f r = None) ->
  opened h es = [] /\ forall a, In a (answers h es) -> a = Unauthorized \/ a = Plain.
Proof.
  intros tr es h R. pose proof (future_of mc auth tr1 r tr2) as G. cbv zeta in G. fold tr in G. fold es h in G. revert G. generalize (opened h es) (answers h es). intros O A G.
  cbn in G. unfold fin_l, fin_a, quiet in G.
  repeat match goal with H : _ \/ _ |- _ => destruct H | H : _ /\ _ |- _ => destruct H | H : exists _, _ |- _ => destruct H end; subst.
  - split; [reflexivity|intros a []].
  - split; [reflexivity|]. intros a [<-|[]]; auto.
  - split; [reflexivity|intros a []].
  - split; [reflexivity|]. intros a [<-|[]]; auto.
  - exfalso. rewrite R in H2 by assumption. discriminate.
Qed.
Print Assumptions C91_refused.

(* Every request is answered exactly once, given five turns, and has a connection exactly when
   the answer is 101. *)
Theorem C91_answered mc auth tr1 r tr2 : let es := ws_seen mc (new_wsrv auth) (tr1 ++ WReq r :: tr2) in let h := length (requests tr1) in
  (length (answers h es) <= 1)%nat /\ (length (opened h es) <= 1)%nat /\
  ((5 <= turns h tr2)%nat -> exists a, answers h es = [a] /\ ((exists c, opened h es = [c]) <-> exists p, a = Switching p)).
Proof.
  intros es h. pose proof (future_of mc auth tr1 r tr2) as G. cbv zeta in G. fold es h in G. revert G. generalize (opened h es) (answers h es) (turns h tr2). intros O A n G.
  cbn in G. unfold fin_l, fin_a, fin_p, fin_u, fin_m, quiet in G.
  repeat match goal with H : _ \/ _ |- _ => destruct H | H : _ /\ _ |- _ => destruct H | H : exists _, _ |- _ => destruct H end; subst; cbn [length]; (split; [lia|]; split; [lia|]; intros L; try lia); eexists; (split; [reflexivity|]);
    (split; [intros (c & E); try discriminate E; eauto|intros (p & E); try discriminate E; eauto]).
Qed.
Print Assumptions C91_answered.

(* The subprotocol answered is one the client offered. *)
Theorem C91_offered mc auth tr1 r tr2 q : let es := ws_seen mc (new_wsrv auth) (tr1 ++ WReq r :: tr2) in
  In (Switching (Some q)) (answers (length (requests tr1)) es) -> In q (q_protos r).
Proof.
  intros es. set (h := length (requests tr1)). pose proof (future_of mc auth tr1 r tr2) as G. cbv zeta in G. fold es h in G. revert G. generalize (opened h es) (answers h es) (turns h tr2). intros O A n G I.
  cbn in G. unfold fin_l, fin_a, fin_p, fin_u, fin_m, quiet in G.
  repeat match goal with H : _ \/ _ |- _ => destruct H | H : _ /\ _ |- _ => destruct H | H : exists _, _ |- _ => destruct H end; subst; cbn in I; try tauto; (destruct I as [I|[]]; try discriminate I); injection I as ->; assumption.
Qed.
Print Assumptions C91_offered.

(* C91. Full statement: a client that offers subprotocols is given the first.  Proved when every
   other request that offers any offers the same ones, or gets no turn while this one is handled. *)
Theorem C91_protocol_partial mc auth tr1 r tr2 p : let tr := tr1 ++ WReq r :: tr2 in let es := ws_seen mc (new_wsrv auth) tr in let h := length (requests tr1) in
  (q_header r = false -> q_protos r = []) ->
  (forall k r', k <> h -> nth_error (requests tr) k = Some r' -> q_header r' = true -> q_protos r' = q_protos r \/ turns k tr2 = 0%nat) ->
  In (Switching p) (answers h es) -> p = first_offered r.
Proof.
  intros tr es h W O I. destruct (split_run mc auth tr1 r tr2) as (N & EA & _). fold h in N, EA. fold tr in EA. unfold es in I. rewrite EA in I.
  eapply (protocol mc h tr2 (ws_run mc (new_wsrv auth) (tr1 ++ [WReq r])) r PLimit N W); [left; exact Logic.I| |exact I].
  intros k r' K Nk Hd. apply (O k r' K); [|exact Hd]. rewrite run_fst in Nk. cbn in Nk. unfold tr, requests in *. rewrite flat_map_app in *. cbn in *. now rewrite <- app_assoc in Nk.
Qed.
Print Assumptions C91_protocol_partial.

(* A server that takes requests whose number is even and adds 100 to what they carry; a request
   refused, one taken with subprotocol 7, one without any, and one when the server is full. *)
Definition even_only : wsauth := fun r => if Z.even (q_id r) then Some (100 + q_info r)%Z else None.
Definition five (h : nat) : list wlabel := [WStep h true; WStep h true; WStep h true; WStep h true; WStep h true].
Definition req (id : Z) (ps : list Z) : wsreq := WsReq id (match ps with [] => false | _ => true end) ps id true.
Definition day : list wlabel := WReq (req 1 [7]%Z) :: five 0 ++ [WReq (req 2 [7; 8]%Z); WReq (req 4 [])] ++ five 1 ++ five 2 ++ [WReq (req 6 [])] ++ five 3.
Example C91_case : ws_seen 2 (new_wsrv (Some even_only)) day =
  [Answered 0 Unauthorized; Answered 1 (Switching (Some 7%Z)); Opened 1 (req 2 [7; 8]%Z) 1 102; Answered 2 (Switching None); Opened 2 (req 4 []) 2 104; Answered 3 Plain].
Proof. vm_compute. reflexivity. Qed.
Example C91_protocol_case : forall k r', k <> 1%nat -> nth_error (requests day) k = Some r' -> q_header r' = true ->
  q_protos r' = [7; 8]%Z \/ turns k ([WReq (req 4 [])] ++ five 1 ++ five 2 ++ [WReq (req 6 [])] ++ five 3) = 0%nat.
Proof. intros [|[|[|[|k]]]] r' K N H; try congruence; vm_compute in N; try (injection N as <-; vm_compute in H; try discriminate; right; reflexivity). destruct k; discriminate. Qed.

(* C91 is false of two requests handled at once: the list of the second replaces that of the first
   in the server's one upgrader, and the first client is given none of those it offered. *)
Theorem C91_protocol_refuted : exists tr, requests tr = [req 2 [7]%Z; req 4 [8]%Z] /\
  answers 0 (ws_seen 10 (new_wsrv None) tr) = [Switching None] /\ first_offered (req 2 [7]%Z) = Some 7%Z.
Proof.
  exists ([WReq (req 2 [7]%Z); WReq (req 4 [8]%Z); WStep 0 true; WStep 0 true; WStep 0 true] ++ five 1 ++ [WStep 0 true; WStep 0 true]). vm_compute. auto.
Qed.
Print Assumptions C91_protocol_refuted.

(* C91 is false of a full server: the request is not taken on, and is answered with 200. *)
Theorem C91_full_refuted mc s r ok : (w_len s >= mc)%Z -> let h := length (w_reqs s) in
  let es := ws_seen mc s [WReq r; WStep h ok] in answers h es = [Plain] /\ ~ refusal Plain /\
  forall tr, opened h (ws_seen mc s ([WReq r; WStep h ok] ++ tr)) = [].
Proof.
  intros L h es. assert (E : (w_len s >=? mc)%Z = true) by (rewrite Z.geb_leb; apply Z.leb_le; lia).
  assert (N : nth_error (w_reqs s ++ [(r, PLimit)]) h = Some (r, PLimit)) by (rewrite nth_error_app2 by lia; unfold h; now rewrite Nat.sub_diag).
  split; [|split].
  - unfold es. cbn [ws_seen ws_step fst snd w_reqs]. rewrite N. cbn [handler_step w_len]. rewrite E. cbn. now rewrite Nat.eqb_refl.
  - intros [X|X]; discriminate.
  - intros tr. rewrite seen_app. rewrite opened_app. cbn [ws_run ws_seen ws_step fst snd w_reqs]. rewrite N. cbn [handler_step w_len w_reqs]. rewrite E. cbn [fst snd].
    match goal with |- context [ws_seen mc ?s' tr] => pose proof (future mc (w_auth s' :: flat_map (fun l => match l with WSetAuth f => [f] | _ => [] end) tr) h tr s' r PDone) as F end.
    cbn [opened flat_map app]. apply F; [cbn; eapply set_nth_same, N|now left|]. intros f Hf. right. apply in_flat_map. exists (WSetAuth f). split; [exact Hf|now left].
Qed.
Print Assumptions C91_full_refuted.
Example C91_full_case : (w_len (ws_run 1 (new_wsrv None) (WReq (req 2 []) :: five 0)) >= 1)%Z. Proof. vm_compute. discriminate. Qed.

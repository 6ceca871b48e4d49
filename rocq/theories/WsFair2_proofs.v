From Coq Require Import ZArith List Bool Arith Lia.
From Verif Require Import Bytes Pack Decoders Spec_Codec Reader Request Dispatch Workers Spec_Workers SendQueue Spec_Send SendLocked Spec_SendLocked Spec_EndToEnd Spec_Fair Spec_FairWs.
From Verif Require Import Workers_proofs EndToEnd_proofs EndToEnd2_proofs SendFair_proofs WsFair_proofs Fair_proofs.
Import ListNotations.
Local Open Scope nat_scope.
Local Arguments release_if : simpl never.

Definition out (s : lst) : list (list byte) := map snd (l_wire s).
Lemma wire_step c fl s l : exists w, l_wire (fst (l_step c fl s l)) = l_wire s ++ w.
Proof.
  assert (Z : forall s', l_wire s' = l_wire s -> exists w, l_wire s' = l_wire s ++ w) by (intros s' ->; exists []; now rewrite app_nil_r).
  assert (R : forall s' x, l_wire (release s' x) = l_wire s') by (intros s' x; unfold release; destruct (l_excl s'); reflexivity).
  assert (T : forall x s1, take fl s x = Some s1 -> l_wire s1 = l_wire s).
  { intros x s1. destruct fl; cbn; [unfold take_excl; destruct (l_excl s), (l_shared s)|unfold take_shared; destruct (l_excl s)]; intros [= <-]; reflexivity. }
  unfold l_step. destruct (l_crashed s); [now apply Z|]. destruct l as [ | |t a m|t ch o|i ch o|].
  - now apply Z.
  - destruct (l_ctx s); now apply Z.
  - destruct (l_send s t); try now apply Z. destruct a; now apply Z.
  - unfold lsend_step. assert (RI : forall lk s' x, l_wire (release_if lk s' x) = l_wire s') by (intros [] s' x; unfold release_if; auto).
    destruct (l_send s t); try now apply Z.
    + destruct (take fl s (OSend t)) as [s1|] eqn:E; apply Z; cbn; [exact (T _ _ E)|reflexivity].
    + destruct (l_field s); now apply Z.
    + destruct (l_closed s); apply Z; cbn; rewrite ?RI; reflexivity.
    + destruct ch; [now apply Z|apply Z; cbn; now rewrite RI|]. destruct i as [k|]; [|now apply Z]. destruct (chan_at s k) as [[q [|]]|]; [apply Z; cbn; now rewrite RI| |now apply Z].
      destruct (length q <? max 1 c); [|now apply Z]. apply Z. cbn. now rewrite RI.
    + destruct (take fl s (OSend t)) as [s1|] eqn:E; apply Z; cbn; [exact (T _ _ E)|reflexivity].
    + destruct (l_closed s); apply Z; cbn; rewrite ?R; reflexivity.
    + destruct (l_broken s); [apply Z; cbn; now rewrite R|]. destruct o; cbn; rewrite R; cbn; [now eexists|exists []; now rewrite app_nil_r].
  - unfold lwriter_step. destruct (nth_error (l_writers s) i) as [v|]; [|now apply Z]. destruct v; try now apply Z.
    + destruct (l_ctx s); now apply Z.
    + destruct ch; try (now apply Z); [destruct (l_cancelled s); now apply Z|]. destruct i0 as [j|]; [|now apply Z]. destruct (chan_at s j) as [[[|[? ?] ?] [|]]|]; now apply Z.
    + destruct (take fl s (OWriter i)) as [s1|] eqn:E; apply Z; cbn; [exact (T _ _ E)|reflexivity].
    + destruct (l_closed s); apply Z; cbn; rewrite ?R; reflexivity.
    + destruct (l_broken s); [apply Z; cbn; now rewrite R|]. destruct o; cbn; rewrite R; cbn; [now eexists|exists []; now rewrite app_nil_r].
  - unfold lfinal_step. destruct (l_final s); try now apply Z.
    + destruct (l_cancelled s); now apply Z.
    + destruct (take_excl s OFinal) as [s1|] eqn:E; [|now apply Z]. apply Z. cbn. unfold take_excl in E. destruct (l_excl s), (l_shared s); try discriminate. now injection E as <-.
    + apply Z. destruct (l_field s) as [k|]; [destruct (chan_at s k) as [[? ?]|]|]; reflexivity.
    + apply Z. cbn. apply R.
Qed.
Lemma wire_later c sch n m : n <= m -> exists w, l_wire (fst (ws_at c sch m)) = l_wire (fst (ws_at c sch n)) ++ w.
Proof.
  induction 1 as [|m H (w & IH)]; [exists []; now rewrite app_nil_r|].
  destruct (wire_step c Ws (fst (ws_at c sch m)) (sch m)) as (w' & E). exists (w ++ w').
  assert (S1 : fst (ws_at c sch (S m)) = fst (l_step c Ws (fst (ws_at c sch m)) (sch m))).
  { unfold ws_at. rewrite firstS, app_comm_cons, SendLocked_proofs.l_run_app. cbn [fst snd l_run]. now destruct (l_step c Ws _ (sch m)). }
  rewrite S1, E, IH. now rewrite app_assoc.
Qed.
Lemma prefix_concat {A} (x y : list (list A)) : prefix x y -> prefix (concat x) (concat y).
Proof. intros (r & ->). rewrite concat_app. now eexists. Qed.

Lemma ws_fair_arrives f q ss cf rs c chunks : ws_undisturbed ss -> ws_go_on ss -> lock_fair q ss ->
  (forall n x, In x (out (fst (ws_at q ss n))) -> exists p, msg_ok p /\ x = bytes_of (packer f) p) ->
  (forall n, prefix (chunks n) (out (fst (ws_at q ss n)))) ->
  (forall n, exists m, n <= m /\ prefix (out (fst (ws_at q ss n))) (chunks m)) ->
  (forall n, exists m s tr, n <= m /\ server_run cf (first rs m) = Some (s, tr) /\ prefix (map seen (fst (fst (run_reader (reader_of f) (chunks n))))) (map content (sent c tr))) ->
  cf_mode cf <> ModeDynamicBind -> pool_size cf > 0 -> workers_run rs -> (forall j, returns (cf_routes cf) j) ->
  forall n, exists k m s tr, n <= k /\ k <= m /\
    prefix (nils true (snd (ws_at q ss n))) (wired true (l_wire (fst (ws_at q ss k)))) /\
    server_run cf (first rs m) = Some (s, tr) /\
    forall msgs, Forall msg_ok msgs -> out (fst (ws_at q ss k)) = map (bytes_of (packer f)) msgs -> prefix (map Some msgs) (done c tr).
Proof.
  intros U G LF Ok Tr Rd Pa M P W R n.
  destruct (ws_written_fair q ss U G LF n) as (k & L1 & P1). unfold wr in P1. 
  destruct (Rd k) as (n2 & L2 & P2). destruct (Pa n2) as (n3 & s3 & tr3 & L3 & R3 & P6). 
  destruct (fair_in_order cf rs n3 s3 tr3 c M P W R R3) as (n4 & s4 & tr4 & L4 & R4 & P7).
  exists k, n4, s4, tr4. split; [exact L1|]. split; [lia|]. split; [exact P1|]. split; [exact R4|]. intros msgs F E.
  rewrite E in P2. destruct (wire_later q ss k n2 L2) as (w & Ew).
  assert (Eo : out (fst (ws_at q ss n2)) = map (bytes_of (packer f)) msgs ++ map snd w) by (unfold out in *; rewrite Ew, map_app, E; reflexivity).
  destruct (@all_msgs f (map snd w)) as (ms & Fm & Em). { intros x Hx. apply (Ok n2). rewrite Eo. apply in_or_app. now right. }
  pose proof (Tr n2) as P4. rewrite Eo, Em, <- map_app in P4.
  pose proof (read_covers f msgs ms (chunks n2) ltac:(apply Forall_app; auto) (prefix_concat _ _ P4) (prefix_concat _ _ P2)) as P5.
  exact (EndToEnd_proofs.prefix_trans _ _ _ (EndToEnd_proofs.prefix_trans _ _ _ P5 P6) P7).
Qed.

(* Putting the fair sender, the reader and the fair workers together. *)
From Coq Require Import ZArith List Bool Arith Lia Permutation.
From Verif Require Import Bytes Pack Decoders Spec_Codec Reader Request Dispatch Workers Spec_Workers SendQueue Spec_Send Spec_EndToEnd Spec_Fair.
From Verif Require Import Workers_proofs Workers2_proofs Props_Codec Props_Workers EndToEnd_proofs EndToEnd2_proofs WorkersFair_proofs SendFair_proofs.
Import ListNotations.
Local Open Scope nat_scope.

Lemma ends_prefix js acts : one_at_a_time js acts -> prefix (ends acts) js.
Proof.
  induction 1 as [js|j js|j js acts _ (r & IH)].
  - now exists js.
  - now exists (j :: js).
  - exists r. cbn [ends flat_map app]. change (flat_map _ acts) with (ends acts). now rewrite IH.
Qed.
Lemma first_split {L} (sch : nat -> L) n m : n <= m -> exists more, first sch m = first sch n ++ more.
Proof. intros H. unfold first. replace m with (n + (m - n)) by lia. rewrite seq_app, map_app. now eexists. Qed.
Lemma run_more cf ls more s tr s' tr' : server_run cf ls = Some (s, tr) -> server_run cf (ls ++ more) = Some (s', tr') -> exists e, tr' = tr ++ e.
Proof.
  unfold server_run. destruct (start_pool cf) as [s0|]; [|discriminate]. intros [= E] [= E']. rewrite wrun_snoc, E in E'. destruct (wrun cf s more). injection E' as _ <-. now eexists.
Qed.
Lemma fair_in_order cf sch n s tr c : cf_mode cf <> ModeDynamicBind -> pool_size cf > 0 -> workers_run sch -> (forall j, returns (cf_routes cf) j) ->
  server_run cf (first sch n) = Some (s, tr) ->
  exists m s' tr', n <= m /\ server_run cf (first sch m) = Some (s', tr') /\ prefix (map content (sent c tr)) (done c tr').
Proof.
  intros M P F R E. destruct (fair_done cf sch n s tr F R E) as (m & s' & tr' & more & Ln & E' & Pm). exists m, s', tr'. split; [exact Ln|]. split; [exact E'|].
  rewrite done_activity. apply EndToEnd_proofs.prefix_map.
  destruct (first_split sch n m Ln) as (ml & Em). rewrite Em in E'. destruct (run_more _ _ _ _ _ _ _ E E') as (e & ->).
  apply (prefix_len _ _ (sent c (tr ++ e))).
  - rewrite sent_app. now eexists.
  - apply ends_prefix. exact (C23_order_partial cf _ s' _ M P E' c).
  - rewrite ended_of, sent_of. apply (perm_of c) in Pm. apply Permutation_length in Pm. rewrite Pm. unfold of_c. rewrite flat_map_app, app_length. apply Nat.le_add_r.
Qed.

Lemma read_covers f msgs more chunks : Forall msg_ok (msgs ++ more) -> prefix (concat chunks) (concat (map (bytes_of (packer f)) (msgs ++ more))) ->
  prefix (concat (map (bytes_of (packer f)) msgs)) (concat chunks) -> prefix (map Some msgs) (map seen (fst (fst (run_reader (reader_of f) chunks)))).
Proof.
  intros F (rest & E) (r1 & E1). symmetry in E.
  assert (X : exists k, map seen (fst (fst (run_reader (reader_of f) chunks))) = map Some (firstn k (msgs ++ more)) /\
    (k < length (msgs ++ more) -> (zlen (concat chunks) < zlen (wire (packer f) (firstn (S k) (msgs ++ more))))%Z)).
  { change (concat (map (bytes_of (packer f)) (msgs ++ more))) with (wire (packer f) (msgs ++ more)) in E. destruct f; cbn [packer reader_of] in *.
    - destruct (C04_prompt_delivery_tlv _ chunks rest F E) as (qs & r & -> & S & _ & Q). exists (length qs). auto.
    - destruct (C04_prompt_delivery_ltv _ chunks rest F E) as (qs & r & -> & S & _ & Q). exists (length qs). auto. }
  destruct X as (k & -> & Q). destruct (le_lt_dec (length msgs) k) as [Hk|Hk].
  - rewrite firstn_app, firstn_all2, map_app by exact Hk. now eexists.
  - exfalso. rewrite app_length in Q. specialize (Q ltac:(lia)). rewrite firstn_app in Q. replace (S k - length msgs) with 0 in Q by lia. rewrite firstn_O, app_nil_r in Q.
    rewrite E1 in Q. rewrite <- (firstn_skipn (S k) msgs) in Q at 1. rewrite map_app, concat_app in Q. unfold wire in Q.
    change (fun p => packer f (new_msg_package (fst p) (snd p))) with (bytes_of (packer f)) in Q. unfold zlen in Q. rewrite !app_length in Q. lia.
Qed.

Lemma all_msgs {f} (l : list (list byte)) : (forall x, In x l -> exists p, msg_ok p /\ x = bytes_of (packer f) p) -> exists ms, Forall msg_ok ms /\ l = map (bytes_of (packer f)) ms.
Proof.
  induction l as [|x l IH]; intros H; [exists []; split; [constructor|reflexivity]|]. destruct (H x (or_introl eq_refl)) as (p & Hp & ->).
  destruct IH as (ms & F & ->); [intros y Hy; apply H; now right|]. exists (p :: ms). split; [now constructor|reflexivity].
Qed.
Lemma fair_arrives f qc ss cf rs c chunks : undisturbed ss -> all_go_on ss -> select_fair qc ss ->
  (forall n x, In x (map snd (oks (snd (conn_at qc ss n)))) -> exists p, msg_ok p /\ x = bytes_of (packer f) p) ->
  (forall n, prefix (concat (chunks n)) (q_wire (fst (conn_at qc ss n)))) ->
  (forall n, exists m, n <= m /\ prefix (q_wire (fst (conn_at qc ss n))) (concat (chunks m))) ->
  (forall n, exists m s tr, n <= m /\ server_run cf (first rs m) = Some (s, tr) /\ prefix (map seen (fst (fst (run_reader (reader_of f) (chunks n))))) (map content (sent c tr))) ->
  cf_mode cf <> ModeDynamicBind -> pool_size cf > 0 -> workers_run rs -> (forall j, returns (cf_routes cf) j) ->
  forall n msgs, Forall msg_ok msgs -> map snd (oks (snd (conn_at qc ss n))) = map (bytes_of (packer f)) msgs ->
  exists m s tr, n <= m /\ server_run cf (first rs m) = Some (s, tr) /\ prefix (map Some msgs) (done c tr).
Proof.
  intros U G SF Ok Tr Rd Pa M P W R n msgs F E.
  destruct (written_fair qc ss U G SF n) as (n1 & L1 & P1). rewrite E in P1.
  destruct (Rd n1) as (n2 & L2 & P2). pose proof (EndToEnd_proofs.prefix_trans _ _ _ P1 P2) as P3.
  assert (P4 := EndToEnd_proofs.prefix_trans _ _ _ (Tr n2) (f_wire qc ss U n2)). cbv beta in P4.
  destruct (f_later qc ss U n n2 ltac:(lia)) as (_ & (mo & O2) & _). cbv beta in O2.
  assert (X : exists ms, Forall msg_ok ms /\ map snd mo = map (bytes_of (packer f)) ms).
  { apply all_msgs. intros x Hx. apply (Ok n2). rewrite O2, map_app. apply in_or_app. now right. }
  destruct X as (ms & Fm & Em). rewrite O2, map_app, E, Em, <- map_app in P4.
  pose proof (read_covers f msgs ms (chunks n2) ltac:(apply Forall_app; auto) P4 P3) as P5.
  destruct (Pa n2) as (n3 & s3 & tr3 & L3 & R3 & P6). 
  destruct (fair_in_order cf rs n3 s3 tr3 c M P W R R3) as (n4 & s4 & tr4 & L4 & R4 & P7).
  exists n4, s4, tr4. split; [lia|]. split; [exact R4|].
  exact (EndToEnd_proofs.prefix_trans _ _ _ (EndToEnd_proofs.prefix_trans _ _ _ P5 P6) P7).
Qed.

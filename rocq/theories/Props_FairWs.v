(* Liveness on infinite executions of a websocket connection: C35 and C73. *)
From Coq Require Import ZArith List Bool Arith Lia Cantor.
From Verif Require Import Bytes Pack Decoders Spec_Codec Reader Request Dispatch Workers Spec_Workers SendQueue Spec_Send SendLocked Spec_SendLocked Spec_EndToEnd Spec_Fair Spec_FairWs.
From Verif Require Import SendErr_proofs.
From Verif Require Import Props_Workers Props_Send Props_EndToEnd Workers2_proofs Fair_proofs WsFair_proofs WsFair2_proofs Props_Fair.
Import ListNotations.
Local Open Scope nat_scope.

(* ---- C35 ---- *)

(* A websocket connection that is not stopped, on a working network, with sends of both kinds
   and every goroutine going on: at some later moment every buffered send that had returned
   nil by step n is on the wire, in order.  (A direct send is on the wire when it returns:
   C34_ws.) *)
Theorem C35_ws_fair_partial : forall c sch n,
  ws_undisturbed sch -> ws_go_on sch -> lock_fair c sch ->
  exists m, n <= m /\ prefix (nils true (snd (ws_at c sch n))) (wired true (l_wire (fst (ws_at c sch m)))).
Proof. intros c sch n U G S. exact (ws_written_fair c sch U G S n). Qed.
Print Assumptions C35_ws_fair_partial.

Definition ws_round (k : nat) : llabel :=
  if Nat.even k then MSend (fst (Cantor.of_nat (k / 2))) ChTimer NetOk else MWriter 0 ChChan NetOk.
Lemma ws_round_at k : ws_round (2 * k) = MSend (fst (Cantor.of_nat k)) ChTimer NetOk /\ ws_round (2 * k + 1) = MWriter 0 ChChan NetOk.
Proof.
  unfold ws_round. split.
  - replace (Nat.even (2 * k)) with true by (symmetry; apply Nat.even_spec; now exists k). now rewrite Nat.mul_comm, Nat.div_mul.
  - replace (Nat.even (2 * k + 1)) with false; [reflexivity|]. symmetry. rewrite <- Nat.negb_odd. apply negb_false_iff, Nat.odd_spec. now exists k.
Qed.
Definition ws_rest (s : lst) : Prop :=
  l_excl s = None /\ l_writers s = [VWait (Some 0)] /\ l_chans s = [([], false)] /\ forall t, l_send s t = LIdle.
Lemma ws_rest_round c s k : ws_rest s -> l_crashed s = false -> l_step c Ws s (ws_round k) = (s, []).
Proof.
  intros (A & B & C & D) E. unfold ws_round. destruct (Nat.even k); unfold l_step; rewrite ?E.
  - unfold lsend_step. now rewrite D.
  - unfold lwriter_step, chan_at. rewrite B. cbn [nth_error]. now rewrite C.
Qed.
Lemma ws_round_rest c pre : let here := l_run c Ws l_new (MStart :: pre) in ws_rest (fst here) -> l_crashed (fst here) = false ->
  forall k, ws_at c (then_round pre ws_round) (length pre + k) = here.
Proof.
  intros here R E. induction k as [|k IH].
  - rewrite Nat.add_0_r. unfold ws_at. rewrite first_pre by apply le_n. now rewrite firstn_all.
  - rewrite Nat.add_succ_r. unfold ws_at in *. rewrite SendFair_proofs.firstS, app_comm_cons, SendErr_proofs.l_run_snoc, IH, in_round, (ws_rest_round c _ k R E).
    cbn [fst snd]. rewrite app_nil_r. now destruct here.
Qed.
Definition ws_harmless (l : llabel) : bool := match l with MStop | MSend _ _ (NetFail _) | MWriter _ _ (NetFail _) => false | _ => true end.
Lemma ws_round_undisturbed pre : forallb ws_harmless pre = true -> ws_undisturbed (then_round pre ws_round).
Proof.
  intros H n. assert (N : forall l, In l (first (then_round pre ws_round) n) -> ws_harmless l = true).
  { intros l Hl. apply in_map_iff in Hl as (i & <- & _). unfold then_round. destruct (le_lt_dec (length pre) i) as [Hi|Hi].
    - rewrite nth_overflow by exact Hi. unfold ws_round. destruct (Nat.even _); reflexivity.
    - rewrite forallb_forall in H. apply H, nth_In, Hi. }
  split; [intros X; apply N in X; discriminate|]. split; intros; intros X; apply N in X; discriminate.
Qed.
Lemma ws_round_fair c pre : let here := l_run c Ws l_new (MStart :: pre) in ws_rest (fst here) -> l_crashed (fst here) = false ->
  ws_go_on (then_round pre ws_round) /\ lock_fair c (then_round pre ws_round).
Proof.
  intros here R E. split; [split|].
  - intros t n. exists (length pre + 2 * Cantor.to_nat (t, n)). pose proof (Cantor.to_nat_non_decreasing t n). split; [lia|]. now rewrite in_round, (proj1 (ws_round_at _)), Cantor.cancel_of_to.
  - intros n. exists (length pre + (2 * n + 1)). split; [lia|]. now rewrite in_round, (proj2 (ws_round_at _)).
  - intros _ n. exists (length pre + (2 * n + 1)). split; [lia|]. rewrite (ws_round_rest c pre R E), in_round, (proj2 (ws_round_at _)). split; [exact (proj1 R)|reflexivity].
Qed.
(* The three messages of C73_ws_case, the second sent directly; the first stays in the queue
   until the last has been queued. *)
Definition ws_begin : list llabel :=
  MCall 0 ASendToQueue (bytes_three 0) :: repeat (MSend 0 ChChan NetOk) 8 ++ repeat (MWriter 0 ChChan NetOk) 5 ++
  MCall 1 ASendMsg (bytes_three 1) :: repeat (MSend 1 ChChan NetOk) 4 ++
  MCall 0 ASendToQueue (bytes_three 2) :: repeat (MSend 0 ChChan NetOk) 8 ++ repeat (MWriter 0 ChChan NetOk) 8.
Definition ws_execution : nat -> llabel := then_round ws_begin ws_round.
Lemma ws_begin_rest : ws_rest (fst (l_run 4 Ws l_new (MStart :: ws_begin))) /\ l_crashed (fst (l_run 4 Ws l_new (MStart :: ws_begin))) = false.
Proof. split; [|vm_compute; reflexivity]. unfold ws_rest. repeat (split; [vm_compute; reflexivity|]). intros [|[|t]]; vm_compute; reflexivity. Qed.
Example C35_ws_fair_case : ws_undisturbed ws_execution /\ ws_go_on ws_execution /\ lock_fair 4 ws_execution /\
  nils true (snd (ws_at 4 ws_execution 28)) = [(0, bytes_three 0); (0, bytes_three 2)] /\ wired true (l_wire (fst (ws_at 4 ws_execution 28))) = [(0, bytes_three 0)].
Proof.
  split; [apply ws_round_undisturbed; vm_compute; reflexivity|]. destruct ws_begin_rest as (R & E). destruct (ws_round_fair _ _ R E) as (A & B). split; [exact A|]. split; [exact B|].
  unfold ws_at, ws_execution. rewrite first_pre by (vm_compute; lia). split; vm_compute; reflexivity.
Qed.

(* ---- C73 ---- *)

(* C73 for executions that go on for ever, the sender a websocket connection.  chunks n are the
   websocket messages the receiver has read by step n: some of those written, and whatever is
   written is read some time.  For every n there is a later k at which every message sent with
   a nil result by step n, of either kind, is on the wire, and all that is then on the wire is
   handled in the end, in that order, unchanged. *)
Theorem C73_ws_fair_partial : forall f q ss cf rs c chunks,
  let on_wire n := l_wire (fst (ws_at q ss n)) in
  ws_undisturbed ss -> ws_go_on ss -> lock_fair q ss ->
  (forall n x, In x (map snd (on_wire n)) -> exists p, msg_ok p /\ x = bytes_of (packer f) p) ->
  (forall n, prefix (chunks n) (map snd (on_wire n))) ->
  (forall n, exists m, n <= m /\ prefix (map snd (on_wire n)) (chunks m)) ->
  (forall n, exists m s tr, n <= m /\ server_run cf (first rs m) = Some (s, tr) /\
     prefix (map seen (fst (fst (run_reader (reader_of f) (chunks n))))) (map content (sent c tr))) ->
  cf_mode cf <> ModeDynamicBind -> pool_size cf > 0 -> workers_run rs -> (forall j, returns (cf_routes cf) j) ->
  forall n, exists k m s tr, n <= k /\ k <= m /\
    (forall b, prefix (nils b (snd (ws_at q ss n))) (wired b (on_wire k))) /\
    server_run cf (first rs m) = Some (s, tr) /\
    forall msgs, Forall msg_ok msgs -> map snd (on_wire k) = map (bytes_of (packer f)) msgs -> prefix (map Some msgs) (done c tr).
Proof.
  intros f q ss cf rs c chunks on_wire U G LF Ok Tr Rd Pa M P W R n.
  destruct (ws_fair_arrives f q ss cf rs c chunks U G LF Ok Tr Rd Pa M P W R n) as (k & m & s & tr & A & B & C & D & E).
  exists k, m, s, tr. split; [exact A|]. split; [exact B|]. split; [|split; [exact D|exact E]]. intros [|]; [exact C|].
  destruct (C34_ws q (first ss n) 0) as (X & _). destruct (wire_later q ss n k A) as (w & Ew). unfold on_wire. rewrite Ew. unfold ws_at at 1. cbv zeta in X. rewrite <- X.
  unfold wired. rewrite filter_app, map_app. eexists. reflexivity.
Qed.
Print Assumptions C73_ws_fair_partial.

Definition ws_three : list (list byte) := map snd (l_wire (fst (l_run 4 Ws l_new (MStart :: ws_begin)))).
Definition ws_received : list wlabel :=
  [LAccept; LAccept; LStart 0 0; LStart 1 0] ++ map (fun p => LSend 1 (JMsg (new_msg_package (fst p) (snd p)))) three.
Definition ws_reading (n : nat) : list (list byte) := if n <? length ws_begin then [] else ws_three.
Example C73_ws_fair_case : let on_wire n := l_wire (fst (ws_at 4 ws_execution n)) in let rs := then_round ws_received workers_round in
  ws_undisturbed ws_execution /\ ws_go_on ws_execution /\ lock_fair 4 ws_execution /\
  (forall n x, In x (map snd (on_wire n)) -> exists p, msg_ok p /\ x = bytes_of (packer Tlv) p) /\
  (forall n, prefix (ws_reading n) (map snd (on_wire n))) /\
  (forall n, exists m, n <= m /\ prefix (map snd (on_wire n)) (ws_reading m)) /\
  (forall n, exists m s tr, n <= m /\ server_run hash_cfg (first rs m) = Some (s, tr) /\
     prefix (map seen (fst (fst (run_reader (reader_of Tlv) (ws_reading n))))) (map content (sent 1 tr))) /\
  workers_run rs /\ (forall j, returns (cf_routes hash_cfg) j) /\
  map snd (on_wire (length ws_begin)) = map (bytes_of (packer Tlv)) three /\ Forall msg_ok three.
Proof.
  cbv zeta. assert (U : ws_undisturbed ws_execution) by (apply ws_round_undisturbed; vm_compute; reflexivity).
  destruct ws_begin_rest as (R & E). destruct (ws_round_fair _ _ R E) as (A & B). split; [exact U|]. split; [exact A|]. split; [exact B|].
  pose proof (ws_round_rest _ _ R E) as RR. fold ws_execution in RR.
  assert (F : Forall msg_ok three) by (repeat constructor; vm_compute; congruence).
  assert (W3 : ws_three = map (bytes_of (packer Tlv)) three) by (vm_compute; reflexivity).
  assert (Full : forall n, length ws_begin <= n -> map snd (l_wire (fst (ws_at 4 ws_execution n))) = ws_three).
  { intros n H. replace n with (length ws_begin + (n - length ws_begin)) by lia. now rewrite RR. }
  assert (Wire : forall n, prefix (map snd (l_wire (fst (ws_at 4 ws_execution n)))) ws_three).
  { intros n. destruct (wire_later 4 ws_execution n (length ws_begin + n) ltac:(lia)) as (w & Ew). exists (map snd w). rewrite <- map_app, <- Ew. symmetry. apply Full. lia. }
  split. { intros n x Hx. destruct (Wire n) as (r & Hr). assert (I : In x (map (bytes_of (packer Tlv)) three)) by (rewrite <- W3, Hr; apply in_or_app; now left). apply in_map_iff in I as (p & <- & Hp). exists p. split; [|reflexivity]. rewrite Forall_forall in F. now apply F. }
  split. { intros n. unfold ws_reading. destruct (Nat.ltb_spec n (length ws_begin)) as [H|H]; [now eexists|]. rewrite (Full n H). exists []. now rewrite app_nil_r. }
  split. { intros n. exists (n + length ws_begin). split; [lia|]. unfold ws_reading. destruct (Nat.ltb_spec (n + length ws_begin) (length ws_begin)) as [H|H]; [lia|]. apply Wire. }
  split.
  { intros n. set (m := n + length ws_received).
    assert (E0 : exists s0 tr0, server_run hash_cfg ws_received = Some (s0, tr0) /\ map content (sent 1 tr0) = map Some three) by (do 2 eexists; split; vm_compute; reflexivity).
    destruct E0 as (s0 & tr0 & E0 & S0).
    destruct (first_split (then_round ws_received workers_round) (length ws_received) m ltac:(lia)) as (mo & Em). rewrite (first_pre ws_received workers_round (length ws_received) (le_n _)), firstn_all in Em.
    destruct (server_run hash_cfg (first (then_round ws_received workers_round) m)) as [[s tr]|] eqn:E1.
    2: { exfalso. unfold server_run in E1, E0. destruct (start_pool hash_cfg); discriminate. }
    exists m, s, tr. split; [lia|]. split; [exact E1|]. rewrite Em in E1. destruct (run_more _ _ _ _ _ _ _ E0 E1) as (e & ->). rewrite Workers2_proofs.sent_app, map_app, S0.
    exists ((if n <? length ws_begin then map Some three else []) ++ map content (sent 1 e)). rewrite app_assoc. f_equal. unfold ws_reading. destruct (n <? length ws_begin); vm_compute; reflexivity. }
  split; [apply workers_round_runs|]. split; [exact some_routes_return|]. split; [|exact F]. rewrite Full by apply le_n. exact W3.
Qed.

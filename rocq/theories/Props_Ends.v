(* Property theorems C84: Stop ends a connection, whatever the peer does. *)
From Coq Require Import List Bool Arith Lia Cantor.
From Verif Require Import Bytes SendQueue Spec_Send SendLocked Spec_SendLocked SendQueue_proofs SendErr_proofs Spec_Fair Spec_Ends SendFair_proofs Props_Fair EndsTcp_proofs EndsWs_proofs.
Import ListNotations.

(* ---- TCP ---- *)

Lemma tcp_stopped c sch n : In QStop (first sch n) -> q_cancelled (fst (conn_at c sch n)) = true.
Proof.
  induction n as [|n IH]; intros H; [destruct H|]. pose proof (e_on c sch n) as (A & B). rewrite (proj1 (e_step c sch n)). destruct (keeps c (fst (conn_at c sch n)) (sch n) A B) as (_ & _ & X & _).
  unfold first in H. rewrite seq_S, map_app in H. apply in_app_or in H as [H|[H|[]]]; [now apply X, IH|]. cbn in H. rewrite H. unfold q_step. rewrite A, B. reflexivity.
Qed.

(* C84 for TCP: a peer may take data whenever it likes or never.  Once Stop has been called the
   socket is closed some time, the writer goroutine ends (if there ever was one), and every send
   call made before or after the Stop returns. *)
Theorem C84_tcp : forall c taking sch n,
  tcp_fair c taking sch -> In QStop (first sch n) ->
  (exists m, n <= m /\ q_broken (fst (conn_at c sch m)) = true) /\
  (exists m, n <= m /\ (q_writer (fst (conn_at c sch m)) = WNone \/ q_writer (fst (conn_at c sch m)) = WGone)) /\
  (forall k t, n <= k -> exists m, k <= m /\ called t (snd (conn_at c sch k)) <= returned t (snd (conn_at c sch m))).
Proof.
  intros c taking sch n F St. pose proof (tcp_stopped c sch n St) as C. split; [exact (stop_closes c taking sch F n C)|]. split; [exact (tcp_writer_ends c taking sch F n C)|].
  intros k t Hk. apply (tcp_stop_returns c taking sch F k t). exact (proj1 (e_stay c sch n k Hk) C).
Qed.
Print Assumptions C84_tcp.

(* Without Stop: a send call returns if the peer takes data again and again, and a buffered one
   (SendToQueue, SendBuffMsg) returns in any case. *)
Theorem C84_tcp_returns : forall c taking sch n t,
  tcp_fair c taking sch -> often (fun m => taking m = true) \/ buffered_sender t sch ->
  exists m, n <= m /\ called t (snd (conn_at c sch n)) <= returned t (snd (conn_at c sch m)).
Proof. intros c taking sch n t F [O|B]; [exact (tcp_returns c taking sch F n t O)|exact (tcp_buffered_returns c taking sch F n t B)]. Qed.
Print Assumptions C84_tcp_returns.

(* The peer takes nothing at all: a direct send is stuck in its write, a buffered message is in
   the writer's hands, then Stop is called. *)
Definition tcp_begin : list qlabel :=
  [QCall 0 true [x01]; QSend 0 ChChan NetOk] ++ QCall 1 false [x02] :: repeat (QSend 1 ChChan NetOk) 7 ++
  repeat (QWriter ChChan NetOk) 4 ++ repeat (QWriter ChTimer NetOk) 2 ++ [QCall 1 false [x03]; QStop; QSockClose;
   QSend 0 ChChan NetOk; QWriter ChTimer NetOk; QWriter ChTimer NetOk; QSend 1 ChTimer NetOk; QSend 1 ChTimer NetOk].
Definition tcp_round (k : nat) : qlabel :=
  match k mod 3 with 0 => QSend (fst (Cantor.of_nat (k / 3))) ChTimer NetOk | 1 => QWriter ChTimer NetOk | _ => QSockClose end.
Definition tcp_execution : nat -> qlabel := then_round tcp_begin tcp_round.
Lemma tcp_round_at k : tcp_round (3 * k) = QSend (fst (Cantor.of_nat k)) ChTimer NetOk /\ tcp_round (3 * k + 1) = QWriter ChTimer NetOk /\ tcp_round (3 * k + 2) = QSockClose.
Proof.
  assert (D : forall r, r < 3 -> (3 * k + r) mod 3 = r /\ (3 * k + r) / 3 = k).
  { intros r Hr. split; [symmetry; apply (Nat.mod_unique _ _ k); lia|symmetry; apply (Nat.div_unique _ _ _ r); lia]. }
  unfold tcp_round. destruct (D 0 ltac:(lia)) as (A & B). rewrite Nat.add_0_r in A, B. rewrite A, B, (proj1 (D 1 ltac:(lia))), (proj1 (D 2 ltac:(lia))). auto.
Qed.
Definition over (s : qst) : Prop := q_ctx s = true /\ q_crashed s = false /\ q_cancelled s = true /\ q_broken s = true /\ q_writer s = WGone /\ forall t, q_send s t = SIdle.
Lemma over_round c s k : over s -> q_step c s (tcp_round k) = (s, []).
Proof.
  intros (A & B & C & D & E & F). unfold tcp_round, q_step. rewrite B. destruct (k mod 3) as [|[|]].
  - unfold send_step. now rewrite F.
  - unfold writer_step. now rewrite E.
  - rewrite C. destruct s. cbn in *. subst. reflexivity.
Qed.
Definition small : qcfg := Qcfg 2 16.
Lemma tcp_begin_over : over (fst (q_run small q_new (QStart :: tcp_begin))).
Proof. unfold over. repeat (split; [vm_compute; reflexivity|]). intros [|[|t]]; vm_compute; reflexivity. Qed.
Lemma tcp_over_gen c pre : over (fst (q_run c q_new (QStart :: pre))) -> forall k, conn_at c (then_round pre tcp_round) (length pre + k) = q_run c q_new (QStart :: pre).
Proof.
  intros O. induction k as [|k IH].
  - rewrite Nat.add_0_r. unfold conn_at. rewrite first_pre by apply le_n. now rewrite firstn_all.
  - rewrite Nat.add_succ_r. unfold conn_at in *. rewrite firstS, app_comm_cons, q_run_snoc, IH, in_round, (over_round c _ k O).
    cbn [fst snd]. rewrite app_nil_r. now destruct (q_run c q_new (QStart :: pre)).
Qed.
Lemma tcp_over k : conn_at small tcp_execution (length tcp_begin + k) = q_run small q_new (QStart :: tcp_begin).
Proof. exact (tcp_over_gen small tcp_begin tcp_begin_over k). Qed.
Lemma tcp_execution_fair : tcp_fair small (fun _ => false) tcp_execution.
Proof.
  pose proof tcp_begin_over as (_ & _ & _ & B & Wr & Sd). split; [intros [t|] n|intros n].
  - exists (length tcp_begin + 3 * Cantor.to_nat (t, n)). pose proof (Cantor.to_nat_non_decreasing t n). split; [lia|left]. rewrite tcp_over. unfold held_up, step_of. rewrite B, Sd. split; [apply andb_false_r|].
    exists ChTimer, NetOk. split; [|reflexivity]. unfold tcp_execution. now rewrite in_round, (proj1 (tcp_round_at _)), Cantor.cancel_of_to.
  - exists (length tcp_begin + (3 * n + 1)). split; [lia|left]. rewrite tcp_over. unfold held_up, step_of. rewrite B, Wr. split; [apply andb_false_r|].
    exists ChTimer, NetOk. split; [|reflexivity]. unfold tcp_execution. now rewrite in_round, (proj1 (proj2 (tcp_round_at _))).
  - exists (length tcp_begin + (3 * n + 2)). split; [lia|]. unfold tcp_execution. now rewrite in_round, (proj2 (proj2 (tcp_round_at _))).
Qed.
Example C84_tcp_case : tcp_fair small (fun _ => false) tcp_execution /\ In QStop (first tcp_execution 18) /\
  let s := fst (conn_at small tcp_execution 18) in
  q_send s 0 = DWrite [x01] /\ q_send s 1 = SChk [x03] /\ q_writer s = WFlush /\ q_broken s = false /\
  held_up false s (Sending 0) = true /\ held_up false s Writing = true.
Proof.
  split; [exact tcp_execution_fair|]. unfold tcp_execution, conn_at. rewrite first_pre by (vm_compute; lia). split; [vm_compute; do 17 right; left; reflexivity|]. vm_compute. repeat split.
Qed.
Example C84_tcp_returns_case : tcp_fair small (fun _ => false) tcp_execution /\ buffered_sender 1 tcp_execution /\ called 1 (snd (conn_at small tcp_execution 18)) = 2.
Proof.
  split; [exact tcp_execution_fair|]. split.
  - intros n m. unfold tcp_execution, then_round. destruct (le_lt_dec (length tcp_begin) n) as [H|H].
    + rewrite nth_overflow by exact H. unfold tcp_round. destruct (_ mod 3) as [|[|]]; discriminate.
    + intros E. assert (X : In (QCall 1 true m) tcp_begin) by (rewrite <- E; now apply nth_In). vm_compute in X. repeat (destruct X as [X|X]; [discriminate X|]). destruct X.
  - unfold tcp_execution, conn_at. rewrite first_pre by (vm_compute; lia). vm_compute. reflexivity.
Qed.

(* ---- websocket ---- *)

Lemma ws_stopped c sch n : In MStop (first sch n) -> l_cancelled (fst (l_at c Ws sch n)) = true.
Proof.
  induction n as [|n IH]; intros H; [destruct H|]. rewrite (proj1 (w_step c sch n)).
  pose proof (owned_step c _ _ (sch n) (w_inv c sch n) (w_own c sch n)) as (_ & X & _). pose proof (w_own c sch n) as (B & _).
  unfold first in H. rewrite seq_S, map_app in H. apply in_app_or in H as [H|[H|[]]]; [now apply X, IH|]. cbn in H. rewrite H. unfold l_step. rewrite B.
  pose proof (SendLocked_proofs.sf_ctx _ _ (SendLocked2_proofs.wi_safe _ _ (w_inv c sch n))) as A. rewrite A. reflexivity.
Qed.

(* C84 for the websocket, while the peer takes data again and again: every send call returns;
   after Stop the finalizer finishes, with the socket closed, and the writer goroutine ends. *)
Theorem C84_ws_partial : forall c taking sch n,
  l_fair c Ws taking sch -> often (fun m => taking m = true) ->
  (forall t, exists m, n <= m /\ l_called t (snd (l_at c Ws sch n)) <= l_returned t (snd (l_at c Ws sch m))) /\
  (In MStop (first sch n) ->
    (exists m, n <= m /\ l_final (fst (l_at c Ws sch m)) = FDone /\ l_broken (fst (l_at c Ws sch m)) = true) /\
    (forall i v, nth_error (l_writers (fst (l_at c Ws sch n))) i = Some v -> exists m, n <= m /\ nth_error (l_writers (fst (l_at c Ws sch m))) i = Some VGone)).
Proof.
  intros c taking sch n F O. split; [intros t; exact (ws_returns c taking sch F n t O)|]. intros St. pose proof (ws_stopped c sch n St) as C.
  split; [exact (ws_stop c taking sch F n O C)|]. intros i v. exact (ws_writer_ends c taking sch F n i v O C).
Qed.
Print Assumptions C84_ws_partial.

(* Schedules that end in a state nothing changes any more. *)
Definition idle_round (fin : bool) (b k : nat) : llabel :=
  let j := fst (Cantor.of_nat (k / 3)) in
  match k mod 3 with 0 => MSend (b + j) ChTimer NetOk | 1 => MWriter j ChTimer NetOk | _ => if fin then MFinal else MSend b ChTimer NetOk end.
Lemma idle_round_at fin b t n : (exists k, n <= k /\ idle_round fin b k = MSend (b + t) ChTimer NetOk) /\ (exists k, n <= k /\ idle_round fin b k = MWriter t ChTimer NetOk) /\
  (exists k, n <= k /\ idle_round fin b k = if fin then MFinal else MSend b ChTimer NetOk).
Proof.
  pose proof (Cantor.to_nat_non_decreasing t n). set (p := Cantor.to_nat (t, n)) in *.
  assert (D : forall r, r < 3 -> (3 * p + r) mod 3 = r /\ (3 * p + r) / 3 = p).
  { intros r Hr. split; [symmetry; apply (Nat.mod_unique _ _ p); lia|symmetry; apply (Nat.div_unique _ _ _ r); lia]. }
  unfold idle_round. split; [exists (3 * p + 0)|split; [exists (3 * p + 1)|exists (3 * p + 2)]]; (split; [lia|]).
  - destruct (D 0 ltac:(lia)) as (-> & ->). unfold p. now rewrite Cantor.cancel_of_to.
  - destruct (D 1 ltac:(lia)) as (-> & ->). unfold p. now rewrite Cantor.cancel_of_to.
  - destruct (D 2 ltac:(lia)) as (-> & _). reflexivity.
Qed.
(* Goroutines from b on are idle and there is no writer (any more). *)
Definition quiet (fin : bool) (b : nat) (s : lst) : Prop :=
  l_crashed s = false /\ (forall t, b <= t -> l_send s t = LIdle) /\ (forall i, nth_error (l_writers s) i = None \/ nth_error (l_writers s) i = Some VGone) /\ (fin = true -> l_final s = FDone).
Lemma quiet_round c fl fin b s k : quiet fin b s -> l_step c fl s (idle_round fin b k) = (s, []).
Proof.
  intros (A & B & C & D). unfold idle_round, l_step. rewrite A. destruct (k mod 3) as [|[|]].
  - unfold lsend_step. now rewrite B by lia.
  - unfold lwriter_step. destruct (C (fst (Cantor.of_nat (k / 3)))) as [-> | ->]; reflexivity.
  - destruct fin; [unfold lfinal_step; now rewrite D|]. unfold lsend_step. now rewrite B by lia.
Qed.
Section Quiet.
Variables (c b : nat) (fl : flavour) (fin : bool) (pre : list llabel).
Let here := l_run c fl l_new (MStart :: pre).
Let sch := then_round pre (idle_round fin b).
Hypothesis Q : quiet fin b (fst here).
Lemma quiet_at k : l_at c fl sch (length pre + k) = here.
Proof.
  induction k as [|k IH].
  - rewrite Nat.add_0_r. unfold l_at, sch. rewrite first_pre by apply le_n. now rewrite firstn_all.
  - rewrite Nat.add_succ_r. unfold l_at in *. rewrite firstS, app_comm_cons, l_run_snoc, IH. unfold sch. rewrite in_round, (quiet_round c fl fin b _ k Q).
    cbn [fst snd]. rewrite app_nil_r. now destruct here.
Qed.
Lemma quiet_fair taking : (forall k t, t < b -> l_held_up fl (taking k) (fst here) (LSending t) = true) ->
  (fin = true \/ forall k, l_held_up fl (taking k) (fst here) Finalizing = true) -> l_fair c fl taking sch.
Proof.
  intros Hs Hf. destruct Q as (_ & B & C & D). split; [intros [t|i|] n|intros i n].
  - destruct (le_lt_dec b t) as [L|L].
    + destruct (idle_round_at fin b (t - b) n) as ((k & Hk & E) & _). exists (length pre + k). split; [lia|left]. rewrite quiet_at. unfold l_held_up, l_step_of. rewrite (B t L). split; [reflexivity|].
      exists ChTimer, NetOk. split; [|auto]. unfold sch. rewrite in_round, E. f_equal. lia.
    + exists (n + length pre). split; [lia|right]. intros k Hk. replace k with (length pre + (k - length pre)) at 2 by lia. rewrite quiet_at, (Hs k t L). discriminate.
  - destruct (idle_round_at fin b i n) as (_ & (k & Hk & E) & _). exists (length pre + k). split; [lia|left]. rewrite quiet_at. unfold l_held_up, l_step_of.
    split; [destruct (C i) as [-> | ->]; reflexivity|]. exists ChTimer, NetOk. split; [|intros v X; destruct (C i); congruence]. unfold sch. now rewrite in_round, E.
  - destruct Hf as [Ef|Hf].
    + destruct (idle_round_at fin b 0 n) as (_ & _ & (k & Hk & E)). exists (length pre + k). split; [lia|left]. rewrite quiet_at. unfold l_held_up, l_step_of. rewrite (D Ef). split; [reflexivity|].
      unfold sch. rewrite in_round, E. now rewrite Ef.
    + exists (n + length pre). split; [lia|right]. intros k Hk. replace k with (length pre + (k - length pre)) at 2 by lia. rewrite quiet_at, Hf. discriminate.
  - exists (n + length pre). split; [lia|right]. intros k Hk. replace k with (length pre + (k - length pre)) by lia. rewrite quiet_at. intros (_ & v & X). destruct (C i); congruence.
Qed.
Definition may (s : lst) (l : llabel) : bool :=
  match l with MSend t _ _ => negb (l_held_up fl false s (LSending t)) | MWriter i _ _ => negb (l_held_up fl false s (LWriting i)) | MFinal => negb (l_held_up fl false s Finalizing) | _ => true end.
Lemma quiet_possible : (forall n, n < length pre -> may (fst (l_run c fl l_new (MStart :: firstn n pre))) (nth n pre MStart) = true) -> l_possible c fl (fun _ => false) sch.
Proof.
  intros H n g Lb. assert (M : may (fst (l_at c fl sch n)) (sch n) = true).
  { destruct (le_lt_dec (length pre) n) as [L|L].
    - replace n with (length pre + (n - length pre)) by lia. rewrite quiet_at. unfold sch. rewrite in_round. unfold idle_round. destruct Q as (_ & B & C & D). destruct (_ mod 3) as [|[|]]; unfold may, l_held_up.
      + now rewrite B by lia.
      + destruct (C (fst (Cantor.of_nat ((n - length pre) / 3)))) as [-> | ->]; reflexivity.
      + destruct fin; [now rewrite D|now rewrite B by lia].
    - unfold l_at, sch. rewrite first_pre by lia. replace (then_round pre (idle_round fin b) n) with (nth n pre MStart); [now apply H|]. unfold then_round. apply nth_indep, L. }
  revert Lb M. generalize (sch n). intros l Lb M. destruct g; cbn in Lb; [destruct Lb as (? & ? & ->)|destruct Lb as (? & ? & ->)|subst l]; now apply negb_true_iff in M.
Qed.
Lemma quiet_always (P : lst * list lev -> Prop) : (forall n, n <= length pre -> P (l_run c fl l_new (MStart :: firstn n pre))) -> forall n, P (l_at c fl sch n).
Proof.
  intros H n. destruct (le_lt_dec (length pre) n) as [L|L].
  - replace n with (length pre + (n - length pre)) by lia. rewrite quiet_at. specialize (H _ (le_n _)). now rewrite firstn_all in H.
  - unfold l_at, sch. rewrite first_pre by lia. apply H. lia.
Qed.
End Quiet.

(* Two sends, one of them in its write, and a message in the writer's hands when Stop is called. *)
Definition ws_begin_stop : list llabel :=
  MCall 0 ASendToQueue [x01] :: repeat (MSend 0 ChChan NetOk) 7 ++ repeat (MWriter 0 ChChan NetOk) 2 ++
  MCall 1 ASendMsg [x02] :: repeat (MSend 1 ChChan NetOk) 2 ++ [MCall 0 ASendToQueue [x03]; MStop; MFinal; MSend 1 ChChan NetOk; MFinal; MFinal; MFinal; MFinal] ++
  repeat (MWriter 0 ChChan NetOk) 3 ++ [MWriter 0 ChDone NetOk] ++ repeat (MSend 0 ChTimer NetOk) 3.
Definition ws_stop_execution : nat -> llabel := then_round ws_begin_stop (idle_round true 0).
Example C84_ws_case : l_fair 4 Ws (fun _ => true) ws_stop_execution /\ often (fun _ => true = true) /\ In MStop (first ws_stop_execution 15) /\
  let s := fst (l_at 4 Ws ws_stop_execution 15) in
  l_send s 1 = LDWrite [x02] /\ l_send s 0 = LAcq [x03] /\ l_writers s = [VAcq 0 [x01]] /\ l_broken s = false.
Proof.
  split.
  - apply (quiet_fair 4 0 Ws true ws_begin_stop); [|intros k t Ht; lia|now left]. split; [vm_compute; reflexivity|]. split; [intros [|[|t]] _; vm_compute; reflexivity|].
    split; [intros [|[|i]]; vm_compute; auto|]. intros _. vm_compute. reflexivity.
  - split; [intros n; exists n; auto|]. unfold ws_stop_execution, l_at. rewrite first_pre by (vm_compute; lia). split; [vm_compute; do 14 right; left; reflexivity|]. vm_compute. repeat split.
Qed.

(* C84, refuted for the websocket if the peer stops taking data: a direct send is stuck in its
   write and holds the lock.  Stop waits for the lock before it closes the socket, so the socket
   is never closed and the stuck send never returns; nor does a buffered send of another
   goroutine, which waits for the same lock. *)
Definition ws_stuck (m m' : msg) : list llabel :=
  [MCall 0 ASendMsg m; MSend 0 ChTimer NetOk; MSend 0 ChTimer NetOk; MCall 1 ASendToQueue m'; MStop; MFinal].
Theorem C84_ws_refuted : forall c m m', exists sch,
  l_fair c Ws (fun _ => false) sch /\ l_possible c Ws (fun _ => false) sch /\
  sch 0 = MCall 0 ASendMsg m /\ sch 3 = MCall 1 ASendToQueue m' /\ sch 4 = MStop /\
  forall n, let '(s, tr) := l_at c Ws sch n in
    l_broken s = false /\ l_final s <> FDone /\ l_returned 0 tr = 0 /\ l_returned 1 tr = 0.
Proof.
  intros c m m'. exists (then_round (ws_stuck m m') (idle_round false 2)).
  assert (Q : quiet false 2 (fst (l_run c Ws l_new (MStart :: ws_stuck m m')))).
  { split; [reflexivity|]. split; [|split; [intros [|i]; left; reflexivity|discriminate]]. intros [|[|t]] H; [lia|lia|reflexivity]. }
  split; [|split; [|split; [reflexivity|split; [reflexivity|split; [reflexivity|]]]]].
  - apply (quiet_fair c 2 Ws false _ Q); [|right; reflexivity]. intros k t Ht. destruct t as [|[|t]]; [reflexivity|reflexivity|lia].
  - apply (quiet_possible c 2 Ws false _ Q). cbn [length ws_stuck]. intros n Hn. do 6 (destruct n as [|n]; [reflexivity|]). lia.
  - apply (quiet_always c 2 Ws false _ Q (fun x => let '(s, tr) := x in l_broken s = false /\ l_final s <> FDone /\ l_returned 0 tr = 0 /\ l_returned 1 tr = 0)).
    cbn [length ws_stuck]. intros n Hn. do 7 (destruct n as [|n]; [cbn; repeat split; discriminate|]). lia.
Qed.
Print Assumptions C84_ws_refuted.

(* The same on KCP, whose senders share the lock: the finalizer waits for a sender that is stuck. *)
Definition kcp_stuck (m : msg) : list llabel :=
  [MCall 0 ASendMsg m; MSend 0 ChTimer NetOk; MSend 0 ChTimer NetOk; MStop; MFinal; MFinal].
Theorem C84_kcp_refuted : forall c m, exists sch,
  l_fair c Kcp (fun _ => false) sch /\ l_possible c Kcp (fun _ => false) sch /\
  sch 0 = MCall 0 ASendMsg m /\ sch 3 = MStop /\
  forall n, let '(s, tr) := l_at c Kcp sch n in l_broken s = false /\ l_final s <> FDone /\ l_returned 0 tr = 0.
Proof.
  intros c m. exists (then_round (kcp_stuck m) (idle_round false 1)).
  assert (Q : quiet false 1 (fst (l_run c Kcp l_new (MStart :: kcp_stuck m)))).
  { split; [reflexivity|]. split; [|split; [intros [|i]; left; reflexivity|discriminate]]. intros [|t] H; [lia|reflexivity]. }
  split; [|split; [|split; [reflexivity|split; [reflexivity|]]]].
  - apply (quiet_fair c 1 Kcp false _ Q); [|right; reflexivity]. intros k t Ht. destruct t as [|t]; [reflexivity|lia].
  - apply (quiet_possible c 1 Kcp false _ Q). cbn [length kcp_stuck]. intros n Hn. do 6 (destruct n as [|n]; [reflexivity|]). lia.
  - apply (quiet_always c 1 Kcp false _ Q (fun x => let '(s, tr) := x in l_broken s = false /\ l_final s <> FDone /\ l_returned 0 tr = 0)).
    cbn [length kcp_stuck]. intros n Hn. do 7 (destruct n as [|n]; [cbn; repeat split; discriminate|]). lia.
Qed.
Print Assumptions C84_kcp_refuted.

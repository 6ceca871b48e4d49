(* Liveness on infinite executions: what C24, C35 and C73 say can be finished is finished, if
   every goroutine goes on again and again. *)
From Coq Require Import ZArith List Bool Arith Lia Permutation Cantor.
From Verif Require Import Bytes Pack Decoders Spec_Codec Reader Request Dispatch Workers Spec_Workers SendQueue Spec_Send Spec_EndToEnd Spec_Fair.
From Verif Require Import Props_Workers Props_Send SendQueue4_proofs Props_EndToEnd Workers2_proofs EndToEnd2_proofs WorkersFair_proofs SendFair_proofs Fair_proofs.
Import ListNotations.
Local Open Scope nat_scope.

(* ---- schedules that begin in a given way and then go round for ever ---- *)
Definition then_round {L} (pre : list L) (round : nat -> L) (n : nat) : L := nth n pre (round (n - length pre)).
Definition workers_round (k : nat) : wlabel := let (w, f) := Cantor.of_nat (k / 2) in if Nat.even k then LTake w else LFinish w f.
Definition sender_round (k : nat) : qlabel :=
  match k mod 5 with 0 => QSend (fst (Cantor.of_nat (k / 5))) ChTimer NetOk | 1 => QWriter ChChan NetOk | _ => QWriter ChTimer NetOk end.

Lemma in_round {L} (pre : list L) round k : then_round pre round (length pre + k) = round k.
Proof. unfold then_round. rewrite nth_overflow by lia. f_equal. lia. Qed.
Lemma first_pre {L} (pre : list L) round n : n <= length pre -> first (then_round pre round) n = firstn n pre.
Proof.
  unfold first. induction n as [|n IH]; intros H; [reflexivity|]. rewrite seq_S, map_app, IH by lia. cbn [map Nat.add].
  unfold then_round. destruct (nth_error pre n) as [x|] eqn:E; [|apply nth_error_None in E; lia].
  rewrite (nth_error_nth _ _ _ E). clear -E. revert pre E. induction n as [|n IH]; intros [|y pre] E; try discriminate; cbn in *; [congruence|]. now rewrite <- (IH _ E).
Qed.
Lemma workers_round_runs pre : workers_run (then_round pre workers_round).
Proof.
  assert (D : forall k, (2 * k) / 2 = k /\ (2 * k + 1) / 2 = k).
  { intros k. split; [rewrite Nat.mul_comm; now apply Nat.div_mul|]. symmetry. apply (Nat.div_unique _ _ _ 1); lia. }
  intros w. split; [|intros steps]; intros n.
  - exists (length pre + 2 * Cantor.to_nat (w, n)). pose proof (Cantor.to_nat_non_decreasing w n). split; [lia|]. rewrite in_round. unfold workers_round.
    rewrite (proj1 (D _)), Cantor.cancel_of_to. replace (Nat.even (2 * Cantor.to_nat (w, n))) with true; [reflexivity|]. symmetry. apply Nat.even_spec. now exists (Cantor.to_nat (w, n)).
  - set (f := steps + n). exists (length pre + (2 * Cantor.to_nat (w, f) + 1)). pose proof (Cantor.to_nat_non_decreasing w f). subst f. split; [lia|]. exists (steps + n). split; [lia|]. rewrite in_round. unfold workers_round.
    rewrite (proj2 (D _)), Cantor.cancel_of_to. replace (Nat.even (2 * Cantor.to_nat (w, steps + n) + 1)) with false; [reflexivity|]. symmetry. rewrite <- Nat.negb_odd. apply negb_false_iff, Nat.odd_spec. now exists (Cantor.to_nat (w, steps + n)).
Qed.

(* ---- C24 ---- *)

(* However an execution goes on for ever, in every mode: if every worker runs again and again
   and handlers return, then every request received by step n has been handled by some later
   step, each as often as it was received. *)
Theorem C24_fair : forall cf sch n s tr,
  workers_run sch -> (forall j, returns (cf_routes cf) j) -> server_run cf (first sch n) = Some (s, tr) ->
  exists m s' tr' more, n <= m /\ server_run cf (first sch m) = Some (s', tr') /\ Permutation (all_ended tr') (all_sent tr ++ more).
Proof. exact fair_done. Qed.
Print Assumptions C24_fair.
(* In the Hash and Bind modes the requests of a connection are by then handled in order. *)
Theorem C24_fair_in_order : forall cf sch n s tr c,
  cf_mode cf <> ModeDynamicBind -> pool_size cf > 0 -> workers_run sch -> (forall j, returns (cf_routes cf) j) ->
  server_run cf (first sch n) = Some (s, tr) ->
  exists m s' tr', n <= m /\ server_run cf (first sch m) = Some (s', tr') /\ prefix (map content (sent c tr)) (done c tr').
Proof. exact fair_in_order. Qed.
Print Assumptions C24_fair_in_order.
Definition some_execution : nat -> wlabel := then_round some_schedule workers_round.
Example C24_fair_case : exists s tr, workers_run some_execution /\ (forall j, returns (cf_routes hash_cfg) j) /\
  server_run hash_cfg (first some_execution (length some_schedule)) = Some (s, tr) /\ length (in_flight s ++ waiting s) = 2.
Proof.
  do 2 eexists. split; [apply workers_round_runs|]. split; [exact some_routes_return|]. unfold some_execution. rewrite first_pre by apply le_n. rewrite firstn_all. split; vm_compute; reflexivity.
Qed.
Example C24_fair_dynamic_case : exists s tr, workers_run some_execution /\ (forall j, returns (cf_routes dyn_cfg) j) /\
  server_run dyn_cfg (first some_execution 10) = Some (s, tr) /\ length (in_flight s ++ waiting s) = 4.
Proof.
  do 2 eexists. split; [apply workers_round_runs|]. split; [exact some_routes_return|]. unfold some_execution. rewrite first_pre by (vm_compute; repeat constructor). split; vm_compute; reflexivity.
Qed.

(* ---- C35 ---- *)

(* A TCP connection that is not stopped, on a working network, with only buffered sends and
   every goroutine going on: at some later moment everything accepted by step n is on the wire. *)
Theorem C35_tcp_fair_partial : forall c sch n,
  undisturbed sch -> all_go_on sch -> select_fair c sch ->
  exists m, n <= m /\ prefix (concat (map snd (oks (snd (conn_at c sch n))))) (q_wire (fst (conn_at c sch m))).
Proof. intros c sch n U G S. exact (written_fair c sch U G S n). Qed.
Print Assumptions C35_tcp_fair_partial.

Definition at_rest (s : qst) : Prop :=
  q_cancelled s = false /\ q_crashed s = false /\ q_ctx s = true /\ q_chan s = Some ([], false) /\ q_writer s = WSelect /\ q_buf s = [] /\ q_err s = false /\ forall t, q_send s t = SIdle.
Lemma rest_round c s t : at_rest s ->
  q_step c s (QSend t ChTimer NetOk) = (s, []) /\ q_step c s (QWriter ChChan NetOk) = (s, []) /\
  q_run c s [QWriter ChTimer NetOk; QWriter ChTimer NetOk; QWriter ChTimer NetOk] = (s, []).
Proof.
  intros (A & B & C & D & E & F & G & H). destruct s as [cx ca fl chn w b er wi br sd cr]. cbn in *. subst. split; [|split].
  - unfold q_step, send_step. cbn. now rewrite H.
  - reflexivity.
  - reflexivity.
Qed.
Lemma round_at_rest c pre : at_rest (fst (q_run c q_new (QStart :: pre))) -> forall k,
  let here := q_run c q_new (QStart :: pre) in let sch := then_round pre sender_round in
  conn_at c sch (length pre + 5 * k) = here /\ conn_at c sch (length pre + 5 * k + 1) = here /\ conn_at c sch (length pre + 5 * k + 2) = here.
Proof.
  intros R k here sch.
  assert (S1 : forall n, conn_at c sch (S n) = (fst (q_step c (fst (conn_at c sch n)) (sch n)), snd (conn_at c sch n) ++ snd (q_step c (fst (conn_at c sch n)) (sch n)))).
  { intros n. unfold conn_at. rewrite SendFair_proofs.firstS, app_comm_cons, SendQueue_proofs.q_run_snoc. reflexivity. }
  assert (Rd : forall j i, i < 5 -> sch (length pre + 5 * j + i) = match i with 0 => QSend (fst (Cantor.of_nat j)) ChTimer NetOk | 1 => QWriter ChChan NetOk | _ => QWriter ChTimer NetOk end).
  { intros j i Hi. unfold sch. rewrite <- Nat.add_assoc, in_round. unfold sender_round. rewrite <- (Nat.mod_unique (5 * j + i) 5 j i Hi eq_refl), <- (Nat.div_unique (5 * j + i) 5 j i Hi eq_refl). reflexivity. }
  assert (X : forall j, conn_at c sch (length pre + 5 * j) = here -> conn_at c sch (length pre + 5 * j + 1) = here /\ conn_at c sch (length pre + 5 * j + 2) = here /\ conn_at c sch (length pre + 5 * S j) = here).
  { intros j Hj. destruct (rest_round c (fst here) (fst (Cantor.of_nat j)) R) as (Q1 & Q2 & Q3).
    assert (H1 : conn_at c sch (length pre + 5 * j + 1) = here).
    { rewrite Nat.add_1_r, S1, Hj. rewrite <- (Nat.add_0_r (length pre + 5 * j)), (Rd j 0) by lia. rewrite Q1. cbn [fst snd]. rewrite app_nil_r. now destruct here. }
    assert (H2 : conn_at c sch (length pre + 5 * j + 2) = here).
    { replace (length pre + 5 * j + 2) with (S (length pre + 5 * j + 1)) by lia. rewrite S1, H1, (Rd j 1) by lia. rewrite Q2. cbn [fst snd]. rewrite app_nil_r. now destruct here. }
    split; [exact H1|]. split; [exact H2|]. replace (length pre + 5 * S j) with (S (length pre + 5 * j + 4)) by lia.
    rewrite S1, (Rd j 4) by lia. replace (length pre + 5 * j + 4) with (S (length pre + 5 * j + 3)) by lia. rewrite S1, (Rd j 3) by lia.
    replace (length pre + 5 * j + 3) with (S (length pre + 5 * j + 2)) by lia. rewrite S1, H2, (Rd j 2) by lia.
    cbn [q_run] in Q3. destruct (q_step c (fst here) (QWriter ChTimer NetOk)) as [s1 e1]. cbn [fst snd]. destruct (q_step c s1 (QWriter ChTimer NetOk)) as [s2 e2]. cbn [fst snd].
    destruct (q_step c s2 (QWriter ChTimer NetOk)) as [s3 e3]. cbn [fst snd]. injection Q3 as -> Qe. rewrite app_nil_r in Qe. rewrite <- !app_assoc, Qe, app_nil_r. now destruct here. }
  assert (Y : forall j, conn_at c sch (length pre + 5 * j) = here).
  { induction j as [|j IH]; [|apply (X j IH)]. rewrite Nat.mul_0_r, Nat.add_0_r. unfold conn_at, sch. rewrite first_pre by apply le_n. now rewrite firstn_all. }
  split; [apply Y|]. destruct (X k (Y k)) as (A & B & _). auto.
Qed.
Definition harmless (l : qlabel) : bool :=
  match l with QStop | QSend _ _ (NetFail _) | QWriter _ (NetFail _) | QCall _ true _ => false | _ => true end.
Lemma round_undisturbed pre : forallb harmless pre = true -> undisturbed (then_round pre sender_round).
Proof.
  intros H n. assert (N : forall l, In l (first (then_round pre sender_round) n) -> harmless l = true).
  { intros l Hl. apply in_map_iff in Hl as (i & <- & _). unfold then_round. destruct (le_lt_dec (length pre) i) as [Hi|Hi].
    - rewrite nth_overflow by exact Hi. unfold sender_round. destruct (_ mod 5) as [|[|?]]; reflexivity.
    - rewrite forallb_forall in H. apply H, nth_In, Hi. }
  split; [intros t m X; apply N in X; discriminate|]. split; [intros X; apply N in X; discriminate|]. split; intros; intros X; apply N in X; discriminate.
Qed.
Lemma round_fair c pre : at_rest (fst (q_run c q_new (QStart :: pre))) -> all_go_on (then_round pre sender_round) /\ select_fair c (then_round pre sender_round).
Proof.
  intros R. pose proof (round_at_rest c pre R) as RR. cbn zeta in RR.
  assert (Rd : forall j i, i < 5 -> then_round pre sender_round (length pre + 5 * j + i) = match i with 0 => QSend (fst (Cantor.of_nat j)) ChTimer NetOk | 1 => QWriter ChChan NetOk | _ => QWriter ChTimer NetOk end).
  { intros j i Hi. rewrite <- Nat.add_assoc, in_round. unfold sender_round. rewrite <- (Nat.mod_unique (5 * j + i) 5 j i Hi eq_refl), <- (Nat.div_unique (5 * j + i) 5 j i Hi eq_refl). reflexivity. }
  split; [split|].
  - intros t n. exists (length pre + 5 * Cantor.to_nat (t, n) + 0). pose proof (Cantor.to_nat_non_decreasing t n). split; [lia|]. exists ChTimer. rewrite Rd by lia. now rewrite Cantor.cancel_of_to.
  - intros n. exists (length pre + 5 * n + 1). split; [lia|]. exists ChChan. now rewrite Rd by lia.
  - destruct R as (_ & _ & _ & _ & Rw & _). intros ch [->| ->] _ n; [exists (length pre + 5 * n + 2)|exists (length pre + 5 * n + 1)]; (split; [lia|]); destruct (RR n) as (A & B & C); (split; [rewrite ?B, ?C; exact Rw|now rewrite Rd by lia]).
Qed.
Definition three_begin : list qlabel := tl three_sends.
Definition three_execution : nat -> qlabel := then_round three_begin sender_round.
Lemma three_rest : at_rest (fst (q_run (Qcfg 4 100) q_new (QStart :: three_begin))).
Proof. unfold at_rest. repeat (split; [vm_compute; reflexivity|]). intros [|[|t]]; vm_compute; reflexivity. Qed.
Example C35_tcp_fair_case : let c := Qcfg 4 100 in undisturbed three_execution /\ all_go_on three_execution /\ select_fair c three_execution /\
  map snd (oks (snd (conn_at c three_execution 13))) = [bytes_three 0; bytes_three 1] /\ q_wire (fst (conn_at c three_execution 13)) = [].
Proof.
  cbv zeta. split; [apply round_undisturbed; vm_compute; reflexivity|]. destruct (round_fair _ _ three_rest) as (A & B). split; [exact A|]. split; [exact B|].
  unfold conn_at, three_execution. rewrite first_pre by (vm_compute; lia). split; vm_compute; reflexivity.
Qed.

(* ---- C73 ---- *)

(* C73 for executions that go on for ever.  The sender is as in C35_tcp_fair_partial.  chunks n
   are the pieces the receiver has read by step n: some of what has been written, and whatever
   is written is read some time.  Every request made from them is passed to the pool some
   time, and the workers run again and again.  Then all messages whose sends have returned nil
   by step n have been handled at some later step, in that order, unchanged. *)
Theorem C73_fair_partial : forall f qc ss cf rs c chunks,
  undisturbed ss -> all_go_on ss -> select_fair qc ss ->
  (forall n x, In x (map snd (oks (snd (conn_at qc ss n)))) -> exists p, msg_ok p /\ x = bytes_of (packer f) p) ->
  (forall n, prefix (concat (chunks n)) (q_wire (fst (conn_at qc ss n)))) ->
  (forall n, exists m, n <= m /\ prefix (q_wire (fst (conn_at qc ss n))) (concat (chunks m))) ->
  (forall n, exists m s tr, n <= m /\ server_run cf (first rs m) = Some (s, tr) /\
     prefix (map seen (fst (fst (run_reader (reader_of f) (chunks n))))) (map content (sent c tr))) ->
  cf_mode cf <> ModeDynamicBind -> pool_size cf > 0 -> workers_run rs -> (forall j, returns (cf_routes cf) j) ->
  forall n msgs, Forall msg_ok msgs -> map snd (oks (snd (conn_at qc ss n))) = map (bytes_of (packer f)) msgs ->
  exists m s tr, n <= m /\ server_run cf (first rs m) = Some (s, tr) /\ prefix (map Some msgs) (done c tr).
Proof. exact fair_arrives. Qed.
Print Assumptions C73_fair_partial.

Definition three_wire : list byte := q_wire (fst (q_run (Qcfg 4 100) q_new (QStart :: three_begin))).
Definition three_received : list wlabel :=
  [LAccept; LAccept; LStart 0 0; LStart 1 0] ++ repeat (LTake 0) (length three_begin) ++ map (fun p => LSend 1 (JMsg (new_msg_package (fst p) (snd p)))) three.
Definition three_reading (n : nat) : list (list byte) := if n <? length three_begin then [] else [firstn 7 three_wire; skipn 7 three_wire].
Example C73_fair_case : let c := Qcfg 4 100 in let rs := then_round three_received workers_round in
  undisturbed three_execution /\ all_go_on three_execution /\ select_fair c three_execution /\
  (forall n x, In x (map snd (oks (snd (conn_at c three_execution n)))) -> exists p, msg_ok p /\ x = bytes_of (packer Tlv) p) /\
  (forall n, prefix (concat (three_reading n)) (q_wire (fst (conn_at c three_execution n)))) /\
  (forall n, exists m, n <= m /\ prefix (q_wire (fst (conn_at c three_execution n))) (concat (three_reading m))) /\
  (forall n, exists m s tr, n <= m /\ server_run hash_cfg (first rs m) = Some (s, tr) /\
     prefix (map seen (fst (fst (run_reader (reader_of Tlv) (three_reading n))))) (map content (sent 1 tr))) /\
  workers_run rs /\ (forall j, returns (cf_routes hash_cfg) j) /\
  map snd (oks (snd (conn_at c three_execution (length three_begin)))) = map (bytes_of (packer Tlv)) three /\ Forall msg_ok three.
Proof.
  cbn zeta. assert (U : undisturbed three_execution) by (apply round_undisturbed; vm_compute; reflexivity).
  destruct (round_fair _ _ three_rest) as (A & B). split; [exact U|]. split; [exact A|]. split; [exact B|].
  pose proof (round_at_rest _ _ three_rest) as RR. cbn zeta in RR. fold three_execution in RR.
  assert (Later : forall n, exists m, n <= m /\ length three_begin <= m /\ conn_at (Qcfg 4 100) three_execution m = q_run (Qcfg 4 100) q_new (QStart :: three_begin)).
  { intros n. exists (length three_begin + 5 * n). split; [lia|]. split; [lia|]. exact (proj1 (RR n)). }
  assert (Oks : map snd (oks (snd (q_run (Qcfg 4 100) q_new (QStart :: three_begin)))) = map (bytes_of (packer Tlv)) three) by (vm_compute; reflexivity).
  assert (F : Forall msg_ok three) by (repeat constructor; vm_compute; congruence).
  assert (Wire : forall n, prefix (q_wire (fst (conn_at (Qcfg 4 100) three_execution n))) three_wire).
  { intros n. destruct (Later n) as (m & L & _ & E). destruct (f_later (Qcfg 4 100) three_execution U n m L) as (_ & _ & P & _). cbv beta in P. rewrite E in P. exact P. }
  assert (Full : forall n, length three_begin <= n -> q_wire (fst (conn_at (Qcfg 4 100) three_execution n)) = three_wire).
  { intros n Hn. destruct (Wire n) as (r & Hr). destruct (f_later (Qcfg 4 100) three_execution U (length three_begin) n Hn) as (_ & _ & (r' & P) & _). cbv beta in P.
    pose proof (proj1 (RR 0)) as E0. rewrite Nat.mul_0_r, Nat.add_0_r in E0. rewrite E0 in P. fold three_wire in P. rewrite P in Hr |- *. rewrite <- app_assoc in Hr.
    assert (Z : r' ++ r = []) by (apply (app_inv_head three_wire); rewrite app_nil_r; symmetry; exact Hr). apply app_eq_nil in Z as (-> & _). apply app_nil_r. }
  split.
  { intros n x Hx. destruct (Later n) as (m & L & _ & E). destruct (f_later (Qcfg 4 100) three_execution U n m L) as (_ & (mo & P) & _). cbv beta in P. rewrite E in P.
    assert (I : In x (map (bytes_of (packer Tlv)) three)) by (rewrite <- Oks, P, map_app; apply in_or_app; now left). apply in_map_iff in I as (p & <- & Hp). exists p. split; [|reflexivity]. rewrite Forall_forall in F. now apply F. }
  split. { intros n. unfold three_reading. destruct (Nat.ltb_spec n (length three_begin)) as [H|H]; [now eexists|]. rewrite (Full n H). cbn [concat]. rewrite app_nil_r, firstn_skipn. exists []. now rewrite app_nil_r. }
  split. { intros n. exists (n + length three_begin). split; [lia|]. unfold three_reading. destruct (Nat.ltb_spec (n + length three_begin) (length three_begin)) as [H|H]; [lia|]. cbn [concat]. rewrite app_nil_r, firstn_skipn. apply Wire. }
  split.
  { intros n. set (m := n + length three_received).
    assert (E0 : exists s0 tr0, server_run hash_cfg three_received = Some (s0, tr0) /\ map content (sent 1 tr0) = map Some three) by (do 2 eexists; split; vm_compute; reflexivity).
    destruct E0 as (s0 & tr0 & E0 & S0).
    destruct (first_split (then_round three_received workers_round) (length three_received) m ltac:(lia)) as (mo & Em). rewrite (first_pre three_received workers_round (length three_received) (le_n _)), firstn_all in Em.
    destruct (server_run hash_cfg (first (then_round three_received workers_round) m)) as [[s tr]|] eqn:E1.
    2: { exfalso. unfold server_run in E1, E0. destruct (start_pool hash_cfg); discriminate. }
    exists m, s, tr. split; [lia|]. split; [exact E1|]. rewrite Em in E1. destruct (run_more _ _ _ _ _ _ _ E0 E1) as (e & ->). rewrite Workers2_proofs.sent_app, map_app, S0.
    exists ((if n <? length three_begin then map Some three else []) ++ map content (sent 1 e)). rewrite app_assoc. f_equal. unfold three_reading. destruct (n <? length three_begin); vm_compute; reflexivity. }
  split; [apply workers_round_runs|]. split; [exact some_routes_return|]. split; [|exact F].
  pose proof (proj1 (RR 0)) as E0. rewrite Nat.mul_0_r, Nat.add_0_r in E0. rewrite E0. exact Oks.
Qed.

(* More proofs about Client.v: one Stop of a connected client returns; a replaced
   goroutine never ends. *)
From Coq Require Import List Bool Arith Lia.
From Verif Require Import GoSlice Client Spec_Client Client_proofs.
Import ListNotations.

(* --- a connected client, one Stop --- *)
Definition qinv (s : cli) (tr : list cev) : Prop := exists n D x p,
  ci_conns s = [n] /\ cc_go n = true /\ cc_ctx n = true /\ ci_conn s = Some 0 /\ ci_dials s = [D] /\ ci_exits s = [x] /\ ci_exit s = Some 0 /\
  ci_stops s = [p] /\ ci_crashed s = false /\ (forall g, ~ In (CePanic g) tr) /\
  match p with
  | TConn | TSend => (D = DSel \/ D = DWait 0) /\ x = false /\ ci_err_closed s = false
  | TStop k => k = 0 /\ (D = DSel \/ D = DWait 0) /\ x = false /\ ci_err_closed s = false
  | TSending ch => ch = Some 0 /\ (D = DSel \/ D = DWait 0) /\ x = false /\ ci_err_closed s = false
  | TCloseExit => D = DEnd /\ x = false /\ ci_err_closed s = false
  | TCloseErr => D = DEnd /\ x = true /\ ci_err_closed s = false
  | TDone => D = DEnd /\ In (CeReturned 0) tr
  end.
Lemma qinv_step s tr l : l <> CRestart -> l <> CStopCall -> qinv s tr -> qinv (fst (cli_step s l)) (tr ++ snd (cli_step s l)).
Proof.
  intros L1 L2 H. assert (K : qinv s (tr ++ [])) by (now rewrite app_nil_r).
  destruct H as (n & D & x & p & N & Ng & Nc & C & ED & EX & X & EP & Cr & NP & H).
  assert (DD : D = DSel \/ D = DWait 0 \/ D = DEnd) by (destruct p; tauto).
  unfold cli_step. rewrite Cr. destruct l as [|d ok|d|k|k| |g d|d]; try congruence.
  - unfold dial_step. rewrite ED. destruct d as [|[|?]]; try exact K. cbn. destruct DD as [-> | [-> | ->]]; exact K.
  - unfold go_step. rewrite ED. destruct d as [|[|?]]; try exact K. cbn. destruct DD as [-> | [-> | ->]]; [| |exact K].
    + rewrite X. cbn [fst snd]. rewrite app_nil_r. exists n, (DWait 0), x, p. cbn. repeat split; auto. destruct p; tauto || (destruct H as [Q _]; discriminate).
    + rewrite EX. cbn [nth]. destruct x; [|exact K]. exfalso. destruct p; try (destruct H as (_ & _ & ? & _); discriminate); try (destruct H as (_ & ? & _); discriminate); try (destruct H as (? & _); discriminate).
  - unfold conn_start. rewrite N. destruct k as [|[|?]]; try exact K. cbn. rewrite Ng. rewrite app_nil_r.
    exists (Ccn true true (cc_stopped n)), D, x, p. cbn. repeat split; auto.
  - unfold conn_end. rewrite N. destruct k as [|[|?]]; try exact K. cbn. rewrite Nc. rewrite app_nil_r.
    exists (Ccn (cc_go n) true true), D, x, p. cbn. repeat split; auto.
  - unfold cstop_step. rewrite EP. destruct g as [|[|?]]; try exact K. cbn [nth_error].
    destruct p as [|k| |ch| | |]; try exact K.
    + rewrite C. cbn [fst snd]. rewrite app_nil_r. exists n, D, x, (TStop 0). cbn. repeat split; auto; tauto.
    + destruct H as (-> & H). rewrite N. cbn [nth_error]. rewrite Nc. cbn [fst snd]. rewrite app_nil_r. unfold conn_end. rewrite N. cbn [nth_error]. rewrite Nc.
      exists (Ccn (cc_go n) true true), D, x, TSend. cbn. rewrite ?EP; cbn. repeat split; auto; try tauto; idtac.
    + cbn [fst snd]. rewrite app_nil_r. exists n, D, x, (TSending (ci_exit s)). cbn. rewrite X. repeat split; auto; tauto.
    + destruct H as (-> & H & -> & He). rewrite EX. cbn [nth]. rewrite ED. destruct d as [|[|?]]; try exact K. cbn [nth_error].
      destruct H as [-> | ->]; [exact K|]. cbn. rewrite app_nil_r. exists n, DEnd, false, TCloseExit. cbn. rewrite ?EP; cbn. repeat split; auto.
    + destruct H as (-> & -> & He). rewrite X, EX. cbn [nth]. cbn [fst snd]. rewrite app_nil_r. exists n, DEnd, true, TCloseErr. cbn. rewrite ?EP; cbn. repeat split; auto.
    + destruct H as (-> & -> & He). rewrite He. cbn [fst snd]. exists n, DEnd, true, TDone. cbn. rewrite ?EP; cbn. repeat split; auto.
      * intros g Hi. apply in_app_iff in Hi as [Hi|[Hi|[]]]; [now apply (NP g)|discriminate].
      * apply in_app_iff. right. now left.
  - unfold recv_step. rewrite ED. assert (KE : qinv s (tr ++ [CeEnd])).
    { exists n, D, x, p. repeat (split; [assumption|]). split.
      - intros g Hi. apply in_app_iff in Hi as [Hi|[Hi|[]]]; [now apply (NP g)|discriminate].
      - destruct p; try exact H. destruct H as [H1 H2]. split; [exact H1|]. apply in_app_iff. now left. }
    destruct (ci_err_closed s) eqn:E; [exact KE|]. destruct d as [|[|?]]; try exact K. cbn. destruct DD as [-> | [-> | ->]]; exact K.
Qed.
Lemma qinv_run ls : forall s tr, starts ls = 0 -> cstops ls = 0 -> qinv s tr -> qinv (fst (cli_run s ls)) (tr ++ snd (cli_run s ls)).
Proof.
  induction ls as [|l ls IH]; intros s tr H1 H2 H; cbn [cli_run]; [now rewrite app_nil_r|].
  assert (l <> CRestart /\ l <> CStopCall /\ starts ls = 0 /\ cstops ls = 0) as (L1 & L2 & S1 & S2).
  { unfold starts, cstops in *. cbn in *. destruct l; cbn in *; try lia; repeat split; auto; discriminate. }
  pose proof (qinv_step s tr l L1 L2 H) as Q. destruct (cli_step s l) as [s1 e]. cbn [fst snd] in *. specialize (IH s1 _ S1 S2 Q).
  destruct (cli_run s1 ls) as [s2 es]. cbn [fst snd] in *. now rewrite app_assoc.
Qed.
Lemma noPanic_step s l : ci_stops s = [] -> l <> CStopCall -> ci_stops (fst (cli_step s l)) = [] /\ forall g, ~ In (CePanic g) (snd (cli_step s l)) /\ ~ In (CeReturned g) (snd (cli_step s l)).
Proof.
  intros E Hl. unfold cli_step. destruct (ci_crashed s); [cbn; auto|]. destruct l as [|d ok|d|k|k| |g d|d]; try congruence.
  - cbn. auto.
  - unfold dial_step. ccase; cbn; intuition discriminate.
  - unfold go_step. ccase; cbn; intuition discriminate.
  - unfold conn_start. ccase; cbn; intuition discriminate.
  - cbn [fst snd]. destruct (conn_end_frame s k) as (_ & _ & _ & _ & -> & _). cbn. auto.
  - unfold cstop_step. rewrite E. destruct g; cbn; auto.
  - unfold recv_step. ccase; cbn; intuition discriminate.
Qed.
Lemma noPanic_run ls : forall s, cstops ls = 0 -> ci_stops s = [] -> ci_stops (fst (cli_run s ls)) = [] /\ forall g, ~ In (CePanic g) (snd (cli_run s ls)).
Proof.
  induction ls as [|l ls IH]; intros s H E; cbn [cli_run]; [cbn; auto|].
  assert (l <> CStopCall /\ cstops ls = 0) as (L & S). { unfold cstops in *. cbn in *. destruct l; cbn in *; try lia; (split; [discriminate|auto]). }
  destruct (noPanic_step s l E L) as [E1 N]. destruct (cli_step s l) as [s1 e]. cbn [fst snd] in *. destruct (IH s1 S E1) as [I1 I2].
  destruct (cli_run s1 ls) as [s2 es]. cbn [fst snd] in *. split; [exact I1|]. intros g Hi. apply in_app_iff in Hi as [Hi|Hi]; [exact (proj1 (N g) Hi)|now apply (I2 g)].
Qed.
(* ErrChan is closed only by a returning Stop *)
Lemma errclosed_step s l : ci_stops s = [] -> ci_err_closed s = false -> ci_err_closed (fst (cli_step s l)) = false.
Proof.
  intros E H. unfold cli_step. destruct (ci_crashed s); [exact H|]. destruct l as [|d ok|d|k|k| |g d|d]; try exact H.
  - unfold dial_step. ccase; exact H.
  - unfold go_step. rewrite H. ccase; exact H.
  - unfold conn_start. ccase; exact H.
  - cbn [fst]. destruct (conn_end_frame s k) as (_ & _ & _ & _ & _ & F & _). now rewrite F.
  - unfold cstop_step. rewrite E. destruct g; exact H.
  - unfold recv_step. rewrite H. ccase; exact H.
Qed.
Lemma errclosed_run ls : forall s, cstops ls = 0 -> ci_stops s = [] -> ci_err_closed s = false -> ci_err_closed (fst (cli_run s ls)) = false.
Proof.
  induction ls as [|l ls IH]; intros s H E He; cbn [cli_run]; [exact He|].
  assert (l <> CStopCall /\ cstops ls = 0) as (L & S). { unfold cstops in *. cbn in *. destruct l; cbn in *; try lia; (split; [discriminate|auto]). }
  destruct (noPanic_step s l E L) as [E1 _]. pose proof (errclosed_step s l E He) as E2. destruct (cli_step s l) as [s1 e]. cbn [fst snd] in *.
  specialize (IH s1 S E1 E2). now destruct (cli_run s1 ls).
Qed.
(* and only a send on it once closed ends the process *)
Lemma nocrash_step s l : ci_err_closed s = false -> ci_crashed s = false -> ci_crashed (fst (cli_step s l)) = false.
Proof.
  intros H C. unfold cli_step. rewrite C. destruct l as [|d ok|d|k|k| |g d|d]; try exact C.
  - unfold dial_step. ccase; exact C.
  - unfold go_step. rewrite H. ccase; exact C.
  - unfold conn_start. ccase; exact C.
  - cbn [fst]. unfold conn_end. ccase; exact C.
  - unfold cstop_step, conn_end. ccase; exact C.
  - unfold recv_step. rewrite H. ccase; exact C.
Qed.
Lemma nocrash_run ls : forall s, cstops ls = 0 -> ci_stops s = [] -> ci_err_closed s = false -> ci_crashed s = false -> ci_crashed (fst (cli_run s ls)) = false.
Proof.
  induction ls as [|l ls IH]; intros s H E He C; cbn [cli_run]; [exact C|].
  assert (l <> CStopCall /\ cstops ls = 0) as (L & S). { unfold cstops in *. cbn in *. destruct l; cbn in *; try lia; (split; [discriminate|auto]). }
  destruct (noPanic_step s l E L) as [E1 _]. pose proof (errclosed_step s l E He) as E2. pose proof (nocrash_step s l He C) as E3. destruct (cli_step s l) as [s1 e]. cbn [fst snd] in *.
  specialize (IH s1 S E1 E2 E3). now destruct (cli_run s1 ls).
Qed.
(* an exit channel is closed, and the goroutine ends without an error, only through Stop *)
Definition calm (s : cli) : Prop := (forall x, In x (ci_exits s) -> x = false) /\ (In DEnd (ci_dials s) -> ci_conn s = None).
Lemma calm_step s tr l : oinv s tr -> (l = CRestart -> ci_dials s = []) -> ci_stops s = [] -> calm s -> calm (fst (cli_step s l)).
Proof.
  intros [O _] Hr E [X D]. assert (K : calm s) by (split; assumption). unfold cli_step. destruct (ci_crashed s); [exact K|].
  destruct l as [|d ok|d|k|k| |g d|d]; try exact K.
  - rewrite (Hr eq_refl) in *. split; cbn.
    + intros x Hx. apply in_app_iff in Hx as [Hx|[<-|[]]]; auto.
    + rewrite (Hr eq_refl). cbn. intros [Q|[]]; discriminate.
  - unfold dial_step. destruct (nth_error (ci_dials s) d) as [p|] eqn:Ed; [|exact K]. destruct p; try exact K. destruct ok; (split; [exact X|]); cbn; intros Q; apply sn_in in Q as [Q|Q]; try discriminate; auto.
  - unfold go_step. destruct (nth_error (ci_dials s) d) as [p|] eqn:Ed; [|exact K]. destruct p; try exact K.
    + destruct (ci_err_closed s); exact K.
    + split; [exact X|]. cbn. intros Q. exfalso. unfold shape in O. destruct (ci_dials s) as [|p [|]]; [destruct d; discriminate| |contradiction].
      destruct d as [|[|?]]; cbn in Ed; try discriminate. injection Ed as ->. destruct Q as [Q|[]]. discriminate.
    + split; [exact X|]. cbn. intros Q; apply sn_in in Q as [Q|Q]; try discriminate; auto.
    + destruct (ci_exit s); [|exact K]. split; [exact X|]. cbn. intros Q; apply sn_in in Q as [Q|Q]; try discriminate; auto.
    + destruct (nth_in_or_default ch (ci_exits s) false) as [Q|Q].
      * rewrite (X _ Q). exact K.
      * rewrite Q. exact K.
  - unfold conn_start. ccase; exact K.
  - cbn [fst]. unfold calm. destruct (conn_end_frame s k) as (F1 & F2 & _ & F4 & _). rewrite F1, F2, F4. exact K.
  - unfold cstop_step. rewrite E. destruct g; exact K.
  - unfold recv_step. destruct (ci_err_closed s); [exact K|]. destruct (nth_error (ci_dials s) d) as [p|] eqn:Ed; [|exact K]. destruct p; try exact K.
    split; [exact X|]. cbn. intros _. unfold shape in O. destruct (ci_dials s) as [|p [|]]; [destruct d; discriminate| |contradiction].
    destruct d as [|[|?]]; cbn in Ed; try discriminate. injection Ed as ->. tauto.
Qed.
Lemma calm_run ls : forall s tr, length (ci_dials s) + starts ls <= 1 -> cstops ls = 0 -> oinv s tr -> ci_stops s = [] -> calm s -> calm (fst (cli_run s ls)).
Proof.
  induction ls as [|l ls IH]; intros s tr Hs Hc O E C; cbn [cli_run]; [exact C|].
  assert (l <> CStopCall /\ cstops ls = 0) as (L & S). { unfold cstops in *. cbn in *. destruct l; cbn in *; try lia; (split; [discriminate|auto]). }
  assert (Hr : l = CRestart -> ci_dials s = []). { intros ->. unfold starts in Hs. cbn in Hs. destruct (ci_dials s); [reflexivity|]. cbn in Hs. lia. }
  destruct (noPanic_step s l E L) as [E1 _]. pose proof (calm_step s tr l O Hr E C) as C1. pose proof (oinv_step s tr l Hr O) as O1. pose proof (dials_step s l) as D.
  destruct (cli_step s l) as [s1 e]. cbn [fst snd] in *.
  assert (Hs1 : length (ci_dials s1) + starts ls <= 1).
  { unfold starts in *. cbn in Hs. destruct D as [D|[-> D]]; [destruct (is_restart l); cbn in Hs; lia|cbn in Hs; lia]. }
  specialize (IH s1 _ Hs1 S O1 E1 C1). now destruct (cli_run s1 ls).
Qed.
Lemma calm_new : calm cli_new.
Proof. split; cbn; [intros ? []|auto]. Qed.
Lemma connected_q a : starts a <= 1 -> cstops a = 0 -> connected (after a) -> qinv (after (a ++ [CStopCall])) (trace (a ++ [CStopCall])).
Proof.
  intros Hs Hc (k & n & C & En & Hn). pose proof (nocrash_run a cli_new Hc eq_refl eq_refl eq_refl : ci_crashed (after a) = false) as Cr. pose proof (oinv_start a Hs) as O. destruct (conn_zero _ _ _ O C) as [-> L].
  destruct (noPanic_run a cli_new Hc eq_refl) as [ES NP]. fold (after a) in ES. fold (trace a) in NP.
  pose proof (errclosed_run a cli_new Hc eq_refl eq_refl) as EC. fold (after a) in EC.
  pose proof (calm_run a cli_new [] Hs Hc oinv_new eq_refl calm_new) as [X DN]. fold (after a) in X, DN.
  destruct O as [O _]. unfold shape in O. rewrite after_app, trace_app. cbn [cli_run]. unfold cli_step. rewrite Cr. cbn [fst snd]. rewrite !app_nil_r, ES. cbn [app].
  destruct (ci_dials (after a)) as [|D [|]] eqn:ED; [discriminate| |contradiction]. destruct O as (L1 & EX & O).
  destruct (ci_exits (after a)) as [|x [|]] eqn:EE; try discriminate.
  assert (x = false) by (apply X; now left). subst x.
  assert (Hd : (D = DSel \/ D = DWait 0) /\ ctx0 (after a) true).
  { destruct D; try (exfalso; intuition congruence); try tauto.
    - exfalso. destruct O as (-> & _ & (m & Em & Hm & Hg) & _). rewrite Em in En. cbn in En. injection En as ->. specialize (Hm eq_refl). specialize (Hg Hn). congruence.
    - destruct O as (-> & _ & ? & _). auto.
    - exfalso. specialize (DN (or_introl eq_refl)). congruence. }
  destruct Hd as [Hd (m & Em & _ & Hg)]. rewrite Em in En. cbn in En. injection En as ->.
  exists n, D, false, TConn. cbn. repeat split; auto.
Qed.
(* from there, the Stop goroutine and the waiting goroutine alone lead to the return *)
Lemma q_finish s tr : qinv s tr -> exists ls, starts ls = 0 /\ cstops ls = 0 /\ In (CeReturned 0) (tr ++ snd (cli_run s ls)).
Proof.
  intros H. set (fin := [CGo 0; CStopStep 0 0; CStopStep 0 0; CStopStep 0 0; CStopStep 0 0; CStopStep 0 0; CStopStep 0 0]). exists fin. split; [reflexivity|]. split; [reflexivity|].
  destruct H as (n & D & x & p & N & Ng & Nc & C & ED & EX & X & EP & Cr & NP & H).
  destruct s as [s1 s2 s3 s4 s5 s6 s7 s8]. cbn in *. subst.
  apply in_app_iff. destruct n as [g c st]. cbn in Ng, Nc. subst.
  destruct p as [|k| |ch| | |].
  - right. destruct H as ([-> | ->] & -> & ->); cbn; auto.
  - right. destruct H as (-> & [-> | ->] & -> & ->); cbn; auto.
  - right. destruct H as ([-> | ->] & -> & ->); cbn; auto.
  - right. destruct H as (-> & [-> | ->] & -> & ->); cbn; auto.
  - right. destruct H as (-> & -> & ->); cbn; auto.
  - right. destruct H as (-> & -> & ->); cbn; auto.
  - left. tauto.
Qed.
Lemma stop_finishes a b : starts (a ++ b) <= 1 -> cstops (a ++ b) = 0 -> connected (after a) ->
  (forall g, ~ In (CePanic g) (trace (a ++ CStopCall :: b))) /\
  exists c, starts c = 0 /\ cstops c = 0 /\ In (CeReturned 0) (trace (a ++ CStopCall :: b ++ c)).
Proof.
  rewrite starts_app, cstops_app. intros Hs Hc Co.
  assert (Hb : starts b = 0). { destruct Co as (k & n & C & _). eapply (started_conn a b k); [rewrite starts_app; exact Hs|exact C]. }
  pose proof (connected_q a ltac:(lia) ltac:(lia) Co) as Q.
  pose proof (qinv_run b _ _ Hb ltac:(lia) Q) as Q1.
  assert (E : forall c, a ++ CStopCall :: c = (a ++ [CStopCall]) ++ c) by (intros c; now rewrite <- app_assoc).
  rewrite <- after_app, <- trace_app in Q1. rewrite <- E in Q1.
  split.
  - destruct Q1 as (n & D & x & p & _ & _ & _ & _ & _ & _ & _ & _ & _ & NP & _). exact NP.
  - destruct (q_finish _ _ Q1) as (c & C1 & C2 & R). exists c. split; [exact C1|]. split; [exact C2|]. rewrite app_comm_cons, app_assoc, trace_app. exact R.
Qed.

(* --- a goroutine left waiting on a replaced exit channel --- *)
Definition left_behind (d ch : nat) (s : cli) (tr : list cev) : Prop :=
  nth_error (ci_dials s) d = Some (DWait ch) /\ ch < length (ci_exits s) /\ nth ch (ci_exits s) false = false /\
  ci_exit s <> Some ch /\ (forall e, ci_exit s = Some e -> e < length (ci_exits s)) /\ ~ In (TSending (Some ch)) (ci_stops s).
Lemma nth_set_other (l : list bool) i j : i <> j -> nth j (set_nth i true l) false = nth j l false.
Proof. revert i j. induction l as [|x l IH]; intros [|i] [|j] H; cbn; auto; try congruence. Qed.
Lemma behind_step d ch s tr l : left_behind d ch s tr -> left_behind d ch (fst (cli_step s l)) (tr ++ snd (cli_step s l)).
Proof.
  intros (H1 & H2 & H3 & H4 & H5 & H6).
  assert (K : forall s1 tr1, ci_dials s1 = ci_dials s -> ci_exits s1 = ci_exits s -> ci_exit s1 = ci_exit s -> (In (TSending (Some ch)) (ci_stops s1) -> In (TSending (Some ch)) (ci_stops s)) -> left_behind d ch s1 tr1).
  { intros s1 tr1 E1 E2 E3 E4. unfold left_behind. rewrite E1, E2, E3. repeat split; auto. }
  assert (P : forall x p q s1 tr1, nth_error (ci_dials s) x = Some p -> p <> DWait ch -> ci_dials s1 = set_nth x q (ci_dials s) -> ci_exits s1 = ci_exits s -> ci_exit s1 = ci_exit s ->
    (In (TSending (Some ch)) (ci_stops s1) -> In (TSending (Some ch)) (ci_stops s)) -> left_behind d ch s1 tr1).
  { intros x p q s1 tr1 E Hp E1 E2 E3 E4. unfold left_behind. rewrite E1, E2, E3. repeat split; auto. rewrite sn_other; [exact H1|]. intros <-. congruence. }
  assert (NT : forall g q, q <> TSending (Some ch) -> In (TSending (Some ch)) (set_nth g q (ci_stops s)) -> In (TSending (Some ch)) (ci_stops s)).
  { intros g q Hq Hi. apply sn_in in Hi as [Hi|Hi]; [congruence|exact Hi]. }
  unfold cli_step. destruct (ci_crashed s); [now apply K|]. destruct l as [|x ok|x|k|k| |g x|x].
  - cbn. repeat split; auto.
    + cbn. rewrite nth_error_app1; [exact H1|]. apply nth_error_Some. congruence.
    + cbn. rewrite app_length. lia.
    + cbn. now rewrite app_nth1.
    + cbn. intros Q. injection Q as Q. lia.
    + cbn. intros e Q. injection Q as <-. rewrite app_length. cbn. lia.
  - unfold dial_step. destruct (nth_error (ci_dials s) x) as [p|] eqn:E; [|now apply K]. destruct p; try now apply K.
    destruct ok; (eapply P; [exact E|discriminate|reflexivity..|auto]).
  - unfold go_step. destruct (nth_error (ci_dials s) x) as [p|] eqn:E; [|now apply K]. destruct p; try now apply K.
    + destruct (ci_err_closed s); now apply K.
    + eapply P; [exact E|discriminate|reflexivity..|auto].
    + eapply P; [exact E|discriminate|reflexivity..|auto].
    + destruct (ci_exit s) eqn:Ex; [|apply K; auto]. eapply P; [exact E|discriminate|reflexivity|reflexivity|cbn; congruence|auto].
    + destruct (nth ch0 (ci_exits s) false) eqn:Q; [|now apply K]. eapply P; [exact E|congruence|reflexivity..|auto].
  - unfold conn_start. ccase; apply K; auto.
  - cbn [fst snd]. destruct (conn_end_frame s k) as (F1 & F2 & F3 & _ & F5 & _). apply K; auto. now rewrite F5.
  - apply K; auto. cbn. rewrite in_app_iff. cbn. intuition discriminate.
  - unfold cstop_step. destruct (nth_error (ci_stops s) g) as [p|] eqn:Eg; [|now apply K]. destruct p as [|k| |[c|]| | |]; try now apply K.
    + apply K; auto. cbn. apply NT. destruct (ci_conn s); discriminate.
    + destruct (nth_error (ci_conns s) k) as [n|]; [|now apply K]. destruct (cc_ctx n); [|apply K; auto; cbn; apply NT; discriminate].
      destruct (conn_end_frame s k) as (F1 & F2 & F3 & _ & F5 & _). apply K; auto. cbn. rewrite F5. apply NT. discriminate.
    + apply K; auto. cbn. apply NT. congruence.
    + destruct (nth c (ci_exits s) false); [apply K; auto; cbn; apply NT; discriminate|]. destruct (nth_error (ci_dials s) x) as [p|] eqn:E; [|now apply K]. destruct p as [| | | | |c'|]; try now apply K.
      destruct (Nat.eqb_spec c' c) as [->|]; [|now apply K]. eapply P; [exact E| |reflexivity..|cbn; apply NT; discriminate].
      intros Q. injection Q as ->. apply H6. eapply nth_error_In, Eg.
    + destruct (ci_exit s) as [c|] eqn:Ex; [|apply K; auto; cbn; apply NT; discriminate]. destruct (nth c (ci_exits s) false); [apply K; auto; cbn; apply NT; discriminate|].
      unfold left_behind. cbn. rewrite sn_len. assert (c <> ch) by congruence. rewrite nth_set_other by assumption. repeat split; auto. intros Hi. apply H6. revert Hi. apply NT. discriminate.
    + destruct (ci_err_closed s); apply K; auto; cbn; apply NT; discriminate.
  - unfold recv_step. destruct (ci_err_closed s); [now apply K|]. destruct (nth_error (ci_dials s) x) as [p|] eqn:E; [|now apply K]. destruct p; try now apply K.
    eapply P; [exact E|discriminate|reflexivity..|auto].
Qed.
Lemma behind_run d ch a b : left_behind d ch (after a) [] -> nth_error (ci_dials (after (a ++ b))) d = Some (DWait ch).
Proof. intros H. rewrite after_app. exact (proj1 (cli_inv (left_behind d ch) (behind_step d ch) b (after a) [] H)). Qed.

(* --- Stops that return --- *)
Definition few (s : cli) (tr : list cev) : Prop := stop_returns tr <= if ci_err_closed s then 1 else 0.
Lemma few_step s tr l : few s tr -> few (fst (cli_step s l)) (tr ++ snd (cli_step s l)).
Proof.
  unfold few, stop_returns. intros H. rewrite filter_app, app_length.
  unfold cli_step. destruct (ci_crashed s); [cbn; lia|]. destruct l as [|d ok|d|k|k| |g d|d].
  - cbn. lia.
  - unfold dial_step. destruct (nth_error (ci_dials s) d) as [[]|]; try (cbn; lia). destruct ok; cbn; lia.
  - unfold go_step. destruct (nth_error (ci_dials s) d) as [[]|]; try (cbn; lia).
    + destruct (ci_err_closed s) eqn:E; cbn; rewrite E; lia.
    + destruct (ci_exit s); cbn; lia.
    + destruct (nth ch (ci_exits s) false); cbn; lia.
  - unfold conn_start. destruct (nth_error (ci_conns s) k) as [n|]; [destruct (cc_go n)|]; cbn; lia.
  - cbn [fst snd]. destruct (conn_end_frame s k) as (_ & _ & _ & _ & _ & F & _). rewrite F. cbn. lia.
  - cbn. lia.
  - unfold cstop_step. destruct (nth_error (ci_stops s) g) as [p|]; [|cbn; lia]. destruct p as [|k| |[c|]| | |]; try (cbn; lia).
    + destruct (nth_error (ci_conns s) k) as [n|]; [|cbn; lia]. destruct (cc_ctx n); [|cbn; lia]. destruct (conn_end_frame s k) as (_ & _ & _ & _ & _ & F & _). cbn. rewrite F. lia.
    + destruct (nth c (ci_exits s) false); [cbn; lia|]. destruct (nth_error (ci_dials s) d) as [[]|]; try (cbn; lia). destruct (ch =? c); cbn; lia.
    + destruct (ci_exit s) as [c|]; [|cbn; lia]. destruct (nth c (ci_exits s) false); cbn; lia.
    + destruct (ci_err_closed s) eqn:E; cbn; rewrite ?E; lia.
  - unfold recv_step. destruct (ci_err_closed s) eqn:E; [cbn; rewrite E; lia|]. destruct (nth_error (ci_dials s) d) as [[]|]; cbn; rewrite ?E; lia.
Qed.
Lemma few_returns ls : stop_returns (trace ls) <= 1.
Proof.
  pose proof (cli_inv few few_step ls cli_new [] ltac:(unfold few; cbn; lia)) as H. unfold few in H. cbn [app] in H. fold (trace ls) in H. destruct (ci_err_closed _); lia.
Qed.
Lemma stops_le ls : forall s, length (ci_stops (fst (cli_run s ls))) <= length (ci_stops s) + cstops ls.
Proof.
  induction ls as [|l ls IH]; intros s; cbn [cli_run]; [cbn; unfold cstops; cbn; lia|].
  pose proof (stops_len s l) as [_ L]. destruct (cli_step s l) as [s1 e] eqn:Es. cbn [fst] in L. specialize (IH s1). destruct (cli_run s1 ls) as [s2 es] eqn:Er. cbn [fst] in *.
  assert (Q : cstops (l :: ls) = cstops [l] + cstops ls) by (unfold cstops; cbn; destruct (is_cstop l); cbn; lia). rewrite Q.
  destruct (ci_crashed s1) eqn:E; [|specialize (L eq_refl); lia].
  assert (length (ci_stops s1) <= length (ci_stops s)); [|lia]. clear -Es E. unfold cli_step in Es. destruct (ci_crashed s) eqn:Ec; [injection Es as <- _; lia|].
  assert (Es1 : fst (match l with CRestart => (restart s, []) | CDial d ok => dial_step s d ok | CGo d => go_step s d | CConnStart k => (conn_start s k, []) | CConnEnd k => (conn_end s k, [])
    | CStopCall => (cw_stops s (ci_stops s ++ [TConn]), []) | CStopStep g d => cstop_step s g d | CRecv d => recv_step s d end) = s1) by (now rewrite Es). clear Es. revert E. rewrite <- Es1. clear Es1.
  destruct l as [|d ok|d|k|k| |g d|d]; cbn [fst]; try (cbn; congruence).
  - unfold dial_step. ccase; cbn; congruence || lia.
  - unfold go_step. ccase; cbn; congruence || lia.
  - unfold conn_start. ccase; cbn; congruence || lia.
  - destruct (conn_end_frame s k) as (_ & _ & _ & _ & F & _). rewrite F. lia.
  - unfold cstop_step. destruct (nth_error (ci_stops s) g) as [p|]; [|cbn; lia]. destruct p as [|k| |[ch|]| | |]; try (ccase; cbn; rewrite ?sn_len; lia).
    destruct (conn_end_frame s k) as (_ & _ & _ & _ & F & _). ccase; cbn; rewrite ?F, ?sn_len; lia.
  - unfold recv_step. ccase; cbn; congruence || lia.
Qed.
Definition rlt (s : cli) (tr : list cev) : Prop := forall g, In (CeReturned g) tr -> g < length (ci_stops s).
Lemma rlt_step s tr l : rlt s tr -> rlt (fst (cli_step s l)) (tr ++ snd (cli_step s l)).
Proof.
  intros H g Hi. pose proof (stops_len s l) as [L _]. apply in_app_iff in Hi as [Hi|Hi]; [specialize (H g Hi); lia|].
  assert (g < length (ci_stops s)); [|lia]. clear -Hi. revert Hi. unfold cli_step. destruct (ci_crashed s); [intros []|]. destruct l as [|d ok|d|k|k| |g' d|d]; try (intros []; fail).
  - unfold dial_step. ccase; cbn; intuition discriminate.
  - unfold go_step. ccase; cbn; intuition discriminate.
  - unfold cstop_step. destruct (nth_error (ci_stops s) g') as [p|] eqn:E; [|intros []]. assert (g' < length (ci_stops s)) by (apply nth_error_Some; congruence).
    ccase; cbn; intuition (try discriminate); congruence.
  - unfold recv_step. ccase; cbn; intuition discriminate.
Qed.
Lemma returned_lt ls g : In (CeReturned g) (trace ls) -> g < cstops ls.
Proof.
  intros H. pose proof (cli_inv rlt rlt_step ls cli_new [] ltac:(intros ? []) g H) as L. fold (after ls) in L. pose proof (stops_le ls cli_new) as S. fold (after ls) in S. cbn in S. lia.
Qed.

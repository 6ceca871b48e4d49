(* Proofs about Client.v *)
From Coq Require Import List Bool Arith Lia.
From Verif Require Import GoSlice Client Spec_Client.
Import ListNotations.

Lemma sn_same {A} i (x y : A) l : nth_error l i = Some y -> nth_error (set_nth i x l) i = Some x.
Proof. revert i. induction l as [|z l IH]; intros [|i]; cbn; try discriminate; auto. Qed.
Lemma sn_other {A} i j (x : A) l : j <> i -> nth_error (set_nth i x l) j = nth_error l j.
Proof. revert i j. induction l as [|y l IH]; intros [|i] [|j] H; cbn; auto; try congruence. Qed.
Lemma sn_len {A} i (x : A) l : length (set_nth i x l) = length l.
Proof. revert i. induction l as [|y l IH]; intros [|i]; cbn; auto. Qed.
Lemma sn_in {A} i (x : A) l y : In y (set_nth i x l) -> y = x \/ In y l.
Proof. revert i. induction l as [|z l IH]; intros [|i]; cbn; auto; intros [<-|H]; auto. destruct (IH i H); auto. Qed.

Lemma cli_run_app a : forall b s, cli_run s (a ++ b) =
  (fst (cli_run (fst (cli_run s a)) b), snd (cli_run s a) ++ snd (cli_run (fst (cli_run s a)) b)).
Proof.
  induction a as [|l a IH]; intros b s; cbn [cli_run app fst snd]; [now destruct (cli_run s b)|].
  destruct (cli_step s l) as [s1 e]. rewrite IH. destruct (cli_run s1 a) as [s2 es]. cbn. now rewrite app_assoc.
Qed.
Lemma after_app a b : after (a ++ b) = fst (cli_run (after a) b).
Proof. unfold after. now rewrite cli_run_app. Qed.
Lemma trace_app a b : trace (a ++ b) = trace a ++ snd (cli_run (after a) b).
Proof. unfold trace, after. now rewrite cli_run_app. Qed.
(* invariants of state and trace *)
Lemma cli_inv (P : cli -> list cev -> Prop) : (forall s tr l, P s tr -> P (fst (cli_step s l)) (tr ++ snd (cli_step s l))) ->
  forall ls s tr, P s tr -> P (fst (cli_run s ls)) (tr ++ snd (cli_run s ls)).
Proof.
  intros Hstep. induction ls as [|l ls IH]; intros s tr H; cbn [cli_run]; [now rewrite app_nil_r|].
  specialize (Hstep s tr l H). destruct (cli_step s l) as [s1 e]. cbn [fst snd] in *. specialize (IH s1 _ Hstep).
  destruct (cli_run s1 ls) as [s2 es]. cbn [fst snd] in *. now rewrite app_assoc.
Qed.

(* --- at most one Stop returns --- *)
Definition once (s : cli) (tr : list cev) : Prop :=
  (forall g, In (CeReturned g) tr -> ci_err_closed s = true) /\ (forall g h, In (CeReturned g) tr -> In (CeReturned h) tr -> g = h).
Ltac ccase := repeat match goal with
  | |- context [match ?x with _ => _ end] => destruct x eqn:?
  end.
Lemma once_step s tr l : once s tr -> once (fst (cli_step s l)) (tr ++ snd (cli_step s l)).
Proof.
  intros [H1 H2]. 
  assert (K : forall s1 e, ci_err_closed s1 = ci_err_closed s -> (forall g, ~ In (CeReturned g) e) -> once s1 (tr ++ e)).
  { intros s1 e E N. assert (R : forall g, In (CeReturned g) (tr ++ e) -> In (CeReturned g) tr).
    { intros g H. apply in_app_iff in H as [H|H]; [exact H|destruct (N g H)]. }
    split; [intros g H; rewrite E; eauto|intros g h H H'; auto]. }
  unfold cli_step. destruct (ci_crashed s); [apply K; [reflexivity|intros ? []]|].
  destruct l as [|d ok|d|k|k| |g d|d].
  - apply K; [reflexivity|intros ? []].
  - unfold dial_step. ccase; apply K; try reflexivity; cbn; intuition discriminate.
  - unfold go_step. ccase; apply K; try reflexivity; cbn; intuition discriminate.
  - unfold conn_start. ccase; apply K; try reflexivity; cbn; intuition discriminate.
  - unfold conn_end. ccase; apply K; try reflexivity; cbn; intuition discriminate.
  - apply K; [reflexivity|intros ? []].
  - unfold cstop_step. destruct (nth_error (ci_stops s) g) as [p|]; [|apply K; [reflexivity|intros ? []]].
    destruct p; [..|apply K; [reflexivity|intros ? []]].
    + apply K; [reflexivity|intros ? []].
    + unfold conn_end. ccase; apply K; try reflexivity; cbn; intuition discriminate.
    + apply K; [reflexivity|intros ? []].
    + ccase; apply K; try reflexivity; cbn; intuition discriminate.
    + ccase; apply K; try reflexivity; cbn; intuition discriminate.
    + destruct (ci_err_closed s) eqn:E; [apply K; [cbn; auto|cbn; intuition discriminate]|].
      assert (N : forall h, ~ In (CeReturned h) tr) by (intros h H; specialize (H1 h H); congruence).
      split; cbn; [auto|]. intros h h' Hh Hh'. apply in_app_iff in Hh as [Hh|[Hh|[]]]; [destruct (N _ Hh)|].
      apply in_app_iff in Hh' as [Hh'|[Hh'|[]]]; [destruct (N _ Hh')|]. congruence.
  - unfold recv_step. ccase; apply K; try reflexivity; cbn; intuition discriminate.
Qed.
Lemma stop_once ls g h : In (CeReturned g) (trace ls) -> In (CeReturned h) (trace ls) -> g = h.
Proof.
  refine (proj2 (cli_inv once once_step ls cli_new [] _) g h). split; [intros ? []|intros ? ? []].
Qed.

(* --- errors --- *)
Definition derr (s : cli) (d : nat) : nat := match nth_error (ci_dials s) d with Some DErr => 1 | _ => 0 end.
Definition fresh (s : cli) (d : nat) : Prop := nth_error (ci_dials s) d = None \/ nth_error (ci_dials s) d = Some DDial.
Definition einv (d : nat) (s : cli) (tr : list cev) : Prop :=
  occurs (CeError d) tr + derr s d = occurs (CeFailed d) tr /\ occurs (CeFailed d) tr <= 1 /\ (fresh s d -> occurs (CeFailed d) tr = 0).
Lemma occurs_app e a b : occurs e (a ++ b) = occurs e a + occurs e b.
Proof. apply count_occ_app. Qed.
Lemma occurs_one e x : occurs e [x] = if cev_eq_dec x e then 1 else 0.
Proof. unfold occurs. cbn. now destruct (cev_eq_dec x e). Qed.
Lemma einv_keep d s tr s1 e : einv d s tr -> derr s1 d = derr s d -> (fresh s1 d -> fresh s d) ->
  (forall x, ~ In (CeError x) e) -> (forall x, ~ In (CeFailed x) e) -> einv d s1 (tr ++ e).
Proof.
  intros (E1 & E2 & E3) D F N1 N2.
  assert (O : forall x, ~ In x e -> occurs x (tr ++ e) = occurs x tr).
  { intros x H. rewrite occurs_app. unfold occurs at 2. rewrite (proj1 (count_occ_not_In cev_eq_dec e x) H). lia. }
  unfold einv. rewrite D, !O; auto.
Qed.
Lemma einv_step d s tr l : einv d s tr -> einv d (fst (cli_step s l)) (tr ++ snd (cli_step s l)).
Proof.
  intros H.
  assert (K : forall s1 e, ci_dials s1 = ci_dials s -> (forall x, ~ In (CeError x) e) -> (forall x, ~ In (CeFailed x) e) -> einv d s1 (tr ++ e)).
  { intros s1 e E. apply (einv_keep d s); auto; unfold derr, fresh; now rewrite E. }
  assert (P : forall x p q s1, nth_error (ci_dials s) x = Some p -> p <> DErr -> q <> DErr -> q <> DDial -> ci_dials s1 = set_nth x q (ci_dials s) -> einv d s1 (tr ++ [])).
  { intros x p q s1 E Hp Hq Hq' E1. apply (einv_keep d s); auto; unfold derr, fresh; rewrite E1;
    (destruct (Nat.eq_dec d x) as [->|Hne]; [|now rewrite sn_other]); erewrite sn_same by exact E.
    - rewrite E. destruct q; try congruence; destruct p; try congruence; reflexivity.
    - intros [Q|Q]; congruence. }
  assert (K0 : einv d s (tr ++ [])) by (apply K; auto).
  unfold cli_step. destruct (ci_crashed s); [exact K0|].
  destruct l as [|x ok|x|k|k| |g x|x].
  - apply (einv_keep d s); auto; unfold restart, derr, fresh; cbn.
    + destruct (Nat.lt_ge_cases d (length (ci_dials s))) as [Hl|Hl]; [now rewrite nth_error_app1|].
      rewrite nth_error_app2 by assumption. rewrite (proj2 (nth_error_None _ _) Hl). destruct (d - _) as [|[|?]]; reflexivity.
    + destruct (Nat.lt_ge_cases d (length (ci_dials s))) as [Hl|Hl]; [now rewrite nth_error_app1|]. intros _. left. now apply nth_error_None.
  - unfold dial_step. destruct (nth_error (ci_dials s) x) as [p|] eqn:E; [|exact K0]. destruct p; try exact K0. destruct ok.
    + eapply P; [exact E| | | |reflexivity]; discriminate.
    + destruct H as (H1 & H2 & H3). cbn [fst snd]. unfold einv. rewrite !occurs_app, !occurs_one. unfold derr, fresh. cbn [cw_dials ci_dials].
      destruct (cev_eq_dec (CeFailed x) (CeError d)) as [Q|_]; [discriminate|]. destruct (Nat.eq_dec d x) as [->|Hne].
      * erewrite sn_same by exact E. destruct (cev_eq_dec (CeFailed x) (CeFailed x)); [|congruence].
        rewrite (H3 (or_intror E)) in *. unfold derr in H1. rewrite E in H1. split; [lia|]. split; [lia|]. intros [Q|Q]; discriminate.
      * rewrite sn_other by assumption. destruct (cev_eq_dec (CeFailed x) (CeFailed d)) as [Q|_]; [congruence|].
        rewrite !Nat.add_0_r. split; [exact H1|]. split; [exact H2|exact H3].
  - unfold go_step. destruct (nth_error (ci_dials s) x) as [p|] eqn:E; [|exact K0]. destruct p; try exact K0.
    + destruct (ci_err_closed s); [|exact K0]. apply K; [reflexivity|cbn; intuition discriminate..].
    + eapply P; [exact E| | | |reflexivity]; discriminate.
    + eapply P; [exact E| | | |reflexivity]; discriminate.
    + destruct (ci_exit s); [|exact K0]. eapply P; [exact E| | | |reflexivity]; discriminate.
    + destruct (nth ch _ _); [|exact K0]. eapply P; [exact E| | | |reflexivity]; discriminate.
  - unfold conn_start. ccase; try exact K0; apply K; auto.
  - unfold conn_end. ccase; try exact K0; apply K; auto.
  - apply K; auto.
  - unfold cstop_step. destruct (nth_error (ci_stops s) g) as [p|]; [|exact K0]. destruct p as [|k| |[ch|]| | |]; try exact K0.
    + destruct (nth_error (ci_conns s) k) as [n|] eqn:E; [|exact K0]. destruct (cc_ctx n) eqn:Ec; [|apply K; cbn; auto; intuition discriminate].
      unfold conn_end. rewrite E, Ec. apply K; auto.
    + destruct (nth ch _ _); [apply K; cbn; auto; intuition discriminate|]. destruct (nth_error (ci_dials s) x) as [p|] eqn:E; [|exact K0].
      destruct p; try exact K0. destruct (_ =? _); [|exact K0]. eapply P; [exact E| | | |reflexivity]; discriminate.
    + destruct (ci_exit s); [destruct (nth _ _ _)|]; apply K; cbn; auto; intuition discriminate.
    + destruct (ci_err_closed s); apply K; cbn; auto; intuition discriminate.
  - unfold recv_step. destruct (ci_err_closed s); [apply K; cbn; auto; intuition discriminate|].
    destruct (nth_error (ci_dials s) x) as [p|] eqn:E; [|exact K0]. destruct p; try exact K0.
    destruct H as (H1 & H2 & H3). cbn [fst snd]. unfold einv. rewrite !occurs_app, !occurs_one. unfold derr, fresh in *. cbn [cw_dials ci_dials].
    destruct (cev_eq_dec (CeError x) (CeFailed d)) as [Q|_]; [discriminate|]. destruct (Nat.eq_dec d x) as [->|Hne].
    + erewrite sn_same by exact E. destruct (cev_eq_dec (CeError x) (CeError x)); [|congruence]. rewrite E in H1.
      split; [lia|]. split; [lia|]. intros [Q|Q]; discriminate.
    + rewrite sn_other by assumption. destruct (cev_eq_dec (CeError x) (CeError d)) as [Q|_]; [congruence|].
      rewrite !Nat.add_0_r. split; [exact H1|]. split; [exact H2|exact H3].
Qed.
Lemma einv_run d ls : einv d (after ls) (trace ls).
Proof.
  apply (cli_inv (einv d) (einv_step d) ls cli_new []). unfold einv, derr, fresh. cbn. destruct d; cbn; auto.
Qed.
Lemma errors_once ls d : occurs (CeError d) (trace ls) <= occurs (CeFailed d) (trace ls) <= 1.
Proof. destruct (einv_run d ls) as (H1 & H2 & _). lia. Qed.
Lemma errors_wait ls d : In (CeFailed d) (trace ls) -> ~ In (CeError d) (trace ls) -> ci_crashed (after ls) = false -> ci_err_closed (after ls) = false ->
  trace (ls ++ [CRecv d]) = trace ls ++ [CeError d].
Proof.
  intros F N Hc He. destruct (einv_run d ls) as (H1 & _ & _). unfold occurs in H1.
  rewrite (proj1 (count_occ_not_In _ _ _) N) in H1. apply (count_occ_In cev_eq_dec) in F. unfold derr in H1.
  destruct (nth_error (ci_dials (after ls)) d) as [[]|] eqn:E; try lia.
  rewrite trace_app. cbn. unfold cli_step, recv_step. now rewrite Hc, He, E.
Qed.

(* --- a client started once --- *)
Definition quiet (s : cli) (tr : list cev) : Prop :=
  ~ In TCloseExit (ci_stops s) /\ ~ In TCloseErr (ci_stops s) /\ (forall g, ~ In (CeReturned g) tr) /\ forall x, In x (ci_exits s) -> x = false.
Definition nofail (tr : list cev) : Prop := forall d, ~ In (CeFailed d) tr.
Definition ctx0 (s : cli) (b : bool) : Prop := exists n, ci_conns s = [n] /\ (b = false -> cc_go n = false) /\ (cc_ctx n = true -> cc_go n = true).
Definition shape (s : cli) (tr : list cev) : Prop :=
  match ci_dials s with
  | [] => ci_exits s = [] /\ ci_exit s = None /\ ci_conn s = None /\ ci_conns s = [] /\ quiet s tr /\ nofail tr
  | [D] => length (ci_exits s) = 1 /\ ci_exit s = Some 0 /\
    match D with
    | DDial => ci_conn s = None /\ ci_conns s = [] /\ quiet s tr /\ nofail tr
    | DErr => ci_conn s = None /\ ci_conns s = [] /\ quiet s tr
    | DSet k => k = 0 /\ ci_conn s = None /\ ctx0 s false /\ quiet s tr /\ nofail tr
    | DGo k => k = 0 /\ ci_conn s = Some 0 /\ ctx0 s false /\ quiet s tr /\ nofail tr
    | DSel => ci_conn s = Some 0 /\ ctx0 s true /\ quiet s tr /\ nofail tr
    | DWait ch => ch = 0 /\ ci_conn s = Some 0 /\ ctx0 s true /\ quiet s tr /\ nofail tr
    | DEnd => ci_conn s = None /\ ci_conns s = [] /\ quiet s tr \/ ci_conn s = Some 0 /\ ctx0 s true /\ nofail tr
    end
  | _ => False
  end.
Definition stops_ok (s : cli) : Prop := forall p, In p (ci_stops s) ->
  match p with TStop k => k = 0 /\ ci_conn s = Some 0 | TSending (Some ch) => ch = 0 | _ => True end.
Definition oinv (s : cli) (tr : list cev) : Prop := shape s tr /\ stops_ok s.
Definition plain (e : list cev) : Prop := (forall g, ~ In (CeReturned g) e) /\ (forall d, ~ In (CeFailed d) e).
Lemma plain_nil : plain [].
Proof. split; intros ? []. Qed.
Lemma plain_panic g : plain [CePanic g].
Proof. split; intros ? [H|[]]; discriminate. Qed.
Definition tame (p : tpc) : Prop := p <> TCloseExit /\ p <> TCloseErr.
Lemma quiet_frame s tr s1 e : quiet s tr -> ci_exits s1 = ci_exits s -> (forall p, In p (ci_stops s1) -> In p (ci_stops s) \/ tame p) ->
  (forall g, ~ In (CeReturned g) e) -> quiet s1 (tr ++ e).
Proof.
  intros (Q1 & Q2 & Q3 & Q4) E H N. split; [|split; [|split]].
  - intros Hi. destruct (H _ Hi) as [?|[T _]]; [auto|now apply T].
  - intros Hi. destruct (H _ Hi) as [?|[_ T]]; [auto|now apply T].
  - intros g Hi. apply in_app_iff in Hi as [Hi|Hi]; [now apply (Q3 g)|now apply (N g)].
  - now rewrite E.
Qed.
Lemma nofail_app tr e : nofail tr -> (forall d, ~ In (CeFailed d) e) -> nofail (tr ++ e).
Proof. intros H N d Hi. apply in_app_iff in Hi as [Hi|Hi]; [now apply (H d)|now apply (N d)]. Qed.
(* a step that leaves the dial goroutine, the channels and the connections alone *)
Lemma shape_frame s tr s1 e : shape s tr -> ci_dials s1 = ci_dials s -> ci_exits s1 = ci_exits s -> ci_exit s1 = ci_exit s ->
  ci_conn s1 = ci_conn s -> (forall b, ctx0 s b -> ctx0 s1 b) -> (ci_conns s = [] -> ci_conns s1 = []) ->
  (forall p, In p (ci_stops s1) -> In p (ci_stops s) \/ tame p) -> plain e -> shape s1 (tr ++ e).
Proof.
  intros H E1 E2 E3 E4 E5 E6 Hs [N1 N2]. unfold shape in *. rewrite E1, E2, E3, E4.
  assert (Q : quiet s tr -> quiet s1 (tr ++ e)) by (intros Q; eapply quiet_frame; eauto).
  assert (F : nofail tr -> nofail (tr ++ e)) by (intros F; now apply nofail_app).
  destruct (ci_dials s) as [|D [|]]; [intuition|destruct D; intuition|exact H].
Qed.
Lemma oinv_frame s tr s1 e : oinv s tr -> ci_dials s1 = ci_dials s -> ci_exits s1 = ci_exits s -> ci_exit s1 = ci_exit s ->
  ci_conn s1 = ci_conn s -> (forall b, ctx0 s b -> ctx0 s1 b) -> (ci_conns s = [] -> ci_conns s1 = []) -> ci_stops s1 = ci_stops s -> plain e -> oinv s1 (tr ++ e).
Proof.
  intros [H1 H2] E1 E2 E3 E4 E5 E6 E7 P. split.
  - eapply shape_frame; eauto. intros p. rewrite E7. auto.
  - unfold stops_ok. now rewrite E7, E4.
Qed.
Lemma stops_ok_put s s1 g p : stops_ok s -> ci_conn s1 = ci_conn s -> ci_stops s1 = set_nth g p (ci_stops s) ->
  match p with TStop k => k = 0 /\ ci_conn s = Some 0 | TSending (Some ch) => ch = 0 | _ => True end -> stops_ok s1.
Proof. intros H E1 E2 Hp q Hq. rewrite E2 in Hq. rewrite E1. apply sn_in in Hq as [->|Hq]; [exact Hp|]. now apply (H q). Qed.
Lemma conn_end_ctx0 s k b : ctx0 s b -> ctx0 (conn_end s k) b.
Proof.
  intros (n & E & H1 & H2). unfold conn_end. rewrite E. destruct k as [|[|?]]; [|exists n; auto..]. cbn.
  destruct (cc_ctx n) eqn:C; [|exists n; rewrite C; auto]. eexists. cbn. split; [reflexivity|]. cbn. auto.
Qed.
Lemma conn_end_frame s k : let s1 := conn_end s k in ci_dials s1 = ci_dials s /\ ci_exits s1 = ci_exits s /\ ci_exit s1 = ci_exit s /\
  ci_conn s1 = ci_conn s /\ ci_stops s1 = ci_stops s /\ ci_err_closed s1 = ci_err_closed s /\ ci_crashed s1 = ci_crashed s /\ length (ci_conns s1) = length (ci_conns s).
Proof. unfold conn_end. destruct (nth_error _ _) as [n|]; [destruct (cc_ctx n)|]; cbn; rewrite ?sn_len; auto 10. Qed.
Lemma conn_end_nil s k : ci_conns s = [] -> ci_conns (conn_end s k) = [].
Proof. unfold conn_end. intros E. rewrite E. destruct k; exact E. Qed.
Lemma oinv_dial s tr d ok : oinv s tr -> oinv (fst (dial_step s d ok)) (tr ++ snd (dial_step s d ok)).
Proof.
  intros H. assert (K : oinv s (tr ++ [])) by (now rewrite app_nil_r). destruct H as [H1 H2].
  unfold dial_step. destruct (nth_error (ci_dials s) d) as [p|] eqn:E; [|exact K]. destruct p; try exact K.
  unfold shape in H1. destruct (ci_dials s) as [|D [|]] eqn:Ed; [destruct d; discriminate| |contradiction].
  destruct d as [|d]; [|destruct d; discriminate]. cbn in E. injection E as ->. destruct H1 as (L & X & C & N & Q & F). destruct ok; (split; [|exact H2]).
  - unfold shape. cbn. rewrite ?app_nil_r, ?Ed, ?N. cbn. split; [exact L|]. split; [exact X|]. split; [reflexivity|]. split; [exact C|].
    split; [|auto]. exists (Ccn false false false). cbn. auto.
  - unfold shape. cbn. rewrite ?Ed. cbn. split; [exact L|]. split; [exact X|]. split; [exact C|]. split; [exact N|].
    apply (quiet_frame s); auto. intros ? [?|[]]; discriminate.
Qed.
Lemma oinv_go s tr d : oinv s tr -> oinv (fst (go_step s d)) (tr ++ snd (go_step s d)).
Proof.
  intros H. assert (K : oinv s (tr ++ [])) by (now rewrite app_nil_r). pose proof H as [H1 H2].
  unfold go_step. destruct (nth_error (ci_dials s) d) as [p|] eqn:E; [|exact K].
  unfold shape in H1. destruct (ci_dials s) as [|D [|]] eqn:Ed; [destruct d; discriminate| |contradiction].
  destruct d as [|d]; [|destruct d; discriminate]. cbn in E. injection E as ->. destruct H1 as (L & X & H1).
  destruct p; try exact K.
  - destruct (ci_err_closed s); [|exact K]. eapply oinv_frame; eauto. split; intros ? [?|[]]; discriminate.
  - destruct H1 as (-> & C & N & Q & F). split.
    + unfold shape. cbn. rewrite app_nil_r. auto 10.
    + intros q Hq. specialize (H2 q Hq). destruct q as [|k| |[ch|]| | |]; auto. cbn. destruct H2. auto.
  - destruct H1 as (-> & C & (n & N1 & N2 & N3) & Q & F). rewrite N1. cbn. split; [|exact H2].
    unfold shape. cbn. rewrite app_nil_r. split; [exact L|]. split; [exact X|]. split; [exact C|]. split; [|auto].
    eexists. cbn. split; [reflexivity|]. cbn. split; [discriminate|auto].
  - rewrite X. destruct H1 as (C & N & Q & F). split; [|exact H2]. unfold shape. cbn. rewrite app_nil_r. auto 10.
  - destruct H1 as (-> & C & N & Q & F). destruct (nth 0 _ _); [|exact K]. split; [|exact H2]. unfold shape. cbn. rewrite app_nil_r. auto 10.
Qed.
Lemma oinv_stop s tr g d : oinv s tr -> oinv (fst (cstop_step s g d)) (tr ++ snd (cstop_step s g d)).
Proof.
  intros H. assert (K : oinv s (tr ++ [])) by (now rewrite app_nil_r). pose proof H as [H1 H2]. unfold cstop_step.
  destruct (nth_error (ci_stops s) g) as [p|] eqn:E; [|exact K]. pose proof (H2 p (nth_error_In _ _ E)) as Hp.
  (* replacing the state of goroutine g only *)
  assert (P : forall q s1 e, ci_dials s1 = ci_dials s -> ci_exits s1 = ci_exits s -> ci_exit s1 = ci_exit s -> ci_conn s1 = ci_conn s ->
     (forall b, ctx0 s b -> ctx0 s1 b) -> (ci_conns s = [] -> ci_conns s1 = []) -> ci_stops s1 = set_nth g q (ci_stops s) -> tame q -> plain e ->
     match q with TStop k => k = 0 /\ ci_conn s = Some 0 | TSending (Some ch) => ch = 0 | _ => True end -> oinv s1 (tr ++ e)).
  { intros q s1 e E1 E2 E3 E4 E5 E6 E7 T Pl Hq. split.
    - eapply shape_frame; eauto. intros r Hr. rewrite E7 in Hr. apply sn_in in Hr as [->|Hr]; auto.
    - eapply stops_ok_put; eauto. }
  assert (T0 : forall k, tame (TStop k)) by (split; discriminate). assert (T1 : tame TSend) by (split; discriminate).
  assert (T2 : tame TDone) by (split; discriminate). assert (T3 : forall c, tame (TSending c)) by (split; discriminate).
  assert (X0 : forall k, ci_conn s = Some k -> k = 0).
  { intros k Q. unfold shape in H1. destruct (ci_dials s) as [|D [|]]; [intuition congruence| |contradiction]. destruct D; intuition congruence. }
  assert (X1 : forall ch, ci_exit s = Some ch -> ch = 0 /\ exists D x, ci_dials s = [D] /\ ci_exits s = [x]).
  { intros ch Q. unfold shape in H1. destruct (ci_dials s) as [|D [|]]; [intuition congruence| |contradiction]. destruct H1 as (L & X & _). split; [congruence|].
    destruct (ci_exits s) as [|x [|]]; try discriminate. eauto. }
  destruct p as [|k| |[ch|]| | |]; try exact K.
  - destruct (ci_conn s) as [k|] eqn:C.
    + specialize (X0 k eq_refl). subst k. eapply (P (TStop 0)); eauto using plain_nil.
    + eapply (P TSend); eauto using plain_nil.
  - destruct Hp as [-> Hc]. destruct (nth_error (ci_conns s) 0) as [n|] eqn:En; [|exact K]. destruct (cc_ctx n) eqn:Ec.
    + destruct (conn_end_frame s 0) as (F1 & F2 & F3 & F4 & F5 & _). eapply (P TSend); eauto using plain_nil; cbn; auto.
      * intros b Hb. now apply conn_end_ctx0.
      * intros Q. now apply conn_end_nil.
      * now rewrite F5.
    + eapply (P TDone); eauto using plain_panic.
  - eapply (P (TSending (ci_exit s))); eauto using plain_nil. destruct (ci_exit s) as [ch|] eqn:Q; [|exact I]. now destruct (X1 ch eq_refl).
  - subst ch. destruct (nth 0 (ci_exits s) false); [eapply (P TDone); eauto using plain_panic|].
    destruct (nth_error (ci_dials s) d) as [q|] eqn:Eq; [|exact K]. destruct q; try exact K. destruct (Nat.eqb_spec ch 0) as [->|]; [|exact K].
    unfold shape in H1. destruct (ci_dials s) as [|D [|]] eqn:Ed; [destruct d; discriminate| |contradiction].
    destruct d as [|d]; [|destruct d; discriminate]. cbn in Eq. injection Eq as ->. destruct H1 as (L & X & _ & C & N & Q & F). split.
    + unfold shape. cbn. rewrite app_nil_r. auto 10.
    + apply (stops_ok_put s _ g TCloseExit); auto.
  - destruct (ci_exit s) as [ch|] eqn:Q; [|eapply (P TDone); eauto using plain_panic]. destruct (X1 ch eq_refl) as (-> & D & x & ED & EX). rewrite EX in *. cbn.
    destruct x; [eapply (P TDone); eauto using plain_panic|]. unfold shape in H1. rewrite ED in H1. destruct H1 as (L & X & H1).
    assert (D = DEnd /\ ci_conn s = Some 0 /\ ctx0 s true /\ nofail tr) as (-> & C & N & F).
    { assert (NQ : ~ quiet s tr) by (intros (Q1 & _); apply Q1; eapply nth_error_In, E). destruct D; tauto. }
    split; [|apply (stops_ok_put s _ g TCloseErr); auto]. unfold shape. cbn. rewrite ED, app_nil_r. auto 10.
  - unfold shape in H1. destruct (ci_dials s) as [|D [|]] eqn:ED; [|destruct H1 as (L & X & H1)|contradiction].
    + destruct H1 as (_ & _ & _ & _ & (_ & Q & _) & _). destruct Q. eapply nth_error_In, E.
    + assert (D = DEnd /\ ci_conn s = Some 0 /\ ctx0 s true /\ nofail tr) as (-> & C & N & F).
      { assert (NQ : ~ quiet s tr) by (intros (_ & Q1 & _); apply Q1; eapply nth_error_In, E). destruct D; tauto. }
      destruct (ci_err_closed s).
      * eapply (P TDone); eauto using plain_panic.
      * split; [|apply (stops_ok_put s _ g TDone); auto]. unfold shape. cbn. rewrite ED. split; [exact L|]. split; [exact X|]. right. split; [exact C|]. split; [exact N|].
        apply nofail_app; [exact F|]. intros ? [?|[]]; discriminate.
Qed.
Lemma oinv_step s tr l : (l = CRestart -> ci_dials s = []) -> oinv s tr -> oinv (fst (cli_step s l)) (tr ++ snd (cli_step s l)).
Proof.
  intros Hr H. assert (K : oinv s (tr ++ [])) by (now rewrite app_nil_r). pose proof H as [H1 H2].
  unfold cli_step. destruct (ci_crashed s); [exact K|]. destruct l as [|d ok|d|k|k| |g d|d].
  - specialize (Hr eq_refl). unfold shape in H1. rewrite Hr in H1. destruct H1 as (X1 & X2 & C & N & Q & F). split; [|exact H2].
    unfold shape. cbn. rewrite Hr, X1, app_nil_r. cbn. do 4 (split; [auto|]). split; [|exact F].
    destruct Q as (Q1 & Q2 & Q3 & _). split; [exact Q1|]. split; [exact Q2|]. split; [exact Q3|]. intros x. cbn. rewrite X1. cbn. intuition.
  - now apply oinv_dial.
  - now apply oinv_go.
  - unfold conn_start. destruct (nth_error (ci_conns s) k) as [n|] eqn:E; [|exact K]. destruct (cc_go n) eqn:G; [|exact K].
    eapply oinv_frame; eauto using plain_nil; cbn.
    + intros b (m & Em & M1 & M2). rewrite Em in *. destruct k as [|[|?]]; try discriminate. cbn in E. injection E as ->.
      eexists. cbn. rewrite ?Em. cbn. split; [reflexivity|]. cbn. split; [|auto]. intros Hb. specialize (M1 Hb). congruence.
    + intros Q. rewrite Q in E. destruct k; discriminate.
  - destruct (conn_end_frame s k) as (F1 & F2 & F3 & F4 & F5 & _). eapply oinv_frame; eauto using plain_nil, conn_end_ctx0, conn_end_nil.
  - split.
    + eapply shape_frame; eauto using plain_nil. cbn. intros p Hp. apply in_app_iff in Hp as [Hp|[<-|[]]]; [auto|right; split; discriminate].
    + intros p Hp. cbn in Hp. apply in_app_iff in Hp as [Hp|[<-|[]]]; [now apply (H2 p)|exact I].
  - now apply oinv_stop.
  - unfold recv_step. destruct (ci_err_closed s); [eapply oinv_frame; eauto; split; intros ? [?|[]]; discriminate|].
    destruct (nth_error (ci_dials s) d) as [p|] eqn:E; [|exact K]. destruct p; try exact K.
    unfold shape in H1. destruct (ci_dials s) as [|D [|]] eqn:Ed; [destruct d; discriminate| |contradiction].
    destruct d as [|d]; [|destruct d; discriminate]. cbn in E. injection E as ->. destruct H1 as (L & X & C & N & Q). split; [|exact H2].
    unfold shape. cbn. rewrite ?Ed. cbn. split; [exact L|]. split; [exact X|]. left. split; [exact C|]. split; [exact N|].
    apply (quiet_frame s); auto. intros ? [?|[]]; discriminate.
Qed.
Lemma dials_step s l : length (ci_dials (fst (cli_step s l))) = length (ci_dials s) \/ l = CRestart /\ length (ci_dials (fst (cli_step s l))) = S (length (ci_dials s)).
Proof.
  unfold cli_step. destruct (ci_crashed s); [now left|]. destruct l as [|d ok|d|k|k| |g d|d].
  - right. cbn. rewrite app_length. cbn. split; [reflexivity|lia].
  - left. unfold dial_step. ccase; cbn; now rewrite ?sn_len.
  - left. unfold go_step. ccase; cbn; now rewrite ?sn_len.
  - left. unfold conn_start. ccase; cbn; now rewrite ?sn_len.
  - left. destruct (conn_end_frame s k) as (F & _). cbn [fst]. now rewrite F.
  - now left.
  - left. unfold cstop_step. destruct (nth_error (ci_stops s) g) as [p|]; [|reflexivity]. destruct p as [|k| |[ch|]| | |]; try reflexivity.
    + destruct (conn_end_frame s k) as (F & _). ccase; cbn; now rewrite ?F.
    + ccase; cbn; now rewrite ?sn_len.
    + ccase; cbn; now rewrite ?sn_len.
    + ccase; cbn; now rewrite ?sn_len.
  - left. unfold recv_step. ccase; cbn; now rewrite ?sn_len.
Qed.
Lemma oinv_run ls : forall s tr, length (ci_dials s) + starts ls <= 1 -> oinv s tr -> oinv (fst (cli_run s ls)) (tr ++ snd (cli_run s ls)).
Proof.
  induction ls as [|l ls IH]; intros s tr Hs H; cbn [cli_run]; [now rewrite app_nil_r|].
  assert (Hr : l = CRestart -> ci_dials s = []). { intros ->. unfold starts in Hs. cbn in Hs. destruct (ci_dials s); [reflexivity|]. cbn in Hs. lia. }
  pose proof (oinv_step s tr l Hr H) as H1. pose proof (dials_step s l) as D. destruct (cli_step s l) as [s1 e]. cbn [fst snd] in *.
  assert (Hs1 : length (ci_dials s1) + starts ls <= 1).
  { unfold starts in *. cbn in Hs. destruct D as [D|[-> D]]; [destruct (is_restart l); cbn in Hs; lia|cbn in Hs; lia]. }
  specialize (IH s1 _ Hs1 H1). destruct (cli_run s1 ls) as [s2 es]. cbn [fst snd] in *. now rewrite app_assoc.
Qed.
Lemma oinv_new : oinv cli_new [].
Proof. split; [|intros p []]. unfold shape, quiet, nofail. cbn. intuition. Qed.
Lemma oinv_start ls : starts ls <= 1 -> oinv (after ls) (trace ls).
Proof. intros H. exact (oinv_run ls cli_new [] H oinv_new). Qed.

(* --- Stop stops the connection it finds --- *)
Lemma cstopped_set s s1 k n m x : nth_error (ci_conns s) k = Some n -> ci_conns s1 = set_nth k m (ci_conns s) -> (cc_stopped n = true -> cc_stopped m = true) ->
  cstopped s x -> cstopped s1 x.
Proof.
  intros E E1 H (q & Eq & Hq). unfold cstopped. rewrite E1. destruct (Nat.eq_dec x k) as [->|Hne].
  - erewrite sn_same by exact E. exists m. split; [reflexivity|]. apply H. congruence.
  - rewrite sn_other by assumption. eauto.
Qed.
Lemma conn_end_mono s k x : cstopped s x -> cstopped (conn_end s k) x.
Proof.
  unfold conn_end. destruct (nth_error (ci_conns s) k) as [n|] eqn:E; [|auto]. destruct (cc_ctx n); [|auto].
  eapply cstopped_set; [exact E|reflexivity|]. reflexivity.
Qed.
Lemma cstopped_mono s l x : cstopped s x -> cstopped (fst (cli_step s l)) x.
Proof.
  intros H. unfold cli_step. destruct (ci_crashed s); [exact H|]. destruct l as [|d ok|d|k|k| |g d|d]; try exact H.
  - unfold dial_step. ccase; try exact H. destruct H as (n & E & Hn). exists n. split; [|exact Hn]. cbn. rewrite nth_error_app1; [exact E|]. apply nth_error_Some. congruence.
  - unfold go_step. destruct (nth_error (ci_dials s) d) as [p|]; [|exact H]. destruct p; try exact H.
    + destruct (ci_err_closed s); exact H.
    + destruct (nth_error (ci_conns s) k) as [n|] eqn:E; [|exact H]. eapply cstopped_set; [exact E|reflexivity| |exact H]. auto.
    + destruct (ci_exit s); exact H.
    + destruct (nth _ _ _); exact H.
  - unfold conn_start. destruct (nth_error (ci_conns s) k) as [n|] eqn:E; [|exact H]. destruct (cc_go n); [|exact H].
    eapply cstopped_set; [exact E|reflexivity| |exact H]. auto.
  - now apply conn_end_mono.
  - unfold cstop_step. destruct (nth_error (ci_stops s) g) as [p|]; [|exact H]. destruct p as [|k| |[ch|]| | |]; try exact H.
    + pose proof (conn_end_mono s k x H). ccase; try exact H; assumption.
    + ccase; exact H.
    + ccase; exact H.
    + ccase; exact H.
  - unfold recv_step. ccase; exact H.
Qed.
Lemma conn_kept s tr l : oinv s tr -> l <> CRestart -> ci_conn s = Some 0 -> ci_conn (fst (cli_step s l)) = Some 0.
Proof.
  intros [H1 _] Hl H. unfold cli_step. destruct (ci_crashed s); [exact H|]. destruct l as [|d ok|d|k|k| |g d|d]; try exact H.
  - unfold dial_step. ccase; exact H.
  - unfold go_step. destruct (nth_error (ci_dials s) d) as [p|] eqn:E; [|exact H]. destruct p; try exact H.
    + destruct (ci_err_closed s); exact H.
    + exfalso. unfold shape in H1. destruct (ci_dials s) as [|D [|]]; [destruct d; discriminate| |contradiction].
      destruct d as [|d]; [|destruct d; discriminate]. cbn in E. injection E as ->. destruct H1 as (_ & _ & _ & C & _). congruence.
    + destruct (ci_exit s); exact H.
    + destruct (nth _ _ _); exact H.
  - unfold conn_start. ccase; exact H.
  - cbn [fst]. now destruct (conn_end_frame s k) as (_ & _ & _ & -> & _).
  - unfold cstop_step. destruct (nth_error (ci_stops s) g) as [p|]; [|exact H]. destruct p as [|k| |[ch|]| | |]; try exact H.
    + destruct (conn_end_frame s k) as (_ & _ & _ & F & _). ccase; cbn; congruence.
    + ccase; exact H.
    + ccase; cbn; try exact H.
    + ccase; exact H.
  - unfold recv_step. ccase; exact H.
Qed.
Definition saw (s : cli) (g : nat) : Prop :=
  match nth_error (ci_stops s) g with
  | Some TSend | Some (TSending _) | Some TCloseExit | Some TCloseErr => cstopped s 0
  | _ => True
  end.
Lemma saw_same s s1 g : nth_error (ci_stops s1) g = nth_error (ci_stops s) g -> (forall x, cstopped s x -> cstopped s1 x) -> saw s g -> saw s1 g.
Proof. unfold saw. intros -> H. destruct (nth_error (ci_stops s) g) as [[]|]; auto. Qed.
Lemma saw_step s tr l g : oinv s tr -> ci_conn s = Some 0 -> g < length (ci_stops s) -> saw s g ->
  saw (fst (cli_step s l)) g /\ (In (CeReturned g) (snd (cli_step s l)) -> cstopped (fst (cli_step s l)) 0).
Proof.
  intros [H1 H2] Hc Hg H. pose proof (cstopped_mono s l) as M.
  assert (K : saw s g /\ (In (CeReturned g) [] -> cstopped s 0)) by (split; [exact H|intros []]).
  unfold cli_step in *. destruct (ci_crashed s); [exact K|].
  assert (S1 : forall s1 e, (forall x, cstopped s x -> cstopped s1 x) -> ci_stops s1 = ci_stops s -> (forall g, ~ In (CeReturned g) e) ->
     saw s1 g /\ (In (CeReturned g) e -> cstopped s1 0)).
  { intros s1 e Ms E N. split; [|intros Q; destruct (N g Q)]. eapply saw_same; [|exact Ms|exact H]. now rewrite E. }
  destruct l as [|d ok|d|k|k| |h d|d].
  - apply S1; auto.
  - apply S1; [exact M|unfold dial_step; ccase; reflexivity|unfold dial_step; ccase; cbn; intuition discriminate].
  - apply S1; [exact M|unfold go_step; ccase; reflexivity|unfold go_step; ccase; cbn; intuition discriminate].
  - apply S1; [exact M|unfold conn_start; ccase; reflexivity|auto].
  - apply S1; [exact M|now destruct (conn_end_frame s k) as (_ & _ & _ & _ & F & _)|auto].
  - split; [|intros []]. apply (saw_same s); auto. cbn. now rewrite nth_error_app1.
  - unfold cstop_step in *. destruct (nth_error (ci_stops s) h) as [p|] eqn:E; [|exact K].
    (* replacing position h *)
    assert (R : forall q s1, ci_stops s1 = set_nth h q (ci_stops s) -> (forall x, cstopped s x -> cstopped s1 x) ->
       (h = g -> match q with TSend | TSending _ | TCloseExit | TCloseErr => cstopped s1 0 | _ => True end) -> saw s1 g).
    { intros q s1 E1 Ms Hq. destruct (Nat.eq_dec h g) as [->|Hne].
      - unfold saw. rewrite E1. erewrite sn_same by exact E. specialize (Hq eq_refl). destruct q; exact Hq.
      - apply (saw_same s); auto. rewrite E1. apply sn_other. congruence. }
    assert (Sg : h = g -> match p with TSend | TSending _ | TCloseExit | TCloseErr => cstopped s 0 | _ => True end).
    { intros ->. unfold saw in H. rewrite E in H. destruct p; exact H. }
    assert (N : forall x, In (CeReturned g) [CePanic x] -> cstopped s 0) by (intros x [Q|[]]; discriminate).
    destruct p as [|k| |[ch|]| | |]; try exact K.
    + rewrite Hc. split; [|intros []]. eapply (R (TStop 0)); auto.
    + pose proof (H2 _ (nth_error_In _ _ E)) as [-> _]. destruct (nth_error (ci_conns s) 0) as [n|] eqn:En; [|exact K]. destruct (cc_ctx n) eqn:Ec.
      * split; [|intros []]. destruct (conn_end_frame s 0) as (_ & _ & _ & _ & F & _). eapply (R TSend); [cbn; now rewrite F|exact M|]. intros _.
        unfold conn_end. rewrite En, Ec. eexists. split; [eapply sn_same, En|reflexivity].
      * split; [|apply N]. eapply (R TDone); auto.
    + split; [|intros []]. eapply (R (TSending (ci_exit s))); auto.
    + destruct (nth ch _ _); [split; [eapply (R TDone); auto|apply N]|]. destruct (nth_error (ci_dials s) d) as [q|]; [|exact K]. destruct q; try exact K.
      destruct (_ =? _); [|exact K]. split; [|intros []]. eapply (R TCloseExit); auto.
    + destruct (ci_exit s) as [ch|]; [|split; [eapply (R TDone); auto|apply N]]. destruct (nth ch _ _); [split; [eapply (R TDone); auto|apply N]|].
      split; [|intros []]. eapply (R TCloseErr); auto.
    + destruct (ci_err_closed s); [split; [eapply (R TDone); auto|apply N]|]. split; [eapply (R TDone); auto|].
      intros [Q|[]]. injection Q as ->. apply Sg. reflexivity.
  - apply S1; [exact M|unfold recv_step; ccase; reflexivity|unfold recv_step; ccase; cbn; intuition discriminate].
Qed.
Lemma stops_len s l : length (ci_stops s) <= length (ci_stops (fst (cli_step s l))) /\
  (ci_crashed (fst (cli_step s l)) = false -> length (ci_stops (fst (cli_step s l))) = length (ci_stops s) + cstops [l]).
Proof.
  unfold cli_step. destruct (ci_crashed s) eqn:Ec; [cbn [fst]; rewrite Ec; split; [lia|discriminate]|]. unfold cstops.
  destruct l as [|d ok|d|k|k| |g d|d]; cbn [filter is_cstop length].
  - cbn. lia.
  - unfold dial_step. ccase; cbn; lia.
  - unfold go_step. ccase; cbn; lia.
  - unfold conn_start. ccase; cbn; lia.
  - cbn [fst]. destruct (conn_end_frame s k) as (_ & _ & _ & _ & -> & _). lia.
  - cbn. rewrite app_length. cbn. lia.
  - unfold cstop_step. destruct (nth_error (ci_stops s) g) as [p|]; [|cbn; lia].
    destruct p as [|k| |[ch|]| | |]; try (ccase; cbn; rewrite ?sn_len; lia).
    destruct (conn_end_frame s k) as (_ & _ & _ & _ & F & _). ccase; cbn; rewrite ?F, ?sn_len; lia.
  - unfold recv_step. ccase; cbn; lia.
Qed.
Lemma crashed_run s : ci_crashed s = true -> forall ls, cli_run s ls = (s, []).
Proof. intros H. induction ls as [|l ls IH]; cbn; [reflexivity|]. unfold cli_step. now rewrite H, IH. Qed.
Lemma crash_back s l : ci_crashed (fst (cli_step s l)) = false -> ci_crashed s = false.
Proof. unfold cli_step. destruct (ci_crashed s) eqn:E; [cbn; congruence|auto]. Qed.
Lemma stops_run ls : forall s, ci_crashed (fst (cli_run s ls)) = false -> length (ci_stops (fst (cli_run s ls))) = length (ci_stops s) + cstops ls.
Proof.
  induction ls as [|l ls IH]; intros s; cbn [cli_run]; [cbn; unfold cstops; cbn; lia|]. pose proof (stops_len s l) as [_ L].
  destruct (cli_step s l) as [s1 e]. cbn [fst] in L. specialize (IH s1). destruct (ci_crashed s1) eqn:E.
  - rewrite (crashed_run s1 E) in *. cbn. congruence.
  - destruct (cli_run s1 ls) as [s2 es]. cbn [fst] in *. intros Hc. rewrite (IH Hc), (L eq_refl). unfold cstops. cbn. destruct (is_cstop l); cbn; lia.
Qed.
Lemma conn_zero s tr k : oinv s tr -> ci_conn s = Some k -> k = 0 /\ length (ci_dials s) = 1.
Proof. intros [H _] E. unfold shape in H. destruct (ci_dials s) as [|D [|]]; [intuition congruence| |contradiction]. split; [|reflexivity]. destruct D; intuition congruence. Qed.
Lemma saw_run g : forall ls s tr, starts ls = 0 -> oinv s tr -> ci_conn s = Some 0 -> g < length (ci_stops s) -> saw s g ->
  In (CeReturned g) (snd (cli_run s ls)) -> cstopped (fst (cli_run s ls)) 0.
Proof.
  assert (M : forall ls s, cstopped s 0 -> cstopped (fst (cli_run s ls)) 0).
  { induction ls as [|l ls IH]; intros s H; cbn [cli_run]; [exact H|]. pose proof (cstopped_mono s l 0 H) as H1. destruct (cli_step s l) as [s1 e]. specialize (IH s1 H1). now destruct (cli_run s1 ls). }
  induction ls as [|l ls IH]; intros s tr Hs O C Hg H; cbn [cli_run]; [intros []|].
  assert (Hl : l <> CRestart /\ starts ls = 0). { unfold starts in *. cbn in Hs. destruct l; cbn in Hs; try lia; (split; [discriminate|exact Hs]). } destruct Hl as [Hl Hs'].
  destruct (saw_step s tr l g O C Hg H) as [S1 S2]. pose proof (conn_kept s tr l O Hl C) as C1. pose proof (oinv_step s tr l ltac:(congruence) O) as O1.
  pose proof (stops_len s l) as [L _]. specialize (M ls (fst (cli_step s l))). destruct (cli_step s l) as [s1 e]. cbn [fst snd] in *.
  specialize (IH s1 _ Hs' O1 C1 ltac:(lia) S1). destruct (cli_run s1 ls) as [s2 es]. cbn [fst snd] in *. intros Hi. apply in_app_iff in Hi as [Hi|Hi]; auto.
Qed.
Lemma starts_app a b : starts (a ++ b) = starts a + starts b.
Proof. unfold starts. now rewrite filter_app, app_length. Qed.
Lemma cstops_app a b : cstops (a ++ b) = cstops a + cstops b.
Proof. unfold cstops. now rewrite filter_app, app_length. Qed.
Lemma dials_run ls : forall s, length (ci_dials (fst (cli_run s ls))) <= length (ci_dials s) + starts ls.
Proof.
  induction ls as [|l ls IH]; intros s; cbn [cli_run]; [cbn; lia|]. pose proof (dials_step s l) as D. destruct (cli_step s l) as [s1 e]. cbn [fst] in *. specialize (IH s1).
  destruct (cli_run s1 ls) as [s2 es]. cbn [fst] in *. unfold starts in *. cbn. destruct D as [D|[-> D]]; [destruct (is_restart l); cbn; lia|cbn; lia].
Qed.
Lemma started_conn a b k : starts (a ++ b) <= 1 -> ci_conn (after a) = Some k -> starts b = 0 /\ k = 0 /\ oinv (after a) (trace a).
Proof.
  rewrite starts_app. intros Hs Hc. assert (O : oinv (after a) (trace a)) by (apply oinv_start; lia).
  destruct (conn_zero _ _ _ O Hc) as [-> L]. pose proof (dials_run a cli_new) as D. fold (after a) in D. cbn in D. split; [lia|auto].
Qed.
Lemma stop_stops a b k : starts (a ++ b) <= 1 -> ci_conn (after a) = Some k -> In (CeReturned (cstops a)) (snd (cli_run (after a) (CStopCall :: b))) ->
  cstopped (after (a ++ CStopCall :: b)) k.
Proof.
  intros Hs Hc. destruct (started_conn a b k Hs Hc) as (Hb & -> & O). rewrite after_app. cbn [cli_run]. destruct (ci_crashed (after a)) eqn:Ec.
  - assert (E : cli_step (after a) CStopCall = (after a, [])) by (unfold cli_step; now rewrite Ec). rewrite E, (crashed_run _ Ec). intros [].
  - pose proof (stops_run a cli_new Ec) as L. fold (after a) in L. cbn [ci_stops cli_new length] in L.
    assert (E : cli_step (after a) CStopCall = (cw_stops (after a) (ci_stops (after a) ++ [TConn]), [])) by (unfold cli_step; now rewrite Ec). rewrite E.
    pose proof (oinv_step (after a) (trace a) CStopCall ltac:(discriminate) O) as O1. rewrite E in O1. cbn [fst snd] in O1.
    intros H. pose proof (saw_run (cstops a) b (cw_stops (after a) (ci_stops (after a) ++ [TConn])) _ Hb O1 Hc) as R.
    destruct (cli_run (cw_stops (after a) (ci_stops (after a) ++ [TConn])) b) as [s2 es]. cbn [fst snd app] in *. apply R; auto.
    + cbn. rewrite app_length. cbn. lia.
    + unfold saw. cbn. rewrite nth_error_app2 by lia. replace (cstops a - _) with 0 by lia. exact I.
Qed.

(* --- and afterwards the client makes no connection any more --- *)
Lemma returned_end s tr g : oinv s tr -> In (CeReturned g) tr -> ci_dials s = [DEnd].
Proof.
  intros [H _] R. assert (NQ : ~ quiet s tr) by (intros (_ & _ & Q & _); destruct (Q g R)). unfold shape in H.
  destruct (ci_dials s) as [|D [|]]; [tauto| |contradiction]. destruct D; tauto.
Qed.
Lemma conns_step s l : l <> CRestart -> ci_dials s = [DEnd] -> ci_dials (fst (cli_step s l)) = [DEnd] /\ length (ci_conns (fst (cli_step s l))) = length (ci_conns s) /\
  forall d, ~ In (CeError d) (snd (cli_step s l)).
Proof.
  intros Hl E. assert (K : ci_dials s = [DEnd] /\ length (ci_conns s) = length (ci_conns s) /\ forall d, ~ In (CeError d) []) by auto.
  assert (N : forall d p, nth_error (ci_dials s) d = Some p -> p = DEnd).
  { intros d p H. rewrite E in H. destruct d as [|[|?]]; cbn in H; congruence. }
  unfold cli_step. destruct (ci_crashed s); [exact K|]. destruct l as [|d ok|d|k|k| |g d|d]; [congruence|..].
  - unfold dial_step. destruct (nth_error (ci_dials s) d) as [p|] eqn:Ed; [|exact K]. rewrite (N _ _ Ed). exact K.
  - unfold go_step. destruct (nth_error (ci_dials s) d) as [p|] eqn:Ed; [|exact K]. rewrite (N _ _ Ed). exact K.
  - unfold conn_start. ccase; try exact K. cbn. rewrite sn_len. auto.
  - cbn [fst snd]. destruct (conn_end_frame s k) as (-> & _ & _ & _ & _ & _ & _ & ->). auto.
  - auto.
  - unfold cstop_step. destruct (nth_error (ci_stops s) g) as [p|]; [|exact K]. destruct p as [|k| |[ch|]| | |]; try exact K.
    + destruct (conn_end_frame s k) as (F1 & _ & _ & _ & _ & _ & _ & F2). ccase; cbn; rewrite ?F1, ?F2; intuition discriminate.
    + destruct (nth ch _ _); [cbn; intuition discriminate|]. destruct (nth_error (ci_dials s) d) as [p|] eqn:Ed; [|exact K]. rewrite (N _ _ Ed). exact K.
    + ccase; cbn; intuition discriminate.
    + ccase; cbn; intuition discriminate.
  - unfold recv_step. destruct (ci_err_closed s); [cbn; intuition discriminate|]. destruct (nth_error (ci_dials s) d) as [p|] eqn:Ed; [|exact K]. rewrite (N _ _ Ed). exact K.
Qed.
Lemma conns_run ls : forall s, starts ls = 0 -> ci_dials s = [DEnd] -> length (ci_conns (fst (cli_run s ls))) = length (ci_conns s) /\ forall d, ~ In (CeError d) (snd (cli_run s ls)).
Proof.
  induction ls as [|l ls IH]; intros s Hs E; cbn [cli_run]; [cbn; auto|].
  assert (Hl : l <> CRestart /\ starts ls = 0). { unfold starts in *. cbn in Hs. destruct l; cbn in Hs; try lia; (split; [discriminate|exact Hs]). } destruct Hl as [Hl Hs'].
  destruct (conns_step s l Hl E) as (E1 & L & N). destruct (cli_step s l) as [s1 e]. cbn [fst snd] in *. specialize (IH s1 Hs' E1).
  destruct (cli_run s1 ls) as [s2 es]. cbn [fst snd] in *. destruct IH as [I1 I2]. split; [congruence|]. intros d Hi. apply in_app_iff in Hi as [Hi|Hi]; [now apply (N d)|now apply (I2 d)].
Qed.
Lemma stop_ends a b g : starts (a ++ b) <= 1 -> In (CeReturned g) (trace a) ->
  length (ci_conns (after (a ++ b))) = length (ci_conns (after a)) /\ forall d, ~ In (CeError d) (snd (cli_run (after a) b)).
Proof.
  rewrite starts_app. intros Hs R. assert (O : oinv (after a) (trace a)) by (apply oinv_start; lia). pose proof (returned_end _ _ g O R) as E.
  pose proof (dials_run a cli_new) as D. fold (after a) in D. cbn in D. rewrite E in D. cbn in D. rewrite after_app. apply conns_run; [lia|exact E].
Qed.
(* --- no Stop returns without a connection --- *)
Lemma stop_hangs ls d g : starts ls <= 1 -> In (CeFailed d) (trace ls) -> ~ In (CeReturned g) (trace ls).
Proof.
  intros Hs F R. destruct (oinv_start ls Hs) as [H _]. assert (NQ : ~ quiet (after ls) (trace ls)) by (intros (_ & _ & Q & _); destruct (Q g R)).
  assert (NF : ~ nofail (trace ls)) by (intros Q; destruct (Q d F)). unfold shape in H.
  destruct (ci_dials (after ls)) as [|D [|]]; [tauto| |contradiction]. destruct D; tauto.
Qed.
Lemma stop_unstarted ls g : starts ls = 0 -> ~ In (CeReturned g) (trace ls).
Proof.
  intros Hs R. assert (O : oinv (after ls) (trace ls)) by (apply oinv_start; lia). pose proof (returned_end _ _ g O R) as E.
  pose proof (dials_run ls cli_new) as D. fold (after ls) in D. rewrite E in D. cbn in D. lia.
Qed.

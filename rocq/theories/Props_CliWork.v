(* C109: messages and connections of clients. *)
From Coq Require Import List Bool Arith Lia Permutation.
From Verif Require Import GoSlice Router_proofs Workers_proofs CliWork Spec_CliWork.
Import ListNotations.

Lemma run_app mode s a b : c_run mode s (a ++ b) = (fst (c_run mode (fst (c_run mode s a)) b), snd (c_run mode s a) ++ snd (c_run mode (fst (c_run mode s a)) b)).
Proof. revert s. induction a as [|l a IH]; intros s; cbn [c_run app]; [cbn [fst snd app]; destruct (c_run mode s b); reflexivity|]. destruct (c_step mode s l) as [s1 e1]. rewrite IH. destruct (c_run mode s1 a) as [s2 e2]. cbn [fst snd]. destruct (c_run mode s2 b). cbn. now rewrite app_assoc. Qed.
Lemma snd_snoc mode s ls l : snd (c_run mode s (ls ++ [l])) = snd (c_run mode s ls) ++ snd (c_step mode (fst (c_run mode s ls)) l).
Proof. rewrite run_app. cbn [c_run snd fst]. destruct (c_step mode (fst (c_run mode s ls)) l). cbn. now rewrite app_nil_r. Qed.
Lemma fst_snoc mode s ls l : fst (c_run mode s (ls ++ [l])) = fst (c_step mode (fst (c_run mode s ls)) l).
Proof. rewrite run_app. cbn [c_run snd fst]. destruct (c_step mode (fst (c_run mode s ls)) l). reflexivity. Qed.
Lemma received_app c a b : received c (a ++ b) = received c a ++ received c b. Proof. apply flat_map_app. Qed.
Lemma done_app c a b : done c (a ++ b) = done c a ++ done c b. Proof. apply flat_map_app. Qed.
Lemma begun_app c a b : begun c (a ++ b) = begun c a ++ begun c b. Proof. apply flat_map_app. Qed.

(* What a step does, as far as handlers and the end of the process go. *)
Inductive moved (mode : wmode) (s : cst) : clabel -> cst -> list cev -> Prop :=
| MSame l : moved mode s l s []
| MOpen w pick k f x q : use_worker mode s pick = (k, (f, x, q)) -> moved mode s (COpen w pick) (Cst f x q (c_conns s ++ [Cc w k true]) (c_gos s) false) []
| MClose c w k f x q : nth_error (c_conns s) c = Some (Cc w k true) -> free_worker mode s k = Some (f, x, q) -> moved mode s (CClose c) (Cst f x q (set_nth c (Cc w k false) (c_conns s)) (c_gos s) false) []
| MRecover c k : nth_error (c_conns s) c = Some (Cc Tcp k true) -> free_worker mode s k = None -> moved mode s (CClose c) (Cst (c_free s) (c_extra s) (c_queues s) (set_nth c (Cc Tcp k false) (c_conns s)) (c_gos s) false) [ERecovered c]
| MCrash c k : nth_error (c_conns s) c = Some (Cc Ws k true) -> free_worker mode s k = None -> moved mode s (CClose c) (Cst (c_free s) (c_extra s) (c_queues s) (set_nth c (Cc Ws k false) (c_conns s)) (c_gos s) true) [ECrash]
| MReceive c m : moved mode s (CReceive c m) (Cst (c_free s) (c_extra s) (c_queues s) (c_conns s) (c_gos s ++ [(c, m, GStart)]) false) [EReceived c m]
| MBegin g c m : nth_error (c_gos s) g = Some (c, m, GStart) -> moved mode s (CBegin g) (Cst (c_free s) (c_extra s) (c_queues s) (c_conns s) (set_nth g (c, m, GRun) (c_gos s)) false) [EBegin c m]
| MEnd g c m : nth_error (c_gos s) g = Some (c, m, GRun) -> moved mode s (CEnd g) (Cst (c_free s) (c_extra s) (c_queues s) (c_conns s) (set_nth g (c, m, GDone) (c_gos s)) false) [EEnd c m].
Lemma step_moved mode s l : moved mode s l (fst (c_step mode s l)) (snd (c_step mode s l)).
Proof.
  unfold c_step. destruct (c_dead s); [constructor|]. destruct l as [w pick|c|c m|g|g].
  - destruct (use_worker mode s pick) as [k [[f x] q]] eqn:E. now constructor.
  - destruct (nth_error (c_conns s) c) as [[w k []]|] eqn:E; try constructor. destruct (free_worker mode s k) as [[[f x] q]|] eqn:F; [destruct w; now constructor|]. destruct w; now constructor.
  - destruct (nth_error (c_conns s) c) as [[w k []]|]; constructor.
  - destruct (nth_error (c_gos s) g) as [[[c m] []]|] eqn:E; now constructor.
  - destruct (nth_error (c_gos s) g) as [[[c m] []]|] eqn:E; now constructor.
Qed.

Definition open_go (c : nat) (g : nat * nat * gpc) : list nat := let '(d, m, p) := g in if Nat.eqb d c then match p with GDone => [] | _ => [m] end else [].
Lemma kept mode pool maxconn ls c : Permutation (received c (told mode pool maxconn ls)) (done c (told mode pool maxconn ls) ++ flat_map (open_go c) (c_gos (fst (c_run mode (c_new mode pool maxconn) ls)))).
Proof.
  unfold told. set (s0 := c_new mode pool maxconn). induction ls as [|l ls IH] using rev_ind; [subst s0; destruct mode; reflexivity|]. rewrite snd_snoc, fst_snoc, received_app, done_app. set (s := fst (c_run mode s0 ls)) in *. set (tr := snd (c_run mode s0 ls)) in *.
  destruct (step_moved mode s l) as [l|w pick k f x q E|d w k f x q E1 E2|d k E1 E2|d k E1 E2|d m|g d m E|g d m E]; cbn [received done flat_map c_gos app]; rewrite ?app_nil_r; try exact IH.
  - rewrite flat_map_app. cbn [flat_map open_go]. rewrite app_nil_r. rewrite app_assoc. rewrite IH. reflexivity.
  - rewrite IH. pose proof (flat_map_set_nth (open_go c) (c_gos s) g (d, m, GRun) (d, m, GStart) E) as P. cbn [open_go] in P. apply Permutation_app_inv_l in P. apply Permutation_app_head. now symmetry.
  - rewrite IH. pose proof (flat_map_set_nth (open_go c) (c_gos s) g (d, m, GDone) (d, m, GRun) E) as P. cbn [open_go] in P. rewrite <- app_assoc. apply Permutation_app_head. rewrite P. destruct (Nat.eqb d c); reflexivity.
Qed.
Definition go_left (g : nat * nat * gpc) : nat := match snd g with GStart => 2 | GRun => 1 | GDone => 0 end.
Definition left (s : cst) : nat := list_sum (map go_left (c_gos s)).
Lemma left_set (l : list (nat * nat * gpc)) i x y : nth_error l i = Some y -> list_sum (map go_left (set_nth i x l)) + go_left y = list_sum (map go_left l) + go_left x.
Proof. intros E. destruct (set_nth_split l i x y E) as (a & b & -> & -> & _). rewrite !map_app, !list_sum_app. cbn [map list_sum fold_right]. unfold list_sum. lia. Qed.
Lemma left_pos s : 0 < left s -> exists i g, nth_error (c_gos s) i = Some g /\ 0 < go_left g.
Proof.
  unfold left. intros H. assert (K : exists g, In g (c_gos s) /\ 0 < go_left g).
  { revert H. unfold list_sum. induction (c_gos s) as [|g l IH]; cbn [map fold_right In]; [lia|]. intros H. destruct (go_left g) eqn:E; [destruct IH as (g' & I & L); [exact H|eauto]|exists g; split; [now left|lia]]. }
  destruct K as (g & I & L). apply In_nth_error in I. destruct I as (i & I). eauto.
Qed.
Lemma drain mode n : forall s, c_dead s = false -> left s <= n -> exists more, Forall handlers_only more /\ left (fst (c_run mode s more)) = 0 /\ (forall c, received c (snd (c_run mode s more)) = []).
Proof.
  induction n as [|n IH]; intros s D L; [exists []; cbn; repeat split; [constructor|lia]|]. destruct (left s) as [|m] eqn:Em; [exists []; cbn; repeat split; [constructor|exact Em]|].
  destruct (left_pos s) as (i & g & E & P); [lia|].
  assert (S1 : exists l, handlers_only l /\ left (fst (c_step mode s l)) < left s /\ c_dead (fst (c_step mode s l)) = false /\ forall c, received c (snd (c_step mode s l)) = []).
  { destruct g as [[d m0] [| |]].
    - exists (CBegin i). split; [exact Logic.I|]. unfold c_step. rewrite D, E. cbn [fst snd c_dead]. split; [|split; [reflexivity|intros c; reflexivity]]. unfold left. cbn [c_gos]. pose proof (left_set _ i (d, m0, GRun) _ E) as X. cbn [go_left snd] in X. lia.
    - exists (CEnd i). split; [exact Logic.I|]. unfold c_step. rewrite D, E. cbn [fst snd c_dead]. split; [|split; [reflexivity|intros c; reflexivity]]. unfold left. cbn [c_gos]. pose proof (left_set _ i (d, m0, GDone) _ E) as X. cbn [go_left snd] in X. lia.
    - cbn in P. lia. }
  destruct S1 as (l & Q & Lt & D1 & R1). destruct (IH (fst (c_step mode s l)) D1) as (more & Qm & Z & Rm); [lia|]. exists (l :: more). cbn [c_run]. destruct (c_step mode s l) as [s1 e1]. cbn [fst snd] in *. destruct (c_run mode s1 more) as [s2 e2]. cbn [fst snd] in *. repeat split; auto. intros c. now rewrite received_app, R1, Rm.
Qed.
Lemma left0 s c : left s = 0 -> flat_map (open_go c) (c_gos s) = [].
Proof.
  unfold left. induction (c_gos s) as [|[[d m] p] l IH]; [reflexivity|]. cbn [map list_sum fold_right flat_map]. intros H. rewrite IH by (unfold list_sum; lia). destruct p; cbn [go_left snd] in H; try lia. cbn [open_go]. destruct (Nat.eqb d c); reflexivity.
Qed.
Lemma dead_ev mode pool maxconn ls : c_dead (fst (c_run mode (c_new mode pool maxconn) ls)) = true -> In ECrash (told mode pool maxconn ls).
Proof.
  unfold told. set (s0 := c_new mode pool maxconn). induction ls as [|l ls IH] using rev_ind; [subst s0; destruct mode; discriminate|]. rewrite snd_snoc, fst_snoc. intros D. apply in_or_app.
  destruct (step_moved mode (fst (c_run mode s0 ls)) l) as [l|w pick k f x q E|d w k f x q E1 E2|d k E1 E2|d k E1 E2|d m|g d m E|g d m E]; cbn [c_dead] in D; try discriminate D; auto. right. now left.
Qed.

(* As long as the process lives, every message a client has received is handled exactly once, in every worker mode,
   also after its connection was closed: the handlers' goroutines alone get there. *)
Theorem C109_handled : forall mode pool maxconn ls, ~ In ECrash (told mode pool maxconn ls) ->
  exists more, Forall handlers_only more /\ forall c, Permutation (received c (told mode pool maxconn ls)) (done c (told mode pool maxconn (ls ++ more))).
Proof.
  intros mode pool maxconn ls N. set (s := fst (c_run mode (c_new mode pool maxconn) ls)). assert (D : c_dead s = false) by (destruct (c_dead s) eqn:D; [exfalso; apply N, dead_ev; exact D|reflexivity]).
  destruct (drain mode _ s D (le_n _)) as (more & Q & Z & R). exists more. split; [exact Q|]. intros c. pose proof (kept mode pool maxconn (ls ++ more) c) as P.
  assert (E : received c (told mode pool maxconn (ls ++ more)) = received c (told mode pool maxconn ls)). { unfold told. rewrite run_app. cbn [snd]. fold s. rewrite received_app, (R c). apply app_nil_r. }
  rewrite E in P. rewrite run_app in P. cbn [fst] in P. fold s in P. rewrite (left0 _ c Z), app_nil_r in P. exact P.
Qed.
Print Assumptions C109_handled.
Theorem C109_once : forall mode pool maxconn ls c, exists rest, Permutation (received c (told mode pool maxconn ls)) (done c (told mode pool maxconn ls) ++ rest).
Proof. intros. eexists. apply kept. Qed.
Print Assumptions C109_once.
Example C109_handled_used : told Dyn 1 3 [COpen Tcp 0; CReceive 0 7; CReceive 0 8; CBegin 1; CClose 0; COpen Tcp 5; CReceive 1 9; CEnd 1; CClose 1; CBegin 2; CBegin 0] =
  [EReceived 0 7; EReceived 0 8; EBegin 0 8; ERecovered 0; EReceived 1 9; EEnd 0 8; EBegin 1 9; EBegin 0 7].
Proof. reflexivity. Qed.

(* Closing connections: no worker mode but DynamicBind ever panics, and Tcp clients never end the process. *)
Theorem C109_no_panic_partial : forall mode pool maxconn ls, mode <> Dyn -> forall e, In e (told mode pool maxconn ls) -> e <> ECrash /\ forall c, e <> ERecovered c.
Proof.
  intros mode pool maxconn ls M. unfold told. set (s0 := c_new mode pool maxconn). induction ls as [|l ls IH] using rev_ind; [intros e []|]. rewrite snd_snoc. intros e I. apply in_app_or in I. destruct I as [I|I]; [now apply IH|].
  assert (F : forall s k, free_worker mode s k <> None) by (intros s k; unfold free_worker; destruct mode; [discriminate|discriminate|congruence]).
  destruct (step_moved mode (fst (c_run mode s0 ls)) l) as [l|w pick k f x q E|d w k f x q E1 E2|d k E1 E2|d k E1 E2|d m|g d m E|g d m E]; try (destruct I; fail); try (exfalso; exact (F _ _ E2)); destruct I as [<-|[]]; split; discriminate.
Qed.
Print Assumptions C109_no_panic_partial.
Theorem C109_no_crash_partial : forall mode pool maxconn ls, Forall no_websocket ls -> ~ In ECrash (told mode pool maxconn ls).
Proof.
  intros mode pool maxconn ls F. unfold told. set (s0 := c_new mode pool maxconn).
  assert (K : (forall c k o, ~ nth_error (c_conns (fst (c_run mode s0 ls))) c = Some (Cc Ws k o)) /\ ~ In ECrash (snd (c_run mode s0 ls))); [|tauto].
  induction ls as [|l ls IH] using rev_ind; [split; [intros c k o E; subst s0; destruct mode; destruct c; discriminate|intros []]|]. apply Forall_app in F. destruct F as (F & Fl). apply Forall_inv in Fl. destruct (IH F) as (K1 & K2). rewrite fst_snoc, snd_snoc.
  destruct (step_moved mode (fst (c_run mode s0 ls)) l) as [l|w pick k f x q E|d w k f x q E1 E2|d k E1 E2|d k E1 E2|d m|g d m E|g d m E]; cbn [c_conns]; rewrite ?app_nil_r.
  - auto.
  - split; [|exact K2]. intros c k' o E'. destruct (Nat.lt_ge_cases c (length (c_conns (fst (c_run mode s0 ls))))) as [L|L]; [rewrite nth_error_app1 in E' by exact L; exact (K1 _ _ _ E')|]. rewrite nth_error_app2 in E' by exact L. destruct (c - _) as [|[|n]]; cbn in E'; try discriminate. injection E' as Ew _ _; subst w; exact Fl.
  - split; [|exact K2]. intros c k' o E'. apply nth_error_set_nth in E'. destruct E' as [(<- & X & _)|(_ & X)]; [injection X as <- <- _; exact (K1 _ _ _ E1)|exact (K1 _ _ _ X)].
  - split; [|intros I; apply in_app_or in I; destruct I as [I|[I|[]]]; [tauto|discriminate]]. intros c k' o E'. apply nth_error_set_nth in E'. destruct E' as [(<- & X & _)|(_ & X)]; [discriminate|exact (K1 _ _ _ X)].
  - exfalso. exact (K1 _ _ _ E1).
  - split; [exact K1|intros I; apply in_app_or in I; destruct I as [I|[I|[]]]; [tauto|discriminate]].
  - split; [exact K1|intros I; apply in_app_or in I; destruct I as [I|[I|[]]]; [tauto|discriminate]].
  - split; [exact K1|intros I; apply in_app_or in I; destruct I as [I|[I|[]]]; [tauto|discriminate]].
Qed.
Print Assumptions C109_no_crash_partial.
Example C109_no_panic_used : told Bind 1 2 [COpen Ws 0; COpen Ws 0; COpen Ws 0; CClose 2; CClose 0; COpen Ws 1; CReceive 3 4; CClose 1; CClose 3] = [EReceived 3 4].
Proof. reflexivity. Qed.

(* The goroutines in the order of their messages. *)
Definition msg_of (c : nat) (g : nat * nat * gpc) : list nat := let '(d, m, _) := g in if Nat.eqb d c then [m] else [].
Definition done_of (c : nat) (g : nat * nat * gpc) : list nat := let '(d, m, p) := g in if Nat.eqb d c then match p with GDone => [m] | _ => [] end else [].
Lemma listed mode pool maxconn ls c : let s := fst (c_run mode (c_new mode pool maxconn) ls) in
  received c (told mode pool maxconn ls) = flat_map (msg_of c) (c_gos s) /\ Permutation (done c (told mode pool maxconn ls)) (flat_map (done_of c) (c_gos s)).
Proof.
  unfold told. set (s0 := c_new mode pool maxconn). induction ls as [|l ls IH] using rev_ind; [subst s0; destruct mode; split; reflexivity|]. rewrite snd_snoc, fst_snoc, received_app, done_app. set (s := fst (c_run mode s0 ls)) in *. set (tr := snd (c_run mode s0 ls)) in *. destruct IH as (IH1 & IH2).
  assert (Ms : forall i d m p q, nth_error (c_gos s) i = Some (d, m, p) -> flat_map (msg_of c) (set_nth i (d, m, q) (c_gos s)) = flat_map (msg_of c) (c_gos s)).
  { intros i d m p q E. destruct (set_nth_split (c_gos s) i (d, m, q) _ E) as (a & b & E1 & E2 & _). rewrite E2. rewrite E1 at 1. rewrite !flat_map_app. reflexivity. }
  destruct (step_moved mode s l) as [l|w pick k f x q E|d w k f x q E1 E2|d k E1 E2|d k E1 E2|d m|g d m E|g d m E]; cbn [received done flat_map c_gos app]; rewrite ?app_nil_r; try (split; assumption).
  - rewrite !flat_map_app. cbn [flat_map msg_of done_of]. rewrite !app_nil_r, IH1. split; [reflexivity|]. destruct (Nat.eqb d c); rewrite app_nil_r; exact IH2.
  - rewrite (Ms _ _ _ _ _ E). split; [exact IH1|]. rewrite IH2. pose proof (flat_map_set_nth (done_of c) (c_gos s) g (d, m, GRun) (d, m, GStart) E) as P. cbn [done_of] in P. destruct (Nat.eqb d c); cbn [app] in P; symmetry; exact P.
  - rewrite (Ms _ _ _ _ _ E). split; [exact IH1|]. rewrite IH2. pose proof (flat_map_set_nth (done_of c) (c_gos s) g (d, m, GDone) (d, m, GRun) E) as P. cbn [done_of] in P. destruct (Nat.eqb d c); cbn [app] in P; rewrite ?app_nil_r; symmetry; [rewrite P; apply Permutation_cons_append|exact P].
Qed.
(* A goroutine only goes forward. *)
Definition further (x y : nat * nat * gpc) : Prop := fst x = fst y /\ go_left y <= go_left x.
Lemma forward mode s ls g x : nth_error (c_gos s) g = Some x -> exists y, nth_error (c_gos (fst (c_run mode s ls))) g = Some y /\ further x y.
Proof.
  intros E. induction ls as [|l ls IH] using rev_ind; [exists x; split; [exact E|split; [reflexivity|lia]]|]. rewrite fst_snoc. destruct IH as (y & Ey & F1 & F2). set (t := fst (c_run mode s ls)) in *.
  destruct (step_moved mode t l) as [l|w pick k f z q H|d w k f z q H1 H2|d k H1 H2|d k H1 H2|d m|i d m H|i d m H]; cbn [c_gos]; try (exists y; split; [exact Ey|split; assumption]).
  - exists y. rewrite nth_error_app1 by (apply nth_error_Some; congruence). split; [exact Ey|split; assumption].
  - destruct (Nat.eq_dec i g) as [->|N]; [|exists y; rewrite nth_error_set_nth_other by exact N; split; [exact Ey|split; assumption]]. rewrite Ey in H. injection H as ->. eexists. rewrite nth_error_set_nth_same by (apply nth_error_Some; congruence). split; [reflexivity|]. split; [rewrite F1; reflexivity|cbn in *; lia].
  - destruct (Nat.eq_dec i g) as [->|N]; [|exists y; rewrite nth_error_set_nth_other by exact N; split; [exact Ey|split; assumption]]. rewrite Ey in H. injection H as ->. eexists. rewrite nth_error_set_nth_same by (apply nth_error_Some; congruence). split; [reflexivity|]. split; [rewrite F1; reflexivity|cbn in *; lia].
Qed.
Lemma steps_app sch n m : steps sch (n + m) = steps sch n ++ map sch (seq n m).
Proof. unfold steps. now rewrite seq_app, map_app. Qed.
Lemma steps_S sch n : steps sch (S n) = steps sch n ++ [sch n].
Proof. unfold steps. now rewrite seq_S, map_app. Qed.
Section Fair.
Variable mode : wmode.
Variable pool maxconn : nat.
Variable sch : nat -> clabel.
Hypothesis F : fair sch.
Hypothesis alive : forall n, ~ In ECrash (told mode pool maxconn (steps sch n)).
Notation at_ n := (fst (c_run mode (c_new mode pool maxconn) (steps sch n))).
Lemma not_dead n : c_dead (at_ n) = false.
Proof. destruct (c_dead (at_ n)) eqn:D; [exfalso; apply (alive n), dead_ev; exact D|reflexivity]. Qed.
Lemma later n k g x : n <= k -> nth_error (c_gos (at_ n)) g = Some x -> exists y, nth_error (c_gos (at_ k)) g = Some y /\ further x y.
Proof. intros L E. replace k with (n + (k - n)) by lia. rewrite steps_app, run_app. cbn [fst]. now apply forward. Qed.
Lemma one_done n g x : nth_error (c_gos (at_ n)) g = Some x -> exists k, n <= k /\ nth_error (c_gos (at_ k)) g = Some (fst x, GDone).
Proof.
  intros E.
  assert (Run : forall n d m, nth_error (c_gos (at_ n)) g = Some (d, m, GRun) -> exists k, n <= k /\ nth_error (c_gos (at_ k)) g = Some (d, m, GDone)).
  { intros n1 d m E1. destruct (F g n1) as (_ & k & Lk & Ek). destruct (later n1 k g _ Lk E1) as ([[d' m'] p] & Ey & Fy & Ly). cbn in Fy. injection Fy as <- <-. destruct p; cbn in Ly; [lia| |exists k; auto].
    exists (S k). split; [lia|]. rewrite steps_S, fst_snoc, Ek. unfold c_step. rewrite not_dead, Ey. cbn [fst c_gos]. apply nth_error_set_nth_same, nth_error_Some. congruence. }
  destruct x as [[d m] []].
  - destruct (F g n) as ((k & Lk & Ek) & _). destruct (later n k g _ Lk E) as ([[d' m'] p] & Ey & Fy & Ly). cbn in Fy. injection Fy as <- <-. destruct p; [|destruct (Run k d m Ey) as (k2 & L2 & E2); exists k2; split; [lia|exact E2]|exists k; auto].
    destruct (Run (S k) d m) as (k2 & L2 & E2); [|exists k2; split; [lia|exact E2]]. rewrite steps_S, fst_snoc, Ek. unfold c_step. rewrite not_dead, Ey. cbn [fst c_gos]. apply nth_error_set_nth_same, nth_error_Some. congruence.
  - exact (Run n d m E).
  - exists n. auto.
Qed.
Lemma all_done n j : exists k, n <= k /\ forall g x, g < j -> nth_error (c_gos (at_ n)) g = Some x -> nth_error (c_gos (at_ k)) g = Some (fst x, GDone).
Proof.
  induction j as [|j (k & Lk & K)]; [exists n; split; [lia|intros; lia]|]. assert (Mv : forall k2, k <= k2 -> forall g x, g < j -> nth_error (c_gos (at_ n)) g = Some x -> nth_error (c_gos (at_ k2)) g = Some (fst x, GDone)).
  { intros k2 L2 g x Lg Eg. destruct (later k k2 g _ L2 (K g x Lg Eg)) as ([y p] & Ey & Fy & Ly). cbn [fst] in Fy. rewrite Ey, Fy. destruct p; cbn in Ly; [lia|lia|reflexivity]. }
  destruct (nth_error (c_gos (at_ n)) j) as [x|] eqn:Ej.
  - destruct (later n k j x Lk Ej) as (y & Ey & Fy & _). destruct (one_done k j y Ey) as (k2 & L2 & E2). exists k2. split; [lia|]. intros g z Lg Eg. destruct (Nat.eq_dec g j) as [->|N]; [rewrite Ej in Eg; injection Eg as <-; rewrite Fy; exact E2|]. apply Mv; [exact L2|lia|exact Eg].
  - exists k. split; [exact Lk|]. intros g z Lg Eg. destruct (Nat.eq_dec g j) as [->|N]; [congruence|]. apply K; [lia|exact Eg].
Qed.
End Fair.
(* On every infinite schedule on which each goroutine gets its turn again and again, as long as the process lives, all
   messages received at any point are handled some time later. *)
Theorem C109_fair : forall mode pool maxconn sch n, fair sch -> (forall k, ~ In ECrash (told mode pool maxconn (steps sch k))) ->
  exists k, n <= k /\ forall c, exists rest, Permutation (done c (told mode pool maxconn (steps sch k))) (received c (told mode pool maxconn (steps sch n)) ++ rest).
Proof.
  intros mode pool maxconn sch n F A. set (gn := c_gos (fst (c_run mode (c_new mode pool maxconn) (steps sch n)))). destruct (all_done mode pool maxconn sch F A n (length gn)) as (k & Lk & K). fold gn in K. exists k. split; [exact Lk|]. intros c.
  destruct (listed mode pool maxconn (steps sch n) c) as (R & _). destruct (listed mode pool maxconn (steps sch k) c) as (_ & D). fold gn in R. set (gk := c_gos (fst (c_run mode (c_new mode pool maxconn) (steps sch k)))) in *.
  assert (P : exists rest, gk = map (fun x => (fst x, GDone)) gn ++ rest).
  { clearbody gn gk. clear -K. revert gk K. induction gn as [|x gn IH]; intros gk K; [exists gk; reflexivity|]. destruct gk as [|y gk]; [specialize (K 0 x (Nat.lt_0_succ _) eq_refl); discriminate|]. pose proof (K 0 x (Nat.lt_0_succ _) eq_refl) as K0. cbn in K0. injection K0 as ->. destruct (IH gk) as (rest & ->); [intros g z Lg Eg; exact (K (S g) z ltac:(cbn; lia) Eg)|]. exists rest. reflexivity. }
  destruct P as (rest & P). exists (flat_map (done_of c) rest). rewrite D, P, flat_map_app, R. apply Permutation_app_tail. clear. induction gn as [|[[d m] p] gn IH]; [reflexivity|]. cbn [map flat_map fst done_of msg_of]. destruct (Nat.eqb d c); [now apply perm_skip|exact IH].
Qed.
Print Assumptions C109_fair.
(* A fair schedule that receives two messages first. *)
Example C109_fair_used : exists sch, fair sch /\ (forall k, ~ In ECrash (told Hash 1 1 (steps sch k))) /\ received 0 (told Hash 1 1 (steps sch 3)) = [7; 8].
Proof.
  assert (Sq : exists f : nat -> nat, forall g n, exists k, n <= k /\ f k = g).
  { exists (fun k => k - Nat.sqrt k * Nat.sqrt k). intros g n. exists ((n + g) * (n + g) + g). split; [nia|]. rewrite (Nat.sqrt_unique ((n + g) * (n + g) + g) (n + g)) by nia. lia. }
  destruct Sq as (f & Hf). set (tl := fun k => if Nat.even k then CBegin (f (Nat.div2 k)) else CEnd (f (Nat.div2 k))).
  exists (fun k => match k with 0 => COpen Tcp 0 | 1 => CReceive 0 7 | 2 => CReceive 0 8 | S (S (S k)) => tl k end). split; [|split].
  - intros g n. destruct (Hf g n) as (k & Lk & Ek). split.
    + exists (S (S (S (2 * k)))). split; [lia|]. cbv beta iota. unfold tl. rewrite Nat.even_mul. cbn [Nat.even orb]. rewrite Nat.div2_double, Ek. reflexivity.
    + exists (S (S (S (S (2 * k))))). split; [lia|]. cbv beta iota. unfold tl. rewrite Nat.even_succ, Nat.odd_mul. cbn [Nat.odd Nat.even negb andb]. rewrite Nat.div2_succ_double, Ek. reflexivity.
  - intros k I. apply (C109_no_panic_partial Hash 1 1 _ ltac:(discriminate)) in I. destruct I as (I & _). congruence.
  - reflexivity.
Qed.

(* In DynamicBind mode the first websocket connection of a client ends the whole process when it is closed,
   whatever happened meanwhile. *)
Theorem C109_websocket_refuted : forall pool maxconn pick ls, 0 < pool -> pool <= maxconn -> let h := COpen Ws pick :: ls in
  ~ In (CClose 0) ls -> ~ In ECrash (told Dyn pool maxconn h) -> told Dyn pool maxconn (h ++ [CClose 0]) = told Dyn pool maxconn h ++ [ECrash].
Proof.
  intros pool maxconn pick ls P0 P1 h Nc N.
  assert (D : c_dead (fst (c_run Dyn (c_new Dyn pool maxconn) h)) = false) by (destruct (c_dead _) eqn:D; [exfalso; apply N, dead_ev; exact D|reflexivity]).
  assert (K : exists k, k < pool /\ nth_error (c_conns (fst (c_run Dyn (c_new Dyn pool maxconn) h))) 0 = Some (Cc Ws k true) /\
    (forall j, j < pool -> nth_error (c_queues (fst (c_run Dyn (c_new Dyn pool maxconn) h))) j = Some QNil) /\ (forall x, In x (c_extra (fst (c_run Dyn (c_new Dyn pool maxconn) h))) -> pool <= x)).
  { clear N D. subst h. induction ls as [|l ls IH] using rev_ind.
    - cbn [c_run c_step c_dead c_new]. unfold use_worker, any_of. cbn [c_free]. rewrite seq_length. assert (B := Nat.mod_upper_bound pick pool). destruct (nth_error (seq 0 pool) (pick mod pool)) as [k|] eqn:E; [|apply nth_error_None in E; rewrite seq_length in E; lia].
      cbn [fst c_conns c_queues c_extra app nth_error]. exists k. assert (Ik : In k (seq 0 pool)) by (eapply nth_error_In; exact E). apply in_seq in Ik. split; [lia|]. split; [reflexivity|]. split; [|intros x I; apply in_seq in I; lia].
      intros j Lj. rewrite (nth_error_nth' _ QNil) by (rewrite repeat_length; lia). f_equal. apply nth_repeat.
    - assert (Nc' : ~ In (CClose 0) ls) by (intros I; apply Nc, in_or_app; now left). assert (Nl : l <> CClose 0) by (intros ->; apply Nc, in_or_app; right; now left). destruct (IH Nc') as (k & Lk & Ek & Eq & Ex). exists k. change (COpen Ws pick :: ls ++ [l]) with ((COpen Ws pick :: ls) ++ [l]). rewrite fst_snoc. set (s := fst (c_run Dyn (c_new Dyn pool maxconn) (COpen Ws pick :: ls))) in *. split; [exact Lk|].
      destruct (step_moved Dyn s l) as [l|w pk k' f x q E|d w k' f x q E1 E2|d k' E1 E2|d k' E1 E2|d m|g d m E|g d m E]; cbn [c_conns c_queues c_extra]; auto.
      + split; [rewrite nth_error_app1; [exact Ek|apply nth_error_Some; congruence]|]. unfold use_worker in E. destruct (any_of (c_free s) pk); [injection E as <- <- <- <-; auto|]. destruct (any_of (c_extra s) pk) as [k2|] eqn:A; [|injection E as <- <- <- <-; auto]. injection E as <- <- <- <-. split; [|exact Ex].
        assert (pool <= k2) by (apply Ex; unfold any_of in A; eapply nth_error_In; exact A). intros j Lj. rewrite nth_error_set_nth_other by lia. now apply Eq.
      + assert (d <> 0) by (intros ->; now apply Nl). split; [rewrite nth_error_set_nth_other by congruence; exact Ek|]. unfold free_worker in E2. destruct (nth_error (c_queues s) k') as [[]|] eqn:Q; try discriminate. injection E2 as <- <- <-.
        assert (pool <= k') by (destruct (Nat.lt_ge_cases k' pool) as [L|L]; [rewrite (Eq _ L) in Q; discriminate|exact L]). split.
        * intros j Lj. rewrite nth_error_set_nth_other by lia. now apply Eq.
        * intros y [<-|I]; [assumption|]. apply filter_In in I. now apply Ex.
      + assert (d <> 0) by (intros ->; now apply Nl). split; [rewrite nth_error_set_nth_other by congruence; exact Ek|auto].
      + assert (d <> 0) by (intros ->; now apply Nl). split; [rewrite nth_error_set_nth_other by congruence; exact Ek|auto]. }
  destruct K as (k & Lk & Ek & Eq & _). unfold told. rewrite snd_snoc. f_equal. unfold c_step. rewrite D, Ek. unfold free_worker. rewrite (Eq k Lk). reflexivity.
Qed.
Print Assumptions C109_websocket_refuted.
Example C109_websocket_witness : told Dyn 10 100 [COpen Ws 3; CReceive 0 1; CClose 0; CBegin 0] = [EReceived 0 1; ECrash].
Proof. reflexivity. Qed.

(* The order in which a client's handlers begin has nothing to do with the order in which the messages came:
   every order is possible, in every worker mode. *)
Theorem C109_order_refuted : forall mode pool maxconn ms js, NoDup js -> Forall (fun j => j < length ms) js ->
  let tr := told mode pool maxconn (COpen Tcp 0 :: map (CReceive 0) ms ++ map CBegin js) in
  received 0 tr = ms /\ begun 0 tr = map (fun j => nth j ms 0) js.
Proof.
  intros mode pool maxconn ms js ND F tr.
  assert (R : forall ms s, c_dead s = false -> (exists w k, nth_error (c_conns s) 0 = Some (Cc w k true)) ->
    fst (c_run mode s (map (CReceive 0) ms)) = Cst (c_free s) (c_extra s) (c_queues s) (c_conns s) (c_gos s ++ map (fun m => (0, m, GStart)) ms) false /\ snd (c_run mode s (map (CReceive 0) ms)) = map (EReceived 0) ms).
  { clear. induction ms as [|m ms IH]; intros s D C; [cbn; rewrite app_nil_r; destruct s; cbn in *; now subst|]. cbn [map c_run]. assert (S : c_step mode s (CReceive 0 m) = (Cst (c_free s) (c_extra s) (c_queues s) (c_conns s) (c_gos s ++ [(0, m, GStart)]) false, [EReceived 0 m])) by (destruct C as (w & k & C); unfold c_step; rewrite D, C; reflexivity).
    rewrite S. destruct (IH (Cst (c_free s) (c_extra s) (c_queues s) (c_conns s) (c_gos s ++ [(0, m, GStart)]) false) eq_refl C) as (H1 & H2). destruct (c_run mode _ (map (CReceive 0) ms)) as [s2 e2]. cbn [fst snd] in *. subst. cbn [c_free c_extra c_queues c_conns c_gos]. rewrite <- app_assoc. split; reflexivity. }
  assert (B : forall js s, NoDup js -> c_dead s = false -> (forall j, In j js -> nth_error (c_gos s) j = Some (0, nth j ms 0, GStart)) -> snd (c_run mode s (map CBegin js)) = map (fun j => EBegin 0 (nth j ms 0)) js).
  { clear. induction js as [|j js IH]; intros s ND D G; [reflexivity|]. cbn [map c_run]. inversion ND as [|? ? N1 N2]; subst. assert (S : c_step mode s (CBegin j) = (Cst (c_free s) (c_extra s) (c_queues s) (c_conns s) (set_nth j (0, nth j ms 0, GRun) (c_gos s)) false, [EBegin 0 (nth j ms 0)])) by (unfold c_step; rewrite D, (G j (or_introl eq_refl)); reflexivity).
    rewrite S. match goal with |- context [c_run mode ?s1 _] => pose proof (IH s1 N2 eq_refl) as H; destruct (c_run mode s1 (map CBegin js)) as [s2 e2] end. cbn [snd] in *. rewrite H; [reflexivity|]. intros i Ii. cbn [c_gos]. rewrite nth_error_set_nth_other by (intros ->; contradiction). apply G. now right. }
  set (s1 := fst (c_step mode (c_new mode pool maxconn) (COpen Tcp 0))).
  assert (E1 : c_dead s1 = false /\ (exists w k, nth_error (c_conns s1) 0 = Some (Cc w k true)) /\ c_gos s1 = [] /\ snd (c_step mode (c_new mode pool maxconn) (COpen Tcp 0)) = []).
  { subst s1. unfold c_step. replace (c_dead (c_new mode pool maxconn)) with false by (destruct mode; reflexivity). destruct (use_worker mode (c_new mode pool maxconn) 0) as [k [[f x] q]]. cbn [fst snd c_dead c_conns c_gos]. split; [reflexivity|]. split; [|split; [destruct mode; reflexivity|reflexivity]]. replace (c_conns (c_new mode pool maxconn)) with (@nil cconn) by (destruct mode; reflexivity). cbn. eauto. }
  destruct E1 as (D1 & C1 & G1 & Es). destruct (R ms s1 D1 C1) as (R1 & R2).
  assert (T : tr = map (EReceived 0) ms ++ map (fun j => EBegin 0 (nth j ms 0)) js).
  { subst tr. unfold told. cbn [c_run]. destruct (c_step mode (c_new mode pool maxconn) (COpen Tcp 0)) as [s1' e1] eqn:E. cbn [fst snd] in *. subst e1. change s1' with s1. rewrite run_app, R1, R2. cbn [snd app]. f_equal. apply B; [exact ND|reflexivity|]. intros j Ij. cbn [c_gos]. rewrite G1. cbn [app]. rewrite nth_error_map. rewrite Forall_forall in F. rewrite (nth_error_nth' ms 0 (F j Ij)). reflexivity. }
  rewrite T. rewrite received_app, begun_app.
  assert (Z1 : forall l, received 0 (map (EReceived 0) l) = l) by (induction l as [|a l IH]; [reflexivity|]; cbn; f_equal; exact IH).
  assert (Z2 : forall l, begun 0 (map (EReceived 0) l) = []) by (induction l as [|a l IH]; [reflexivity|exact IH]).
  assert (Z3 : received 0 (map (fun j => EBegin 0 (nth j ms 0)) js) = []) by (clear; induction js as [|a l IH]; [reflexivity|exact IH]).
  assert (Z4 : begun 0 (map (fun j => EBegin 0 (nth j ms 0)) js) = map (fun j => nth j ms 0) js) by (clear; induction js as [|a l IH]; [reflexivity|]; cbn; f_equal; exact IH).
  rewrite Z1, Z2, Z3, Z4. rewrite app_nil_r. split; reflexivity.
Qed.
Print Assumptions C109_order_refuted.
Example C109_order_witness : let tr := told Hash 4 10 (COpen Tcp 0 :: map (CReceive 0) [11; 12; 13] ++ map CBegin [2; 0; 1]) in received 0 tr = [11; 12; 13] /\ begun 0 tr = [13; 11; 12].
Proof. split; reflexivity. Qed.

(* Proofs for C79: the process stays alive, due timers get called, order. *)
From Coq Require Import ZArith List Bool Lia Permutation Sorting.Sorted.
From Verif Require Import Bytes TimeWheel Spec_TimeWheel TimeWheel_proofs TimeWheel2_proofs TimedWheel TimedWheel_proofs Spec_TimedWheel TimeWheel3_proofs AutoExec Spec_AutoExec AutoExec_proofs.
Import ListNotations.
Local Open Scope Z_scope.

(* Without nil DelayFuncs. *)
Definition good (a : auto) (df : option nat) : Prop := exists d, df = Some d /\ (d < length (x_funcs a))%nat.
Definition no_nil (a : auto) : Prop :=
  x_dead a = false /\ (forall df, In df (x_df a) -> good a df) /\ (forall x, In x (x_chan a) -> good a (snd x)) /\ (forall g, In g (x_gos a) -> good a (g_df g)).

Lemma known_good a df : known a df = true -> df <> None -> good a df.
Proof. destruct df as [d|]; [|congruence]. cbn. intros H _. exists d. split; [reflexivity|]. now apply Nat.ltb_lt. Qed.

Lemma no_nil_step a l : length (x_df a) = length (s_made (x_sched a)) -> once (x_sched a) -> passes_nil l = false -> no_nil a -> no_nil (x_step a l).
Proof.
  intros L O PN N. assert (N' := N). destruct N' as (D & N1 & N2 & N3). apply step_cases; try (intros; exact N).
  - intros f sl -> Hl. assert (G : forall df, good a df -> exists d, df = Some d /\ (d < length (x_funcs a ++ [DFunc f sl]))%nat) by (intros df (d & -> & H); exists d; rewrite app_length; split; [reflexivity|lia]).
    split; [exact D|]. split; [intros df Hd; apply G; auto|]. split; [intros x Hx; apply G; auto|intros g Hg; apply G; auto].
  - intros t df s e -> K E C M Eo. split; [exact D|]. split; [|split; assumption]. intros d Hd. cbn [x_df] in Hd. apply in_app_or in Hd. destruct Hd as [Hd|[<-|[]]]; [now apply N1|]. apply known_good; [exact K|]. intros ->. discriminate.
  - intros i e r rest -> Hc E. split; [exact D|]. split; [exact N1|]. split; [|exact N3]. intros x Hx. cbn [x_chan] in Hx. apply in_app_or in Hx. destruct Hx as [Hx|[<-|[]]]; [now apply N2|]. cbn [snd].
    apply N1. apply nth_In. assert (R : 0 <= e_obj e < Z.of_nat (length (s_made (x_sched a)))); [|lia]. apply made_range; [exact O|]. unfold everywhere, taken. apply in_or_app. right. apply in_or_app. left.
    apply in_map_iff. exists (e, r). split; [reflexivity|]. apply (Permutation_in _ (Permutation_sym (take_perm _ _ _ _ E))). now left.
  - intros src df rest -> E. split; [exact D|]. split; [exact N1|]. split; [intros x Hx; apply N2; rewrite E; now right|]. intros g Hg. cbn [x_gos] in Hg. apply in_app_or in Hg. destruct Hg as [Hg|[<-|[]]]; [now apply N3|]. apply (N2 (src, df)). rewrite E. now left.
  - intros t df now -> C K. split; [exact D|]. split; [exact N1|]. split; [exact N2|]. intros g Hg. cbn [x_gos] in Hg. apply in_app_or in Hg. destruct Hg as [Hg|[<-|[]]]; [now apply N3|]. apply known_good; [exact K|]. cbn. intros ->. discriminate.
  - intros i now g -> E St W. assert (Gg : good a (g_df g)) by (apply N3; now apply nth_error_In in E).
    apply begin_cases; [exact N| | |].
    + intros Q. destruct Gg as (d & Q' & _). congruence.
    + intros d f sl Ed Ef. split; [exact D|]. split; [exact N1|]. split; [exact N2|]. intros h Hh. cbn [x_gos] in Hh. apply set_nth_in in Hh. destruct Hh as [->|Hh]; [exact Gg|now apply N3].
    + intros d sl Ed Ef. split; [exact D|]. split; [exact N1|]. split; [exact N2|]. intros h Hh. cbn [x_gos] in Hh. apply set_nth_in in Hh. destruct Hh as [->|Hh]; [exact Gg|now apply N3].
  - intros i g errs Hl E St. split; [exact D|]. split; [exact N1|]. split; [exact N2|]. intros h Hh. cbn [x_gos] in Hh. apply set_nth_in in Hh. destruct Hh as [->|Hh]; [|now apply N3]. apply (N3 g). now apply nth_error_In in E.
Qed.
Lemma no_nil_run conf ls : (forall l, In l ls -> passes_nil l = false) -> no_nil (x_run (new_auto conf) ls).
Proof.
  induction ls as [|l ls IH] using rev_ind; intros H; [split; [reflexivity|repeat split; contradiction]|]. rewrite x_run_snoc. apply no_nil_step.
  - apply df_length.
  - apply x_once.
  - apply H. apply in_or_app. right. now left.
  - apply IH. intros l' Hl. apply H. apply in_or_app. now left.
Qed.

(* A goroutine past Waiting whose DelayFunc has a function has called it. *)
Definition told (a : auto) : Prop := forall g d f sl, In g (x_gos a) -> acting g = true -> g_df g = Some d -> nth_error (x_funcs a) d = Some (DFunc (Some f) sl) ->
  exists c, In c (x_begun a) /\ c_src c = g_src g.
Definition in_funcs (a : auto) : Prop := forall g d, In g (x_gos a) -> acting g = true -> g_df g = Some d -> (d < length (x_funcs a))%nat.
Lemma told_step a l : in_funcs a -> told a -> told (x_step a l) /\ in_funcs (x_step a l).
Proof.
  intros F T. apply (step_cases (fun b => told b /\ in_funcs b)); try (intros; split; [exact T|exact F]).
  - intros f sl -> L. split.
    + intros g d f' sl' Hg Ha Ed Ef. cbn in *. rewrite nth_error_app1 in Ef by (now apply (F g)). now apply (T g d f' sl').
    + intros g d Hg Ha Ed. cbn. rewrite app_length. specialize (F g d Hg Ha Ed). lia.
  - intros src df rest -> E. split.
    + intros g d f' sl' Hg Ha Ed Ef. cbn [x_gos x_funcs x_begun] in *. apply in_app_or in Hg. destruct Hg as [Hg|[<-|[]]]; [now apply (T g d f' sl')|discriminate].
    + intros g d Hg Ha Ed. cbn [x_gos x_funcs x_begun] in *. apply in_app_or in Hg. destruct Hg as [Hg|[<-|[]]]; [now apply (F g d)|discriminate].
  - intros t df now -> C K. split.
    + intros g d f' sl' Hg Ha Ed Ef. cbn [x_gos x_funcs x_begun] in *. apply in_app_or in Hg. destruct Hg as [Hg|[<-|[]]]; [now apply (T g d f' sl')|discriminate].
    + intros g d Hg Ha Ed. cbn [x_gos x_funcs x_begun] in *. apply in_app_or in Hg. destruct Hg as [Hg|[<-|[]]]; [now apply (F g d)|discriminate].
  - intros i now g -> E St W. apply (begin_cases a i g now (fun b => told b /\ in_funcs b)); try (intros; split; [exact T|exact F]).
    + intros d f sl Ed Ef. split.
      * intros h d' f' sl' Hh Ha Ed' Ef'. cbn [x_gos x_funcs x_begun] in *. apply set_nth_in in Hh. destruct Hh as [->|Hh].
        { eexists. split; [apply in_or_app; right; now left|reflexivity]. }
        destruct (T h d' f' sl' Hh Ha Ed' Ef') as (c & Ic & Ec). exists c. split; [apply in_or_app; now left|exact Ec].
      * intros h d' Hh Ha Ed'. cbn [x_gos x_funcs] in *. apply set_nth_in in Hh. destruct Hh as [->|Hh]; [|now apply (F h)]. cbn in Ed'. apply nth_error_Some. congruence.
    + intros d sl Ed Ef. split.
      * intros h d' f' sl' Hh Ha Ed' Ef'. cbn [x_gos x_funcs x_begun] in *. apply set_nth_in in Hh. destruct Hh as [->|Hh]; [cbn in Ed'; congruence|now apply (T h d' f' sl')].
      * intros h d' Hh Ha Ed'. cbn [x_gos x_funcs] in *. apply set_nth_in in Hh. destruct Hh as [->|Hh]; [|now apply (F h)]. cbn in Ed'. apply nth_error_Some. congruence.
  - intros i g errs Hl E St. assert (Ig := nth_error_In _ _ E). assert (Ag : acting g = true) by (unfold acting; now rewrite St). split.
    + intros h d' f' sl' Hh Ha Ed' Ef'. cbn [x_gos x_funcs x_begun] in *. apply set_nth_in in Hh. destruct Hh as [->|Hh]; [now apply (T g d' f' sl')|now apply (T h d' f' sl')].
    + intros h d' Hh Ha Ed'. cbn [x_gos x_funcs] in *. apply set_nth_in in Hh. destruct Hh as [->|Hh]; [now apply (F g)|now apply (F h)].
Qed.
Lemma told_run conf ls : told (x_run (new_auto conf) ls).
Proof. apply (x_inv (fun a => told a /\ in_funcs a)); [split; intros ? ? * []|]. intros a l (T & F). now apply told_step. Qed.

(* A goroutine knows the DelayFunc of its timer. *)
Definition aware (a : auto) : Prop := (forall g o, In g (x_gos a) -> g_src g = OfSched o -> g_df g = df_of a o) /\ (forall x o, In x (x_chan a) -> fst x = OfSched o -> snd x = df_of a o).
Lemma aware_step a l : (forall o, In (OfSched o) (map g_src (x_gos a) ++ in_channel a) -> (Z.to_nat o < length (x_df a))%nat) -> aware a -> aware (x_step a l).
Proof.
  intros R A. assert (A' := A). destruct A' as (A1 & A2).
  assert (SET : forall i g g', nth_error (x_gos a) i = Some g -> g_src g' = g_src g -> g_df g' = g_df g -> forall h o, In h (set_nth i g' (x_gos a)) -> g_src h = OfSched o -> g_df h = df_of a o).
  { intros i g g' E Es Ed h o Hh Eo. apply set_nth_in in Hh. destruct Hh as [->|Hh]; [|now apply A1]. rewrite Ed. apply A1; [now apply nth_error_In in E|congruence]. }
  apply step_cases; try (intros; exact A).
  - intros t df s e -> K E C M Eo. unfold aware, df_of in *. cbn. split.
    + intros g o Hg Eg. rewrite app_nth1; [now apply A1|]. apply R. apply in_or_app. left. rewrite <- Eg. now apply in_map.
    + intros x o Hx Ex. rewrite app_nth1; [now apply A2|]. apply R. apply in_or_app. right. rewrite <- Ex. now apply in_map.
  - intros i e r rest -> Hc E. split; [exact A1|]. intros x o Hx Ex. cbn [x_chan] in Hx. apply in_app_or in Hx. destruct Hx as [Hx|[<-|[]]]; [now apply A2|]. now injection Ex as <-.
  - intros src df rest -> E. split.
    + intros g o Hg Eg. cbn [x_gos] in Hg. apply in_app_or in Hg. destruct Hg as [Hg|[<-|[]]]; [now apply A1|]. apply (A2 (src, df)); [rewrite E; now left|exact Eg].
    + intros x o Hx. apply A2. rewrite E. now right.
  - intros t df now -> C K. split; [|exact A2]. intros g o Hg Eg. cbn [x_gos] in Hg. apply in_app_or in Hg. destruct Hg as [Hg|[<-|[]]]; [now apply A1|discriminate].
  - intros i now g -> E St W. apply begin_cases; try (intros; exact A).
    + intros d f sl Ed Ef. split; [|exact A2]. now apply (SET i g).
    + intros d sl Ed Ef. split; [|exact A2]. now apply (SET i g).
  - intros i g errs Hl E St. split; [|exact A2]. now apply (SET i g).
Qed.
Lemma aware_run conf ls : aware (x_run (new_auto conf) ls).
Proof.
  induction ls as [|l ls IH] using rev_ind; [split; contradiction|]. rewrite x_run_snoc. apply aware_step; [|exact IH]. intros o Ho. apply sched_range in Ho. rewrite df_length. lia.
Qed.

(* Draining. *)
Lemma drain_chan : forall n a, x_dead a = false -> length (x_chan a) = n ->
  let b := x_run a (repeat XReceive n) in x_chan b = [] /\ x_dead b = false /\ x_sched b = x_sched a /\ x_funcs b = x_funcs a /\ x_df b = x_df a.
Proof.
  induction n as [|n IH]; intros a D L; [destruct (x_chan a) eqn:E; [cbn; auto|discriminate]|]. cbn [repeat x_run fold_left]. fold (x_run (x_step a XReceive) (repeat XReceive n)).
  unfold x_step. rewrite D. destruct (x_chan a) as [|[s d] r] eqn:E; [discriminate|]. injection L as L. set (b := Auto _ _ _ _ _ _ _ _ _ _). destruct (IH b) as (A & B & C & F & G); [reflexivity|exact L|]. auto.
Qed.
Fixpoint pump (n : nat) : list xlabel := match n with O => [] | S n => XWheel (PollSend 0) :: XReceive :: pump n end.
Lemma drain_polled : forall n a, x_dead a = false -> x_chan a = [] -> length (s_polled (x_sched a)) = n ->
  let b := x_run a (pump n) in x_chan b = [] /\ x_dead b = false /\ s_polled (x_sched b) = [] /\ s_sent (x_sched b) = s_sent (x_sched a) ++ s_polled (x_sched a) /\ x_funcs b = x_funcs a /\ x_df b = x_df a.
Proof.
  induction n as [|n IH]; intros a D C L.
  - destruct (s_polled (x_sched a)) eqn:E; [|discriminate]. cbn. rewrite app_nil_r. auto 8.
  - cbn [pump x_run fold_left]. destruct (s_polled (x_sched a)) as [|[e r] rest] eqn:E; [discriminate|]. injection L as L.
    assert (S1 : x_step a (XWheel (PollSend 0)) = Auto (t_step (x_sched a) (PollSend 0)) (x_df a) (x_funcs a) (x_slices a) [(OfSched (e_obj e), df_of a (e_obj e))] (x_gos a) (x_lone a) (x_errs a) false (x_begun a)).
    { unfold x_step. rewrite D, C. cbn [length]. change (Z.of_nat 0 <? chan_cap) with true. cbv iota. rewrite E. reflexivity. }
    rewrite S1. assert (T : t_step (x_sched a) (PollSend 0) = Sched (s_wheels (x_sched a)) (s_idgen (x_sched a)) (s_cancel (x_sched a)) rest (s_sent (x_sched a) ++ [(e, r)]) (s_made (x_sched a))) by (apply polled_send; rewrite E; reflexivity).
    rewrite T. set (b := x_step _ XReceive). assert (Eb : b = Auto (Sched (s_wheels (x_sched a)) (s_idgen (x_sched a)) (s_cancel (x_sched a)) rest (s_sent (x_sched a) ++ [(e, r)]) (s_made (x_sched a)))
      (x_df a) (x_funcs a) (x_slices a) [] (x_gos a ++ [Gor (OfSched (e_obj e)) (df_of a (e_obj e)) 0 Waiting]) (x_lone a) (x_errs a) false (x_begun a)) by reflexivity. clearbody b. subst b. set (b := Auto _ _ _ _ _ _ _ _ _ _).
    destruct (IH b) as (A & B & P & Q & F & G); [reflexivity|reflexivity|exact L|]. split; [exact A|]. split; [exact B|]. split; [exact P|]. split; [|split; [exact F|exact G]].
    change (fold_left x_step (pump n) b) with (x_run b (pump n)). rewrite Q. cbn. now rewrite <- app_assoc.
Qed.

(* Start every goroutine of the scheduler. *)
Definition starts (k n : nat) : list xlabel := map (fun i => XBegin i 0) (seq k n).
Definition ready_from (k : nat) (a : auto) : Prop := forall i g, (i < k)%nat -> nth_error (x_gos a) i = Some g -> of_sched (g_src g) = true -> acting g = true.
Lemma set_nth_error {A} i j (x : A) l y : nth_error l i = Some y -> nth_error (set_nth i x l) j = if Nat.eqb j i then Some x else nth_error l j.
Proof.
  intros E. unfold set_nth. rewrite E. assert (L : (i < length l)%nat) by (apply nth_error_Some; congruence). assert (Lf : length (firstn i l) = i) by (rewrite firstn_length; lia).
  destruct (Nat.eqb_spec j i) as [->|N].
  - rewrite nth_error_app2 by lia. now rewrite Lf, Nat.sub_diag.
  - rewrite (split_nth l i y E) at 3. destruct (Nat.lt_ge_cases j i); [rewrite !nth_error_app1 by lia; reflexivity|]. rewrite !nth_error_app2 by lia. rewrite Lf. destruct (j - i)%nat eqn:Ej; [lia|]. reflexivity.
Qed.
Lemma start_all n : forall k a, no_nil a -> (k + n = length (x_gos a))%nat -> ready_from k a ->
  let b := x_run a (starts k n) in ready_from (k + n) b /\ length (x_gos b) = length (x_gos a) /\ x_sched b = x_sched a /\ x_chan b = x_chan a /\ x_dead b = false /\ x_funcs b = x_funcs a.
Proof.
  induction n as [|n IH]; intros k a N L R.
  - cbn. rewrite Nat.add_0_r. destruct N as (D & _). auto 8.
  - cbn [starts seq map x_run fold_left]. change (fold_left x_step (map (fun i => XBegin i 0) (seq (S k) n)) (x_step a (XBegin k 0))) with (x_run (x_step a (XBegin k 0)) (starts (S k) n)).
    assert (Nn := N). destruct Nn as (D & N1 & N2 & N3).
    assert (St : exists b, x_step a (XBegin k 0) = b /\ no_nil b /\ length (x_gos b) = length (x_gos a) /\ ready_from (S k) b /\ x_sched b = x_sched a /\ x_chan b = x_chan a /\ x_funcs b = x_funcs a).
    { eexists. split; [reflexivity|]. unfold x_step. rewrite D. destruct (nth_error (x_gos a) k) as [g|] eqn:E; [|apply nth_error_None in E; lia].
      assert (Keep : (of_sched (g_src g) = true -> acting g = true) -> no_nil a /\ length (x_gos a) = length (x_gos a) /\ ready_from (S k) a /\ x_sched a = x_sched a /\ x_chan a = x_chan a /\ x_funcs a = x_funcs a).
      { intros Q. split; [exact N|]. split; [reflexivity|]. split; [|auto]. intros i h Hi Eh Sh. destruct (Nat.eq_dec i k) as [->|]; [rewrite E in Eh; injection Eh as <-; auto|]. apply (R i h); auto; lia. }
      assert (Ig := nth_error_In _ _ E). destruct (N3 g Ig) as (d & Ed & Hd).
      assert (Upd : forall g' errs begun, g_df g' = g_df g -> acting g' = true ->
        let b := Auto (x_sched a) (x_df a) (x_funcs a) (x_slices a) (x_chan a) (set_nth k g' (x_gos a)) (x_lone a) errs (x_dead a) begun in
        no_nil b /\ length (x_gos b) = length (x_gos a) /\ ready_from (S k) b /\ x_sched b = x_sched a /\ x_chan b = x_chan a /\ x_funcs b = x_funcs a).
      { intros g' errs begun Eq Ac. cbn [x_gos x_sched x_chan x_funcs]. split; [|split; [apply set_nth_length|split; [|auto]]].
        - split; [exact D|]. split; [exact N1|]. split; [exact N2|]. intros h Hh. cbn [x_gos] in Hh. apply set_nth_in in Hh. destruct Hh as [->|Hh]; [|now apply N3]. rewrite Eq, Ed. exists d. auto.
        - intros i h Hi Eh Sh. cbn [x_gos] in Eh. rewrite (set_nth_error k i g' (x_gos a) g E) in Eh. destruct (Nat.eqb_spec i k) as [->|]; [injection Eh as <-; exact Ac|]. apply (R i h); auto; lia. }
      destruct (g_stage g) eqn:Es.
      - destruct (match g_src g with OfSched _ => true | Lone _ => g_wake g <=? 0 end) eqn:Ew.
        + unfold begin. rewrite Ed. destruct (nth_error (x_funcs a) d) as [[[f|] sl]|] eqn:Ef; [| |apply nth_error_None in Ef; lia]; apply Upd; auto.
        + apply Keep. destruct (g_src g); [discriminate|discriminate].
      - apply Keep. intros _. unfold acting. now rewrite Es.
      - apply Keep. intros _. unfold acting. now rewrite Es. }
    destruct St as (b & -> & Nb & Lb & Rb & Sb & Cb & Fb). destruct (IH (S k) b Nb ltac:(lia) Rb) as (A & B & C & E & F & G). replace (k + S n)%nat with (S k + n)%nat by lia.
    split; [exact A|]. split; [lia|]. split; [congruence|]. split; [congruence|]. split; [exact F|congruence].
Qed.

Lemma pump_own n : forallb own_step (pump n) = true.
Proof. induction n; auto. Qed.
Lemma progress conf ls : (forall l, In l ls -> passes_nil l = false) ->
  exists own, (forall l, In l own -> own_step l = true) /\
    let a := x_run (new_auto conf) ls in let b := x_run (new_auto conf) (ls ++ own) in
    taken (x_sched b) = [] /\ in_channel b = [] /\ due_out b = due_out a ++ taken (x_sched a) /\ forall e, In e (due_out b) -> has_function b e -> called b e.
Proof.
  intros H. set (a := x_run (new_auto conf) ls). assert (Na : no_nil a) by now apply no_nil_run.
  set (o1 := repeat XReceive (length (x_chan a))). set (b1 := x_run a o1). destruct (drain_chan (length (x_chan a)) a (proj1 Na) eq_refl) as (A1 & A2 & A3 & A4 & A5). fold o1 b1 in A1, A2, A3, A4, A5.
  set (o2 := pump (length (s_polled (x_sched b1)))). set (b2 := x_run b1 o2). destruct (drain_polled (length (s_polled (x_sched b1))) b1 A2 A1 eq_refl) as (B1 & B2 & B3 & B4 & B5 & B6). fold o2 b2 in B1, B2, B3, B4, B5, B6.
  set (o3 := starts 0 (length (x_gos b2))).
  assert (OWN : forall l, In l (o1 ++ o2) -> own_step l = true).
  { intros l Hl. apply in_app_or in Hl. destruct Hl as [Hl|Hl]; [apply repeat_spec in Hl; now subst|]. assert (P := pump_own (length (s_polled (x_sched b1)))). rewrite forallb_forall in P. now apply P. }
  assert (E2 : b2 = x_run (new_auto conf) (ls ++ o1 ++ o2)) by (rewrite !x_run_app; reflexivity).
  assert (N2 : no_nil b2).
  { rewrite E2. apply no_nil_run. intros l Hl. apply in_app_or in Hl. destruct Hl as [Hl|Hl]; [now apply H|]. apply OWN in Hl. destruct l as [| | | |[]| | | | |]; try discriminate; reflexivity. }
  destruct (start_all (length (x_gos b2)) 0 b2 N2 eq_refl) as (C1 & C2 & C3 & C4 & C5 & C6); [intros i g Hi; lia|]. fold o3 in C1, C2, C3, C4, C5, C6.
  exists (o1 ++ o2 ++ o3). split.
  { intros l Hl. rewrite app_assoc in Hl. apply in_app_or in Hl. destruct Hl as [Hl|Hl]; [now apply OWN|]. unfold o3, starts in Hl. apply in_map_iff in Hl. now destruct Hl as (i & <- & _). }
  cbv zeta. assert (E3 : x_run (new_auto conf) (ls ++ o1 ++ o2 ++ o3) = x_run b2 o3) by (rewrite !x_run_app; reflexivity).
  assert (LK := links_run conf (ls ++ o1 ++ o2 ++ o3)). assert (TD := told_run conf (ls ++ o1 ++ o2 ++ o3)). assert (AW := aware_run conf (ls ++ o1 ++ o2 ++ o3)). rewrite E3 in *. set (b := x_run b2 o3) in *.
  split; [unfold taken; now rewrite C3, B3|]. split; [unfold in_channel; now rewrite C4, B1|]. split; [unfold due_out, handed, taken; now rewrite C3, B4, A3, map_app|].
  intros e He (d & f & sl & Ed & Ef). destruct LK as (LK & _). assert (I : In (OfSched (e_obj e)) (launched b)).
  { assert (X : In (OfSched (e_obj e)) (launched b ++ in_channel b)) by (rewrite LK; now apply (in_map (fun e => OfSched (e_obj e)))). unfold in_channel in X. rewrite C4, B1, app_nil_r in X. exact X. }
  apply filter_In in I. destruct I as (I & _). apply in_map_iff in I. destruct I as (g & Eg & Ig). assert (Ig' := Ig). apply In_nth_error in Ig'. destruct Ig' as (i & Ei).
  assert (Ag : acting g = true). { apply (C1 i g); [|exact Ei|now rewrite Eg]. assert (i < length (x_gos b))%nat by (apply nth_error_Some; congruence). lia. }
  destruct AW as (AW & _). destruct (TD g d f sl Ig Ag ltac:(rewrite (AW g (e_obj e) Ig Eg); exact Ed) Ef) as (c & Ic & Ec). exists c. split; [exact Ic|congruence].
Qed.

(* Where calls come from. *)
Lemma sourced conf ls : let a := x_run (new_auto conf) ls in
  (forall e, In e (s_made (x_sched a)) -> exists ls1 l ls2 df, ls = ls1 ++ l :: ls2 /\ sets_up (x_run (new_auto conf) ls1) l df (OfSched (e_obj e))) /\
  (forall n, (n < x_lone a)%nat -> exists ls1 l ls2 df, ls = ls1 ++ l :: ls2 /\ sets_up (x_run (new_auto conf) ls1) l df (Lone n)).
Proof.
  cbv zeta. induction ls as [|l ls (A & B)] using rev_ind; [split; [contradiction|cbn; lia]|]. rewrite x_run_snoc. set (a := x_run (new_auto conf) ls) in *.
  assert (A' : forall e, In e (s_made (x_sched a)) -> exists ls1 l' ls2 df, ls ++ [l] = ls1 ++ l' :: ls2 /\ sets_up (x_run (new_auto conf) ls1) l' df (OfSched (e_obj e))).
  { intros e He. destruct (A e He) as (ls1 & l' & ls2 & df & -> & S). exists ls1, l', (ls2 ++ [l]), df. split; [now rewrite <- app_assoc|exact S]. }
  assert (B' : forall n, (n < x_lone a)%nat -> exists ls1 l' ls2 df, ls ++ [l] = ls1 ++ l' :: ls2 /\ sets_up (x_run (new_auto conf) ls1) l' df (Lone n)).
  { intros n Hn. destruct (B n Hn) as (ls1 & l' & ls2 & df & -> & S). exists ls1, l', (ls2 ++ [l]), df. split; [now rewrite <- app_assoc|exact S]. }
  assert (SC : forall e, In e (s_made (x_sched (x_step a l))) -> In e (s_made (x_sched a)) \/ exists df, sets_up a l df (OfSched (e_obj e))).
  { intros e. destruct l as [args|f sl|sl i v|t df|t| |t df now|i now|i|i]; try (unfold x_step; destruct (x_dead a); auto; fail).
    - unfold x_step. destruct (x_dead a); auto. destruct (Nat.ltb _ _); auto.
    - cbn [sets_up]. unfold x_step. destruct (x_dead a); auto. destruct (_ && _) eqn:C; auto. apply andb_true_iff in C. destruct C as (C & _). destruct (t_step1 _ t) as [s'|] eqn:E; auto.
      cbn [x_sched]. destruct (create_made _ _ _ E C) as (e' & -> & _). intros He. apply in_app_or in He. destruct He as [He|[<-|[]]]; auto. right. exists df. split; [reflexivity|]. exists e'. auto.
    - unfold x_step. destruct (x_dead a); auto. destruct t; try (destruct (a_create _) eqn:C; auto; cbn [x_sched with_sched]; rewrite other_made' by reflexivity; auto; fail); try (cbn; auto; fail).
      destruct (_ <? _); auto. destruct (take i _) as [[[e' r] rest]|] eqn:E; auto. cbn [x_sched]. rewrite other_made' by reflexivity. auto.
    - unfold x_step. destruct (x_dead a); auto. destruct (x_chan a) as [|[]]; auto.
    - unfold x_step. destruct (x_dead a); auto. destruct (_ && _); auto.
    - unfold x_step. destruct (x_dead a); auto. destruct (nth_error (x_gos a) i) as [g|]; auto. destruct (g_stage g); auto. destruct (match g_src g with OfSched _ => true | Lone _ => _ end); auto.
      unfold begin. destruct (g_df g) as [d|]; auto. destruct (nth_error (x_funcs a) d) as [[[f|] sl]|]; auto.
    - unfold x_step. destruct (x_dead a); auto. destruct (nth_error (x_gos a) i) as [g|]; auto. destruct (g_stage g); auto.
    - unfold x_step. destruct (x_dead a); auto. destruct (nth_error (x_gos a) i) as [g|]; auto. destruct (g_stage g); auto. }
  assert (LC : forall n, (n < x_lone (x_step a l))%nat -> (n < x_lone a)%nat \/ exists df, sets_up a l df (Lone n)).
  { intros n. destruct l as [args|f sl|sl i v|t df|t| |t df now|i now|i|i]; try (unfold x_step; destruct (x_dead a); auto; fail).
    - unfold x_step. destruct (x_dead a); auto. destruct (Nat.ltb _ _); auto.
    - unfold x_step. destruct (x_dead a); auto. destruct (_ && _) eqn:C; auto. destruct (t_step1 _ t) as [s'|] eqn:E; auto.
    - unfold x_step. destruct (x_dead a); auto. destruct t; try (destruct (a_create _) eqn:C; auto; fail); try (cbn; auto; fail). destruct (_ <? _); auto. destruct (take i _) as [[[e' r] rest]|] eqn:E; auto.
    - unfold x_step. destruct (x_dead a); auto. destruct (x_chan a) as [|[]]; auto.
    - cbn [sets_up]. unfold x_step. destruct (x_dead a); auto. destruct (_ && _); auto. cbn [x_lone]. intros Hn. destruct (Nat.eq_dec n (x_lone a)) as [->|]; [|left; lia]. right. exists df. auto.
    - unfold x_step. destruct (x_dead a); auto. destruct (nth_error (x_gos a) i) as [g|]; auto. destruct (g_stage g); auto. destruct (match g_src g with OfSched _ => true | Lone _ => _ end); auto.
      unfold begin. destruct (g_df g) as [d|]; auto. destruct (nth_error (x_funcs a) d) as [[[f|] sl]|]; auto.
    - unfold x_step. destruct (x_dead a); auto. destruct (nth_error (x_gos a) i) as [g|]; auto. destruct (g_stage g); auto.
    - unfold x_step. destruct (x_dead a); auto. destruct (nth_error (x_gos a) i) as [g|]; auto. destruct (g_stage g); auto. }
  split.
  - intros e He. destruct (SC e He) as [X|(df & X)]; [now apply A'|]. exists ls, l, [], df. split; [reflexivity|exact X].
  - intros n Hn. destruct (LC n Hn) as [X|(df & X)]; [now apply B'|]. exists ls, l, [], df. split; [reflexivity|exact X].
Qed.

(* Panics. *)
Lemma panic_step a b l : all_but_log a = all_but_log b -> all_but_log (x_step a l) = all_but_log (x_step b (no_panic l)).
Proof.
  destruct a as [s1 d1 f1 sl1 c1 g1 n1 e1 k1 b1], b as [s2 d2 f2 sl2 c2 g2 n2 e2 k2 b2]. unfold all_but_log. cbn [x_sched x_df x_funcs x_slices x_chan x_gos x_lone x_dead x_begun]. intros E.
  assert (E' : s1 = s2 /\ d1 = d2 /\ f1 = f2 /\ sl1 = sl2 /\ c1 = c2 /\ g1 = g2 /\ n1 = n2 /\ k1 = k2 /\ b1 = b2) by (repeat apply pair_equal_spec in E as [E ?]; subst; auto 10).
  destruct E' as (-> & -> & -> & -> & -> & -> & -> & -> & ->). clear E. unfold x_step. cbn [x_dead]. destruct k2; [reflexivity|].
  destruct l as [args|f sl|sl i v|t df|t| |t df now|i now|i|i]; cbn [no_panic x_slices x_sched x_chan x_gos x_funcs].
  - reflexivity.
  - destruct (Nat.ltb _ _); reflexivity.
  - reflexivity.
  - unfold known. cbn [x_funcs]. destruct (_ && _); [|reflexivity]. destruct (t_step1 s2 t); reflexivity.
  - destruct t; try (destruct (a_create _); reflexivity). destruct (_ <? _); [|reflexivity]. destruct (take i _) as [[[e r] rest]|]; reflexivity.
  - destruct c2 as [|[src df] rest]; reflexivity.
  - unfold known. cbn [x_funcs]. destruct (_ && _); reflexivity.
  - destruct (nth_error g2 i) as [g|]; [|reflexivity]. destruct (g_stage g); try reflexivity. destruct (match g_src g with OfSched _ => true | Lone _ => _ end); [|reflexivity].
    unfold begin. cbn [x_funcs]. destruct (g_df g) as [d|]; [|reflexivity]. destruct (nth_error f2 d) as [[[f|] sl]|]; reflexivity.
  - destruct (nth_error g2 i) as [g|]; [|reflexivity]. destruct (g_stage g); reflexivity.
  - destruct (nth_error g2 i) as [g|]; [|reflexivity]. destruct (g_stage g); reflexivity.
Qed.
Lemma panic_run ls : forall a b, all_but_log a = all_but_log b -> all_but_log (x_run a ls) = all_but_log (x_run b (map no_panic ls)).
Proof. induction ls as [|l ls IH]; intros a b E; [exact E|]. cbn. apply IH. now apply panic_step. Qed.

(* The channel. *)
Lemma chan_bound conf ls : Z.of_nat (length (x_chan (x_run (new_auto conf) ls))) <= 2048.
Proof.
  apply (x_inv (fun a => Z.of_nat (length (x_chan a)) <= 2048)); [cbn; lia|]. intros a l H. apply (step_cases (fun a => Z.of_nat (length (x_chan a)) <= 2048)); try (intros; exact H).
  - intros i e r rest -> L E. cbn [x_chan]. rewrite app_length. cbn [length]. lia.
  - intros src df rest -> E. cbn [x_chan]. rewrite E in H. cbn [length] in H. lia.
  - intros i now g -> E St W. apply (begin_cases a i g now (fun a => Z.of_nat (length (x_chan a)) <= 2048)); intros; exact H.
Qed.
Lemma unread conf ls : ~ In XReceive ls -> launched (x_run (new_auto conf) ls) = [].
Proof.
  induction ls as [|l ls IH] using rev_ind; intros N; [reflexivity|]. rewrite x_run_snoc. assert (I : launched (x_run (new_auto conf) ls) = []) by (apply IH; intros H; apply N; apply in_or_app; now left).
  set (a := x_run (new_auto conf) ls) in *. assert (Nl : l <> XReceive) by (intros ->; apply N; apply in_or_app; right; now left). unfold launched in *.
  assert (G : forall i g g', nth_error (x_gos a) i = Some g -> g_src g' = g_src g -> filter of_sched (map g_src (set_nth i g' (x_gos a))) = []) by (intros i g g' Hg Eg; rewrite (set_nth_map g_src i g' g); auto).
  apply (step_cases (fun a => filter of_sched (map g_src (x_gos a)) = [])); try (intros; exact I); try congruence.
  - intros t df now -> C K. cbn [x_gos]. rewrite map_app, filter_app, I. reflexivity.
  - intros i now g -> E St W. apply (begin_cases a i g now (fun a => filter of_sched (map g_src (x_gos a)) = [])); try (intros; exact I); intros; now apply (G i g).
  - intros i g errs Hl E St. now apply (G i g).
Qed.

(* Order of the hand-outs. *)
Definition later (x y : entry * Z) : Prop := snd x <= snd y.
Definition in_order (t : timed) : Prop :=
  StronglySorted later (s_sent (t_sched t)) /\ Forall (fun x => snd x <= t_now t) (s_sent (t_sched t)) /\
  exists r, r <= t_now t /\ Forall (fun x => snd x = r) (s_polled (t_sched t)) /\ (s_polled (t_sched t) <> [] -> Forall (fun x => snd x <= r) (s_sent (t_sched t))).
Lemma sorted_snoc l x : StronglySorted later l -> Forall (fun y => later y x) l -> StronglySorted later (l ++ [x]).
Proof.
  induction l as [|y l IH]; intros S F; [repeat constructor|]. cbn. inversion S; subst. inversion F; subst. constructor; [now apply IH|]. apply Forall_app. split; [assumption|]. repeat constructor. assumption.
Qed.
Lemma in_order_same s s' now due last due' last' : in_order (Timed s now due last) -> s_sent s' = s_sent s -> s_polled s' = s_polled s -> in_order (Timed s' now due' last').
Proof. unfold in_order. cbn. intros H -> ->. exact H. Qed.
Lemma create_polled s due clock s' : create s due clock = Some s' -> s_polled s' = s_polled s.
Proof. unfold create. destruct (s_cancel s); [discriminate|]. destruct (add_timer _ _ _); [|discriminate]. now intros [= <-]. Qed.
Lemma polled_step s t s' : t_step1 s t = Some s' -> (forall i, t <> PollSend i) -> (forall n, t <> Poll n) -> s_polled s' = s_polled s.
Proof.
  intros E N N'. destruct t; cbn [t_step1] in E; try (unfold with_wheels in E; destruct (at_wheel _ _ _); [|discriminate]; now injection E as <-).
  - now apply create_polled in E.
  - now apply create_polled in E.
  - destruct (s_cancel s); [discriminate|]. now injection E as <-.
  - destruct (s_cancel s) as [[id k]|]; [|discriminate]. destruct (Nat.ltb _ _); [destruct (at_wheel _ _ _); [|discriminate]|]; now injection E as <-.
  - now destruct (N' now).
  - now destruct (N i).
Qed.
Lemma in_order_step late gap t l : 0 <= t_now t -> in_order t -> in_order (tm_step late gap t l).
Proof.
  intros Hn H. assert (H' := H). destruct H' as (A & B & r & R1 & R2 & R3). destruct l as [d|l]; cbn [tm_step].
  - destruct (_ && _) eqn:E; [|exact H]. rewrite !andb_true_iff in E. destruct E as ((((E1 & _) & _) & _) & _). split; [exact A|]. cbn. split; [|exists r; split; [lia|split; [exact R2|exact R3]]].
    eapply Forall_impl; [|exact B]. cbn. intros x Hx. lia.
  - destruct (t_step1 _ _) as [s'|] eqn:E; [|exact H]. destruct t as [s now due last]. cbn [t_sched t_now t_due t_last] in *.
    assert (SAME : s_sent s' = s_sent s -> s_polled s' = s_polled s -> forall due' last', in_order (Timed s' now due' last')) by (intros X Y due' last'; now apply (in_order_same s s' now due last)).
    destruct l; cbn [stamp] in E; try (apply SAME; [now apply (sent_step _ _ _ E)|now apply (polled_step _ _ _ E)]).
    + cbn [t_step1] in E. destruct (s_polled s) eqn:Ep; [|discriminate]. destruct (poll_leaf _ _) as [[es ws]|]; [|discriminate]. injection E as <-. split; [exact A|]. split; [exact B|]. exists now. cbn.
      split; [lia|]. split; [|auto]. apply Forall_forall. intros x Hx. apply in_map_iff in Hx. now destruct Hx as (e & <- & _).
    + cbn [t_step1] in E. destruct (take i (s_polled s)) as [[x rest]|] eqn:Et; [|discriminate]. injection E as <-. assert (P := take_perm _ _ _ _ Et).
      assert (Rx : snd x = r) by (rewrite Forall_forall in R2; apply R2; apply (Permutation_in _ (Permutation_sym P)); now left).
      assert (R3' : Forall (fun x => snd x <= r) (s_sent s)) by (apply R3; intros Q; rewrite Q in P; now apply Permutation_nil in P).
      split; [|split; [|exists r; split; [exact R1|split]]]; cbn.
      * apply sorted_snoc; [exact A|]. eapply Forall_impl; [|exact R3']. unfold later. intros y Hy. lia.
      * apply Forall_app. split; [exact B|]. repeat constructor. lia.
      * apply Forall_forall. intros y Hy. rewrite Forall_forall in R2. apply R2. apply (Permutation_in _ (Permutation_sym P)). now right.
      * intros _. apply Forall_app. split; [exact R3'|]. repeat constructor. lia.
Qed.
Lemma sorted_before l : StronglySorted later l -> forall x y, In x l -> In y l -> snd x < snd y -> before l x y.
Proof.
  induction l as [|z l IH]; intros S x y Hx Hy L; [contradiction|]. inversion S as [|? ? S' F]; subst. destruct Hx as [->|Hx].
  - destruct Hy as [->|Hy]; [lia|]. apply in_split in Hy. destruct Hy as (v & w & ->). exists [], v, w. reflexivity.
  - destruct Hy as [->|Hy]; [rewrite Forall_forall in F; specialize (F x Hx); unfold later in F; lia|]. destruct (IH S' x y Hx Hy L) as (u & v & w & ->). exists (z :: u), v, w. reflexivity.
Qed.

Definition readings (t : timed) : Prop := 0 <= t_now t /\ Forall (fun x => 0 <= snd x) (s_sent (t_sched t) ++ s_polled (t_sched t)).
Lemma readings_step late gap t l : readings t -> readings (tm_step late gap t l).
Proof.
  intros H. assert (H' := H). destruct H' as (A & B). destruct l as [d|l]; cbn [tm_step].
  - destruct (_ && _) eqn:E; [|exact H]. rewrite !andb_true_iff in E. destruct E as ((((E1 & _) & _) & _) & _). split; [cbn; lia|exact B].
  - destruct (t_step1 _ _) as [s'|] eqn:E; [|exact H]. split; [exact A|]. cbn [t_sched].
    destruct l; cbn [stamp] in E; try (rewrite (sent_step _ _ _ E), (polled_step _ _ _ E) by (intros; discriminate); exact B); cbn [t_step1] in E.
    + destruct (s_polled (t_sched t)) eqn:Ep; [|discriminate]. destruct (poll_leaf _ _) as [[es ws]|]; [|discriminate]. injection E as <-. cbn. rewrite app_nil_r in B. apply Forall_app. split; [exact B|].
      apply Forall_forall. intros x Hx. apply in_map_iff in Hx. now destruct Hx as (e & <- & _).
    + destruct (take i _) as [[x rest]|] eqn:Et; [|discriminate]. injection E as <-. cbn. rewrite <- app_assoc. assert (P := take_perm _ _ _ _ Et). rewrite Forall_forall in *. intros y Hy. apply B. apply in_app_or in Hy. apply in_or_app.
      destruct Hy as [Hy|Hy]; [now left|right]. apply (Permutation_in _ (Permutation_sym P)). exact Hy.
Qed.
Lemma ordered_run late gap ls : forall t, readings t -> in_order t -> readings (tm_run late gap t ls) /\ in_order (tm_run late gap t ls).
Proof.
  induction ls as [|l ls IH]; intros t R O; [now split|]. cbn [tm_run fold_left]. apply IH; [now apply readings_step|]. apply in_order_step; [now destruct R|exact O].
Qed.

Lemma far_apart late gap now0 due p1 l1 e1 q1 p2 l2 e2 q2 r2 : 0 <= late -> 0 <= gap -> 0 <= now0 -> first_ticks late hms now0 due ->
  p1 ++ Do l1 :: q1 = p2 ++ Do l2 :: q2 -> tm_creations (p1 ++ Do l1 :: q1) <= 2 ^ 32 ->
  let t1 := tm_run late gap (tm_start hms now0 due) p1 in
  let t2 := tm_run late gap (tm_start hms now0 due) p2 in
  let t := tm_run late gap (tm_start hms now0 due) (p1 ++ Do l1 :: q1) in
  let latest := Z.max (requested (t_now t1) l1) (t_now t1) + 999999 + 60 * late + gap in
  tm_makes late gap t1 l1 e1 -> fits (requested (t_now t1) l1) -> ~ In (Do (CancelStart (e_id e1))) q1 ->
  tm_makes late gap t2 l2 e2 -> fits (requested (t_now t2) l2) ->
  latest + 100000000 <= requested (t_now t2) l2 -> In (e2, r2) (s_sent (t_sched t)) ->
  exists r1, before (s_sent (t_sched t)) (e1, r1) (e2, r2).
Proof.
  intros Hl Hg Hn Hf Eq Cr t1 t2 t latest M1 F1 NC M2 F2 Far In2.
  destruct (ordered_run late gap (p1 ++ Do l1 :: q1) (tm_start hms now0 due)) as ((_ & RD) & (SS & LE & _)).
  { split; [exact Hn|constructor]. } { split; [constructor|]. split; [constructor|]. exists now0. cbn. split; [lia|]. split; [constructor|auto]. }
  fold t in RD, SS, LE. rewrite Forall_forall in LE, RD.
  assert (R2 : 0 <= r2) by (apply (RD (e2, r2)); apply in_or_app; now left). assert (L2 : r2 <= t_now t) by (apply (LE (e2, r2)); exact In2).
  assert (Early : requested (t_now t2) l2 - r2 < 100000000).
  { destruct (tm_erase late gap (p1 ++ Do l1 :: q1) (tm_start hms now0 due)) as (u & U & _). fold t in U. cbn [t_sched tm_start] in U.
    destruct (ripe_run hms u) as (_ & R). rewrite <- U in R. specialize (R _ In2). unfold ripe in R. cbn [fst snd] in R.
    set (l' := stamp (t_now t2) (length (s_wheels (t_sched t2))) l2). destruct M2 as (C2 & M2).
    assert (M' : makes (t_sched t2) l' e2).
    { split; [unfold l'; now destruct l2|]. rewrite <- M2. unfold t_step, l'. cbn [tm_step]. now destruct (t_step1 _ _). }
    assert (Rq : requested (call_time l') l' = requested (t_now t2) l2) by (unfold l'; destruct l2; try discriminate C2; reflexivity).
    destruct (makes_due _ _ _ M') as (D & _); [now rewrite Rq|]. rewrite Rq in D. rewrite D in R. unfold unix_milli in R. assert (X := quot_slack (requested (t_now t2) l2)).
    rewrite (Z.quot_div_nonneg r2) in R by lia. assert (Y := Z.mul_div_le r2 1000000 ltac:(lia)). lia. }
  destruct (in_time_handed late gap 60 hms now0 due p1 l1 e1 q1 Hl Hg ltac:(lia) Hn ltac:(repeat constructor; cbn; lia) Hf Cr M1 F1 NC) as (r1 & In1 & Le1).
  { fold t1 t. unfold latest in Far. lia. }
  fold t1 t in In1, Le1. exists r1. apply sorted_before; auto. cbn [snd]. unfold latest in Far. lia.
Qed.

(* Proofs for C79. *)
From Coq Require Import ZArith List Bool Lia Permutation.
From Verif Require Import Bytes TimeWheel Spec_TimeWheel TimeWheel_proofs TimeWheel2_proofs AutoExec Spec_AutoExec.
Import ListNotations.
Local Open Scope Z_scope.

Lemma x_run_snoc a ls l : x_run a (ls ++ [l]) = x_step (x_run a ls) l.
Proof. unfold x_run. now rewrite fold_left_app. Qed.
Lemma x_run_app a u v : x_run a (u ++ v) = x_run (x_run a u) v.
Proof. unfold x_run. now rewrite fold_left_app. Qed.

Lemma x_inv (P : auto -> Prop) a0 : P a0 -> (forall a l, P a -> P (x_step a l)) -> forall ls, P (x_run a0 ls).
Proof. intros H0 Hs ls. revert a0 H0. induction ls as [|l ls IH]; intros a0 H0; [exact H0|]. cbn. apply IH. now apply Hs. Qed.

Lemma set_nth_in {A} i (x y : A) l : In y (set_nth i x l) -> y = x \/ In y l.
Proof.
  unfold set_nth. destruct (nth_error l i); [|auto]. intros H. apply in_app_or in H. destruct H as [H|[H|H]]; [right|auto|right].
  - rewrite <- (firstn_skipn i l). apply in_or_app. now left.
  - rewrite <- (firstn_skipn (S i) l). apply in_or_app. now right.
Qed.
Lemma split_nth {A} (l : list A) : forall i y, nth_error l i = Some y -> l = firstn i l ++ y :: skipn (S i) l.
Proof. induction l as [|z l IH]; intros [|i] y; cbn; try discriminate; [now intros [= ->]|]. intros H. f_equal. now apply IH. Qed.
Lemma set_nth_split {A} (l : list A) i x y : nth_error l i = Some y -> exists u v, l = u ++ y :: v /\ set_nth i x l = u ++ x :: v /\ length u = i.
Proof.
  intros H. exists (firstn i l), (skipn (S i) l). unfold set_nth. rewrite H. split; [now apply split_nth|]. split; [reflexivity|].
  rewrite firstn_length. assert (i < length l)%nat by (apply nth_error_Some; congruence). lia.
Qed.
Lemma set_nth_map {A B} (f : A -> B) i x y l : nth_error l i = Some y -> f x = f y -> map f (set_nth i x l) = map f l.
Proof. intros H E. destruct (set_nth_split l i x y H) as (u & v & -> & -> & _). rewrite !map_app. cbn. now rewrite E. Qed.
Lemma set_nth_length {A} i (x : A) l : length (set_nth i x l) = length l.
Proof. unfold set_nth. destruct (nth_error l i) eqn:E; [|reflexivity]. rewrite app_length. cbn [length]. rewrite firstn_length, skipn_length. assert (i < length l)%nat by (apply nth_error_Some; congruence). lia. Qed.
Lemma set_nth_other {A} i j (x d : A) l : i <> j -> nth j (set_nth i x l) d = nth j l d.
Proof.
  intros N. unfold set_nth. destruct (nth_error l i) as [y|] eqn:E; [|reflexivity]. rewrite (split_nth l i y E) at 3.
  assert (Lf : length (firstn i l) = i) by (rewrite firstn_length; assert (i < length l)%nat by (apply nth_error_Some; congruence); lia).
  destruct (Nat.lt_ge_cases j i).
  - rewrite !app_nth1 by lia. reflexivity.
  - rewrite !app_nth2 by lia. rewrite Lf. destruct (j - i)%nat eqn:Ej; [lia|]. reflexivity.
Qed.

(* The scheduler inside is a scheduler. *)
Lemma sched_step a l : x_sched (x_step a l) = x_sched a \/ exists t s', t_step1 (x_sched a) t = Some s' /\ x_sched (x_step a l) = s'.
Proof.
  unfold x_step. destruct (x_dead a); [now left|].
  assert (W : forall t, x_sched (with_sched a (t_step (x_sched a) t)) = x_sched a \/ exists t0 s', t_step1 (x_sched a) t0 = Some s' /\ x_sched (with_sched a (t_step (x_sched a) t)) = s').
  { intros t. cbn. unfold t_step. destruct (t_step1 (x_sched a) t) as [s'|] eqn:E; [right; eauto|now left]. }
  destruct l as [args|f sl|sl i v|t df|t| |t df now|i now|i|i].
  - now left.
  - destruct (Nat.ltb _ _); now left.
  - now left.
  - destruct (_ && _); [|now left]. destruct (t_step1 _ t) as [s'|] eqn:E; [|now left]. right. exists t, s'. auto.
  - destruct t; try (destruct (a_create _); [now left|apply W]).
    destruct (_ <? _); [|now left]. destruct (take i _) as [[[e r] rest]|] eqn:E; [|now left]. cbn [x_sched]. right. exists (PollSend i). unfold t_step.
    destruct (t_step1 _ _) as [s'|] eqn:Es; [eauto|]. cbn in Es. rewrite E in Es. discriminate.
  - destruct (x_chan a) as [|[src df] rest]; now left.
  - destruct (_ && _); now left.
  - destruct (nth_error (x_gos a) i) as [g|]; [|now left]. destruct (g_stage g); try now left. destruct (match g_src g with OfSched _ => true | Lone _ => _ end); [|now left].
    unfold begin. destruct (g_df g) as [d|]; [|now left]. destruct (nth_error (x_funcs a) d) as [[[f|] sl]|]; now left.
  - destruct (nth_error (x_gos a) i) as [g|]; [|now left]. destruct (g_stage g); now left.
  - destruct (nth_error (x_gos a) i) as [g|]; [|now left]. destruct (g_stage g); now left.
Qed.

Lemma x_once conf ls : once (x_sched (x_run (new_auto conf) ls)).
Proof.
  apply (x_inv (fun a => once (x_sched a))); [apply once_new|]. intros a l O. destruct (sched_step a l) as [->|(t & s' & E & ->)]; [exact O|]. now apply (once_step _ _ _ O E).
Qed.

(* Goroutines and the channel hold exactly what was handed out, in order; lone timers are numbered. *)
Definition lone_no (s : source) : list nat := match s with Lone n => [n] | _ => [] end.
Definition links (a : auto) : Prop :=
  launched a ++ in_channel a = map (fun e => OfSched (e_obj e)) (due_out a) /\
  flat_map lone_no (map g_src (x_gos a)) = seq 0 (x_lone a).

Lemma create_sent s due clock s' : create s due clock = Some s' -> s_sent s' = s_sent s.
Proof. unfold create. destruct (s_cancel s); [discriminate|]. destruct (add_timer _ _ _); [|discriminate]. now intros [= <-]. Qed.
Lemma sent_step s t s' : t_step1 s t = Some s' -> (forall i, t <> PollSend i) -> s_sent s' = s_sent s.
Proof.
  intros E N. destruct t; cbn [t_step1] in E; try (unfold with_wheels in E; destruct (at_wheel _ _ _); [|discriminate]; now injection E as <-).
  - now apply create_sent in E.
  - now apply create_sent in E.
  - destruct (s_cancel s); [discriminate|]. now injection E as <-.
  - destruct (s_cancel s) as [[id k]|]; [|discriminate]. destruct (Nat.ltb _ _); [destruct (at_wheel _ _ _); [|discriminate]|]; now injection E as <-.
  - destruct (s_polled s); [|discriminate]. destruct (poll_leaf _ _) as [[es ws]|]; [|discriminate]. now injection E as <-.
  - now destruct (N i).
Qed.
Lemma sent_step' s t : (forall i, t <> PollSend i) -> s_sent (t_step s t) = s_sent s.
Proof. intros N. unfold t_step. destruct (t_step1 s t) eqn:E; [now apply (sent_step _ _ _ E)|reflexivity]. Qed.
Lemma polled_send s i x rest : take i (s_polled s) = Some (x, rest) -> t_step s (PollSend i) = Sched (s_wheels s) (s_idgen s) (s_cancel s) rest (s_sent s ++ [x]) (s_made s).
Proof. intros E. unfold t_step. cbn [t_step1]. now rewrite E. Qed.

Lemma links_step a l : links a -> links (x_step a l).
Proof.
  intros (A & B). unfold links, launched, in_channel, due_out, handed in *. unfold x_step. destruct (x_dead a); [now split|].
  assert (G : forall i g g', nth_error (x_gos a) i = Some g -> g_src g' = g_src g -> map g_src (set_nth i g' (x_gos a)) = map g_src (x_gos a)).
  { intros i g g' Hg E. apply (set_nth_map g_src i g' g); auto. }
  assert (W : forall t, (forall i, t <> PollSend i) -> map fst (s_sent (t_step (x_sched a) t)) = map fst (s_sent (x_sched a))) by (intros t N; now rewrite sent_step').
  destruct l as [args|f sl|sl i v|t df|t| |t df now|i now|i|i].
  - now split.
  - destruct (Nat.ltb _ _); now split.
  - now split.
  - destruct (_ && _) eqn:C; [|now split]. apply andb_true_iff in C. destruct C as (C & _). destruct (t_step1 _ t) as [s'|] eqn:E; [|now split]. cbn. rewrite (sent_step _ _ _ E); [now split|]. intros i ->. discriminate.
  - destruct t; try (destruct (a_create _); [now split|]; unfold with_sched; cbn; rewrite W by discriminate; now split).
    destruct (_ <? _); [|now split]. destruct (take i _) as [[[e r] rest]|] eqn:E; [|now split]. cbn [x_sched x_gos x_chan x_lone]. rewrite (polled_send _ _ _ _ E). cbn [s_sent].
    split; [|exact B]. rewrite !map_app, app_assoc, A. reflexivity.
  - destruct (x_chan a) as [|[src df] rest] eqn:E; [now split; rewrite ?E|]. cbn [x_sched x_gos x_chan x_lone].
    assert (S : exists o, src = OfSched o).
    { assert (I : In src (map (fun e => OfSched (e_obj e)) (map fst (s_sent (x_sched a))))) by (rewrite <- A; apply in_or_app; right; now left). apply in_map_iff in I. destruct I as (x & <- & _). eauto. }
    destruct S as (o & ->). rewrite !map_app, filter_app, flat_map_app. cbn. rewrite app_nil_r. split; [|exact B]. now rewrite <- app_assoc.
  - destruct (_ && _); [|now split]. cbn [x_sched x_gos x_chan x_lone]. rewrite !map_app, filter_app, flat_map_app. cbn [filter map of_sched flat_map lone_no g_src]. rewrite app_nil_r. split; [exact A|].
    rewrite B. cbn [app]. now rewrite seq_S.
  - destruct (nth_error (x_gos a) i) as [g|] eqn:Eg; [|now split]. destruct (g_stage g); try now split. destruct (match g_src g with OfSched _ => true | Lone _ => _ end); [|now split].
    unfold begin. destruct (g_df g) as [d|] eqn:Ed; [|now split]. destruct (nth_error (x_funcs a) d) as [[[f|] sl]|]; [| |now split]; cbn [x_sched x_gos x_chan x_lone]; rewrite (G i g); auto; now split.
  - destruct (nth_error (x_gos a) i) as [g|] eqn:Eg; [|now split]. destruct (g_stage g); try now split. unfold with_gos. cbn [x_sched x_gos x_chan x_lone]. rewrite (G i g); auto; now split.
  - destruct (nth_error (x_gos a) i) as [g|] eqn:Eg; [|now split]. destruct (g_stage g); try now split. cbn [x_sched x_gos x_chan x_lone]. rewrite (G i g); auto; now split.
Qed.
Lemma links_run conf ls : links (x_run (new_auto conf) ls).
Proof. apply x_inv; [now split|apply links_step]. Qed.

(* No two goroutines are for the same timer. *)
Lemma nodup_sources conf ls : let a := x_run (new_auto conf) ls in NoDup (map g_src (x_gos a) ++ in_channel a).
Proof.
  intros a. destruct (links_run conf ls) as (A & B). fold a in A, B. destruct (x_once conf ls) as (M & N & _). fold a in M, N.
  assert (S : NoDup (launched a ++ in_channel a)).
  { rewrite A. unfold everywhere in N. rewrite !map_app in N. apply nodup_app_r, nodup_app_r in N. unfold due_out.
    rewrite <- (map_map e_obj OfSched). apply FinFun.Injective_map_NoDup; [intros x y; now intros [= ->]|exact N]. }
  assert (C : forall x, In x (in_channel a) -> of_sched x = true).
  { intros x Hx. assert (I : In x (map (fun e => OfSched (e_obj e)) (due_out a))) by (rewrite <- A; apply in_or_app; now right). apply in_map_iff in I. now destruct I as (y & <- & _). }
  unfold launched in S. assert (L : NoDup (flat_map lone_no (map g_src (x_gos a)))) by (rewrite B; apply seq_NoDup). clear - S C L.
  revert S C L. generalize (in_channel a) as ch. generalize (map g_src (x_gos a)) as gs. induction gs as [|g gs IH]; intros ch S C L; [exact S|]. cbn in *. destruct g as [o|n]; cbn in *.
  - inversion S; subst. constructor; [|now apply IH]. intros I. apply in_app_or in I. apply H1. apply in_or_app. destruct I as [I|I]; [left; apply filter_In; now split|now right].
  - inversion L; subst. constructor; [|now apply IH]. intros I. apply in_app_or in I. destruct I as [I|I]; [apply H1; apply in_flat_map; exists (Lone n); cbn; auto|now specialize (C _ I)].
Qed.

(* What was called: goroutines that are past Waiting. *)
Definition acting (g : gor) : bool := match g_stage g with Waiting => false | _ => true end.
Definition begun_ok (a : auto) : Prop :=
  NoDup (map c_src (x_begun a)) /\ forall c, In c (x_begun a) -> exists g, In g (x_gos a) /\ g_src g = c_src c /\ acting g = true.

Lemma set_other a i g g' h : nth_error (x_gos a) i = Some g -> In h (x_gos a) -> g_src h <> g_src g -> In h (set_nth i g' (x_gos a)).
Proof.
  intros E I N. destruct (set_nth_split (x_gos a) i g' g E) as (u & v & E1 & -> & _). rewrite E1 in I. apply in_app_or in I. apply in_or_app. destruct I as [I|[->|I]]; [now left|congruence|right; now right].
Qed.
Lemma src_inj a g h : NoDup (map g_src (x_gos a)) -> In g (x_gos a) -> In h (x_gos a) -> g_src g = g_src h -> g = h.
Proof.
  generalize (x_gos a) as l. induction l as [|x l IH]; [contradiction|]. cbn. intros N G H E. apply NoDup_cons_iff in N. destruct N as (N & N'). destruct G as [->|G], H as [->|H]; auto; exfalso; apply N; [rewrite E|rewrite <- E]; now apply in_map.
Qed.

Lemma begun_step a l : NoDup (map g_src (x_gos a)) -> begun_ok a -> begun_ok (x_step a l).
Proof.
  intros ND (N & B). unfold begun_ok in *. unfold x_step. destruct (x_dead a); [now split|].
  assert (ADD : forall g', forall c, In c (x_begun a) -> exists g, In g (x_gos a ++ [g']) /\ g_src g = c_src c /\ acting g = true).
  { intros g' c Hc. destruct (B c Hc) as (g & I & R). exists g. split; [apply in_or_app; now left|exact R]. }
  assert (UPD : forall i g g', nth_error (x_gos a) i = Some g -> g_src g' = g_src g -> (acting g = true -> acting g' = true) ->
    forall c, In c (x_begun a) -> exists h, In h (set_nth i g' (x_gos a)) /\ g_src h = c_src c /\ acting h = true).
  { intros i g g' Hg Es Ha c Hc. destruct (B c Hc) as (h & I & E & T). assert (Ig : In g' (set_nth i g' (x_gos a))).
    { destruct (set_nth_split (x_gos a) i g' g Hg) as (u & v & _ & -> & _). apply in_or_app. right. now left. }
    assert (Dec : g_src h = g_src g \/ g_src h <> g_src g) by (repeat decide equality; apply Z.eq_dec). destruct Dec as [Q|Q].
    - assert (h = g) by (apply (src_inj a); auto; now apply nth_error_In in Hg). subst h. exists g'. rewrite Es. auto.
    - exists h. split; [now apply (set_other a i g)|auto]. }
  destruct l as [args|f sl|sl i v|t df|t| |t df now|i now|i|i].
  - now split.
  - destruct (Nat.ltb _ _); now split.
  - now split.
  - destruct (_ && _) eqn:C; [|now split]. destruct (t_step1 _ t) as [s'|] eqn:E; now split.
  - destruct t; try (destruct (a_create _); now split). destruct (_ <? _); [|now split]. destruct (take i _) as [[[e r] rest]|] eqn:E; now split.
  - destruct (x_chan a) as [|[src df] rest] eqn:E; [now split|]. cbn [x_begun x_gos]. split; [exact N|apply ADD].
  - destruct (_ && _); [|now split]. cbn [x_begun x_gos]. split; [exact N|apply ADD].
  - destruct (nth_error (x_gos a) i) as [g|] eqn:Eg; [|now split]. destruct (g_stage g) eqn:Es; try now split. destruct (match g_src g with OfSched _ => true | Lone _ => _ end); [|now split].
    unfold begin. destruct (g_df g) as [d|] eqn:Ed; [|now split]. destruct (nth_error (x_funcs a) d) as [[[f|] sl]|]; [| |now split]; cbn [x_begun x_gos].
    + set (g' := Gor _ _ _ Running). split.
      * rewrite map_app. cbn. apply (Permutation_NoDup (Permutation_cons_append _ _)). constructor; [|exact N]. intros I. apply in_map_iff in I. destruct I as (c & Ec & Ic).
        destruct (B c Ic) as (h & Ih & Eh & Th). assert (h = g) by (apply (src_inj a); auto; [now apply nth_error_In in Eg|congruence]). subst h. unfold acting in Th. now rewrite Es in Th.
      * intros c Hc. apply in_app_or in Hc. destruct Hc as [Hc|[<-|[]]]; [now apply (UPD i g g')|]. exists g'. split; [|split; reflexivity].
        destruct (set_nth_split (x_gos a) i g' g Eg) as (u & v & _ & -> & _). apply in_or_app. right. now left.
    + split; [exact N|]. now apply (UPD i g (ended g)).
  - destruct (nth_error (x_gos a) i) as [g|] eqn:Eg; [|now split]. destruct (g_stage g); try now split. cbn [x_begun x_gos with_gos]. split; [exact N|]. now apply (UPD i g (ended g)).
  - destruct (nth_error (x_gos a) i) as [g|] eqn:Eg; [|now split]. destruct (g_stage g); try now split. cbn [x_begun x_gos]. split; [exact N|]. now apply (UPD i g (ended g)).
Qed.
Lemma gos_nodup conf ls : NoDup (map g_src (x_gos (x_run (new_auto conf) ls))).
Proof. eapply nodup_app_l. apply nodup_sources. Qed.
Lemma begun_run conf ls : begun_ok (x_run (new_auto conf) ls).
Proof.
  induction ls as [|l ls IH] using rev_ind; [split; [constructor|contradiction]|]. rewrite x_run_snoc. apply begun_step; [apply gos_nodup|exact IH].
Qed.

(* Creations. *)
Lemma create_made s t s' : t_step1 s t = Some s' -> a_create t = true -> exists e, s_made s' = s_made s ++ [e] /\ e_obj e = Z.of_nat (length (s_made s)).
Proof.
  intros E C. assert (X : forall due clock, create s due clock = Some s' -> exists e, s_made s' = s_made s ++ [e] /\ e_obj e = Z.of_nat (length (s_made s))).
  { intros due clock. unfold create. destruct (s_cancel s); [discriminate|]. destruct (add_timer _ _ _); [|discriminate]. intros [= <-]. cbn. eexists. split; reflexivity. }
  destruct t; try discriminate; cbn [t_step1] in E; eauto.
Qed.
Lemma other_made s t s' : t_step1 s t = Some s' -> a_create t = false -> s_made s' = s_made s.
Proof.
  intros E C. destruct t; try discriminate; cbn [t_step1] in E; try (unfold with_wheels in E; destruct (at_wheel _ _ _); [|discriminate]; now injection E as <-).
  - destruct (s_cancel s); [discriminate|]. now injection E as <-.
  - destruct (s_cancel s) as [[id k]|]; [|discriminate]. destruct (Nat.ltb _ _); [destruct (at_wheel _ _ _); [|discriminate]|]; now injection E as <-.
  - destruct (s_polled s); [|discriminate]. destruct (poll_leaf _ _) as [[es ws]|]; [|discriminate]. now injection E as <-.
  - destruct (take _ _) as [[x r]|]; [|discriminate]. now injection E as <-.
Qed.
Lemma other_made' s t : a_create t = false -> s_made (t_step s t) = s_made s.
Proof. intros C. unfold t_step. destruct (t_step1 s t) eqn:E; [now apply (other_made _ _ _ E)|reflexivity]. Qed.

(* A disabled step; a goroutine reaching its function. *)
Lemma begin_cases a i g now (P : auto -> Prop) : P a ->
  (g_df g = None -> P (Auto (x_sched a) (x_df a) (x_funcs a) (x_slices a) (x_chan a) (x_gos a) (x_lone a) (x_errs a) true (x_begun a))) ->
  (forall d f sl, g_df g = Some d -> nth_error (x_funcs a) d = Some (DFunc (Some f) sl) ->
     P (Auto (x_sched a) (x_df a) (x_funcs a) (x_slices a) (x_chan a) (set_nth i (Gor (g_src g) (g_df g) (g_wake g) Running) (x_gos a)) (x_lone a)
           (x_errs a) (x_dead a) (x_begun a ++ [Call (g_src g) f (nth sl (x_slices a) []) now]))) ->
  (forall d sl, g_df g = Some d -> nth_error (x_funcs a) d = Some (DFunc None sl) ->
     P (Auto (x_sched a) (x_df a) (x_funcs a) (x_slices a) (x_chan a) (set_nth i (ended g) (x_gos a)) (x_lone a) (x_errs a ++ [g_src g]) (x_dead a) (x_begun a))) ->
  P (begin a i g now).
Proof.
  intros H0 H1 H2 H3. unfold begin. destruct (g_df g) as [d|] eqn:Ed; [|now apply H1]. destruct (nth_error (x_funcs a) d) as [[[f|] sl]|] eqn:Ef; [|eauto|exact H0].
  now apply (H2 d).
Qed.

Lemma step_cases (P : auto -> Prop) a l : P a ->
  (forall args, l = XSlice args -> P (Auto (x_sched a) (x_df a) (x_funcs a) (x_slices a ++ [args]) (x_chan a) (x_gos a) (x_lone a) (x_errs a) (x_dead a) (x_begun a))) ->
  (forall f sl, l = XFunc f sl -> (sl < length (x_slices a))%nat ->
     P (Auto (x_sched a) (x_df a) (x_funcs a ++ [DFunc f sl]) (x_slices a) (x_chan a) (x_gos a) (x_lone a) (x_errs a) (x_dead a) (x_begun a))) ->
  (forall sl i v, l = XWrite sl i v ->
     P (Auto (x_sched a) (x_df a) (x_funcs a) (set_nth sl (set_nth i v (nth sl (x_slices a) [])) (x_slices a)) (x_chan a) (x_gos a) (x_lone a) (x_errs a) (x_dead a) (x_begun a))) ->
  (forall t df s e, l = XCreate t df -> known a df = true -> t_step1 (x_sched a) t = Some s -> a_create t = true -> s_made s = s_made (x_sched a) ++ [e] -> e_obj e = Z.of_nat (length (s_made (x_sched a))) ->
     P (Auto s (x_df a ++ [df]) (x_funcs a) (x_slices a) (x_chan a) (x_gos a) (x_lone a) (x_errs a) (x_dead a) (x_begun a))) ->
  (forall t s, l = XWheel t -> t_step1 (x_sched a) t = Some s -> s_made s = s_made (x_sched a) -> s_sent s = s_sent (x_sched a) -> P (with_sched a s)) ->
  (forall i e r rest, l = XWheel (PollSend i) -> Z.of_nat (length (x_chan a)) < 2048 -> take i (s_polled (x_sched a)) = Some ((e, r), rest) ->
     P (Auto (t_step (x_sched a) (PollSend i)) (x_df a) (x_funcs a) (x_slices a) (x_chan a ++ [(OfSched (e_obj e), df_of a (e_obj e))]) (x_gos a) (x_lone a) (x_errs a) (x_dead a) (x_begun a))) ->
  (forall src df rest, l = XReceive -> x_chan a = (src, df) :: rest ->
     P (Auto (x_sched a) (x_df a) (x_funcs a) (x_slices a) rest (x_gos a ++ [Gor src df 0 Waiting]) (x_lone a) (x_errs a) (x_dead a) (x_begun a))) ->
  (forall t df now, l = XRun t df now -> a_create t = true -> known a df = true ->
     P (Auto (x_sched a) (x_df a) (x_funcs a) (x_slices a) (x_chan a) (x_gos a ++ [Gor (Lone (x_lone a)) df (wake_at (due_of t) now) Waiting]) (S (x_lone a)) (x_errs a) (x_dead a) (x_begun a))) ->
  (forall i now g, l = XBegin i now -> nth_error (x_gos a) i = Some g -> g_stage g = Waiting -> (forall n, g_src g = Lone n -> g_wake g <= now) -> P (begin a i g now)) ->
  (forall i g errs, l = XReturn i \/ l = XPanic i -> nth_error (x_gos a) i = Some g -> g_stage g = Running ->
     P (Auto (x_sched a) (x_df a) (x_funcs a) (x_slices a) (x_chan a) (set_nth i (ended g) (x_gos a)) (x_lone a) errs (x_dead a) (x_begun a))) ->
  P (x_step a l).
Proof.
  intros H0 Hs Hf Hw Hc Ht Hp Hr Hn Hb He. unfold x_step. destruct (x_dead a) eqn:Dd; [exact H0|]. rewrite <- Dd in *. clear Dd.
  assert (W : forall t, a_create t = false -> (forall i, t <> PollSend i) -> l = XWheel t -> P (with_sched a (t_step (x_sched a) t))).
  { intros t C N ->. unfold t_step. destruct (t_step1 (x_sched a) t) as [s|] eqn:E; [|destruct a; exact H0]. apply (Ht t s eq_refl E); [now apply (other_made _ _ _ E)|now apply (sent_step _ _ _ E)]. }
  destruct l as [args|f sl|sl i v|t df|t| |t df now|i now|i|i].
  - now apply Hs.
  - destruct (Nat.ltb_spec sl (length (x_slices a))); [|exact H0]. now apply Hf.
  - now apply Hw.
  - destruct (a_create t) eqn:C; [|exact H0]. destruct (known a df) eqn:K; [|exact H0]. cbn [andb]. destruct (t_step1 _ t) as [s'|] eqn:E; [|exact H0].
    destruct (create_made _ _ _ E C) as (e & M & O). now apply (Hc t df s' e).
  - destruct t; cbv beta iota delta [a_create]; try exact H0; try (apply W; [reflexivity|intros; discriminate|reflexivity]).
    unfold chan_cap. destruct (Z.ltb_spec (Z.of_nat (length (x_chan a))) 2048); [|exact H0]. destruct (take i _) as [[[e r] rest]|] eqn:E; [|exact H0]. now apply (Hp i e r rest).
  - destruct (x_chan a) as [|[src df] rest] eqn:E; [exact H0|]. now apply (Hr src df rest).
  - destruct (a_create t) eqn:C; [|exact H0]. destruct (known a df) eqn:K; [|exact H0]. cbn [andb]. now apply Hn.
  - destruct (nth_error (x_gos a) i) as [g|] eqn:Eg; [|exact H0]. destruct (g_stage g) eqn:Es; try exact H0.
    destruct (match g_src g with OfSched _ => true | Lone _ => g_wake g <=? now end) eqn:Ew; [|exact H0]. apply (Hb i now g); auto. intros n En. rewrite En in Ew. lia.
  - destruct (nth_error (x_gos a) i) as [g|] eqn:Eg; [|exact H0]. destruct (g_stage g) eqn:Es; try exact H0. apply (He i g (x_errs a)); auto.
  - destruct (nth_error (x_gos a) i) as [g|] eqn:Eg; [|exact H0]. destruct (g_stage g) eqn:Es; try exact H0. apply (He i g (x_errs a ++ [g_src g])); auto.
Qed.

(* A timer set up keeps its DelayFunc. *)
Definition tied (src : source) (df : option nat) (w : Z) (a : auto) : Prop :=
  (forall g, In g (x_gos a) -> g_src g = src -> g_df g = df /\ (of_sched src = false -> g_wake g = w)) /\
  (forall x, In x (x_chan a) -> fst x = src -> snd x = df /\ of_sched src = true) /\
  match src with OfSched o => (Z.to_nat o < length (x_df a))%nat /\ 0 <= o /\ nth (Z.to_nat o) (x_df a) None = df | Lone n => (n < x_lone a)%nat end.

Lemma tied_set src df w a i g g' : tied src df w a -> nth_error (x_gos a) i = Some g -> g_src g' = g_src g -> g_df g' = g_df g -> g_wake g' = g_wake g ->
  forall h, In h (set_nth i g' (x_gos a)) -> g_src h = src -> g_df h = df /\ (of_sched src = false -> g_wake h = w).
Proof.
  intros (T & _) E A B C h Hh Es. apply set_nth_in in Hh. destruct Hh as [->|Hh]; [|now apply T]. rewrite B, C. apply T; [now apply nth_error_In in E|congruence].
Qed.
Lemma tied_step src df w a l : (forall x, In x (in_channel a) -> of_sched x = true) -> tied src df w a -> tied src df w (x_step a l).
Proof.
  intros OK T. assert (T' := T). destruct T' as (T1 & T2 & T3). apply step_cases; try (intros; exact T).
  - intros t d s e -> K E C M O. split; [exact T1|]. split; [exact T2|]. cbn. destruct src as [o|n]; [|exact T3]. rewrite app_length. destruct T3 as (A & B & D). split; [lia|]. split; [exact B|]. now rewrite app_nth1.
  - intros i e r rest -> L E. split; [exact T1|]. split; [|exact T3]. intros x Hx Ex. cbn [x_chan] in Hx. apply in_app_or in Hx. destruct Hx as [Hx|[<-|[]]]; [now apply T2|]. cbn in *. subst src. now destruct T3.
  - intros s d rest -> E. split; [|split; [|exact T3]].
    + intros g Hg Eg. cbn [x_gos] in Hg. apply in_app_or in Hg. destruct Hg as [Hg|[<-|[]]]; [now apply T1|]. cbn in *. destruct (T2 (s, d)) as (A & B); [rewrite E; now left|exact Eg|]. cbn in A. split; [exact A|]. rewrite B. discriminate.
    + intros x Hx. apply T2. rewrite E. now right.
  - intros t d now -> C K. split; [|split; [exact T2|]].
    + intros g Hg Eg. cbn [x_gos] in Hg. apply in_app_or in Hg. destruct Hg as [Hg|[<-|[]]]; [now apply T1|]. cbn in *. subst src. lia.
    + destruct src; [exact T3|cbn; lia].
  - intros i now g -> E S W. apply begin_cases; try (intros; exact T).
    + intros d f sl Ed Ef. split; [|split; [exact T2|exact T3]]. now apply (tied_set src df w a i g).
    + intros d sl Ed Ef. split; [|split; [exact T2|exact T3]]. now apply (tied_set src df w a i g).
  - intros i g errs Hl E S. split; [|split; [exact T2|exact T3]]. now apply (tied_set src df w a i g).
Qed.

Lemma chan_sched conf ls x : let a := x_run (new_auto conf) ls in In x (in_channel a) -> of_sched x = true.
Proof.
  intros a Hx. destruct (links_run conf ls) as (A & _). fold a in A. assert (I : In x (map (fun e => OfSched (e_obj e)) (due_out a))) by (rewrite <- A; apply in_or_app; now right).
  apply in_map_iff in I. now destruct I as (y & <- & _).
Qed.

(* x_df runs along with the timers made. *)
Lemma df_length conf ls : let a := x_run (new_auto conf) ls in length (x_df a) = length (s_made (x_sched a)).
Proof.
  cbv zeta. apply (x_inv (fun a => length (x_df a) = length (s_made (x_sched a)))); [reflexivity|]. intros a l H. apply step_cases; try (intros; exact H).
  - intros t d s e -> K E C M O. cbn. rewrite M, !app_length. cbn. lia.
  - intros t s -> E M S. cbn. now rewrite M.
  - intros i e r rest -> L E. cbn. rewrite other_made' by reflexivity. exact H.
  - intros i now g -> E S W. apply begin_cases; intros; exact H.
Qed.
Lemma made_range s e : once s -> In e (everywhere s) -> 0 <= e_obj e < Z.of_nat (length (s_made s)).
Proof.
  intros ((_ & M) & _ & I) H. apply I, In_nth_error in H. destruct H as (i & Ei). assert (i < length (s_made s))%nat by (apply nth_error_Some; congruence). apply M in Ei. lia.
Qed.
Lemma sched_range conf ls o : let a := x_run (new_auto conf) ls in In (OfSched o) (map g_src (x_gos a) ++ in_channel a) -> 0 <= o < Z.of_nat (length (s_made (x_sched a))).
Proof.
  intros a H. destruct (links_run conf ls) as (A & _). fold a in A.
  assert (I : In (OfSched o) (map (fun e => OfSched (e_obj e)) (due_out a))).
  { rewrite <- A. apply in_app_or in H. apply in_or_app. destruct H as [H|H]; [left; apply filter_In; now split|now right]. }
  apply in_map_iff in I. destruct I as (e & Ee & He). injection Ee as <-. apply made_range; [apply x_once|]. unfold everywhere. apply in_or_app. right. apply in_or_app. now right.
Qed.
Lemma lone_range conf ls n : let a := x_run (new_auto conf) ls in In (Lone n) (map g_src (x_gos a)) -> (n < x_lone a)%nat.
Proof.
  intros a H. destruct (links_run conf ls) as (_ & B). fold a in B. assert (I : In n (seq 0 (x_lone a))) by (rewrite <- B; apply in_flat_map; exists (Lone n); cbn; auto). apply in_seq in I. lia.
Qed.

Lemma no_snoc {A} (l : list A) x : l = l ++ [x] -> False.
Proof. intros H. apply (f_equal (@length A)) in H. rewrite app_length in H. cbn in H. lia. Qed.
(* The timer the last step set up. *)
Definition wake_of (l : xlabel) : Z := match l with XRun t _ now => wake_at (due_of t) now | _ => 0 end.
Lemma set_up_tied conf ls l df src : let a := x_run (new_auto conf) ls in sets_up a l df src ->
  tied src df (wake_of l) (x_step a l) /\ x_funcs (x_step a l) = x_funcs a /\ x_slices (x_step a l) = x_slices a /\ x_begun (x_step a l) = x_begun a /\
  forall c, In c (x_begun a) -> c_src c <> src.
Proof.
  intros a H. destruct (begun_run conf ls) as (_ & B). fold a in B.
  assert (NB : ~ In src (map g_src (x_gos a)) -> forall c, In c (x_begun a) -> c_src c <> src).
  { intros N c Hc E. destruct (B c Hc) as (g & Ig & Eg & _). apply N. rewrite <- E, <- Eg. now apply in_map. }
  destruct l as [args|f sl|sl i v|t d|t| |t d now|i now|i|i]; try contradiction.
  - destruct H as (-> & e & M & ->). revert M. unfold x_step. destruct (x_dead a); [cbn [andb]; intros M; now apply no_snoc in M|].
    destruct (a_create t) eqn:C; [|cbn [andb]; intros M; now apply no_snoc in M].
    destruct (known a df) eqn:K; [|cbn [andb]; intros M; now apply no_snoc in M]. cbn [andb].
    destruct (t_step1 _ t) as [s'|] eqn:E; [|cbn [andb]; intros M; now apply no_snoc in M].
    cbn [x_sched]. destruct (create_made _ _ _ E C) as (e' & -> & Eo). intros M. apply app_inv_head in M. injection M as ->.
    assert (L := df_length conf ls). cbv zeta in L. fold a in L.
    assert (N : ~ In (OfSched (e_obj e)) (map g_src (x_gos a) ++ in_channel a)) by (intros I; apply sched_range in I; fold a in I; lia).
    split; [|split; [reflexivity|split; [reflexivity|split; [reflexivity|apply NB; intros I; apply N; apply in_or_app; now left]]]].
    split; [|split].
    + intros g Hg Eg. exfalso. apply N. apply in_or_app. left. rewrite <- Eg. now apply in_map.
    + intros x Hx Ex. exfalso. apply N. apply in_or_app. right. rewrite <- Ex. now apply in_map.
    + cbn [x_df]. rewrite app_length, Eo, Nat2Z.id, <- L. cbn. split; [lia|]. split; [lia|]. rewrite app_nth2 by lia. now rewrite Nat.sub_diag.
  - destruct H as (-> & M & ->). revert M. unfold x_step. destruct (x_dead a); [lia|]. destruct (a_create t) eqn:C; [|cbn; lia]. destruct (known a df) eqn:K; [|cbn; lia]. cbn [andb]. intros _.
    assert (N : ~ In (Lone (x_lone a)) (map g_src (x_gos a))) by (intros I; apply lone_range in I; fold a in I; lia).
    split; [|split; [reflexivity|split; [reflexivity|split; [reflexivity|now apply NB]]]].
    split; [|split].
    + intros g Hg Eg. cbn [x_gos] in Hg. apply in_app_or in Hg. destruct Hg as [Hg|[<-|[]]]; [exfalso; apply N; rewrite <- Eg; now apply in_map|]. cbn. auto.
    + intros x Hx Ex. cbn [x_chan] in Hx. assert (Q : of_sched (fst x) = true) by (apply (chan_sched conf ls); fold a; now apply in_map). rewrite Ex in Q. discriminate.
    + cbn. lia.
Qed.

(* Its calls. *)
Definition said (src : source) (d sl : nat) (f : Z) (args : list Z) (w : Z) (a : auto) : Prop :=
  tied src (Some d) w a /\ nth_error (x_funcs a) d = Some (DFunc (Some f) sl) /\ nth_error (x_slices a) sl = Some args /\
  forall c, In c (x_begun a) -> c_src c = src -> c_fun c = f /\ c_args c = args.
Lemma said_step src d sl f args w a l : (forall x, In x (in_channel a) -> of_sched x = true) -> (forall i v, l <> XWrite sl i v) ->
  said src d sl f args w a -> said src d sl f args w (x_step a l).
Proof.
  intros OK NW (T & F & S & B). split; [now apply tied_step|].
  assert (I : In d [d]) by now left. assert (LS : (sl < length (x_slices a))%nat) by (apply nth_error_Some; congruence). assert (LF : (d < length (x_funcs a))%nat) by (apply nth_error_Some; congruence).
  apply (step_cases (fun b => nth_error (x_funcs b) d = Some (DFunc (Some f) sl) /\ nth_error (x_slices b) sl = Some args /\ forall c, In c (x_begun b) -> c_src c = src -> c_fun c = f /\ c_args c = args)); try (intros; auto; fail).
  - intros ar ->. cbn. rewrite nth_error_app1 by lia. auto.
  - intros f' sl' -> L. cbn. rewrite nth_error_app1 by lia. auto.
  - intros sl' i v ->. cbn. split; [exact F|]. split; [|exact B].
    assert (N : sl' <> sl) by (intros ->; now apply (NW i v)). rewrite (nth_error_nth' _ [] ltac:(rewrite set_nth_length; exact LS)). rewrite set_nth_other by exact N. f_equal. now apply nth_error_nth.
  - intros i now g -> E St W. apply (begin_cases a i g now (fun b => nth_error (x_funcs b) d = Some (DFunc (Some f) sl) /\ nth_error (x_slices b) sl = Some args /\ forall c, In c (x_begun b) -> c_src c = src -> c_fun c = f /\ c_args c = args)); auto.
    intros d' f' sl' Ed Ef. cbn. split; [exact F|]. split; [exact S|]. intros c Hc Ec. apply in_app_or in Hc. destruct Hc as [Hc|[<-|[]]]; [now apply B|]. cbn in *.
    destruct T as (T & _). destruct (T g) as (T' & _); [now apply nth_error_In in E|exact Ec|]. rewrite Ed in T'. injection T' as ->. rewrite F in Ef. injection Ef as <- <-. split; [reflexivity|]. now apply nth_error_nth.
Qed.
Lemma said_run conf ls2 : forall ls1 src d sl f args w, unwritten sl ls2 -> said src d sl f args w (x_run (new_auto conf) ls1) -> said src d sl f args w (x_run (new_auto conf) (ls1 ++ ls2)).
Proof.
  induction ls2 as [|l ls2 IH] using rev_ind; intros ls1 src d sl f args w U S; [now rewrite app_nil_r|]. rewrite app_assoc, x_run_snoc. apply said_step.
  - intros x. apply chan_sched.
  - intros i v ->. apply (U i v). apply in_or_app. right. now left.
  - apply IH; [|exact S]. intros i v H. apply (U i v). apply in_or_app. now left.
Qed.

(* The time of a lone timer's call. *)
Definition slept (n : nat) (w : Z) (a : auto) : Prop := (exists df, tied (Lone n) df w a) /\ forall c, In c (x_begun a) -> c_src c = Lone n -> w <= c_now c.
Lemma slept_step n w a l : (forall x, In x (in_channel a) -> of_sched x = true) -> slept n w a -> slept n w (x_step a l).
Proof.
  intros OK ((df & T) & B). split; [exists df; now apply tied_step|]. apply (step_cases (fun b => forall c, In c (x_begun b) -> c_src c = Lone n -> w <= c_now c)); try (intros; auto; fail).
  intros i now g -> E St W. apply (begin_cases a i g now (fun b => forall c, In c (x_begun b) -> c_src c = Lone n -> w <= c_now c)); auto.
  intros d f sl Ed Ef c Hc Ec. cbn in Hc. apply in_app_or in Hc. destruct Hc as [Hc|[<-|[]]]; [now apply B|]. cbn in *. destruct T as (T & _).
  destruct (T g) as (_ & T'); [now apply nth_error_In in E|exact Ec|]. specialize (W n Ec). specialize (T' eq_refl). lia.
Qed.
Lemma slept_run conf ls2 : forall ls1 n w, slept n w (x_run (new_auto conf) ls1) -> slept n w (x_run (new_auto conf) (ls1 ++ ls2)).
Proof.
  induction ls2 as [|l ls2 IH] using rev_ind; intros ls1 n w S; [now rewrite app_nil_r|]. rewrite app_assoc, x_run_snoc. apply slept_step; [|now apply IH]. intros x. apply chan_sched.
Qed.
Lemma quot_near ns : fits ns -> ns - Z.quot ns 1000000 * 1000000 < 1000000 /\ Z.quot ns 1000000 * 1000000 < 2 ^ 63.
Proof.
  intros F. assert (X := Z.quot_rem' ns 1000000). unfold fits in F. destruct (Z_le_gt_dec 0 ns).
  - assert (Y := Z.rem_bound_pos ns 1000000 ltac:(lia) ltac:(lia)). revert X Y. generalize (Z.quot ns 1000000) (Z.rem ns 1000000). intros q r X Y. lia.
  - assert (Y := Z.rem_bound_pos_neg ns 1000000 ltac:(lia) ltac:(lia)). revert X Y. generalize (Z.quot ns 1000000) (Z.rem ns 1000000). intros q r X Y. lia.
Qed.
Lemma wake_late l now : a_create l = true -> fits (requested (call_time l) l) -> 0 <= now -> requested (call_time l) l - wake_at (due_of l) now < 1000000.
Proof.
  intros C F Hn. assert (D : requested (call_time l) l - due_of l * 1000000 < 1000000 /\ due_of l * 1000000 < 2 ^ 63).
  { destruct l; try discriminate; cbn [requested call_time due_of] in *; [now apply quot_near|].
    assert (E : s64 (now0 + dur) = now0 + dur) by (unfold s64, fits in *; rewrite Z.mod_small by lia; lia). rewrite E. now apply quot_near. }
  destruct D as (D1 & D2). unfold wake_at, unix_milli. rewrite Z.quot_div_nonneg by lia. assert (X := Z.div_mod now 1000000 ltac:(lia)). assert (Y := Z.mod_pos_bound now 1000000 ltac:(lia)).
  assert (Q : 0 <= now / 1000000) by (apply Z.div_pos; lia). set (m := now / 1000000) in *. destruct (Z.ltb_spec m (due_of l)); [|lia].
  assert (E : s64 ((due_of l - m) * 1000000) = (due_of l - m) * 1000000) by (unfold s64; rewrite Z.mod_small by lia; lia). rewrite E. lia.
Qed.

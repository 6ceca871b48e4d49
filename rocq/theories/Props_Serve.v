(* C106: Serve and interrupts. *)
From Coq Require Import List Bool Arith Lia.
From Verif Require Import GoSlice Router_proofs Serve Spec_Serve.
Import ListNotations.

Lemma run_app s a b : p_run s (a ++ b) = (fst (p_run (fst (p_run s a)) b), snd (p_run s a) ++ snd (p_run (fst (p_run s a)) b)).
Proof. revert s. induction a as [|l a IH]; intros s; cbn [p_run app]; [cbn [fst snd app]; destruct (p_run s b); reflexivity|]. destruct (p_step s l) as [s1 e1]. rewrite IH. destruct (p_run s1 a) as [s2 e2]. cbn [fst snd]. destruct (p_run s2 b). cbn. now rewrite app_assoc. Qed.
Lemma happened_snoc n ls l : happened n (ls ++ [l]) = happened n ls ++ snd (p_step (fst (p_run (p_new n) ls)) l).
Proof. unfold happened. rewrite run_app. cbn [p_run snd fst]. destruct (p_step (fst (p_run (p_new n) ls)) l). cbn. now rewrite app_nil_r. Qed.
Lemma state_snoc s ls l : fst (p_run s (ls ++ [l])) = fst (p_step (fst (p_run s ls)) l).
Proof. rewrite run_app. cbn [p_run snd fst]. destruct (p_step (fst (p_run s ls)) l). reflexivity. Qed.

Definition ph (s : pst) (i : nat) : option phase := option_map sv_phase (nth_error (ps_srvs s) i).
Definition after (p : phase) (l : plabel) (i : nat) (q : phase) : Prop :=
  q = p \/ (p = NotServed /\ l = LServe i /\ q = Serving) \/ (p = Serving /\ l = LNotify i /\ q = Waiting None) \/
  (p = Waiting None /\ exists g, l = LSignal g /\ asked_for g = true /\ q = Waiting (Some g)) \/ (exists g, p = Waiting (Some g) /\ l = LReceive i /\ q = Returned).
Lemma ph_put s j x i : j < length (ps_srvs s) -> ph (put s j x) i = if Nat.eqb j i then Some (sv_phase x) else ph s i.
Proof. intros L. unfold ph, put. cbn. destruct (Nat.eqb_spec j i) as [->|N]; [now rewrite nth_error_set_nth_same|now rewrite nth_error_set_nth_other]. Qed.
Lemma nlt {A} (l : list A) i x : nth_error l i = Some x -> i < length l.
Proof. intros H. apply nth_error_Some. congruence. Qed.
Lemma step_ph s l i p : ph s i = Some p -> exists q, ph (fst (p_step s l)) i = Some q /\ after p l i q.
Proof.
  intros E. unfold p_step. destruct (ps_ended s); [exists p; split; [exact E|now left]|].
  assert (Same : exists q, ph s i = Some q /\ after p l i q) by (exists p; split; [exact E|now left]).
  destruct l as [j|j|g|j|j|j c|].
  - destruct (nth_error (ps_srvs s) j) as [[[] cs]|] eqn:Ej; try exact Same. cbn [fst]. rewrite ph_put by exact (nlt _ _ _ Ej). destruct (Nat.eqb_spec j i) as [->|N]; [|exact Same].
    unfold ph in E. rewrite Ej in E. injection E as <-. exists Serving. split; [reflexivity|]. right. left. auto.
  - destruct (nth_error (ps_srvs s) j) as [[[] cs]|] eqn:Ej; try exact Same. cbn [fst]. change (ph (Pst _ true false) i) with (ph (put s j (Srv (Waiting None) cs)) i). rewrite ph_put by exact (nlt _ _ _ Ej). destruct (Nat.eqb_spec j i) as [->|N]; [|exact Same].
    unfold ph in E. rewrite Ej in E. injection E as <-. exists (Waiting None). split; [reflexivity|]. right. right. left. auto.
  - destruct (asked_for g && ps_notify s) eqn:A; [|exact Same]. apply andb_true_iff in A. destruct A as (A & _). unfold ph in *. cbn. rewrite nth_error_map. destruct (nth_error (ps_srvs s) i) as [[p0 cs]|]; [|discriminate]. injection E as ->. cbn.
    unfold deliver. cbn. destruct p as [| |[g0|]|]; cbn; (eexists; split; [reflexivity|]); try (now left). right. right. right. left. split; [reflexivity|]. exists g. auto.
  - destruct (nth_error (ps_srvs s) j) as [[[| |[g|]|] cs]|] eqn:Ej; try exact Same. cbn [fst]. rewrite ph_put by exact (nlt _ _ _ Ej). destruct (Nat.eqb_spec j i) as [->|N]; [|exact Same].
    unfold ph in E. rewrite Ej in E. injection E as <-. exists Returned. split; [reflexivity|]. do 4 right. eauto.
  - destruct (nth_error (ps_srvs s) j) as [[p0 cs]|] eqn:Ej; [|exact Same].
    assert (K : exists q, ph (put s j (Srv p0 (cs ++ [true]))) i = Some q /\ after p (LAccept j) i q).
    { rewrite ph_put by exact (nlt _ _ _ Ej). destruct (Nat.eqb_spec j i) as [->|N]; [|exact Same]. unfold ph in E. rewrite Ej in E. injection E as <-. exists p0. split; [reflexivity|now left]. }
    destruct p0; [exact Same|exact K|exact K|exact K].
  - destruct (nth_error (ps_srvs s) j) as [[p0 cs]|] eqn:Ej; [|exact Same]. destruct (nth_error cs c) as [[]|]; try exact Same. cbn [fst]. rewrite ph_put by exact (nlt _ _ _ Ej). destruct (Nat.eqb_spec j i) as [->|N]; [|exact Same].
    unfold ph in E. rewrite Ej in E. injection E as <-. exists p0. split; [reflexivity|now left].
  - exact Same.
Qed.
(* What the phase says of the history. *)
Definition told (i : nat) (ls : list plabel) (tr : list pev) (p : phase) : Prop :=
  match p with
  | NotServed => ~ In (EServed i) tr /\ forall g, ~ In (EReturned i g) tr
  | Serving => (forall g, ~ In (EReturned i g) tr)
  | Waiting None => (exists a b, ls = a ++ LNotify i :: b) /\ (forall g, ~ In (EReturned i g) tr)
  | Waiting (Some g) => (exists a b c, ls = a ++ LNotify i :: b ++ LSignal g :: c) /\ asked_for g = true /\ (forall g', ~ In (EReturned i g') tr)
  | Returned => exists g, In (EReturned i g) tr
  end.
Lemma told_more i ls l tr es p : told i ls tr p -> (forall g, ~ In (EReturned i g) es) -> ~ In (EServed i) es -> told i (ls ++ [l]) (tr ++ es) p.
Proof.
  intros T R S. assert (RR : (forall g, ~ In (EReturned i g) tr) -> forall g, ~ In (EReturned i g) (tr ++ es)) by (intros H g I; apply in_app_or in I; destruct I; [exact (H g H0)|exact (R g H0)]).
  destruct p as [| |[g|]|]; cbn in *.
  - destruct T as (T1 & T2). split; [intros I; apply in_app_or in I; tauto|auto].
  - auto.
  - destruct T as ((a & b & c & ->) & A & T). split; [|auto]. exists a, b, (c ++ [l]). rewrite <- app_assoc. cbn. rewrite <- app_assoc. reflexivity.
  - destruct T as ((a & b & ->) & T). split; [|auto]. exists a, (b ++ [l]). rewrite <- app_assoc. reflexivity.
  - destruct T as (g & T). exists g. apply in_or_app. now left.
Qed.
Lemma run_told n ls i p : ph (fst (p_run (p_new n) ls)) i = Some p -> told i ls (happened n ls) p.
Proof.
  revert p. induction ls as [|l ls IH] using rev_ind; intros p E.
  - cbn in E. unfold ph in E. cbn in E. destruct (nth_error (repeat (Srv NotServed []) n) i) as [x|] eqn:Ex; [|discriminate]. apply nth_error_In, repeat_spec in Ex. subst x. injection E as <-. cbn. split; [intros []|intros g []].
  - rewrite state_snoc in E. rewrite happened_snoc. set (s := fst (p_run (p_new n) ls)) in *.
    assert (E0 : exists p0, ph s i = Some p0).
    { destruct (ph s i) as [p0|] eqn:E0; [eauto|]. exfalso. revert E. unfold ph in *. assert (X : nth_error (ps_srvs s) i = None) by (destruct (nth_error (ps_srvs s) i); [discriminate|reflexivity]).
      assert (L : length (ps_srvs (fst (p_step s l))) = length (ps_srvs s)).
      { unfold p_step. destruct (ps_ended s); [reflexivity|]. destruct l; repeat match goal with |- context [match ?x with _ => _ end] => destruct x end; cbn; rewrite ?set_nth_length, ?map_length; reflexivity. }
      replace (nth_error (ps_srvs (fst (p_step s l))) i) with (@None srv); [discriminate|]. symmetry. apply nth_error_None. rewrite L. now apply nth_error_None. }
    destruct E0 as (p0 & E0). specialize (IH p0 E0). destruct (step_ph s l i p0 E0) as (q & Eq & A). rewrite E in Eq. injection Eq as <-.
    assert (Ev : forall e, In e (snd (p_step s l)) -> (forall g, e = EReturned i g -> l = LReceive i /\ p0 = Waiting (Some g) /\ p = Returned) /\ (e = EServed i -> l = LServe i /\ p0 = NotServed /\ p = Serving)).
    { intros e I. unfold p_step in I, E. destruct (ps_ended s); [destruct I|]. destruct l as [j|j|g|j|j|j c|].
      - destruct (nth_error (ps_srvs s) j) as [[[] cs]|] eqn:Ej; try (destruct I; fail). destruct I as [<-|[]]. split; [discriminate|]. intros H. injection H as ->. cbn [fst] in E. rewrite ph_put, Nat.eqb_refl in E by exact (nlt _ _ _ Ej). unfold ph in E0. rewrite Ej in E0. cbn in *. split; [reflexivity|split; congruence].
      - destruct (nth_error (ps_srvs s) j) as [[[] cs]|] eqn:Ej; destruct I.
      - destruct (asked_for g && ps_notify s); [destruct I|]. destruct I as [<-|[]]. split; discriminate.
      - destruct (nth_error (ps_srvs s) j) as [[[| |[g|]|] cs]|] eqn:Ej; try (destruct I; fail). destruct I as [<-|[]]. split; [|discriminate]. intros g' H. injection H as -> ->. cbn [fst] in E. rewrite ph_put, Nat.eqb_refl in E by exact (nlt _ _ _ Ej). unfold ph in E0. rewrite Ej in E0. cbn in *. split; [reflexivity|split; congruence].
      - destruct (nth_error (ps_srvs s) j) as [[[] cs]|] eqn:Ej; try (destruct I; fail); (destruct I as [<-|[]]; split; discriminate).
      - destruct (nth_error (ps_srvs s) j) as [[p1 cs]|] eqn:Ej; [|destruct I]. destruct (nth_error cs c) as [[]|]; try (destruct I; fail). destruct I as [<-|[]]; split; discriminate.
      - destruct I as [<-|[]]; split; discriminate. }
    destruct A as [->|[(-> & -> & ->)|[(-> & -> & ->)|[(-> & g & -> & Ag & ->)|(g & -> & -> & ->)]]]].
    + apply told_more; [exact IH| |].
      * intros g I. destruct (Ev _ I) as (H & _). destruct (H g eq_refl) as (_ & H1 & H2). congruence.
      * intros I. destruct (Ev _ I) as (_ & H). destruct (H eq_refl) as (_ & H1 & H2). congruence.
    + cbn in *. intros g I. apply in_app_or in I. destruct I as [I|I]; [exact (proj2 IH g I)|]. destruct (Ev _ I) as (H & _). destruct (H g eq_refl) as (H1 & _). discriminate.
    + cbn in *. split; [exists ls, []; reflexivity|]. intros g I. apply in_app_or in I. destruct I as [I|I]; [exact (IH g I)|]. destruct (Ev _ I) as (H & _). destruct (H g eq_refl) as (H1 & _). discriminate.
    + cbn in *. destruct IH as ((a & b & ->) & IH). split; [exists a, b, []; rewrite <- app_assoc; reflexivity|]. split; [exact Ag|]. intros g' I. apply in_app_or in I. destruct I as [I|I]; [exact (IH g' I)|]. destruct (Ev _ I) as (H & _). destruct (H g' eq_refl) as (H1 & _). discriminate.
    + cbn in *. exists g. apply in_or_app. right. unfold p_step in *. destruct (ps_ended s); [unfold ph in *; cbn [fst] in E; congruence|]. unfold ph in E0. destruct (nth_error (ps_srvs s) i) as [[p1 cs]|]; [|discriminate]. injection E0 as ->. now left.
Qed.

Lemma ended_ev n ls : ps_ended (fst (p_run (p_new n) ls)) = true -> ended (happened n ls).
Proof.
  induction ls as [|l ls IH] using rev_ind; [discriminate|]. rewrite state_snoc, happened_snoc. set (s := fst (p_run (p_new n) ls)) in *. intros E.
  destruct (ps_ended s) eqn:Es; [destruct (IH eq_refl) as (g & I); exists g; apply in_or_app; now left|].
  unfold p_step in *. rewrite Es in *. destruct l as [j|j|g|j|j|j c|].
  - destruct (nth_error (ps_srvs s) j) as [[[] cs]|]; cbn in E; congruence.
  - destruct (nth_error (ps_srvs s) j) as [[[] cs]|]; cbn in E; congruence.
  - destruct (asked_for g && ps_notify s); cbn in E; [congruence|]. exists (Some g). apply in_or_app. right. now left.
  - destruct (nth_error (ps_srvs s) j) as [[[| |[g|]|] cs]|]; cbn in E; congruence.
  - destruct (nth_error (ps_srvs s) j) as [[[] cs]|]; cbn in E; congruence.
  - destruct (nth_error (ps_srvs s) j) as [[p0 cs]|]; [|cbn in E; congruence]. destruct (nth_error cs c) as [[]|]; cbn in E; congruence.
  - exists None. apply in_or_app. right. now left.
Qed.
Lemma happened_app n a b : exists es, happened n (a ++ b) = happened n a ++ es.
Proof. unfold happened. rewrite run_app. eexists. reflexivity. Qed.
Lemma ended_pre n a b : ~ ended (happened n (a ++ b)) -> ~ ended (happened n a).
Proof. intros N (g & I). apply N. destruct (happened_app n a b) as (es & ->). exists g. apply in_or_app. now left. Qed.
Lemma ret_pre n a b i : (forall g, ~ In (EReturned i g) (happened n (a ++ b))) -> forall g, ~ In (EReturned i g) (happened n a).
Proof. intros N g I. apply (N g). destruct (happened_app n a b) as (es & ->). apply in_or_app. now left. Qed.
Lemma run_ph n ls i : i < n -> exists p, ph (fst (p_run (p_new n) ls)) i = Some p.
Proof.
  intros L. induction ls as [|l ls IH] using rev_ind.
  - cbn. unfold ph. cbn. destruct (nth_error (repeat (Srv NotServed []) n) i) eqn:E; [eexists; reflexivity|]. apply nth_error_None in E. rewrite repeat_length in E. lia.
  - rewrite state_snoc. destruct IH as (p & E). destruct (step_ph _ l i p E) as (q & Eq & _). eauto.
Qed.
Lemma live n ls : ~ ended (happened n ls) -> ps_ended (fst (p_run (p_new n) ls)) = false.
Proof. intros N. destruct (ps_ended _) eqn:E; [|reflexivity]. exfalso. apply N. now apply ended_ev. Qed.
Lemma serving_lt n ls i : In (EServed i) (happened n ls) -> i < n.
Proof.
  intros I. destruct (Nat.ltb i n) eqn:L; [now apply Nat.ltb_lt|]. apply Nat.ltb_ge in L. exfalso. revert I. assert (Len : length (ps_srvs (fst (p_run (p_new n) ls))) = n /\ ~ In (EServed i) (happened n ls)); [|tauto].
  induction ls as [|l ls (Len & IH)] using rev_ind; [cbn; rewrite repeat_length; auto|]. rewrite state_snoc, happened_snoc. set (s := fst (p_run (p_new n) ls)) in *.
  split.
  - unfold p_step. destruct (ps_ended s); [exact Len|]. destruct l; repeat match goal with |- context [match ?x with _ => _ end] => destruct x end; cbn; rewrite ?set_nth_length, ?map_length; exact Len.
  - intros I. apply in_app_or in I. destruct I as [I|I]; [tauto|]. unfold p_step in I. destruct (ps_ended s); [destruct I|]. destruct l as [j|j|g|j|j|j c|].
    + destruct (nth_error (ps_srvs s) j) as [[[] cs]|] eqn:Ej; try (destruct I; fail). destruct I as [I|[]]. injection I as ->. apply nlt in Ej. lia.
    + destruct (nth_error (ps_srvs s) j) as [[[] cs]|] eqn:Ej; destruct I.
    + destruct (asked_for g && ps_notify s); [destruct I|]. destruct I as [I|[]]; discriminate.
    + destruct (nth_error (ps_srvs s) j) as [[[| |[g|]|] cs]|] eqn:Ej; try (destruct I; fail). destruct I as [I|[]]; discriminate.
    + destruct (nth_error (ps_srvs s) j) as [[[] cs]|] eqn:Ej; try (destruct I; fail); (destruct I as [I|[]]; discriminate).
    + destruct (nth_error (ps_srvs s) j) as [[p1 cs]|] eqn:Ej; [|destruct I]. destruct (nth_error cs c) as [[]|]; try (destruct I; fail). destruct I as [I|[]]; discriminate.
    + destruct I as [I|[]]; discriminate.
Qed.

(* After Serve's Notify the server waits, until it returns, and Notify stays in force. *)
Lemma waits n a b i : In (EServed i) (happened n a) -> ~ ended (happened n (a ++ LNotify i :: b)) -> (forall g, ~ In (EReturned i g) (happened n (a ++ LNotify i :: b))) ->
  ps_notify (fst (p_run (p_new n) (a ++ LNotify i :: b))) = true /\ exists r, ph (fst (p_run (p_new n) (a ++ LNotify i :: b))) i = Some (Waiting r).
Proof.
  intros Sv. induction b as [|l b IH] using rev_ind; intros N R.
  - pose proof (ended_pre _ _ _ N) as Na. pose proof (ret_pre _ _ _ _ R) as Ra. rewrite (state_snoc (p_new n) a (LNotify i)).
    pose proof (serving_lt _ _ _ Sv) as Lt. destruct (run_ph n a i Lt) as (p & Ep). pose proof (run_told _ _ _ _ Ep) as T. pose proof (live _ _ Na) as El. set (s := fst (p_run (p_new n) a)) in *.
    unfold p_step. rewrite El. unfold ph in Ep. destruct (nth_error (ps_srvs s) i) as [[p0 cs]|] eqn:Ei; [|discriminate]. injection Ep as ->.
    assert (NW : forall r, p = Waiting r -> ps_notify s = true).
    { intros r ->. clear - Ei. revert r cs Ei. subst s. induction a as [|l a IH] using rev_ind; intros r cs Ei; [cbn in Ei; apply nth_error_In, repeat_spec in Ei; discriminate|]. rewrite state_snoc in *. set (s := fst (p_run (p_new n) a)) in *.
      assert (K : ps_notify s = true -> ps_notify (fst (p_step s l)) = true).
      { intros Hn. unfold p_step. destruct (ps_ended s); [exact Hn|]. destruct l; repeat match goal with |- context [match ?x with _ => _ end] => destruct x end; cbn; auto. }
      destruct (ph s i) as [p|] eqn:Ep.
      - destruct (step_ph s l i p Ep) as (q & Eq & A). assert (q = Waiting r) by (unfold ph in Eq; rewrite Ei in Eq; injection Eq as <-; reflexivity). subst q. unfold ph in Ep. destruct (nth_error (ps_srvs s) i) as [[p0 cs0]|] eqn:E0; [|discriminate]. injection Ep as ->.
        destruct A as [A|[(_ & _ & A)|[(A & -> & _)|[(A & _)|(g & A & _)]]]]; subst; try discriminate A; try (apply K; eapply IH; reflexivity).
        unfold p_step in *. destruct (ps_ended s); [cbn in Ei; rewrite E0 in Ei; discriminate|]. rewrite E0. reflexivity.
      - exfalso. unfold ph in Ep. destruct (nth_error (ps_srvs s) i) eqn:E0; [discriminate|]. apply nlt in Ei. apply nth_error_None in E0. assert (L : length (ps_srvs (fst (p_step s l))) = length (ps_srvs s)); [|lia].
        unfold p_step. destruct (ps_ended s); [reflexivity|]. destruct l; repeat match goal with |- context [match ?x with _ => _ end] => destruct x end; cbn; rewrite ?set_nth_length, ?map_length; reflexivity. }
    destruct p as [| |r|]; cbn in T.
    + tauto.
    + cbn. split; [reflexivity|]. exists None. unfold ph. cbn. rewrite nth_error_set_nth_same by exact (nlt _ _ _ Ei). reflexivity.
    + cbn. split; [now apply (NW r)|]. exists r. unfold ph. now rewrite Ei.
    + exfalso. destruct T as (g & T). exact (Ra g T).
  - assert (Q : a ++ LNotify i :: b ++ [l] = (a ++ LNotify i :: b) ++ [l]) by (rewrite <- app_assoc; reflexivity). rewrite Q in *. pose proof (ended_pre _ _ _ N) as Na. pose proof (ret_pre _ _ _ _ R) as Ra.
    destruct (IH Na Ra) as (Hn & r & Hr). rewrite state_snoc. set (s := fst (p_run (p_new n) (a ++ LNotify i :: b))) in *. split.
    + unfold p_step. destruct (ps_ended s); [exact Hn|]. destruct l; repeat match goal with |- context [match ?x with _ => _ end] => destruct x end; cbn; auto.
    + destruct (step_ph s l i _ Hr) as (q & Eq & A). destruct A as [->|[(A & _)|[(A & _)|[(A & g & _ & _ & ->)|(g & A & -> & ->)]]]]; try discriminate A; [eauto|eauto|].
      exfalso. pose proof (run_told n ((a ++ LNotify i :: b) ++ [LReceive i]) i Returned) as T. rewrite state_snoc in T. destruct (T Eq) as (g' & I). exact (R g' I).
Qed.

(* An interrupt that comes after Serve has asked for it lets Serve return, whatever happened before and in between. *)
Theorem C106_returns : forall n a b c i g,
  In (EServed i) (happened n a) -> interrupts g ->
  let ls := a ++ LNotify i :: b ++ LSignal g :: c in
  ~ ended (happened n ls) -> (forall g', ~ In (EReturned i g') (happened n ls)) ->
  exists g', interrupts g' /\ happened n (ls ++ [LReceive i]) = happened n ls ++ [EReturned i g'].
Proof.
  intros n a b c i g Sv Ig ls N R. assert (Ag : asked_for g = true) by (destruct Ig as [->| ->]; reflexivity).
  assert (W : exists g', ph (fst (p_run (p_new n) ls)) i = Some (Waiting (Some g'))).
  { unfold ls in *. clear ls. induction c as [|l c IH] using rev_ind.
    - assert (Q : a ++ LNotify i :: b ++ [LSignal g] = (a ++ LNotify i :: b) ++ [LSignal g]) by (rewrite <- app_assoc; reflexivity). rewrite Q in *. destruct (waits n a b i Sv (ended_pre _ _ _ N) (ret_pre _ _ _ _ R)) as (Hn & r & Hr).
      rewrite state_snoc. pose proof (live _ _ (ended_pre _ _ _ N)) as El. set (s := fst (p_run (p_new n) (a ++ LNotify i :: b))) in *. unfold p_step. rewrite El, Ag, Hn. unfold ph in *. cbn. rewrite nth_error_map. destruct (nth_error (ps_srvs s) i) as [[p0 cs]|]; [|discriminate]. injection Hr as ->.
      destruct r as [g'|]; cbn; eauto.
    - assert (Q : a ++ LNotify i :: b ++ LSignal g :: c ++ [l] = (a ++ LNotify i :: b ++ LSignal g :: c) ++ [l]) by (rewrite <- app_assoc; cbn; rewrite <- app_assoc; reflexivity). rewrite Q in *.
      destruct (IH (ended_pre _ _ _ N) (ret_pre _ _ _ _ R)) as (g' & Hg). rewrite state_snoc. destruct (step_ph _ l i _ Hg) as (q & Eq & A). destruct A as [->|[(A & _)|[(A & _)|[(A & _)|(g1 & A & -> & ->)]]]]; try discriminate A; [eauto|].
      exfalso. pose proof (run_told n ((a ++ LNotify i :: b ++ LSignal g :: c) ++ [LReceive i]) i Returned) as T. rewrite state_snoc in T. destruct (T Eq) as (g2 & I). exact (R g2 I). }
  destruct W as (g' & W). pose proof (run_told _ _ _ _ W) as (_ & A' & _). exists g'. split; [destruct g'; [now left|now right|discriminate]|].
  rewrite happened_snoc. f_equal. pose proof (live _ _ N) as El. unfold p_step. rewrite El. unfold ph in W. destruct (nth_error (ps_srvs _) i) as [[p0 cs]|]; [|discriminate]. injection W as ->. reflexivity.
Qed.
Print Assumptions C106_returns.
Example C106_returns_used : happened 2 [LServe 0; LServe 1; LNotify 1; LNotify 0; LAccept 0; LSignal Sigterm; LReceive 0; LReceive 1] =
  [EServed 0; EServed 1; EOpened 0 0; EReturned 0 Sigterm; EReturned 1 Sigterm].
Proof. reflexivity. Qed.

(* Serve returns for no other reason. *)
Theorem C106_only : forall n ls i g, In (EReturned i g) (happened n ls) ->
  interrupts g /\ exists a b c d, ls = a ++ LNotify i :: b ++ LSignal g :: c ++ LReceive i :: d.
Proof.
  intros n ls i g. induction ls as [|l ls IH] using rev_ind; [intros []|]. rewrite happened_snoc. intros I. apply in_app_or in I. destruct I as [I|I].
  - destruct (IH I) as (Ig & a & b & c & d & ->). split; [exact Ig|]. exists a, b, c, (d ++ [l]). rewrite <- app_assoc. cbn. rewrite <- app_assoc. cbn. rewrite <- app_assoc. reflexivity.
  - set (s := fst (p_run (p_new n) ls)) in *. unfold p_step in I. destruct (ps_ended s); [destruct I|]. destruct l as [j|j|g0|j|j|j c|].
    + destruct (nth_error (ps_srvs s) j) as [[[] cs]|] eqn:Ej; try (destruct I; fail). destruct I as [I|[]]; discriminate.
    + destruct (nth_error (ps_srvs s) j) as [[[] cs]|] eqn:Ej; destruct I.
    + destruct (asked_for g0 && ps_notify s); [destruct I|]. destruct I as [I|[]]; discriminate.
    + destruct (nth_error (ps_srvs s) j) as [[[| |[g1|]|] cs]|] eqn:Ej; try (destruct I; fail). destruct I as [I|[]]. injection I as -> ->.
      assert (W : ph s i = Some (Waiting (Some g))) by (unfold ph; rewrite Ej; reflexivity). destruct (run_told _ _ _ _ W) as ((a & b & c & ->) & A & _). split; [destruct g; [now left|now right|discriminate]|].
      exists a, b, c, []. rewrite <- app_assoc. cbn. rewrite <- app_assoc. reflexivity.
    + destruct (nth_error (ps_srvs s) j) as [[[] cs]|] eqn:Ej; try (destruct I; fail); (destruct I as [I|[]]; discriminate).
    + destruct (nth_error (ps_srvs s) j) as [[p1 cs]|] eqn:Ej; [|destruct I]. destruct (nth_error cs c) as [[]|]; try (destruct I; fail). destruct I as [I|[]]; discriminate.
    + destruct I as [I|[]]; discriminate.
Qed.
Print Assumptions C106_only.
Example C106_only_used : happened 1 [LServe 0; LNotify 0; LReceive 0; LAccept 0; LClose 0 0; LReceive 0] = [EServed 0; EOpened 0 0; EHook 0 0].
Proof. reflexivity. Qed.

(* Interrupting stops nothing: whatever connections are there, being interrupted, letting every
   Serve return and leaving main calls no stop hook. *)
Theorem C106_left_refuted : forall n ls more i c, Forall only_interrupted more ->
  ~ In (EHook i c) (happened n ls) -> ~ In (EHook i c) (happened n (ls ++ more)).
Proof.
  intros n ls more i c F N. induction more as [|l more IH] using rev_ind; [now rewrite app_nil_r|]. apply Forall_app in F. destruct F as (F & Fl). apply Forall_inv in Fl. rewrite app_assoc, happened_snoc. intros I. apply in_app_or in I. destruct I as [I|I]; [exact (IH F I)|].
  set (s := fst (p_run (p_new n) (ls ++ more))) in *. unfold p_step in I. destruct (ps_ended s); [destruct I|]. destruct l as [j|j|g0|j|j|j k|]; try (destruct Fl; fail).
  - destruct (asked_for g0 && ps_notify s); [destruct I|]. destruct I as [I|[]]; discriminate.
  - destruct (nth_error (ps_srvs s) j) as [[[| |[g1|]|] cs]|] eqn:Ej; try (destruct I; fail). destruct I as [I|[]]; discriminate.
  - destruct I as [I|[]]; discriminate.
Qed.
Print Assumptions C106_left_refuted.
Example C106_left_witness : happened 1 [LServe 0; LNotify 0; LAccept 0; LAccept 0; LClose 0 1; LSignal Sigint; LReceive 0; LExit; LClose 0 0] =
  [EServed 0; EOpened 0 0; EOpened 0 1; EHook 0 1; EReturned 0 Sigint; EEnded None].
Proof. reflexivity. Qed.

(* Between Start and the request for signals an interrupt ends the program at once, with connections open. *)
Theorem C106_early_refuted : forall n ls g, (forall i, ~ In (LNotify i) ls) -> ~ ended (happened n ls) ->
  happened n (ls ++ [LSignal g]) = happened n ls ++ [EEnded (Some g)] /\
  (forall more, happened n (ls ++ LSignal g :: more) = happened n ls ++ [EEnded (Some g)]).
Proof.
  intros n ls g No N. assert (Hn : ps_notify (fst (p_run (p_new n) ls)) = false).
  { clear N. induction ls as [|l ls IH] using rev_ind; [reflexivity|]. rewrite state_snoc. assert (No' : forall i, ~ In (LNotify i) ls) by (intros i I; apply (No i), in_or_app; now left). specialize (IH No'). set (s := fst (p_run (p_new n) ls)) in *.
    assert (Nl : forall i, l <> LNotify i) by (intros i ->; apply (No i), in_or_app; right; now left). unfold p_step. destruct (ps_ended s); [exact IH|]. rewrite ?IH, ?andb_false_r. destruct l; try (exfalso; eapply Nl; reflexivity); rewrite ?IH, ?andb_false_r; repeat match goal with |- context [match ?x with _ => _ end] => destruct x end; cbn; auto. }
  pose proof (live _ _ N) as El. assert (St : p_step (fst (p_run (p_new n) ls)) (LSignal g) = (Pst (ps_srvs (fst (p_run (p_new n) ls))) (ps_notify (fst (p_run (p_new n) ls))) true, [EEnded (Some g)])).
  { unfold p_step. rewrite El, Hn, andb_false_r. reflexivity. }
  split; [rewrite happened_snoc, St; reflexivity|]. intros more. unfold happened. rewrite run_app. cbn [fst snd p_run]. rewrite St. f_equal.
  match goal with |- context [p_run ?s0 more] => assert (D : snd (p_run s0 more) = []) end.
  { generalize (ps_srvs (fst (p_run (p_new n) ls))) (ps_notify (fst (p_run (p_new n) ls))). intros x y. induction more as [|l more IH]; [reflexivity|]. cbn [p_run]. unfold p_step. cbn [ps_ended]. destruct (p_run (Pst x y true) more). cbn in *. exact IH. }
  match goal with |- context [p_run ?s0 more] => destruct (p_run s0 more) as [s1 e1] end. cbn in *. now rewrite D.
Qed.
Print Assumptions C106_early_refuted.
Example C106_early_witness : happened 1 [LServe 0; LAccept 0; LSignal Sigint; LClose 0 0] = [EServed 0; EOpened 0 0; EEnded (Some Sigint)].
Proof. reflexivity. Qed.

(* Once a Serve has asked, no interrupt ends the program any more, not even after that Serve has returned:
   a main that goes on after Serve can not be interrupted again. *)
Theorem C106_deaf_refuted : forall n a b i g,
  In (EServed i) (happened n a) -> ~ ended (happened n (a ++ [LNotify i])) -> (forall g', ~ In (EReturned i g') (happened n a)) -> interrupts g ->
  ~ In (EEnded (Some g)) (happened n (a ++ LNotify i :: b)) /\ happened n ((a ++ LNotify i :: b) ++ [LSignal g]) = happened n (a ++ LNotify i :: b).
Proof.
  intros n a b i g Sv N R Ig. assert (Ag : asked_for g = true) by (destruct Ig as [->| ->]; reflexivity).
  assert (R1 : forall g', ~ In (EReturned i g') (happened n (a ++ [LNotify i]))).
  { intros g' I. rewrite happened_snoc in I. apply in_app_or in I. destruct I as [I|I]; [exact (R g' I)|]. unfold p_step in I. destruct (ps_ended _); [destruct I|]. destruct (nth_error _ i) as [[[] cs]|]; destruct I. }
  destruct (waits n a [] i Sv N R1) as (Hn & _).
  assert (K : ps_notify (fst (p_run (p_new n) (a ++ LNotify i :: b))) = true /\ ~ In (EEnded (Some g)) (happened n (a ++ LNotify i :: b))).
  { induction b as [|l b (IH1 & IH2)] using rev_ind; [split; [exact Hn|intros I; apply N; now exists (Some g)]|].
    assert (Q : a ++ LNotify i :: b ++ [l] = (a ++ LNotify i :: b) ++ [l]) by (rewrite <- app_assoc; reflexivity). rewrite Q, state_snoc, happened_snoc. set (s := fst (p_run (p_new n) (a ++ LNotify i :: b))) in *. split.
    - unfold p_step. destruct (ps_ended s); [exact IH1|]. destruct l; repeat match goal with |- context [match ?x with _ => _ end] => destruct x end; cbn; auto.
    - intros I. apply in_app_or in I. destruct I as [I|I]; [tauto|]. unfold p_step in I. destruct (ps_ended s); [destruct I|]. destruct l as [j|j|g0|j|j|j c|].
      + destruct (nth_error (ps_srvs s) j) as [[[] cs]|] eqn:Ej; try (destruct I; fail). destruct I as [I|[]]; discriminate.
      + destruct (nth_error (ps_srvs s) j) as [[[] cs]|] eqn:Ej; destruct I.
      + rewrite IH1, andb_true_r in I. destruct (asked_for g0) eqn:A0; [destruct I|]. destruct I as [I|[]]. injection I as ->. congruence.
      + destruct (nth_error (ps_srvs s) j) as [[[| |[g1|]|] cs]|] eqn:Ej; try (destruct I; fail). destruct I as [I|[]]; discriminate.
      + destruct (nth_error (ps_srvs s) j) as [[[] cs]|] eqn:Ej; try (destruct I; fail); (destruct I as [I|[]]; discriminate).
      + destruct (nth_error (ps_srvs s) j) as [[p1 cs]|] eqn:Ej; [|destruct I]. destruct (nth_error cs c) as [[]|]; try (destruct I; fail). destruct I as [I|[]]; discriminate.
      + destruct I as [I|[]]; discriminate. }
  destruct K as (K1 & K2). split; [exact K2|]. rewrite happened_snoc. unfold p_step. destruct (ps_ended _); [apply app_nil_r|]. rewrite Ag, K1. apply app_nil_r.
Qed.
Print Assumptions C106_deaf_refuted.
Example C106_deaf_witness : happened 1 [LServe 0; LNotify 0; LSignal Sigint; LReceive 0; LSignal Sigint; LSignal Sigterm; LSignal Sigint; LSignal OtherSig] =
  [EServed 0; EReturned 0 Sigint; EEnded (Some OtherSig)].
Proof. reflexivity. Qed.

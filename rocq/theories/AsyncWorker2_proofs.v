(* From every reachable state the submitting goroutines and the workers can finish. *)
From Coq Require Import ZArith List Bool Lia ZifyBool.
From Verif Require Import Bytes AsyncResult Async_proofs AsyncWorker Spec_AsyncWorker AsyncWorker_proofs.
Import ListNotations.
Local Open Scope Z_scope.

Definition sum_by {A} (f : A -> nat) (l : list A) : nat := fold_right (fun x n => (f x + n)%nat) 0%nat l.
Lemma sum_upd {A} (f : A -> nat) i x z : forall l, nth_error l i = Some z -> (sum_by f (upd i x l) + f z = sum_by f l + f x)%nat.
Proof.
  induction i as [|i IH]; intros [|w l]; cbn [nth_error upd sum_by fold_right]; try discriminate.
  - intros [= ->]. fold (sum_by f l). lia.
  - intros E. specialize (IH _ E). fold (sum_by f l) (sum_by f (upd i x l)). lia.
Qed.
Lemma sum_snoc {A} (f : A -> nat) l x : sum_by f (l ++ [x]) = (sum_by f l + f x)%nat.
Proof. induction l as [|y l IH]; cbn; [lia|]. fold (sum_by f (l ++ [x])) (sum_by f l). lia. Qed.

Definition gor_weight (g : gor) : nat := (8 * length (g_prog g) + match g_pc g with GIdle => 2 | GCreate _ => 1 | GSend _ => 0 end)%nat.
Definition worker_weight (k : aworker) : nat := (2 * length (k_queue k) + match k_running k with Some _ => 1 | None => 0 end)%nat.
Definition weight (s : wsys) : nat := (sum_by gor_weight (y_gors s) + sum_by worker_weight (y_heap s))%nat.

Lemma step_weight s l s' : w_step1 s l = Some s' -> (weight s' < weight s)%nat.
Proof.
  destruct s as [on ar hp gs se st en]. unfold weight. destruct l as [g|w|w b]; cbn [w_step1].
  - unfold sub_step. cbn [y_once y_arr y_heap y_gors y_sent y_started y_ended]. destruct (nth_error gs g) as [[prog pc]|] eqn:Eg; [|discriminate].
    assert (U := fun x => sum_upd gor_weight g x _ _ Eg). unfold gor_weight in U at 2 4. cbn [g_prog g_pc] in U.
    destruct pc as [|i|i].
    + destruct prog as [|[id [op|]] r]; [discriminate| |].
      * destruct (on (worker_index id)); [|discriminate|]; intros [= <-]; cbn [y_heap y_gors]; match goal with |- context [upd g ?x gs] => specialize (U x) end; cbn [g_prog g_pc] in U; lia.
      * intros [= <-]. cbn [y_heap y_gors]. specialize (U (Gor r GIdle)). cbn [g_prog g_pc length] in U. lia.
    + intros [= <-]. cbn [y_heap y_gors]. specialize (U (Gor prog (GSend i))). cbn [g_prog g_pc] in U. rewrite sum_snoc. cbn. lia.
    + destruct prog as [|[id [op|]] r]; try discriminate. specialize (U (Gor r GIdle)). cbn [g_prog g_pc length] in U.
      destruct (ar i) as [w|]; [|intros [= <-]; cbn [y_heap y_gors]; lia].
      destruct (nth_error hp w) as [[k q run]|] eqn:Ew; [|intros [= <-]; cbn [y_heap y_gors]; lia].
      destruct (Nat.ltb _ _); [|discriminate]. intros [= <-]. cbn [y_heap y_gors].
      assert (V := sum_upd worker_weight w (AWorker k (q ++ [Task g id op]) run) _ _ Ew). unfold worker_weight in V at 2 4. cbn [k_queue k_running] in V. rewrite app_length in V. cbn [length] in V. lia.
  - unfold take_step. cbn [y_once y_arr y_heap y_gors y_sent y_started y_ended]. destruct (nth_error hp w) as [[i [|t q] [run|]]|] eqn:Ew; try discriminate. intros [= <-]. cbn [y_heap y_gors].
    assert (V := sum_upd worker_weight w (AWorker i q (Some t)) _ _ Ew). unfold worker_weight in V at 2 4. cbn [k_queue k_running length] in V. lia.
  - unfold end_step. cbn [y_once y_arr y_heap y_gors y_sent y_started y_ended]. destruct (nth_error hp w) as [[i q [t|]]|] eqn:Ew; try discriminate. intros [= <-]. cbn [y_heap y_gors].
    assert (V := sum_upd worker_weight w (AWorker i q None) _ _ Ew). unfold worker_weight in V at 2 4. cbn [k_queue k_running length] in V. lia.
Qed.

(* Nothing left to do. *)
Definition quiet (s : wsys) : Prop :=
  (forall g, In g (y_gors s) -> g_prog g = []) /\ (forall k, In k (y_heap s) -> k_queue k = [] /\ k_running k = None).

Lemma find_or {A} (P : A -> bool) l : (exists i x, nth_error l i = Some x /\ P x = true) \/ (forall x, In x l -> P x = false).
Proof.
  induction l as [|y l IH]; [right; intros x []|]. destruct (P y) eqn:E; [left; now exists 0%nat, y|].
  destruct IH as [(i & x & X & B)|H]; [left; now exists (S i), x|]. right. intros x [<-|Hx]; auto.
Qed.

Lemma can_go progs s (panics : task -> bool) : WInv progs s -> quiet s \/
  exists l s', w_step1 s l = Some s' /\ (y_ended s' = y_ended s \/ exists i t, y_ended s' = y_ended s ++ [(i, t, panics t)]).
Proof.
  intros H. destruct (find_or (fun k => match k_running k with Some _ => true | None => false end) (y_heap s)) as [(w & k & Ew & R)|R].
  { right. destruct k as [i q [t|]]; [|discriminate]. exists (Finish w (panics t)). cbn [w_step1]. unfold end_step. rewrite Ew. eexists. split; [reflexivity|]. right. now exists i, t. }
  destruct (find_or (fun k => match k_queue k with [] => false | _ => true end) (y_heap s)) as [(w & k & Ew & Q)|Q].
  { right. assert (Rk := R k (nth_error_In _ _ Ew)). destruct k as [i [|t q] [x|]]; try discriminate. exists (Take w). cbn [w_step1]. unfold take_step. rewrite Ew. eexists. split; [reflexivity|]. now left. }
  assert (E : forall k, In k (y_heap s) -> k_queue k = [] /\ k_running k = None).
  { intros k Hk. specialize (R k Hk). specialize (Q k Hk). destruct k as [i [|? ?] [?|]]; try discriminate. now split. }
  destruct (find_or (fun g => match g_pc g with GIdle => false | _ => true end) (y_gors s)) as [(g & [prog pc] & Eg & P)|P].
  { right. assert (Hd := j_head _ _ H _ (nth_error_In _ _ Eg)). exists (Submit g). cbn [w_step1]. unfold sub_step. rewrite Eg. cbn in P, Hd. destruct pc as [|i|i]; [discriminate| |].
    - eexists. split; [reflexivity|now left].
    - destruct prog as [|[id [op|]] r]; try contradiction. destruct (j_made _ _ H i (j_send _ _ H _ i (nth_error_In _ _ Eg) eq_refl)) as (w & k & A & B & _).
      rewrite A, B. destruct (E k (nth_error_In _ _ B)) as (Eq & _). destruct k as [ki q run]. cbn in Eq. subst q. cbn [length]. change (Nat.ltb 0 queue_cap) with true. cbn iota.
      eexists. split; [reflexivity|now left]. }
  destruct (find_or (fun g => match g_prog g with [] => false | _ => true end) (y_gors s)) as [(g & [prog pc] & Eg & N)|N].
  2:{ left. split; [|exact E]. intros g Hg. specialize (N g Hg). now destruct (g_prog g). }
  right. assert (Pc := P _ (nth_error_In _ _ Eg)). cbn in Pc, N. destruct pc; try discriminate. destruct prog as [|[id [op|]] r]; [discriminate| |].
  2:{ exists (Submit g). cbn [w_step1]. unfold sub_step. rewrite Eg. eexists. split; [reflexivity|now left]. }
  exists (Submit g). cbn [w_step1]. unfold sub_step. rewrite Eg. destruct (y_once s (worker_index id)) eqn:Eo.
  - eexists. split; [reflexivity|now left].
  - exfalso. assert (C := j_create _ _ H (worker_index id)). rewrite Eo in C. unfold gcnt in C.
    destruct (filter (creating (worker_index id)) (y_gors s)) as [|x l] eqn:F; [discriminate|].
    assert (X : In x (filter (creating (worker_index id)) (y_gors s))) by (rewrite F; now left). apply filter_In in X. destruct X as (X1 & X2).
    specialize (P x X1). unfold creating in X2. destruct (g_pc x); discriminate.
  - eexists. split; [reflexivity|now left].
Qed.

Lemma can_finish progs (panics : task -> bool) : forall n s, WInv progs s -> (weight s <= n)%nat ->
  exists ls, quiet (w_run s ls) /\ exists more, y_ended (w_run s ls) = y_ended s ++ more /\ forall i t b, In (i, t, b) more -> b = panics t.
Proof.
  induction n as [n IH] using lt_wf_ind. intros s H W. destruct (can_go progs s panics H) as [Q|(l & s' & E & D)].
  - exists []. split; [exact Q|]. exists []. cbn. rewrite app_nil_r. split; [reflexivity|intros ? ? ? []].
  - assert (L := step_weight _ _ _ E). destruct (IH (weight s') ltac:(lia) s' (winv_step _ _ _ _ H E) ltac:(lia)) as (ls & Q & more & A & B).
    exists (l :: ls). assert (R : w_run s (l :: ls) = w_run s' ls) by (cbn; unfold w_step; now rewrite E). rewrite R. split; [exact Q|].
    destruct D as [D|(i & t & D)]; rewrite D in A.
    + exists more. auto.
    + exists ((i, t, panics t) :: more). rewrite <- app_assoc in A. split; [exact A|]. intros i0 t0 b [[= <- <- <-]|X]; eauto.
Qed.

Lemma ended_sub progs s : WInv progs s -> forall x, In x (map fst (y_ended s)) -> In x (y_started s).
Proof.
  intros H [k t] Hx. assert (A : In t (at_index k (map fst (y_ended s)))) by (unfold at_index; apply in_map_iff; exists (k, t); split; [reflexivity|]; apply filter_In; split; [exact Hx|cbn; lia]).
  assert (B : In t (at_index k (y_started s))) by (rewrite (j_started _ _ H k); apply in_or_app; now left).
  unfold at_index in B. apply in_map_iff in B. destruct B as ([k' t'] & E & B). cbn in E. subst t'. apply filter_In in B. destruct B as (B & E). cbn in E. replace k with k' by lia. exact B.
Qed.
Lemma fm_nil F i h : (forall k, In k h -> F k = []) -> FM F i h = [].
Proof. unfold FM. induction h as [|k h IH]; intros H; [reflexivity|]. cbn. rewrite (H k (or_introl eq_refl)), IH by (intros; apply H; now right). now destruct (k_idx k =? i). Qed.

(* All of a goroutine's operations have run to their end, in order. *)
Lemma all_done progs s g p id : WInv progs s -> quiet s -> nth_error progs g = Some p ->
  with_id id (from g (map fst (y_ended s))) = with_id id (tasks_of g p).
Proof.
  intros H (Q1 & Q2) E. destruct (j_prog _ _ H g p E) as (gr & A & B). rewrite (Q1 gr (nth_error_In _ _ A)) in B. cbn in B. rewrite app_nil_r in B. rewrite B.
  unfold with_id, from. rewrite (filter_comm _ _ (map snd (y_sent s))), (filter_comm _ _ (map snd (map fst (y_ended s)))). f_equal.
  fold (with_id id (map snd (y_sent s))). fold (with_id id (map snd (map fst (y_ended s)))).
  rewrite <- (with_id_index id _ (y_sent s) eq_refl (j_where _ _ H)).
  rewrite <- (with_id_index id _ (map fst (y_ended s)) eq_refl (fun x Hx => j_where _ _ H x (started_sub _ _ H x (ended_sub _ _ H x Hx)))).
  assert (X : waiting (worker_index id) s = []) by (apply (fm_nil k_queue); intros k Hk; now destruct (Q2 k Hk)).
  assert (Y : running (worker_index id) s = []) by (apply (fm_nil (fun k => match k_running k with Some t => [t] | None => [] end)); intros k Hk; destruct (Q2 k Hk) as (_ & ->); reflexivity).
  f_equal. rewrite (j_sent _ _ H), (j_started _ _ H), X, Y.
  now rewrite !app_nil_r.
Qed.

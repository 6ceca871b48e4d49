From Coq Require Import ZArith List Bool Arith Lia.
From Verif Require Import GoSlice AsyncWorker Backlog Spec_Backlog.
Import ListNotations.

Definition W (s : bst) (i : nat) : bwork := nth i (bs_work s) idle.

Lemma sn_len {A} (x : A) : forall l i, length (set_nth i x l) = length l.
Proof. induction l as [|y l IH]; intros [|i]; cbn; auto. Qed.
Lemma sn_nth {A} (x d : A) : forall l i j, i < length l -> nth j (set_nth i x l) d = if Nat.eqb j i then x else nth j l d.
Proof.
  induction l as [|y l IH]; intros i j H; [cbn in H; lia|]. destruct i as [|i], j as [|j]; cbn; auto.
  apply IH. cbn in H. lia.
Qed.
Lemma nth_err_nth {A} (d : A) l i x : nth_error l i = Some x -> i < length l /\ nth i l d = x.
Proof. intros H. split; [apply nth_error_Some; congruence|now apply nth_error_nth]. Qed.
Lemma nth_nth_err {A} (d : A) l i : i < length l -> nth_error l i = Some (nth i l d).
Proof. intros H. now apply nth_error_nth'. Qed.

(* What one step does, worker by worker. *)
Definition at_i {A} (i j : nat) (x y : A) : A := if Nat.eqb j i then x else y.
Lemma give_cases cf ws g i r d ws' e : give cf ws g i r d = Some (ws', e) ->
  i < length ws /\ length ws' = length ws /\
  ((d = true /\ nth i ws idle = idle /\ e = [BvPut g i r; BvBegin g i r] /\ forall j, nth j ws' idle = at_i i j (Bwork [] (Some (g, r, sends_of r))) (nth j ws idle)) \/
   (d = false /\ length (bw_buf (nth i ws idle)) < capacity cf i /\ e = [BvPut g i r] /\
    forall j, nth j ws' idle = at_i i j (Bwork (bw_buf (nth i ws idle) ++ [(g, r)]) (bw_run (nth i ws idle))) (nth j ws idle))).
Proof.
  unfold give. destruct (nth_error ws i) as [w|] eqn:E; [|discriminate]. apply (nth_err_nth idle) in E as (L & E). rewrite E. destruct d.
  - destruct w as [[|x b] [y|]]; cbn; try discriminate. intros [= <- <-]. split; [exact L|]. split; [apply sn_len|]. left. repeat split. intros j. now apply sn_nth.
  - destruct (Nat.ltb_spec (length (bw_buf w)) (capacity cf i)) as [C|C]; [|discriminate]. intros [= <- <-]. split; [exact L|]. split; [apply sn_len|]. right. repeat split; [exact C|]. intros j. now apply sn_nth.
Qed.

Definition R (s : bst) (n : nat) : option (target * req) := nth n (bs_read s) None.
Lemma step_cases cf s l s' e : b_step cf s l = Some (s', e) ->
  length (bs_work s') = length (bs_work s) /\
  match l with
  | BOffer n t r => R s n = None /\ e = [BvOffer n t r] /\ (forall j, W s' j = W s j) /\ (forall m, R s' m = at_i n m (Some (t, r)) (R s m))
  | BSend n d => exists t r ws, R s n = Some (t, r) /\ give cf (bs_work s) (Reader n) (index cf t) r d = Some (ws, e) /\ bs_work s' = ws /\ (forall m, R s' m = at_i n m None (R s m))
  | BTake i => exists g r b, W s i = Bwork ((g, r) :: b) None /\ e = [BvBegin g i r] /\ (forall j, W s' j = at_i i j (Bwork b (Some (g, r, sends_of r))) (W s j)) /\ (forall m, R s' m = R s m)
  | BPut i d => exists g r t x rest ws, bw_run (W s i) = Some (g, r, (t, x) :: rest) /\ give cf (bs_work s) (Worker i) (index cf t) x d = Some (ws, e) /\
      (forall j, W s' j = at_i i j (Bwork (bw_buf (nth i ws idle)) (Some (g, r, rest))) (nth j ws idle)) /\ (forall m, R s' m = R s m)
  | BEnd i => exists g r b, W s i = Bwork b (Some (g, r, [])) /\ e = [BvEnd g i r] /\ (forall j, W s' j = at_i i j (Bwork b None) (W s j)) /\ (forall m, R s' m = R s m)
  end.
Proof.
  destruct s as [ws rd]. unfold W, R. destruct l as [n t r|n d|i|i d|i]; cbn [b_step bs_work bs_read].
  - destruct (nth_error rd n) as [[x|]|] eqn:E; try discriminate. intros [= <- <-]. cbn. apply (nth_err_nth None) in E as (L & E). repeat split; [exact E|]. intros m. now apply sn_nth.
  - destruct (nth_error rd n) as [[[t r]|]|] eqn:E; try discriminate. destruct (give _ _ _ _ _ _) as [[ws' e']|] eqn:G; [|discriminate]. intros [= <- <-]. cbn. apply (nth_err_nth None) in E as (L & E).
    destruct (give_cases _ _ _ _ _ _ _ _ G) as (_ & L' & _). split; [exact L'|]. exists t, r, ws'. repeat split; [exact E|exact G|]. intros m. now apply sn_nth.
  - destruct (nth_error ws i) as [[[|[g r] b] [y|]]|] eqn:E; try discriminate. intros [= <- <-]. cbn. apply (nth_err_nth idle) in E as (L & E). split; [apply sn_len|]. exists g, r, b. repeat split; [exact E|]. intros j. now apply sn_nth.
  - destruct (nth_error ws i) as [[b [[[g r] [|[t x] rest]]|]]|] eqn:E; try discriminate. destruct (give _ _ _ _ _ _) as [[ws' e']|] eqn:G; [|discriminate]. apply (nth_err_nth idle) in E as (L & E).
    destruct (give_cases _ _ _ _ _ _ _ _ G) as (_ & L' & _). rewrite (nth_nth_err idle) by lia. intros [= <- <-]. cbn. split; [rewrite sn_len; exact L'|]. exists g, r, t, x, rest, ws'. rewrite E. repeat split; [exact G|]. intros j. apply sn_nth. lia.
  - destruct (nth_error ws i) as [[b [[[g r] [|[t x] rest]]|]]|] eqn:E; try discriminate. intros [= <- <-]. cbn. apply (nth_err_nth idle) in E as (L & E). split; [apply sn_len|]. exists g, r, b. repeat split; [exact E|]. intros j. now apply sn_nth.
Qed.

(* Induction over schedules. *)
Lemma run_ind cf (P : list blabel -> bst -> list bev -> Prop) :
  P [] (b_new cf) [] ->
  (forall ls s tr l, P ls s tr -> b_step cf s l = None -> P (ls ++ [l]) s tr) ->
  (forall ls s tr l s' e, P ls s tr -> b_step cf s l = Some (s', e) -> P (ls ++ [l]) s' (tr ++ e)) ->
  forall ls, P ls (fst (b_run cf (b_new cf) ls)) (snd (b_run cf (b_new cf) ls)).
Proof.
  intros H0 HN HS ls. enough (G : forall ls2 ls1 s tr, P ls1 s tr -> P (ls1 ++ ls2) (fst (b_run cf s ls2)) (tr ++ snd (b_run cf s ls2))) by exact (G ls [] _ _ H0).
  induction ls2 as [|l ls2 IH]; intros ls1 s tr H; cbn [b_run].
  - cbn. now rewrite !app_nil_r.
  - destruct (b_step cf s l) as [[s1 e]|] eqn:E.
    + specialize (IH _ _ _ (HS _ _ _ _ _ _ H E)). rewrite <- !app_assoc in IH. destruct (b_run cf s1 ls2). exact IH.
    + specialize (IH _ _ _ (HN _ _ _ _ H E)). rewrite <- !app_assoc in IH. exact IH.
Qed.
Lemma run_app cf l1 : forall s l2, b_run cf s (l1 ++ l2) = let (s1, e1) := b_run cf s l1 in let (s2, e2) := b_run cf s1 l2 in (s2, e1 ++ e2).
Proof.
  induction l1 as [|l l1 IH]; intros s l2; cbn [b_run app]. { destruct (b_run cf s l2); reflexivity. }
  destruct (b_step cf s l) as [[s1 e]|]; [|apply IH]. rewrite IH. destruct (b_run cf s1 l1) as [s2 e2]. destruct (b_run cf s2 l2). now rewrite app_assoc.
Qed.

(* The queues are queues. *)
Definition fifo cf (s : bst) (tr : list bev) : Prop := forall i,
  accepted i tr = begun i tr ++ bw_buf (W s i) /\ begun i tr = ended i tr ++ running (W s i) /\ length (bw_buf (W s i)) <= capacity cf i.
Lemma acc_app i a b : accepted i (a ++ b) = accepted i a ++ accepted i b. Proof. apply flat_map_app. Qed.
Lemma beg_app i a b : begun i (a ++ b) = begun i a ++ begun i b. Proof. apply flat_map_app. Qed.
Lemma end_app i a b : ended i (a ++ b) = ended i a ++ ended i b. Proof. apply flat_map_app. Qed.
Lemma off_app i a b : offered i (a ++ b) = offered i a ++ offered i b. Proof. apply flat_map_app. Qed.

Lemma give_fifo cf ws g i r d ws' e tr : give cf ws g i r d = Some (ws', e) ->
  (forall j, accepted j tr = begun j tr ++ bw_buf (nth j ws idle) /\ begun j tr = ended j tr ++ running (nth j ws idle) /\ length (bw_buf (nth j ws idle)) <= capacity cf j) ->
  forall j, accepted j (tr ++ e) = begun j (tr ++ e) ++ bw_buf (nth j ws' idle) /\ begun j (tr ++ e) = ended j (tr ++ e) ++ running (nth j ws' idle) /\ length (bw_buf (nth j ws' idle)) <= capacity cf j.
Proof.
  intros G H j. destruct (H j) as (A & B & C). apply give_cases in G as (_ & _ & [(_ & E & -> & N)|(_ & E & -> & N)]); rewrite N; rewrite acc_app, beg_app, end_app; cbn; unfold at_i; rewrite (Nat.eqb_sym i j); destruct (Nat.eqb_spec j i) as [->|D]; cbn; rewrite ?app_nil_r; auto.
  - rewrite E in A, B. cbn in A, B. rewrite app_nil_r in A, B. rewrite A, B. repeat split; lia.
  - rewrite A, app_assoc. repeat split; [exact B|]. rewrite app_length. cbn. lia.
Qed.
Lemma give_keeps cf ws g i r d ws' e k : give cf ws g i r d = Some (ws', e) -> (exists x, bw_run (nth k ws idle) = Some x) -> bw_run (nth k ws' idle) = bw_run (nth k ws idle).
Proof.
  intros G (x & X). apply give_cases in G as (_ & _ & [(_ & E & _ & N)|(_ & E & _ & N)]); rewrite N; unfold at_i; destruct (Nat.eqb_spec k i) as [->|D]; auto. rewrite E in X. discriminate.
Qed.
Lemma fifo_run cf ls : fifo cf (fst (b_run cf (b_new cf) ls)) (snd (b_run cf (b_new cf) ls)).
Proof.
  apply (run_ind cf (fun _ => fifo cf)).
  - intros i. assert (E : W (b_new cf) i = idle) by apply nth_repeat. rewrite E. cbn. repeat split. lia.
  - auto.
  - intros ls0 s tr l s' e H E. apply step_cases in E as (_ & E). destruct l as [n t r|n d|i|i d|i].
    + destruct E as (_ & -> & E & _). intros j. rewrite E. rewrite acc_app, beg_app, end_app. cbn. rewrite !app_nil_r. apply H.
    + destruct E as (t & r & ws & _ & G & <- & _). intros j. unfold W. apply (give_fifo _ _ _ _ _ _ _ _ tr G H).
    + destruct E as (g & r & b & E & -> & N & _). intros j. destruct (H j) as (A & B & C). rewrite N, acc_app, beg_app, end_app. cbn. unfold at_i. rewrite (Nat.eqb_sym i j). destruct (Nat.eqb_spec j i) as [->|D]; cbn; rewrite ?app_nil_r; auto.
      rewrite E in A, B, C. cbn in A, B, C. rewrite A, <- app_assoc. cbn. rewrite app_nil_r in B. repeat split; [now rewrite B|lia].
    + destruct E as (g & r & t & x & rest & ws & E & G & N & _). intros j. destruct (give_fifo _ _ _ _ _ _ _ _ tr G H j) as (A & B & C). rewrite N. unfold at_i. destruct (Nat.eqb_spec j i) as [->|D]; [|auto]. cbn. repeat split; [exact A| |exact C].
      rewrite B. f_equal. unfold running. cbn. rewrite (give_keeps _ _ _ _ _ _ _ _ i G) by (unfold W in E; rewrite E; eexists; reflexivity). unfold W in E. now rewrite E.
    + destruct E as (g & r & b & E & -> & N & _). intros j. destruct (H j) as (A & B & C). rewrite N, acc_app, beg_app, end_app. cbn. unfold at_i. rewrite (Nat.eqb_sym i j). destruct (Nat.eqb_spec j i) as [->|D]; cbn; rewrite ?app_nil_r; auto.
      rewrite E in A, B, C. cbn in A, B, C. repeat split; [exact A|exact B|exact C].
Qed.

(* Readers. *)
Definition pending (o : option (target * req)) : list req := match o with Some (_, r) => [r] | None => [] end.
Definition rinv cf n i (s : bst) (tr : list bev) : Prop :=
  offered n tr = of_reader n (accepted i tr) ++ pending (R s n) /\ (forall t r, R s n = Some (t, r) -> index cf t = i).
Lemma ofr_app n a b : of_reader n (a ++ b) = of_reader n a ++ of_reader n b. Proof. apply flat_map_app. Qed.
Lemma give_acc cf ws g i r d ws' e : give cf ws g i r d = Some (ws', e) -> (forall j, accepted j e = if Nat.eqb i j then [(g, r)] else []) /\ forall n, offered n e = [].
Proof. intros G. apply give_cases in G as (_ & _ & [(_ & _ & -> & _)|(_ & _ & -> & _)]); split; try reflexivity; intros j; cbn; destruct (i =? j); reflexivity. Qed.
Lemma rinv_run cf n i ls : reads_for cf n i ls -> rinv cf n i (fst (b_run cf (b_new cf) ls)) (snd (b_run cf (b_new cf) ls)).
Proof.
  revert ls. apply (run_ind cf (fun ls s tr => reads_for cf n i ls -> rinv cf n i s tr)).
  - intros _. assert (E : R (b_new cf) n = None) by apply nth_repeat. split; rewrite E; [reflexivity|discriminate].
  - intros ls s tr l IH _ H. apply IH. intros t r I. apply (H t r), in_or_app. now left.
  - intros ls s tr l s' e IH E H. assert (IH' : rinv cf n i s tr) by (apply IH; intros t r I; apply (H t r), in_or_app; now left). clear IH. destruct IH' as (A & B). unfold rinv.
    rewrite off_app, acc_app, ofr_app, A. apply step_cases in E as (_ & E). destruct l as [m t r|m d|k|k d|k].
    + destruct E as (F & -> & _ & N). rewrite N. unfold at_i. cbn. rewrite app_nil_r, (Nat.eqb_sym n m). destruct (Nat.eqb_spec m n) as [->|D].
      * rewrite F. cbn. rewrite app_nil_r. split; [reflexivity|]. intros t' r' [= <- <-]. apply (H t r), in_or_app. right. now left.
      * rewrite ?app_nil_r. auto.
    + destruct E as (t & r & ws & F & G & _ & N). destruct (give_acc _ _ _ _ _ _ _ _ G) as (Ga & Go). rewrite Ga, Go, N. unfold at_i. rewrite app_nil_r. rewrite (Nat.eqb_sym n m). destruct (Nat.eqb_spec m n) as [->|D].
      * rewrite (B _ _ F), Nat.eqb_refl, F. cbn. rewrite Nat.eqb_refl. cbn. rewrite app_nil_r. split; [reflexivity|discriminate].
      * assert (X : of_reader n (if index cf t =? i then [(Reader m, r)] else []) = []) by (destruct (index cf t =? i); [cbn; destruct (Nat.eqb_spec m n); [contradiction|reflexivity]|reflexivity]). rewrite X, ?app_nil_r. auto.
    + destruct E as (g & r & b & _ & -> & _ & N). rewrite N. cbn. rewrite !app_nil_r. auto.
    + destruct E as (g & r & t & x & rest & ws & _ & G & _ & N). destruct (give_acc _ _ _ _ _ _ _ _ G) as (Ga & Go). rewrite Ga, Go, N, app_nil_r.
      assert (X : of_reader n (if index cf t =? i then [(Worker k, x)] else []) = []) by (destruct (index cf t =? i); reflexivity). rewrite X, ?app_nil_r. auto.
    + destruct E as (g & r & b & _ & -> & _ & N). rewrite N. cbn. rewrite !app_nil_r. auto.
Qed.
Lemma ofr_length n l : length (of_reader n l) <= length l.
Proof. induction l as [|[g r] l IH]; [cbn; lia|]. change (of_reader n ((g, r) :: l)) with ((match g with Reader m => if Nat.eqb m n then [r] else [] | _ => [] end) ++ of_reader n l). rewrite app_length. cbn [length]. destruct g as [m|m]; [destruct (m =? n)|]; cbn [length]; lia. Qed.

(* Every step uses something up. *)
Fixpoint size (r : req) : nat :=
  match r with Req _ l => 2 + (fix sum l := match l with [] => 0 | (_, x) :: l' => 1 + size x + sum l' end) l end.
Fixpoint sends_size (l : list (target * req)) : nat := match l with [] => 0 | (_, x) :: l' => 1 + size x + sends_size l' end.
Lemma size_eq r : size r = 2 + sends_size (sends_of r).
Proof. destruct r as [n l]. reflexivity. Qed.
Fixpoint sum {A} (f : A -> nat) (l : list A) : nat := match l with [] => 0 | x :: r => f x + sum f r end.
Definition w_size (w : bwork) : nat := sum (fun x => size (snd x)) (bw_buf w) + match bw_run w with Some (_, _, l) => 1 + sends_size l | None => 0 end.
Definition r_size (o : option (target * req)) : nat := match o with Some (_, r) => 1 + size r | None => 0 end.
Definition measure (s : bst) : nat := sum w_size (bs_work s) + sum r_size (bs_read s).
Lemma sum_set {A} (f : A -> nat) x y : forall l i, nth_error l i = Some y -> sum f (set_nth i x l) + f y = sum f l + f x.
Proof. induction l as [|z l IH]; intros [|i] H; cbn [nth_error] in H; try discriminate; cbn [set_nth sum]; [injection H as ->; lia|]. specialize (IH i H). lia. Qed.
Lemma sum_app {A} (f : A -> nat) a b : sum f (a ++ b) = sum f a + sum f b.
Proof. induction a as [|x l IH]; cbn [sum app]; [reflexivity|]. lia. Qed.
Lemma give_size cf ws g i r d ws' e : give cf ws g i r d = Some (ws', e) -> sum w_size ws' <= sum w_size ws + size r.
Proof.
  unfold give. destruct (nth_error ws i) as [w|] eqn:E; [|discriminate]. destruct d.
  - destruct w as [[|x b] [y|]]; cbn; try discriminate. intros [= <- <-]. pose proof (sum_set w_size (Bwork [] (Some (g, r, sends_of r))) _ _ _ E) as H. cbn in H. rewrite (size_eq r). lia.
  - destruct (length (bw_buf w) <? capacity cf i); [|discriminate]. intros [= <- <-]. pose proof (sum_set w_size (Bwork (bw_buf w ++ [(g, r)]) (bw_run w)) _ _ _ E) as H. unfold w_size in H at 2 4. cbn [bw_buf bw_run] in H. rewrite sum_app in H.
    replace (sum (fun x : giver * req => size (snd x)) [(g, r)]) with (size r) in H by (cbn; lia). lia.
Qed.
Lemma step_measure cf s l s' e : internal l -> b_step cf s l = Some (s', e) -> measure s' < measure s.
Proof.
  unfold measure. destruct s as [ws rd]. destruct l as [n t r|n d|i|i d|i]; cbn [b_step bs_work bs_read internal]; [contradiction| | | |]; intros _.
  - destruct (nth_error rd n) as [[[t r]|]|] eqn:E; try discriminate. destruct (give _ _ _ _ _ _) as [[ws' e']|] eqn:G; [|discriminate]. intros [= <- <-]. cbn. apply give_size in G. pose proof (sum_set r_size None _ _ _ E) as H. cbn in H. lia.
  - destruct (nth_error ws i) as [[[|[g r] b] [y|]]|] eqn:E; try discriminate. intros [= <- <-]. cbn. pose proof (sum_set w_size (Bwork b (Some (g, r, sends_of r))) _ _ _ E) as H. unfold w_size in H at 2 4. cbn [bw_buf bw_run] in H. cbn [sum snd] in H. rewrite (size_eq r) in H. lia.
  - destruct (nth_error ws i) as [[b [[[g r] [|[t x] rest]]|]]|] eqn:E; try discriminate. destruct (give _ _ _ _ _ _) as [[ws' e']|] eqn:G; [|discriminate].
    destruct (nth_error ws' i) as [w|] eqn:F; [|discriminate]. intros [= <- <-]. cbn. pose proof (give_size _ _ _ _ _ _ _ _ G) as G2. apply (nth_err_nth idle) in E as (L & E).
    assert (K : bw_run (nth i ws' idle) = Some (g, r, (t, x) :: rest)) by (rewrite (give_keeps _ _ _ _ _ _ _ _ i G); rewrite E; [reflexivity|eexists; reflexivity]).
    pose proof (nth_err_nth idle _ _ _ F) as (_ & F2). rewrite F2 in K. pose proof (sum_set w_size (Bwork (bw_buf w) (Some (g, r, rest))) _ _ _ F) as H. unfold w_size in H at 2 4. cbn [bw_buf bw_run] in H. rewrite K in H. cbn [sends_size] in H. lia.
  - destruct (nth_error ws i) as [[b [[[g r] [|[t x] rest]]|]]|] eqn:E; try discriminate. intros [= <- <-]. cbn. pose proof (sum_set w_size (Bwork b None) _ _ _ E) as H. unfold w_size in H at 2 4. cbn [bw_buf bw_run sends_size] in H. lia.
Qed.
Lemma taken_bound cf : forall ls s, Forall internal ls -> all_taken cf s ls -> length ls <= measure s.
Proof.
  induction ls as [|l ls IH]; intros s F H; cbn; [lia|]. destruct H as (s1 & e & E & H). inversion F as [|? ? Fl Fr]; subst. apply step_measure in E; [|exact Fl]. specialize (IH s1 Fr H). lia.
Qed.

Lemma index_range cf : pool_ok cf -> forall t, index cf t < b_tasks cf + async_workers.
Proof.
  intros P [c|op]; cbn [index]; [specialize (P c); lia|]. apply Nat.add_lt_mono_l. unfold async_workers, worker_index. generalize (if (op <? 0)%Z then Bytes.s64 (- op) else op). intros z.
  assert (H : (Z.rem z worker_count < worker_count)%Z) by (unfold worker_count; destruct (Z_le_gt_dec 0 z); [apply Z.rem_bound_pos; lia|pose proof (Z.rem_nonpos z 2048); lia]).
  revert H. generalize (Z.rem z worker_count). unfold worker_count. intros y H. destruct (Z_le_gt_dec 0 y) as [Y|Y]; [apply Z2Nat.inj_lt; lia|]. destruct y; lia.
Qed.

(* Acyclic sends. *)
Section Down.
Variables (cf : bcfg) (rank : nat -> nat) (k : nat).
Definition down_send (i : nat) (x : target * req) : Prop := (rank i <= k -> rank (index cf (fst x)) < rank i) /\ downwards cf rank k (index cf (fst x)) (snd x).
Lemma down_eq i r : downwards cf rank k i r <-> Forall (down_send i) (sends_of r).
Proof.
  destruct r as [n l]. cbn. induction l as [|[t x] l IH]; [split; constructor|]. split.
  - intros (A & B & C). constructor; [split; assumption|]. now apply IH.
  - intros H. inversion H as [|? ? (A & B) C]; subst. split; [exact A|]. split; [exact B|]. now apply IH.
Qed.
Definition dinv (s : bst) : Prop :=
  length (bs_work s) = b_tasks cf + async_workers /\
  (forall i, Forall (fun x => downwards cf rank k i (snd x)) (bw_buf (W s i)) /\ match bw_run (W s i) with Some (_, _, l) => Forall (down_send i) l | None => True end) /\
  (forall n t r, R s n = Some (t, r) -> downwards cf rank k (index cf t) r).
Lemma give_down ws g i r d ws' e : give cf ws g i r d = Some (ws', e) -> downwards cf rank k i r ->
  (forall i, Forall (fun x => downwards cf rank k i (snd x)) (bw_buf (nth i ws idle)) /\ match bw_run (nth i ws idle) with Some (_, _, l) => Forall (down_send i) l | None => True end) ->
  (forall i, Forall (fun x => downwards cf rank k i (snd x)) (bw_buf (nth i ws' idle)) /\ match bw_run (nth i ws' idle) with Some (_, _, l) => Forall (down_send i) l | None => True end).
Proof.
  intros G D H j. apply give_cases in G as (_ & _ & [(_ & E & _ & N)|(_ & E & _ & N)]); rewrite N; unfold at_i; destruct (Nat.eqb_spec j i) as [->|X]; try apply H; cbn.
  - split; [constructor|]. now apply down_eq.
  - split; [|apply H]. apply Forall_app. split; [apply H|]. now constructor.
Qed.
Lemma dinv_run ls : offers_ok cf rank k ls -> dinv (fst (b_run cf (b_new cf) ls)).
Proof.
  revert ls. apply (run_ind cf (fun ls s _ => offers_ok cf rank k ls -> dinv s)).
  - intros _. split; [apply repeat_length|]. split.
    + intros i. assert (E : W (b_new cf) i = idle) by apply nth_repeat. rewrite E. cbn. auto.
    + intros n t r. assert (E : R (b_new cf) n = None) by apply nth_repeat. rewrite E. discriminate.
  - intros ls s _ l IH _ H. apply IH. intros n t r I. apply (H n), in_or_app. now left.
  - intros ls s _ l s' e IH E H. assert (D : dinv s) by (apply IH; intros n t r I; apply (H n), in_or_app; now left). clear IH. destruct D as (L & A & B). apply step_cases in E as (L' & E). split; [congruence|]. destruct l as [m t r|m d|i|i d|i].
    + destruct E as (_ & _ & N & M). split; [intros i; rewrite N; apply A|]. intros n t' r'. rewrite M. unfold at_i. destruct (Nat.eqb_spec n m) as [->|D]; [|apply B]. intros [= <- <-]. apply (H m), in_or_app. right. now left.
    + destruct E as (t & r & ws & F & G & <- & M). split; [exact (give_down _ _ _ _ _ _ _ G (B _ _ _ F) A)|]. intros n t' r'. rewrite M. unfold at_i. destruct (Nat.eqb_spec n m) as [->|D]; [discriminate|apply B].
    + destruct E as (g & r & b & F & _ & N & M). split; [|intros n t' r'; rewrite M; apply B]. intros j. rewrite N. unfold at_i. destruct (Nat.eqb_spec j i) as [->|D]; [|apply A]. destruct (A i) as (A1 & _). rewrite F in A1. inversion A1 as [|? ? A2 A3]; subst. cbn. split; [exact A3|]. now apply down_eq.
    + destruct E as (g & r & t & x & rest & ws & F & G & N & M). split; [|intros n t' r'; rewrite M; apply B]. destruct (A i) as (_ & A2). rewrite F in A2. inversion A2 as [|? ? (_ & A3) A4]; subst. cbn [fst snd] in A3.
      pose proof (give_down _ _ _ _ _ _ _ G A3 A) as A5. intros j. rewrite N. unfold at_i. destruct (Nat.eqb_spec j i) as [->|D]; [|apply A5]. cbn. split; [apply A5|exact A4].
    + destruct E as (g & r & b & F & _ & N & M). split; [|intros n t' r'; rewrite M; apply B]. intros j. rewrite N. unfold at_i. destruct (Nat.eqb_spec j i) as [->|D]; [|apply A]. destruct (A i) as (A1 & _). rewrite F in A1. cbn. split; [exact A1|exact Logic.I].
Qed.
Lemma no_move_rest s : pool_ok cf -> dinv s -> no_move cf rank k s -> forall i, rank i <= k -> at_rest cf s i.
Proof.
  intros P (L & A & B) (M1 & M2). 
  assert (G : forall m i, rank i < m -> rank i <= k -> i < length (bs_work s) -> nth_error (bs_work s) i = Some idle).
  { induction m as [|m IH]; intros i Hm Hk Hl; [lia|]. destruct (M1 i true Hk) as (T1 & T2 & T3). rewrite (nth_nth_err idle) by exact Hl. destruct (A i) as (_ & A2). unfold W in A2. cbn [b_step] in T1, T2, T3.
    rewrite (nth_nth_err idle) in T1, T2, T3 by exact Hl. destruct (nth i (bs_work s) idle) as [b [[[g r] [|[t x] rest]]|]]; cbn in *.
    - discriminate.
    - exfalso. inversion A2 as [|? ? (A3 & _) _]; subst. cbn in A3. specialize (A3 Hk). assert (Hr : index cf t < length (bs_work s)) by (rewrite L; now apply index_range).
      assert (Z0 := IH (index cf t) ltac:(lia) ltac:(lia) Hr). unfold give in T2. rewrite Z0 in T2. cbn in T2.
      destruct (nth_error (set_nth (index cf t) _ (bs_work s)) i) eqn:E2; [discriminate|]. apply nth_error_None in E2. rewrite sn_len in E2. lia.
    - destruct b as [|[g r] b]; [reflexivity|discriminate]. }
  intros i Hk. split.
  - intros w E. assert (Hl : i < length (bs_work s)) by (apply nth_error_Some; congruence). rewrite (G (S (rank i)) i ltac:(lia) Hk Hl) in E. now injection E as <-.
  - intros n t r E F. subst i. assert (Hl : index cf t < length (bs_work s)) by (rewrite L; now apply index_range). specialize (M2 n t r true E Hk). cbn [b_step] in M2. rewrite E in M2. unfold give in M2.
    rewrite (G (S (rank (index cf t))) (index cf t) ltac:(lia) Hk Hl) in M2. cbn in M2. discriminate.
Qed.
End Down.

(* Two workers, each in a send to the other's full queue (or one, to its own). *)
Definition jammed cf (s : bst) (i j : nat) : Prop :=
  capacity cf i <= length (bw_buf (W s i)) /\ exists g r t x rest, bw_run (W s i) = Some (g, r, (t, x) :: rest) /\ index cf t = j.
Lemma give_jammed cf ws g i r d ws' e k : give cf ws g i r d = Some (ws', e) -> capacity cf k <= length (bw_buf (nth k ws idle)) -> bw_run (nth k ws idle) <> None ->
  i <> k /\ nth k ws' idle = nth k ws idle /\ begun k e = [] /\ ended k e = [].
Proof.
  intros G F B. apply give_cases in G as (_ & _ & [(_ & E & -> & N)|(_ & E & -> & N)]); rewrite N; unfold at_i.
  - destruct (Nat.eqb_spec k i) as [->|X]; [rewrite E in B; cbn in B; congruence|]. cbn. destruct (Nat.eqb_spec i k); [congruence|]. auto.
  - destruct (Nat.eqb_spec k i) as [->|X]; [lia|]. cbn. repeat split. congruence.
Qed.
Lemma jammed_step cf s l s' e i j : jammed cf s i j -> jammed cf s j i -> b_step cf s l = Some (s', e) ->
  jammed cf s' i j /\ jammed cf s' j i /\ begun i e = [] /\ ended i e = [].
Proof.
  intros (F1 & g1 & r1 & t1 & x1 & q1 & E1 & I1) (F2 & g2 & r2 & t2 & x2 & q2 & E2 & I2) E.
  enough (K : W s' i = W s i /\ W s' j = W s j /\ begun i e = [] /\ ended i e = []).
  { destruct K as (K1 & K2 & K3 & K4). unfold jammed. rewrite K1, K2. repeat split; auto; [exists g1, r1, t1, x1, q1|exists g2, r2, t2, x2, q2]; auto. }
  apply step_cases in E as (_ & E). destruct l as [n t r|n d|m|m d|m].
  - destruct E as (_ & -> & N & _). rewrite !N. auto.
  - destruct E as (t & r & ws & _ & G & <- & _). unfold W in *. destruct (give_jammed _ _ _ _ _ _ _ _ i G F1 ltac:(congruence)) as (_ & A & B & C). destruct (give_jammed _ _ _ _ _ _ _ _ j G F2 ltac:(congruence)) as (_ & A' & _). auto.
  - destruct E as (g & r & b & F & -> & N & _). rewrite !N. unfold at_i. cbn. destruct (Nat.eqb_spec i m) as [->|D]; [rewrite F in E1; discriminate|]. destruct (Nat.eqb_spec j m) as [->|D']; [rewrite F in E2; discriminate|]. destruct (Nat.eqb_spec m i); [congruence|]. auto.
  - destruct E as (g & r & t & x & rest & ws & F & G & N & _). unfold W in *. destruct (give_jammed _ _ _ _ _ _ _ _ i G F1 ltac:(congruence)) as (X & A & B & C). destruct (give_jammed _ _ _ _ _ _ _ _ j G F2 ltac:(congruence)) as (X' & A' & _).
    rewrite !N. unfold at_i. destruct (Nat.eqb_spec i m) as [->|D]; [exfalso; congruence|]. destruct (Nat.eqb_spec j m) as [->|D']; [exfalso; congruence|]. auto.
  - destruct E as (g & r & b & F & -> & N & _). rewrite !N. unfold at_i. cbn. destruct (Nat.eqb_spec i m) as [->|D]; [rewrite F in E1; discriminate|]. destruct (Nat.eqb_spec j m) as [->|D']; [rewrite F in E2; discriminate|]. destruct (Nat.eqb_spec m i); [congruence|]. auto.
Qed.
Lemma jammed_run cf i j : forall ls s, jammed cf s i j -> jammed cf s j i -> begun i (snd (b_run cf s ls)) = [] /\ ended i (snd (b_run cf s ls)) = [].
Proof.
  induction ls as [|l ls IH]; intros s H1 H2; cbn [b_run]; [auto|]. destruct (b_step cf s l) as [[s1 e]|] eqn:E; [|now apply IH].
  destruct (jammed_step _ _ _ _ _ _ _ H1 H2 E) as (A & B & C & D). specialize (IH s1 A B). destruct (b_run cf s1 ls) as [s2 e2]. cbn [snd] in *. rewrite beg_app, end_app, C, D. exact IH.
Qed.

(* A reader fills the queue of a busy worker. *)
Definition leaf : req := Req 0 [].
Fixpoint fill (t : target) (n : nat) : list blabel := match n with O => [] | S m => BOffer 0 t leaf :: BSend 0 false :: fill t m end.
Lemma fill_run cf t : forall n s, R s 0 = None -> 0 < length (bs_read s) -> index cf t < length (bs_work s) -> length (bw_buf (W s (index cf t))) + n <= capacity cf (index cf t) ->
  let s' := fst (b_run cf s (fill t n)) in
  R s' 0 = None /\ length (bs_read s') = length (bs_read s) /\ length (bs_work s') = length (bs_work s) /\ (forall m, m <> 0 -> R s' m = R s m) /\
  length (bw_buf (W s' (index cf t))) = length (bw_buf (W s (index cf t))) + n /\ bw_run (W s' (index cf t)) = bw_run (W s (index cf t)) /\ (forall j, j <> index cf t -> W s' j = W s j) /\
  (forall k, begun k (snd (b_run cf s (fill t n))) = [] /\ ended k (snd (b_run cf s (fill t n))) = []).
Proof.
  induction n as [|n IH]; intros s H0 Hr Hw Hc; cbn [fill b_run]. { cbn. repeat split; auto. }
  destruct s as [ws rd]. unfold R, W in *. cbn [bs_work bs_read] in *. destruct rd as [|o rd]; [cbn in Hr; lia|]. cbn in H0. subst o. cbn [b_step bs_read nth_error set_nth bs_work]. unfold give. rewrite (nth_nth_err idle) by exact Hw.
  destruct (Nat.ltb_spec (length (bw_buf (nth (index cf t) ws idle))) (capacity cf (index cf t))) as [C|C]; [|lia].
  set (ws1 := set_nth (index cf t) (Bwork (bw_buf (nth (index cf t) ws idle) ++ [(Reader 0, leaf)]) (bw_run (nth (index cf t) ws idle))) ws).
  assert (N : forall j, nth j ws1 idle = at_i (index cf t) j (Bwork (bw_buf (nth (index cf t) ws idle) ++ [(Reader 0, leaf)]) (bw_run (nth (index cf t) ws idle))) (nth j ws idle)) by (intros j; now apply sn_nth).
  assert (Ni := N (index cf t)). unfold at_i in Ni. rewrite Nat.eqb_refl in Ni.
  specialize (IH (Bst ws1 (None :: rd))). cbn [bs_work bs_read] in IH. rewrite Ni in IH. cbn [bw_buf bw_run] in IH. rewrite app_length in IH. cbn [length] in IH.
  destruct IH as (A & B & C1 & D & E & F & G & T); [reflexivity|lia|unfold ws1; rewrite sn_len; exact Hw|lia|].
  destruct (b_run cf (Bst ws1 (None :: rd)) (fill t n)) as [s2 e2]. cbn [fst snd] in *. split; [exact A|]. split; [exact B|]. split; [rewrite C1; apply sn_len|]. split.
  { intros m Hm. rewrite (D m Hm). destruct m; [congruence|reflexivity]. }
  split; [lia|]. split; [exact F|]. split; [intros j Hj; rewrite (G j Hj), N; unfold at_i; destruct (Nat.eqb_spec j (index cf t)); [contradiction|reflexivity]|].
  intros k. cbn. apply T.
Qed.
(* An idle worker is given a request straight. *)
Lemma straight_run cf t r s : R s 0 = None -> 0 < length (bs_read s) -> index cf t < length (bs_work s) -> W s (index cf t) = idle ->
  let s' := fst (b_run cf s [BOffer 0 t r; BSend 0 true]) in
  snd (b_run cf s [BOffer 0 t r; BSend 0 true]) = [BvOffer 0 t r; BvPut (Reader 0) (index cf t) r; BvBegin (Reader 0) (index cf t) r] /\
  R s' 0 = None /\ length (bs_read s') = length (bs_read s) /\ length (bs_work s') = length (bs_work s) /\ (forall m, m <> 0 -> R s' m = R s m) /\
  (forall j, W s' j = at_i (index cf t) j (Bwork [] (Some (Reader 0, r, sends_of r))) (W s j)).
Proof.
  destruct s as [ws rd]. unfold R, W. cbn [bs_work bs_read]. intros H0 Hr Hw Hi. destruct rd as [|o rd]; [cbn in Hr; lia|]. cbn in H0. subst o. cbn [b_run b_step bs_read nth_error set_nth bs_work]. unfold give. rewrite (nth_nth_err idle) by exact Hw. rewrite Hi. cbn.
  split; [reflexivity|]. split; [reflexivity|]. split; [reflexivity|]. split; [apply sn_len|]. split; [intros m Hm; destruct m; [congruence|reflexivity]|]. intros j. now apply sn_nth.
Qed.
(* Idle workers and free readers cannot move. *)
Lemma jam_stuck cf s i j : jammed cf s i j -> jammed cf s j i -> (forall k, k <> i -> k <> j -> W s k = idle) -> (forall n, R s n = None) -> deadlocked cf s.
Proof.
  intros H1 H2 HI HR l Hl. destruct (b_step cf s l) as [[s' e]|] eqn:E; [exfalso|reflexivity]. apply step_cases in E as (_ & E).
  destruct H1 as (F1 & g1 & r1 & t1 & x1 & q1 & E1 & I1), H2 as (F2 & g2 & r2 & t2 & x2 & q2 & E2 & I2).
  destruct l as [n t r|n d|m|m d|m]; [exact Hl| | | |].
  - destruct E as (t & r & ws & F & _). rewrite HR in F. discriminate.
  - destruct E as (g & r & b & F & _). destruct (Nat.eq_dec m i) as [->|D]; [rewrite F in E1; discriminate|]. destruct (Nat.eq_dec m j) as [->|D']; [rewrite F in E2; discriminate|]. rewrite (HI m D D') in F. discriminate.
  - destruct E as (g & r & t & x & rest & ws & F & G & _). unfold W in *. destruct (give_jammed _ _ _ _ _ _ _ _ i G F1 ltac:(congruence)) as (X & _). destruct (give_jammed _ _ _ _ _ _ _ _ j G F2 ltac:(congruence)) as (X' & _).
    destruct (Nat.eq_dec m i) as [->|D]; [congruence|]. destruct (Nat.eq_dec m j) as [->|D']; [congruence|]. rewrite (HI m D D') in F. discriminate.
  - destruct E as (g & r & b & F & _). destruct (Nat.eq_dec m i) as [->|D]; [rewrite F in E1; discriminate|]. destruct (Nat.eq_dec m j) as [->|D']; [rewrite F in E2; discriminate|]. rewrite (HI m D D') in F. discriminate.
Qed.

(* The sends of handlers. *)
Definition todo cf (w : bwork) : list (nat * req) := match bw_run w with Some (_, _, l) => map (fun y => (index cf (fst y), snd y)) l | None => [] end.
Definition sinv cf (s : bst) (tr : list bev) : Prop := forall i, flat_map (asked cf) (begun i tr) = put_by i tr ++ todo cf (W s i).
Lemma put_app i a b : put_by i (a ++ b) = put_by i a ++ put_by i b. Proof. apply flat_map_app. Qed.
Lemma give_sends cf ws g i r d ws' e j : give cf ws g i r d = Some (ws', e) ->
  put_by j e = (if match g with Worker k => k =? j | _ => false end then [(i, r)] else []) /\
  ((nth j ws' idle = Bwork [] (Some (g, r, sends_of r)) /\ nth j ws idle = idle /\ begun j e = [(g, r)]) \/ (bw_run (nth j ws' idle) = bw_run (nth j ws idle) /\ begun j e = [])).
Proof.
  intros G. apply give_cases in G as (_ & _ & [(_ & E & -> & N)|(_ & E & -> & N)]).
  - split; [destruct g as [n|k]; cbn; [reflexivity|now destruct (k =? j)]|]. rewrite N. unfold at_i. cbn. rewrite (Nat.eqb_sym i j). destruct (Nat.eqb_spec j i) as [->|D]; [left; auto|right; auto].
  - split; [destruct g as [n|k]; cbn; [reflexivity|now destruct (k =? j)]|]. right. rewrite N. unfold at_i. destruct (Nat.eqb_spec j i) as [->|D]; auto.
Qed.
Lemma sinv_run cf ls : sinv cf (fst (b_run cf (b_new cf) ls)) (snd (b_run cf (b_new cf) ls)).
Proof.
  apply (run_ind cf (fun _ => sinv cf)).
  - intros i. assert (E : W (b_new cf) i = idle) by apply nth_repeat. rewrite E. reflexivity.
  - auto.
  - intros ls0 s tr l s' e H E j. specialize (H j). rewrite beg_app, put_app, flat_map_app, H. apply step_cases in E as (_ & E). destruct l as [n t r|n d|i|i d|i].
    + destruct E as (_ & -> & E & _). rewrite E. cbn. now rewrite !app_nil_r.
    + destruct E as (t & r & ws & _ & G & <- & _). destruct (give_sends _ _ _ _ _ _ _ _ j G) as (P & [(A & B & C)|(A & C)]); rewrite P, C; unfold todo, W in *; rewrite A; cbn; rewrite ?app_nil_r; [rewrite B; cbn; now rewrite app_nil_r|reflexivity].
    + destruct E as (g & r & b & E & -> & N & _). rewrite N. cbn. rewrite (Nat.eqb_sym i j). unfold at_i. destruct (Nat.eqb_spec j i) as [->|D]; cbn; rewrite ?app_nil_r; [rewrite E; cbn; now rewrite app_nil_r|reflexivity].
    + destruct E as (g & r & t & x & rest & ws & E & G & N & _). destruct (give_sends _ _ _ _ _ _ _ _ j G) as (P & Q). rewrite P. rewrite (Nat.eqb_sym i j). rewrite N. unfold at_i. destruct (Nat.eqb_spec j i) as [->|D].
      * destruct Q as [(_ & B & _)|(_ & C)]; [unfold W in E; rewrite B in E; discriminate|]. rewrite C. unfold todo, W in *. rewrite E. cbn. now rewrite app_nil_r, <- app_assoc.
      * destruct Q as [(A & B & C)|(A & C)]; rewrite C; unfold todo, W in *; rewrite A; cbn; rewrite ?app_nil_r; [rewrite B; cbn; now rewrite app_nil_r|reflexivity].
    + destruct E as (g & r & b & E & -> & N & _). rewrite N. cbn. unfold at_i. destruct (Nat.eqb_spec j i) as [->|D]; cbn; rewrite ?app_nil_r; [rewrite E; cbn; now rewrite app_nil_r|reflexivity].
Qed.

(* Timers are neither duplicated nor lost. *)
From Coq Require Import ZArith List Bool Lia Permutation ZifyBool.
From Verif Require Import Bytes TimeWheel Spec_TimeWheel.
Import ListNotations.
Local Open Scope Z_scope.

Lemma filter_split {A} (f : A -> bool) l : Permutation l (filter f l ++ filter (fun x => negb (f x)) l).
Proof.
  induction l as [|x l IH]; cbn; [constructor|]. destruct (f x); cbn; [now constructor|]. now apply Permutation_cons_app.
Qed.
Lemma take_perm {A} i (l : list A) x rest : take i l = Some (x, rest) -> Permutation l (x :: rest).
Proof.
  unfold take. destruct (nth_error l i) as [y|] eqn:E; [|discriminate]. intros H.
  assert (Hr : x = y /\ rest = firstn i l ++ skipn (S i) l) by (split; congruence). destruct Hr as (-> & ->). clear H.
  apply nth_error_split in E. destruct E as (a & b & -> & <-). rewrite firstn_app, firstn_all, Nat.sub_diag. cbn [firstn]. rewrite app_nil_r.
  assert (Es : skipn (S (length a)) (a ++ y :: b) = b).
  { rewrite skipn_app. rewrite skipn_all2 by lia. replace (S (length a) - length a)%nat with 1%nat by lia. reflexivity. }
  rewrite Es. symmetry. apply Permutation_middle.
Qed.
Lemma slot_split slot q : Permutation (map snd q) (in_slot slot q ++ map snd (out_slot slot q)).
Proof. unfold in_slot, out_slot. rewrite <- map_app. apply Permutation_map, filter_split. Qed.

(* Overwritten by e. *)
Definition clash (e x : entry) : Prop := e_id x = e_id e.
Lemma put_perm w slot e : exists lost, Permutation (e :: wheel_timers w) (wheel_timers (put w slot e) ++ lost) /\ (forall x, In x lost -> clash e x).
Proof.
  exists (map snd (filter (fun x => (fst x =? slot) && (e_id (snd x) =? e_id e)) (w_queue w))). split.
  - unfold wheel_timers, put. cbn. set (f := fun x : Z * entry => (fst x =? slot) && (e_id (snd x) =? e_id e)).
    change (pending {| w_interval := w_interval w; w_scales := w_scales w; w_cur := w_cur w; w_queue := filter (fun x => negb (f x)) (w_queue w) ++ [(slot, e)]; w_phase := w_phase w |}) with (pending w).
    assert (P := Permutation_map snd (filter_split f (w_queue w))). rewrite map_app in P |- *. cbn [map snd].
    rewrite (Permutation_app_tail (pending w) P). rewrite <- !app_assoc.
    set (a := map snd (filter f (w_queue w))). set (b := map snd (filter (fun x => negb (f x)) (w_queue w))). set (c := pending w).
    transitivity (b ++ e :: (c ++ a)); [|reflexivity]. rewrite <- (Permutation_middle b (c ++ a) e). constructor.
    rewrite (Permutation_app_comm a (b ++ c)). now rewrite <- app_assoc.
  - intros x Hx. apply in_map_iff in Hx. destruct Hx as ((z & y) & <- & Hy). apply filter_In in Hy. destruct Hy as (_ & Hy). unfold clash. cbn in *. lia.
Qed.

Definition all_of (ws : list wheel) : list entry := flat_map wheel_timers ws.
Lemma put_all w slot e lower : exists lost, Permutation (e :: all_of (w :: lower)) (all_of (put w slot e :: lower) ++ lost) /\ (forall x, In x lost -> clash e x).
Proof.
  destruct (put_perm w slot e) as (lost & P & H). exists lost. split; [|exact H]. cbn [all_of flat_map].
  change (e :: wheel_timers w ++ flat_map wheel_timers lower) with ((e :: wheel_timers w) ++ flat_map wheel_timers lower).
  rewrite P, <- !app_assoc. apply Permutation_app_head, Permutation_app_comm.
Qed.

Lemma add_perm : forall ws clock e ws', add_timer ws clock e = Some ws' ->
  exists lost, Permutation (e :: all_of ws) (all_of ws' ++ lost) /\ (forall x, In x lost -> clash e x).
Proof.
  induction ws as [|w lower IH]; intros clock e ws'; cbn [add_timer]; [discriminate|]. destruct (idle w); [|discriminate].
  destruct (w_interval w <=? _); [intros [= <-]; apply put_all|].
  destruct lower as [|w2 lower]; [intros [= <-]; apply put_all|].
  destruct (add_timer (w2 :: lower) (tl clock) e) as [l|] eqn:E; [|discriminate]. intros [= <-].
  destruct (IH _ _ _ E) as (lost & P & H). exists lost. split; [|exact H].
  change (all_of (w :: w2 :: lower)) with (wheel_timers w ++ all_of (w2 :: lower)). change (all_of (w :: l)) with (wheel_timers w ++ all_of l).
  rewrite <- app_assoc, <- P. apply Permutation_middle.
Qed.

Lemma readd_perm w lower clock e ws' : readd w lower clock e = Some ws' ->
  exists lost, Permutation (e :: all_of (w :: lower)) (all_of ws' ++ lost) /\ (forall x, In x lost -> clash e x).
Proof.
  unfold readd. destruct (w_interval w <=? _); [intros [= <-]; apply put_all|].
  destruct lower as [|w2 lower]; [intros [= <-]; apply put_all|].
  destruct (add_timer (w2 :: lower) (tl clock) e) as [l|] eqn:E; [|discriminate]. intros [= <-].
  destruct (add_perm _ _ _ _ E) as (lost & P & H). exists lost. split; [|exact H].
  change (all_of (w :: w2 :: lower)) with (wheel_timers w ++ all_of (w2 :: lower)). change (all_of (w :: l)) with (wheel_timers w ++ all_of l).
  rewrite <- app_assoc, <- P. apply Permutation_middle.
Qed.

(* What a wheel operation may do: lose only overwritten timers. *)
Definition overwrites (ws : list wheel) (ws' : list wheel) : Prop :=
  exists lost, Permutation (all_of ws) (all_of ws' ++ lost) /\
    (lost = [] \/ exists e, In e (all_of ws') /\ forall x, In x lost -> clash e x).
Lemma at_wheel_overwrites f : (forall w lower ws', f w lower = Some ws' -> overwrites (w :: lower) ws') ->
  forall ws k ws', at_wheel k f ws = Some ws' -> overwrites ws ws'.
Proof.
  intros Hf. induction ws as [|w lower IH]; intros k ws'; [destruct k; discriminate|]. destruct k as [|k]; cbn [at_wheel]; [apply Hf|].
  destruct (at_wheel k f lower) as [l|] eqn:E; [|discriminate]. intros [= <-]. destruct (IH _ _ E) as (lost & P & H). exists lost. split.
  - change (all_of (w :: lower)) with (wheel_timers w ++ all_of lower). change (all_of (w :: l)) with (wheel_timers w ++ all_of l). rewrite P. now rewrite app_assoc.
  - destruct H as [->|(e & He & Hx)]; [now left|]. right. exists e. split; [|exact Hx]. cbn. apply in_or_app. now right.
Qed.
Lemma perm_overwrites w w' lower : Permutation (wheel_timers w) (wheel_timers w') -> overwrites (w :: lower) (w' :: lower).
Proof. intros P. exists []. split; [|now left]. rewrite app_nil_r. cbn. now apply Permutation_app_tail. Qed.

Lemma start_ow w lower ws' : tick_start w lower = Some ws' -> overwrites (w :: lower) ws'.
Proof.
  unfold tick_start. destruct (w_phase w) eqn:E; try discriminate. intros [= <-]. apply perm_overwrites. unfold wheel_timers, pending. rewrite E. cbn.
  rewrite app_nil_r. rewrite (slot_split (w_cur w) (w_queue w)) at 1. apply Permutation_app_comm.
Qed.
Lemma next_ow w lower ws' : tick_next w lower = Some ws' -> overwrites (w :: lower) ws'.
Proof.
  unfold tick_next. destruct (w_phase w) as [|[|]|] eqn:E; try discriminate. intros [= <-]. apply perm_overwrites. unfold wheel_timers, pending. rewrite E. cbn.
  rewrite app_nil_r. rewrite (slot_split (next_slot w) (w_queue w)) at 1. apply Permutation_app_comm.
Qed.
Lemma end_ow w lower ws' : tick_end w lower = Some ws' -> overwrites (w :: lower) ws'.
Proof.
  unfold tick_end. destruct (w_phase w) as [| |[|]] eqn:E; try discriminate. intros [= <-]. apply perm_overwrites. unfold wheel_timers, pending. rewrite E. reflexivity.
Qed.
Lemma add_in : forall ws clock e ws', add_timer ws clock e = Some ws' -> In e (all_of ws').
Proof.
  assert (PI : forall w slot e lower, In e (all_of (put w slot e :: lower))).
  { intros. cbn. apply in_or_app. left. unfold wheel_timers, put. cbn. apply in_or_app. left. rewrite map_app. apply in_or_app. right. now left. }
  induction ws as [|w lower IH]; intros clock e ws'; cbn [add_timer]; [discriminate|]. destruct (idle w); [|discriminate].
  destruct (w_interval w <=? _); [intros [= <-]; apply PI|]. destruct lower as [|w2 lower]; [intros [= <-]; apply PI|].
  destruct (add_timer (w2 :: lower) (tl clock) e) as [l|] eqn:E; [|discriminate]. intros [= <-]. cbn. apply in_or_app. right. exact (IH _ _ _ E).
Qed.
Lemma readd_in w lower clock e ws' : readd w lower clock e = Some ws' -> In e (all_of ws').
Proof.
  assert (PI : forall w slot e lower, In e (all_of (put w slot e :: lower))).
  { intros. cbn. apply in_or_app. left. unfold wheel_timers, put. cbn. apply in_or_app. left. rewrite map_app. apply in_or_app. right. now left. }
  unfold readd. destruct (w_interval w <=? _); [intros [= <-]; apply PI|]. destruct lower as [|w2 lower]; [intros [= <-]; apply PI|].
  destruct (add_timer (w2 :: lower) (tl clock) e) as [l|] eqn:E; [|discriminate]. intros [= <-]. cbn. apply in_or_app. right. exact (add_in _ _ _ _ E).
Qed.
Lemma move_ow i clock w lower ws' : tick_move i clock w lower = Some ws' -> overwrites (w :: lower) ws'.
Proof.
  unfold tick_move. destruct (w_phase w) as [|pend|pend] eqn:E; try discriminate; destruct (take i pend) as [[e rest]|] eqn:Et; try discriminate;
  intros H; assert (I := readd_in _ _ _ _ _ H); apply readd_perm in H; destruct H as (lost & P & Hl); exists lost; (split; [|right; exists e; auto]); rewrite <- P;
  cbn [all_of flat_map]; unfold wheel_timers, pending; rewrite E; cbn; rewrite (take_perm _ _ _ _ Et); rewrite <- !app_assoc; cbn; symmetry; apply Permutation_middle.
Qed.

Lemma poll_perm now : forall ws es ws', poll_leaf now ws = Some (es, ws') -> Permutation (all_of ws) (all_of ws' ++ es).
Proof.
  induction ws as [|w lower IH]; intros es ws'; [discriminate|]. destruct lower as [|w2 lower].
  - cbn [poll_leaf]. destruct (idle w); [|discriminate]. unfold poll_wheel. intros [= <- <-]. cbn [all_of flat_map]. rewrite !app_nil_r.
    unfold wheel_timers. change (pending (with_queue w _ (w_phase w))) with (pending w). cbn [w_queue with_queue].
    assert (P : Permutation (map snd (w_queue w)) (map snd (filter (fun x => negb ((fst x =? w_cur w) && due_soon now (snd x))) (w_queue w)) ++ filter (due_soon now) (in_slot (w_cur w) (w_queue w)))).
    { unfold in_slot. generalize (w_queue w). intros q. induction q as [|[z y] q IHq]; cbn; [constructor|].
      destruct (z =? w_cur w); cbn; [|now constructor]. destruct (due_soon now y); cbn; [now apply Permutation_cons_app|now constructor]. }
    rewrite P, <- !app_assoc. apply Permutation_app_head, Permutation_app_comm.
  - change (poll_leaf now (w :: w2 :: lower)) with (match poll_leaf now (w2 :: lower) with Some (es, l) => Some (es, w :: l) | None => None end).
    destruct (poll_leaf now (w2 :: lower)) as [[es0 l]|] eqn:E; [|discriminate]. intros [= <- <-]. assert (P := IH _ _ eq_refl). clear E.
    change (all_of (w :: w2 :: lower)) with (wheel_timers w ++ all_of (w2 :: lower)). change (all_of (w :: l)) with (wheel_timers w ++ all_of l).
    rewrite P. now rewrite app_assoc.
Qed.

Lemma remove_perm id : forall ws k ws', at_wheel k (remove_timer id) ws = Some ws' ->
  exists lost, Permutation (all_of ws) (all_of ws' ++ lost) /\ forall x, In x lost -> e_id x = id.
Proof.
  induction ws as [|w lower IH]; intros k ws'; [destruct k; discriminate|]. destruct k as [|k]; cbn [at_wheel].
  - unfold remove_timer. destruct (w_phase w) eqn:E; try discriminate. intros [= <-].
    exists (map snd (filter (fun x => e_id (snd x) =? id) (w_queue w))). split.
    + cbn [all_of flat_map]. unfold wheel_timers, pending. rewrite E. cbn. rewrite !app_nil_r.
      assert (P := Permutation_map snd (filter_split (fun x : Z * entry => e_id (snd x) =? id) (w_queue w))). rewrite map_app in P.
      rewrite P, <- !app_assoc. rewrite Permutation_app_comm, <- app_assoc. apply Permutation_app_head. reflexivity.
    + intros x Hx. apply in_map_iff in Hx. destruct Hx as ((z & y) & <- & Hy). apply filter_In in Hy. cbn in *. lia.
  - destruct (at_wheel k (remove_timer id) lower) as [l|] eqn:E; [|discriminate]. intros [= <-]. destruct (IH _ _ E) as (lost & P & H). exists lost. split; [|exact H].
    change (all_of (w :: lower)) with (wheel_timers w ++ all_of lower). change (all_of (w :: l)) with (wheel_timers w ++ all_of l). rewrite P. now rewrite app_assoc.
Qed.

(* Everywhere a timer can be. *)
Definition everywhere (s : sched) : list entry := stored s ++ taken s ++ handed s.
Definition fresh_of (s s' : sched) : list entry := skipn (length (s_made s)) (s_made s').

Lemma step_conserves s l s' : t_step1 s l = Some s' ->
  exists lost, Permutation (fresh_of s s' ++ everywhere s) (everywhere s' ++ lost) /\ s_made s' = s_made s ++ fresh_of s s' /\
    (lost = [] \/ (exists e, In e (stored s') /\ forall x, In x lost -> clash e x) \/
     (exists id k, s_cancel s = Some (id, k) /\ l = CancelScan /\ forall x, In x lost -> e_id x = id)).
Proof.
  assert (SK : forall A (m : list A), skipn (length m) m = []) by (intros; apply skipn_all).
  assert (OW : forall ws, overwrites (s_wheels s) ws -> with_wheels s (Some ws) = Some s' ->
    exists lost, Permutation (fresh_of s s' ++ everywhere s) (everywhere s' ++ lost) /\ s_made s' = s_made s ++ fresh_of s s' /\
    (lost = [] \/ (exists e, In e (stored s') /\ forall x, In x lost -> clash e x) \/
     (exists id k, s_cancel s = Some (id, k) /\ l = CancelScan /\ forall x, In x lost -> e_id x = id))).
  { intros ws (lost & P & H) [= <-]. exists lost. unfold fresh_of. cbn. rewrite SK, app_nil_r. split; [|split; [reflexivity|tauto]].
    unfold everywhere, stored, taken, handed. cbn. fold (all_of (s_wheels s)) (all_of ws). rewrite P, <- !app_assoc. apply Permutation_app_head.
    rewrite Permutation_app_comm, <- !app_assoc. reflexivity. }
  destruct l; cbn [t_step1].
  - destruct (at_wheel k tick_start (s_wheels s)) as [ws|] eqn:E; [|discriminate]. apply OW. exact (at_wheel_overwrites _ start_ow _ _ _ E).
  - destruct (at_wheel k (tick_move i clock) (s_wheels s)) as [ws|] eqn:E; [|discriminate]. apply OW. exact (at_wheel_overwrites _ (move_ow i clock) _ _ _ E).
  - destruct (at_wheel k tick_next (s_wheels s)) as [ws|] eqn:E; [|discriminate]. apply OW. exact (at_wheel_overwrites _ next_ow _ _ _ E).
  - destruct (at_wheel k tick_end (s_wheels s)) as [ws|] eqn:E; [|discriminate]. apply OW. exact (at_wheel_overwrites _ end_ow _ _ _ E).
  - unfold create. destruct (s_cancel s); [discriminate|]. destruct (add_timer _ clock _) as [ws|] eqn:E; [|discriminate]. intros [= <-].
    assert (I := add_in _ _ _ _ E). apply add_perm in E. destruct E as (lost & P & H). exists lost. unfold fresh_of. cbn [s_made].
    rewrite skipn_app, SK, Nat.sub_diag. cbn [skipn app]. split; [|split; [reflexivity|right; left; eexists; split; [exact I|exact H]]].
    unfold everywhere, stored, taken, handed. cbn [s_wheels s_polled s_sent]. rewrite app_comm_cons. fold (all_of (s_wheels s)) (all_of ws).
    rewrite P, <- !app_assoc. apply Permutation_app_head. rewrite Permutation_app_comm, <- !app_assoc. reflexivity.
  - unfold create. destruct (s_cancel s); [discriminate|]. destruct (add_timer _ clock _) as [ws|] eqn:E; [|discriminate]. intros [= <-].
    assert (I := add_in _ _ _ _ E). apply add_perm in E. destruct E as (lost & P & H). exists lost. unfold fresh_of. cbn [s_made].
    rewrite skipn_app, SK, Nat.sub_diag. cbn [skipn app]. split; [|split; [reflexivity|right; left; eexists; split; [exact I|exact H]]].
    unfold everywhere, stored, taken, handed. cbn [s_wheels s_polled s_sent]. rewrite app_comm_cons. fold (all_of (s_wheels s)) (all_of ws).
    rewrite P, <- !app_assoc. apply Permutation_app_head. rewrite Permutation_app_comm, <- !app_assoc. reflexivity.
  - destruct (s_cancel s); [discriminate|]. intros [= <-]. exists []. unfold fresh_of. cbn. rewrite SK, !app_nil_r. split; [reflexivity|]. split; [reflexivity|now left].
  - destruct (s_cancel s) as [[id k]|] eqn:Ec; [|discriminate]. destruct (Nat.ltb k (length (s_wheels s))).
    + destruct (at_wheel k (remove_timer id) (s_wheels s)) as [ws|] eqn:E; [|discriminate]. intros [= <-]. apply remove_perm in E. destruct E as (lost & P & H).
      exists lost. unfold fresh_of. cbn. rewrite SK, app_nil_r. split; [|split; [reflexivity|right; right; exists id, k; auto]].
      unfold everywhere, stored, taken, handed. cbn. fold (all_of (s_wheels s)) (all_of ws). rewrite P, <- !app_assoc. apply Permutation_app_head.
      rewrite Permutation_app_comm, <- !app_assoc. reflexivity.
    + intros [= <-]. exists []. unfold fresh_of. cbn. rewrite SK, !app_nil_r. split; [reflexivity|]. split; [reflexivity|now left].
  - destruct (s_polled s) eqn:Ep; [|discriminate]. destruct (poll_leaf _ (s_wheels s)) as [[es ws]|] eqn:E; [|discriminate]. intros [= <-]. apply poll_perm in E.
    exists []. unfold fresh_of. cbn. rewrite SK, !app_nil_r. split; [|split; [reflexivity|now left]].
    unfold everywhere, stored, taken, handed. cbn. rewrite Ep. cbn. fold (all_of (s_wheels s)) (all_of ws). rewrite E, <- app_assoc.
    rewrite map_map. cbn. rewrite map_id. reflexivity.
  - destruct (take i (s_polled s)) as [[x rest]|] eqn:E; [|discriminate]. intros [= <-]. apply take_perm in E.
    exists []. unfold fresh_of. cbn. rewrite SK, !app_nil_r. split; [|split; [reflexivity|now left]].
    unfold everywhere, stored, taken, handed. cbn. apply Permutation_app_head. rewrite (Permutation_map fst E). rewrite map_app. cbn.
    rewrite Permutation_app_comm. cbn. rewrite Permutation_app_comm. cbn. rewrite app_assoc, (Permutation_app_comm _ [fst x]). reflexivity.
Qed.

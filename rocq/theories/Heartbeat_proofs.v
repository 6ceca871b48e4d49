(* Proofs about the heartbeat. *)
From Coq Require Import ZArith List Bool Lia Sorted ZifyBool.
From Verif Require Import Bytes Router Heartbeat Spec_Heartbeat.
Import ListNotations.
Local Open Scope Z_scope.

Lemma h_run_app secs : forall ls s ls', h_run secs s (ls ++ ls') =
  (fst (h_run secs (fst (h_run secs s ls)) ls'), snd (h_run secs s ls) ++ snd (h_run secs (fst (h_run secs s ls)) ls')).
Proof.
  induction ls as [|l ls IH]; intros s ls'; cbn.
  - now destruct (h_run secs s ls').
  - destruct (h_step secs s l) as [s1 e]. rewrite IH. destruct (h_run secs s1 ls) as [s2 es]. cbn. now rewrite app_assoc.
Qed.

Lemma max_duration_ok secs : 0 <= secs <= 9223372036 -> max_duration secs = nanoseconds secs.
Proof.
  intros H. unfold max_duration, nanoseconds, s64. rewrite Z.mod_small by lia. lia.
Qed.

(* The state after a run. *)
Definition last_of (acts : list Z) : option Z := match rev acts with [] => None | a :: _ => Some a end.
Lemma last_snoc l a : last_of (l ++ [a]) = Some a.
Proof. unfold last_of. now rewrite rev_app_distr. Qed.

Lemma run_state secs h ls : let s := fst (h_run secs (hconn_new (Some h)) ls) in
  hn_ck s = Some h /\ hn_last s = last_of (activities ls) /\ (hn_closed s = true <-> In KClosed ls).
Proof.
  induction ls as [|l ls IH] using rev_ind; [cbn; repeat split; auto; discriminate|].
  cbv zeta in *. rewrite h_run_app. cbn [fst]. set (s := fst (h_run secs (hconn_new (Some h)) ls)) in *.
  destruct IH as (A & B & C). unfold activities in *. rewrite flat_map_app. cbn [flat_map]. rewrite app_nil_r.
  assert (K : forall x, In KClosed (ls ++ [x]) <-> In KClosed ls \/ x = KClosed) by (intros x; rewrite in_app_iff; cbn; intuition).
  rewrite K. cbn [h_run]. destruct l; cbn [h_step activity]; rewrite ?A, ?app_nil_r; cbn [fst snd].
  - cbn. repeat split; auto; [intros X; left; now apply C|intros [X|X]; [now apply C|discriminate]].
  - cbn. rewrite last_snoc. repeat split; auto; [intros X; left; now apply C|intros [X|X]; [now apply C|discriminate]].
  - destruct (0 <? n); cbn; rewrite ?last_snoc, ?app_nil_r; (repeat split; auto; [intros X; left; now apply C|intros [X|X]; [now apply C|discriminate]]).
  - cbn. rewrite last_snoc. repeat split; auto; [intros X; left; now apply C|intros [X|X]; [now apply C|discriminate]].
  - cbn. repeat split; auto.
  - destruct (hn_ticking s); cbn; rewrite ?A; repeat split; auto; [intros X; left; now apply C|intros [X|X]; [now apply C|discriminate]| intros X; left; now apply C|intros [X|X]; [now apply C|discriminate]].
  - cbn. repeat split; auto; [intros X; left; now apply C|intros [X|X]; [now apply C|discriminate]].
Qed.

Lemma last_greatest l : StronglySorted Z.le l -> forall a, In a l -> exists b, last_of l = Some b /\ a <= b.
Proof.
  induction l as [|x l IH] using rev_ind; [contradiction|]. intros H a Ha. rewrite last_snoc. exists x. split; [reflexivity|].
  apply in_app_iff in Ha. destruct Ha as [Ha|[->|[]]]; [|lia].
  clear IH. induction l as [|y l IH]; [contradiction|]. cbn in H. inversion H as [|? ? H1 H2]; subst.
  destruct Ha as [->|Ha]; [|auto]. rewrite Forall_forall in H2. apply H2. apply in_app_iff. right. now left.
Qed.
Lemma last_in l b : last_of l = Some b -> In b l.
Proof.
  unfold last_of. destruct (rev l) eqn:E; [discriminate|]. intros [= ->]. apply in_rev. rewrite E. now left.
Qed.
Lemma sorted_sub {A} (R : A -> A -> Prop) (f g : hlabel -> list A) ls :
  (forall l, g l = [] \/ g l = f l) -> StronglySorted R (flat_map f ls) -> StronglySorted R (flat_map g ls).
Proof.
  intros H. assert (P : forall l ls, StronglySorted R (f l ++ flat_map f ls) -> StronglySorted R (flat_map f ls)).
  { intros l k. induction (f l) as [|x fl IH]; cbn; [auto|]. intros X. inversion X; auto. }
  assert (I : forall x ls, In x (flat_map g ls) -> In x (flat_map f ls)).
  { intros x k. rewrite !in_flat_map. intros (l & A1 & A2). exists l. split; [exact A1|]. destruct (H l) as [E|E]; rewrite E in A2; [contradiction|exact A2]. }
  induction ls as [|l ls IH]; cbn; [auto|]. intros X. specialize (IH (P _ _ X)). destruct (H l) as [-> | ->]; cbn; [exact IH|].
  induction (f l) as [|x fl IHf]; cbn; [exact IH|]. cbn in X. inversion X as [|? ? H1 H2]; subst. constructor; [auto|].
  rewrite Forall_forall in *. intros y Hy. apply H2. apply in_app_iff in Hy. apply in_app_iff. destruct Hy; auto.
Qed.
Lemma activities_sorted ls : clock_ok ls -> StronglySorted Z.le (activities ls).
Proof.
  apply sorted_sub. intros []; cbn; auto. destruct (0 <? n); auto.
Qed.

Lemma dead_iff secs h ls now : 0 <= secs <= 9223372036 -> clock_ok ls ->
  let s := fst (h_run secs (hconn_new (Some h)) ls) in
  check secs s h now = ANotAlive (ck_dead h) <->
  In KClosed ls \/ forall a, In a (activities ls) -> now - a >= nanoseconds secs.
Proof.
  intros Hs Hc. cbv zeta. destruct (run_state secs h ls) as (_ & B & C).
  set (s := fst (h_run secs (hconn_new (Some h)) ls)) in *.
  assert (E : check secs s h now = ANotAlive (ck_dead h) <-> is_alive secs s now = false).
  { unfold check. destruct (is_alive secs s now); [|tauto]. destruct (ck_beat h); split; discriminate. }
  rewrite E. unfold is_alive. rewrite max_duration_ok by exact Hs.
  destruct (hn_closed s) eqn:Ec; [split; auto; intros _; left; now apply C|].
  assert (NC : ~ In KClosed ls) by (intros X; apply C in X; congruence).
  rewrite B. destruct (last_of (activities ls)) as [a|] eqn:El.
  - rewrite Z.ltb_ge. split.
    + intros X. right. intros b Hb. destruct (last_greatest _ (activities_sorted ls Hc) b Hb) as (a' & E1 & E2).
      rewrite El in E1. injection E1 as <-. lia.
    + intros [X|X]; [contradiction|]. specialize (X a (last_in _ _ El)). lia.
  - split; [intros _; right|unfold nanoseconds; lia].
    intros a Ha. destruct (last_greatest _ (activities_sorted ls Hc) a Ha) as (b & E1 & _). congruence.
Qed.

Lemma action_count secs h : forall ls s, hn_ck s = Some h -> length (snd (h_run secs s ls)) = checks (hn_ticking s) ls.
Proof.
  induction ls as [|l ls IH]; intros s Hk; [reflexivity|]. cbn.
  assert (K : hn_ck (fst (h_step secs s l)) = Some h).
  { destruct l; cbn; rewrite ?Hk; auto; [destruct (0 <? n)|destruct (hn_ticking s)]; auto. }
  specialize (IH _ K). destruct (h_step secs s l) as [s1 e] eqn:E. cbn [fst] in *.
  destruct (h_run secs s1 ls) as [s2 es]. cbn [snd] in *. rewrite app_length, IH.
  destruct l; cbn in E; rewrite ?Hk in E.
  - now injection E as <- <-.
  - now injection E as <- <-.
  - destruct (0 <? n); now injection E as <- <-.
  - now injection E as <- <-.
  - now injection E as <- <-.
  - destruct (hn_ticking s) eqn:Et; injection E as <- <-; rewrite Et; reflexivity.
  - now injection E as <- <-.
Qed.

(* What the next label adds to the actions. *)
Lemma ticking_is secs h ls : hn_ticking (fst (h_run secs (hconn_new (Some h)) ls)) = checking ls.
Proof.
  induction ls as [|l ls IH] using rev_ind; [reflexivity|].
  unfold checking in *. rewrite fold_left_app, h_run_app. cbn [fst fold_left]. destruct (run_state secs h ls) as (A & _ & _).
  rewrite <- IH. set (s := fst (h_run secs (hconn_new (Some h)) ls)) in *.
  destruct l; cbn [h_run h_step]; rewrite ?A; cbn; auto; [now destruct (0 <? n)|destruct (hn_ticking s) eqn:E; cbn; exact E].
Qed.
Lemma next_tick secs h ls now : let s := fst (h_run secs (hconn_new (Some h)) ls) in
  snd (h_run secs (hconn_new (Some h)) (ls ++ [KTick now])) =
  snd (h_run secs (hconn_new (Some h)) ls) ++ (if checking ls then [check secs s h now] else []).
Proof.
  cbv zeta. rewrite h_run_app. cbn [snd]. rewrite <- (ticking_is secs h ls). destruct (run_state secs h ls) as (A & _ & _).
  set (s := fst (h_run secs (hconn_new (Some h)) ls)) in *. cbn [h_run h_step]. rewrite A. now destruct (hn_ticking s).
Qed.
Lemma next_other secs h ls l : (forall now, l <> KTick now) ->
  snd (h_run secs (hconn_new (Some h)) (ls ++ [l])) = snd (h_run secs (hconn_new (Some h)) ls).
Proof.
  intros N. rewrite h_run_app. cbn [snd]. destruct (run_state secs h ls) as (A & _ & _).
  set (s := fst (h_run secs (hconn_new (Some h)) ls)) in *.
  destruct l; cbn [h_run h_step]; rewrite ?A; cbn; rewrite ?app_nil_r; auto; [destruct (0 <? n); cbn; now rewrite ?app_nil_r|now elim (N now)].
Qed.
Lemma check_is secs s h now : check secs s h now = ANotAlive (ck_dead h) \/ check secs s h now = one_beat h.
Proof. unfold check, one_beat. destruct (is_alive secs s now); auto. Qed.
Lemma beat_not_dead h : one_beat h <> ANotAlive (ck_dead h).
Proof. unfold one_beat. destruct (ck_beat h); discriminate. Qed.

(* Where an action of a run comes from. *)
Lemma action_from secs h : forall ls s a, hn_ck s = Some h -> In a (snd (h_run secs s ls)) ->
  exists before now after, ls = before ++ KTick now :: after /\ a = check secs (fst (h_run secs s before)) h now.
Proof.
  induction ls as [|l ls IH]; intros s a Hk; [contradiction|]. cbn.
  assert (K : hn_ck (fst (h_step secs s l)) = Some h).
  { destruct l; cbn; rewrite ?Hk; auto; [destruct (0 <? n)|destruct (hn_ticking s)]; auto. }
  specialize (IH (fst (h_step secs s l)) a K). destruct (h_step secs s l) as [s1 e] eqn:E. cbn [fst] in *.
  destruct (h_run secs s1 ls) as [s2 es] eqn:Er. cbn [snd] in *. rewrite in_app_iff. intros [Ha|Ha].
  - destruct l; cbn in E; rewrite ?Hk in E; try (injection E as <- <-; contradiction).
    + destruct (0 <? n); injection E as <- <-; contradiction.
    + destruct (hn_ticking s) eqn:Et; injection E as <- <-; [|contradiction]. destruct Ha as [<-|[]].
      exists [], now, ls. auto.
  - destruct (IH Ha) as (b & now & after & -> & ->). exists (l :: b), now, after. split; [reflexivity|].
    cbn. rewrite E. now destruct (h_run secs s1 b).
Qed.

Lemma clock_prefix a b : clock_ok (a ++ b) -> clock_ok a.
Proof.
  unfold clock_ok. rewrite flat_map_app. generalize (flat_map reading a), (flat_map reading b). clear. intros l k.
  induction l as [|x l IH]; cbn; intros H; [constructor|]. inversion H as [|? ? H1 H2]; subst. constructor; auto.
  rewrite Forall_forall in *. intros y Hy. apply H2, in_app_iff. now left.
Qed.

Lemma never_dead secs h ls a : 0 <= secs <= 9223372036 -> clock_ok ls -> ~ In KClosed ls -> always_active secs ls ->
  In a (snd (h_run secs (hconn_new (Some h)) ls)) -> is_beat a = true.
Proof.
  intros Hs Hc Hn Ha Hi. destruct (action_from secs h ls (hconn_new (Some h)) a eq_refl Hi) as (b & now & after & E & ->).
  destruct (Ha b now after E) as (x & X1 & X2).
  pose proof (dead_iff secs h b now Hs) as D. cbv zeta in D. destruct D as [D _]; [rewrite E in Hc; exact (clock_prefix _ _ Hc)|].
  unfold check in *. destruct (is_alive _ _ _); [destruct (ck_beat h); reflexivity|].
  destruct (D eq_refl) as [Y|Y]; [elim Hn; rewrite E, in_app_iff; auto|]. specialize (Y x X1). lia.
Qed.

(* ---- routing ---- *)


(* A route stays, whatever is registered later. *)
Lemma find_cons {A} (l : list (Z * A)) id id' x : find (fun p => Z.eqb (fst p) id') l = None ->
  find (fun p => Z.eqb (fst p) id) l <> None ->
  find (fun p => Z.eqb (fst p) id) ((id', x) :: l) = find (fun p => Z.eqb (fst p) id) l.
Proof. intros H H'. cbn. destruct (Z.eqb_spec id' id) as [->|]; [congruence|reflexivity]. Qed.
Lemma add_route_keeps s id r s' j hs : add_route s id r = Some s' -> hs <> [] -> handled_by s j = hs -> handled_by s' j = hs.
Proof.
  unfold add_route, add_router. destruct (ho_slices s && negb (ho_client s)); [discriminate|].
  destruct (find (fun p => Z.eqb (fst p) id) (ho_apis s)) eqn:Ef; [discriminate|]. intros [= <-] Hn Hh. unfold handled_by, find_router in *. cbn.
  destruct (ho_slices s); [exact Hh|]. destruct (Z.eqb_spec id j) as [->|]; [|exact Hh]. rewrite Ef in Hh. congruence.
Qed.
Lemma add_slices_keeps s id r s' j hs : add_slices s id r = Some s' -> hs <> [] -> handled_by s j = hs -> handled_by s' j = hs.
Proof.
  unfold add_slices. destruct (negb (ho_slices s) || ho_client s); [discriminate|].
  destruct (find (fun p => Z.eqb (fst p) id) (ho_table s)) eqn:Ef; [discriminate|]. intros [= <-] Hn Hh. unfold handled_by, find_router in *. cbn.
  destruct (ho_slices s); [|exact Hh]. destruct (Z.eqb_spec id j) as [->|]; [|exact Hh]. rewrite Ef in Hh. congruence.
Qed.
Lemma host_step_keeps s o j hs : hs <> [] -> handled_by s j = hs -> handled_by (host_step s o) j = hs.
Proof.
  intros Hn Hh. unfold host_step. destruct (host_try s o) as [s'|] eqn:E; [|exact Hh]. destruct o; cbn in E.
  - eapply add_route_keeps; eauto.
  - eapply add_slices_keeps; eauto.
  - unfold use_slices in E. destruct (negb (ho_slices s) || ho_client s); [discriminate|]. injection E as <-. exact Hh.
  - unfold start_heartbeat in E. destruct (ho_slices s && negb (ho_client s)).
    + destruct (add_slices _ _ _) as [s1|] eqn:E1; [|discriminate]. injection E as <-. exact (add_slices_keeps _ _ _ _ _ _ E1 Hn Hh).
    + destruct (add_route _ _ _) as [s1|] eqn:E1; [|discriminate]. injection E as <-. exact (add_route_keeps _ _ _ _ _ _ E1 Hn Hh).
Qed.
Lemma host_run_keeps j hs : hs <> [] -> forall os s, handled_by s j = hs -> handled_by (host_run s os) j = hs.
Proof. intros Hn. induction os as [|o os IH]; intros s Hh; cbn; [exact Hh|]. apply IH. now apply host_step_keeps. Qed.

Lemma host_mode : forall os s, ho_slices (host_run s os) = ho_slices s /\ ho_client (host_run s os) = ho_client s.
Proof.
  induction os as [|o os IH]; intros s; cbn; [auto|]. destruct (IH (host_step s o)) as [-> ->].
  unfold host_step. destruct (host_try s o) as [s'|] eqn:E; [|auto].
  assert (R : forall id r s1, add_route s id r = Some s1 -> ho_slices s1 = ho_slices s /\ ho_client s1 = ho_client s).
  { intros id r s1. unfold add_route. destruct (ho_slices s && negb (ho_client s)); [discriminate|]. destruct (add_router _ _ _); [|discriminate]. now intros [= <-]. }
  assert (S : forall id r s1, add_slices s id r = Some s1 -> ho_slices s1 = ho_slices s /\ ho_client s1 = ho_client s).
  { intros id r s1. unfold add_slices. destruct (negb (ho_slices s) || ho_client s); [discriminate|]. destruct (find _ _); [discriminate|]. now intros [= <-]. }
  destruct o; cbn in E; eauto.
  - unfold use_slices in E. destruct (negb (ho_slices s) || ho_client s); [discriminate|]. now injection E as <-.
  - unfold start_heartbeat in E. destruct (ho_slices s && negb (ho_client s)).
    + destruct (add_slices _ _ _) as [s1|] eqn:E1; [|discriminate]. injection E as <-. cbn. eauto.
    + destruct (add_route _ _ _) as [s1|] eqn:E1; [|discriminate]. injection E as <-. cbn. eauto.
Qed.

Lemma custom_router client os op r s :
  op_router op = Some r -> op_id op <> default_id ->
  start_heartbeat (host_run (host_new client false) os) (Some op) = Some s ->
  (forall after, handled_by (host_run s after) (op_id op) = [User r]) /\
  (exists k, conn_checker s = Some k /\ ck_id k = op_id op /\
     ck_make k = chosen (op_make op) /\ ck_dead k = chosen (op_dead op)) /\
  (forall id, id <> op_id op -> handled_by s id = handled_by (host_run (host_new client false) os) id).
Proof.
  intros Hr Hid. destruct (host_mode os (host_new client false)) as [Hm Hcl]. cbn in Hm, Hcl. revert Hm Hcl.
  generalize (host_run (host_new client false) os) as s0. intros s0 Hm Hcl.
  unfold start_heartbeat, configured. rewrite Hm. cbn [andb]. unfold add_route. rewrite Hm. cbn [andb]. unfold bind_router. rewrite Hr.
  destruct (Z.eqb_spec (op_id op) default_id); [contradiction|].
  assert (K : forall h : checker, ck_id (Checker (ck_make h) (ck_dead h) (op_id op) (User r) (ck_slices h) (ck_beat h)) = op_id op) by reflexivity.
  rewrite K. cbn [ck_router]. unfold add_router. destruct (find _ (ho_apis s0)) eqn:Ef; [discriminate|]. intros [= <-].
  split; [|split].
  - intros after. apply host_run_keeps; [discriminate|]. unfold handled_by, find_router. cbn. rewrite ?Hm, Z.eqb_refl. reflexivity.
  - unfold conn_checker. cbn. destruct (ho_client s0); eexists; (split; [reflexivity|]); (split; [reflexivity|]); destruct (op_make op), (op_dead op); split; reflexivity.
  - intros id Hn. unfold handled_by, find_router. cbn. rewrite ?Hm. destruct (Z.eqb_spec (op_id op) id); [congruence|reflexivity].
Qed.

Lemma custom_slices os op h hs s :
  op_slices op = h :: hs -> op_id op <> default_id ->
  start_heartbeat (host_run (host_new false true) os) (Some op) = Some s ->
  forall after, handled_by (host_run s after) (op_id op) = ho_use (host_run (host_new false true) os) ++ Default :: map User (h :: hs).
Proof.
  intros Hr Hid. destruct (host_mode os (host_new false true)) as [Hm Hcl]. cbn in Hm, Hcl. revert Hm Hcl.
  generalize (host_run (host_new false true) os) as s0. intros s0 Hm Hcl.
  unfold start_heartbeat, configured. rewrite Hm, Hcl. cbn [andb negb]. unfold add_slices. rewrite Hm, Hcl. cbn [andb negb orb].
  unfold bind_slices. rewrite Hr. destruct (Z.eqb_spec (op_id op) default_id); [contradiction|]. cbn [ck_id ck_slices].
  destruct (find _ (ho_table s0)) eqn:Ef; [discriminate|]. intros [= <-] after.
  apply host_run_keeps; [now destruct (ho_use s0)|]. unfold handled_by. cbn. rewrite ?Hm, Z.eqb_refl.
  assert (E : ck_slices (set_dead (set_make new_checker (op_make op)) (op_dead op)) = [Default]) by (destruct (op_make op), (op_dead op); reflexivity).
  rewrite E. reflexivity.
Qed.

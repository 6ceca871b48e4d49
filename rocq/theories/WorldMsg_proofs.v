From Coq Require Import ZArith List Bool Lia ZifyBool.
From Verif Require Import Aoi Spec_Aoi Aoi_proofs World Spec_World World_proofs WorldMsg Spec_WorldMsg.
Import ListNotations.
Local Open Scope Z_scope.

(* One cell of a screen: where q's client draws p. *)
Definition eff (m : msg) (c : option (Z * Z)) : option (Z * Z) :=
  if m_id m =? 201 then None else if m_id m =? 202 then m_at m
  else if (m_id m =? 200) && (m_tp m =? 2) then m_at m
  else if (m_id m =? 200) && (m_tp m =? 4) then match c with Some _ => m_at m | None => None end else c.
Definition hits (q p : Z) (m : msg) : bool := (m_to m =? q) && (p =? m_pid m).
Definition cell (q p : Z) (c : option (Z * Z)) (ms : list msg) : option (Z * Z) := fold_left (fun c m => if hits q p m then eff m c else c) ms c.

Lemma screen_cell q p ms : forall v, fold_left draw (filter (fun m => m_to m =? q) ms) v p = cell q p (v p) ms.
Proof.
  induction ms as [|m ms IH]; intros v; [reflexivity|]. unfold cell. cbn [filter fold_left]. unfold hits at 2. destruct (m_to m =? q); cbn [andb fold_left]; [|apply IH].
  rewrite IH. unfold draw at 1. unfold cell, eff. destruct (p =? m_pid m); reflexivity.
Qed.
Lemma cell_app q p c ms ms' : cell q p c (ms ++ ms') = cell q p (cell q p c ms) ms'.
Proof. unfold cell. now rewrite fold_left_app. Qed.
Lemma cell_set q p v ms : (forall m, In m ms -> hits q p m = true -> forall c, eff m c = v) -> forall c, cell q p c ms = if existsb (hits q p) ms then v else c.
Proof.
  induction ms as [|m ms IH]; intros H c; [reflexivity|]. unfold cell. cbn [fold_left existsb]. fold (cell q p (if hits q p m then eff m c else c) ms). rewrite IH by (intros m' X; apply H; now right).
  destruct (hits q p m) eqn:E; cbn [orb]; [|reflexivity]. rewrite (H m (or_introl eq_refl) E). now destruct (existsb _ ms).
Qed.
Lemma cell_move q p x z ms : (forall m, In m ms -> hits q p m = true -> forall c, eff m c = match c with Some _ => Some (x, z) | None => None end) ->
  forall c, cell q p c ms = if existsb (hits q p) ms then match c with Some _ => Some (x, z) | None => None end else c.
Proof.
  induction ms as [|m ms IH]; intros H c; [reflexivity|]. unfold cell. cbn [fold_left existsb]. fold (cell q p (if hits q p m then eff m c else c) ms). rewrite IH by (intros m' X; apply H; now right).
  destruct (hits q p m) eqn:E; cbn [orb]; [|reflexivity]. rewrite (H m (or_introl eq_refl) E). destruct c; now destruct (existsb _ ms).
Qed.
Lemma cell_quiet q p ms : (forall m, In m ms -> m_to m <> q) -> forall c, cell q p c ms = c.
Proof.
  induction ms as [|m ms IH]; intros H c; [reflexivity|]. unfold cell. cbn [fold_left]. unfold hits at 2. replace (m_to m =? q) with false by (specialize (H m (or_introl eq_refl)); lia). apply IH. intros m' X. apply H. now right.
Qed.

(* The three shapes of messages. *)
Definition one (f : Z -> msg) (qs : list Z) : list msg := flat_map (fun q => [f q]) qs.
Lemma one_map f qs : one f qs = map f qs.
Proof. unfold one. induction qs as [|q qs IH]; [reflexivity|]. cbn. now rewrite IH. Qed.
Lemma hits_to q p pid f qs : (forall k, m_to (f k) = k /\ m_pid (f k) = pid) -> existsb (hits q p) (map f qs) = (p =? pid) && mem q qs.
Proof.
  intros H. induction qs as [|k qs IH]; [now rewrite andb_false_r|]. cbn [map existsb]. rewrite IH. unfold hits, mem. cbn [existsb]. destruct (H k) as (-> & ->). rewrite (Z.eqb_sym k q). destruct (q =? k), (p =? pid); reflexivity.
Qed.
Lemma hits_about q p pid f qs : (forall k, m_to (f k) = pid /\ m_pid (f k) = k) -> existsb (hits q p) (map f qs) = (q =? pid) && mem p qs.
Proof.
  intros H. induction qs as [|k qs IH]; [now rewrite andb_false_r|]. cbn [map existsb]. rewrite IH. unfold hits, mem. cbn [existsb]. destruct (H k) as (-> & ->). rewrite (Z.eqb_sym pid q). destruct (p =? k), (q =? pid); reflexivity.
Qed.
Lemma hits_both q p pid f g qs : (forall k, m_to (f k) = k /\ m_pid (f k) = pid) -> (forall k, m_to (g k) = pid /\ m_pid (g k) = k) ->
  existsb (hits q p) (flat_map (fun k => [f k; g k]) qs) = ((p =? pid) && mem q qs) || ((q =? pid) && mem p qs).
Proof.
  intros H H'. induction qs as [|k qs IH]; [now rewrite !andb_false_r|]. cbn [flat_map app existsb]. rewrite IH. unfold hits, mem. cbn [existsb]. destruct (H k) as (-> & ->), (H' k) as (-> & ->). rewrite (Z.eqb_sym k q), (Z.eqb_sym pid q). destruct (q =? k), (p =? pid), (q =? pid), (p =? k), (existsb (Z.eqb q) qs), (existsb (Z.eqb p) qs); reflexivity.
Qed.

Lemma mem_eq_iff x l y l' : (In x l <-> In y l') -> mem x l = mem y l'.
Proof. rewrite <- !mem_in. destruct (mem x l), (mem y l'); intuition; symmetry; auto. Qed.
Lemma mem_spec x l b : (In x l <-> b = true) -> mem x l = b.
Proof. rewrite <- mem_in. destruct (mem x l), b; intuition; symmetry; auto. Qed.

Section V.
Variables minx maxx cx miny maxy cy : Z.
Let a := new_aoi minx maxx cx miny maxy cy.
Let winv := winv minx maxx cx miny maxy cy.

Definition nb (g k : Z) : bool := match gids (surround a g) with Some r => mem k r | None => false end.
Lemma nb_near g gr k : g_get g (a_grids a) = Some gr -> (nb g k = true <-> near cx cy g k).
Proof. intros E. destruct (near_ids minx maxx cx miny maxy cy g gr E) as (r & Er & _ & I). fold a in Er. unfold nb. rewrite Er, mem_in. apply I. Qed.
Lemma nb_sym g gr k kr : g_get g (a_grids a) = Some gr -> g_get k (a_grids a) = Some kr -> nb g k = nb k g.
Proof.
  intros E E'. destruct (nb g k) eqn:A, (nb k g) eqn:B; try reflexivity.
  - apply (nb_near g gr k E), near_sym, (nb_near k kr g E') in A. congruence.
  - apply (nb_near k kr g E'), near_sym, (nb_near g gr k E) in B. congruence.
Qed.
Lemma nb_refl g gr : g_get g (a_grids a) = Some gr -> nb g g = true.
Proof.
  intros E. apply (nb_near g gr g E). destruct (get_grid_inv minx maxx cx miny maxy cy g gr E) as (r & c & M & -> & _). exists r, c, r, c. repeat split; try apply M; lia.
Qed.

Definition grid_of (pos : Z -> option (Z * Z)) (q : Z) : option Z := match pos q with Some (x, z) => gid_by_pos a x z | None => None end.
(* What q's client should draw for p. *)
Definition expd (pos : Z -> option (Z * Z)) (q p : Z) : option (Z * Z) :=
  match grid_of pos q, grid_of pos p with Some g, Some k => if nb g k then pos p else None | _, _ => None end.

Lemma grid_some s pos q x z : winv s pos -> pos q = Some (x, z) -> exists g gr, grid_of pos q = Some g /\ g_get g (a_grids a) = Some gr.
Proof. intros H E. destruct (v_placed _ _ _ _ _ _ _ _ H q x z E) as (g & gr & E1 & E2). exists g, gr. unfold grid_of. rewrite E. auto. Qed.
Lemma mem_grid s pos q h : winv s pos -> (In q (w_mem s h) <-> grid_of pos q = Some h).
Proof.
  intros H. rewrite (v_mem _ _ _ _ _ _ _ _ H). unfold grid_of. fold a. split; [intros (x & z & -> & E); exact E|]. destruct (pos q) as [[x z]|]; [|discriminate]. intros E. exists x, z. auto.
Qed.
Lemma nodup_mem s pos hs : winv s pos -> NoDup hs -> NoDup (flat_map (w_mem s) hs).
Proof.
  intros H. induction hs as [|h hs IH]; intros N; [constructor|]. inversion N; subst. specialize (IH H3). cbn [flat_map].
  assert (Nh := v_nodup _ _ _ _ _ _ _ _ H h). assert (Dis : forall q, In q (w_mem s h) -> ~ In q (flat_map (w_mem s) hs)).
  { intros q X Y. apply in_flat_map in Y. destruct Y as (k & Yk & Y). apply (mem_grid s pos q h H) in X. apply (mem_grid s pos q k H) in Y. congruence. }
  clear - IH Nh Dis. induction (w_mem s h) as [|q qs IHq]; [exact IH|]. inversion Nh; subst. cbn. constructor.
  - rewrite in_app_iff. intros [X|X]; [contradiction|]. exact (Dis q (or_introl eq_refl) X).
  - apply IHq; [assumption|]. intros x X. apply Dis. now right.
Qed.

(* qs are the players in the grids that satisfy f, each once. *)
Definition those (pos : Z -> option (Z * Z)) (f : Z -> bool) (qs : list Z) : Prop :=
  NoDup qs /\ forall q, In q qs <-> exists k, grid_of pos q = Some k /\ f k = true.
Lemma those_mem pos f qs q : those pos f qs -> mem q qs = match grid_of pos q with Some k => f k | None => false end.
Proof.
  intros (_ & I). apply mem_spec. rewrite I. split; [intros (k & -> & E); exact E|]. destruct (grid_of pos q) as [k|]; [|discriminate]. intros E. exists k. auto.
Qed.
Lemma those_online pos f qs q : those pos f qs -> In q qs -> exists x z, pos q = Some (x, z).
Proof. intros (_ & I) X. apply I in X. destruct X as (k & E & _). unfold grid_of in E. destruct (pos q) as [[x z]|]; [|discriminate]. eauto. Qed.

Lemma in_grids s pos g gr : winv s pos -> g_get g (a_grids a) = Some gr ->
  exists r, gids (surround a g) = Some r /\ those pos (nb g) (flat_map (w_mem s) r) /\ NoDup r.
Proof.
  intros H E. destruct (near_ids minx maxx cx miny maxy cy g gr E) as (r & Er & N & I). fold a in Er. exists r. split; [exact Er|]. split; [|exact N]. split; [now apply (nodup_mem s pos)|].
  intros q. rewrite in_flat_map. unfold nb. rewrite Er. split.
  - intros (k & X & Y). exists k. split; [now apply (mem_grid s)|now apply mem_in].
  - intros (k & Y & X). exists k. split; [now apply mem_in|now apply (mem_grid s pos)].
Qed.
Lemma those_filter s pos r f : winv s pos -> NoDup r -> those pos (fun k => mem k r && f k) (flat_map (w_mem s) (filter f r)).
Proof.
  intros H N. split; [apply (nodup_mem s pos); [exact H|now apply NoDup_filter]|]. intros q. rewrite in_flat_map. split.
  - intros (k & X & Y). apply filter_In in X. exists k. split; [now apply (mem_grid s)|]. apply andb_true_iff. split; [now apply mem_in|tauto].
  - intros (k & Y & X). apply andb_true_iff in X. exists k. split; [apply filter_In; split; [now apply mem_in|tauto]|now apply (mem_grid s pos)].
Qed.

Lemma each_pos f s pos qs : winv s pos -> (forall q, In q qs -> exists x z, pos q = Some (x, z)) ->
  each f (look s qs) = (flat_map (fun q => match pos q with Some (x, z) => f q (Pl x z) | None => [] end) qs, true).
Proof.
  intros H On. rewrite each_ok.
  - f_equal. apply flat_map_ext. intros q. rewrite (v_players _ _ _ _ _ _ _ _ H). destruct (pos q) as [[x z]|]; reflexivity.
  - intros q X. rewrite (v_players _ _ _ _ _ _ _ _ H). destruct (On q X) as (x & z & ->). discriminate.
Qed.
Lemma flat_online {B} (pos : Z -> option (Z * Z)) (f : Z -> pl -> list B) (f' : Z -> list B) qs :
  (forall q, In q qs -> exists x z, pos q = Some (x, z)) -> (forall q x z, pos q = Some (x, z) -> f q (Pl x z) = f' q) ->
  flat_map (fun q => match pos q with Some (x, z) => f q (Pl x z) | None => [] end) qs = flat_map f' qs.
Proof.
  intros On E. induction qs as [|q qs IH]; [reflexivity|]. cbn [flat_map]. rewrite IH by (intros k X; apply On; now right). destruct (On q (or_introl eq_refl)) as (x & z & Eq). rewrite Eq, (E q x z Eq). reflexivity.
Qed.
Lemma each_shape f f' s pos qs : winv s pos -> (forall q, In q qs -> exists x z, pos q = Some (x, z)) -> (forall q x z, pos q = Some (x, z) -> f q (Pl x z) = f' q) ->
  each f (look s qs) = (flat_map f' qs, true).
Proof. intros H On E. rewrite (each_pos f s pos qs H On). f_equal. now apply flat_online. Qed.

Lemma move_full s pos pid ox oz x z old new : winv s pos -> pos pid = Some (ox, oz) -> placed a x z -> gid_by_pos a ox oz = Some old -> gid_by_pos a x z = Some new ->
  let pos' := setp pos pid (Some (x, z)) in
  exists qs1 qs2 qs3, those pos' (fun k => nb old k && negb (nb new k)) qs1 /\ those pos' (fun k => nb new k && negb (nb old k)) qs2 /\ those pos' (nb new) qs3 /\
    o_msgs (update_pos a s pid x z) = flat_map (fun q => [Msg q 201 0 pid None; Msg pid 201 0 q None]) qs1
      ++ flat_map (fun q => [Msg q 200 2 pid (Some (x, z)); Msg pid 200 2 q (pos' q)]) qs2 ++ flat_map (fun q => [Msg q 200 4 pid (Some (x, z))]) qs3.
Proof.
  intros H E P Eo En pos'.
  destruct (move_ok minx maxx cx miny maxy cy s pos pid ox oz x z old new H E P Eo En) as (_ & I & _). fold a in I. fold pos' in I.
  assert (P0 := v_placed _ _ _ _ _ _ _ _ H pid ox oz E). assert (Pn := P). destruct P0 as (gid0 & go & Q0 & Go). assert (gid0 = old) by (fold a in Q0; congruence). subst gid0. destruct Pn as (gid1 & gn & Q1 & Gn). assert (gid1 = new) by congruence. subst gid1. fold a in Go.
  revert I. unfold update_pos. rewrite (v_players _ _ _ _ _ _ _ _ H), E. cbn [option_map fst snd]. rewrite Eo, En. unfold pids_by_pos. rewrite En.
  destruct (Z.eqb_spec old new) as [<-|Ne].
  - set (s1 := World (p_set pid (Pl x z) (w_players s)) (w_mem s)). destruct (gids (surround a old)) as [r|] eqn:Er.
    + cbn [option_map]. destruct (each _ (look s1 _)) as (ms, b) eqn:Ee. cbn [o_world o_msgs app]. intros I. destruct (in_grids s1 pos' old go I Go) as (r' & Er' & T & Nr). assert (r' = r) by congruence. subst r'.
      rewrite (each_shape _ (fun q => [Msg q 200 4 pid (Some (x, z))]) s1 pos' _ I) in Ee; [|intros q X; exact (those_online _ _ _ _ T X)|reflexivity]. injection Ee as <- _.
      exists [], [], (flat_map (w_mem s1) r). split; [|split; [|split; [exact T|reflexivity]]].
      all: split; [constructor|]; intros q; split; [intros []|]; intros (k & _ & B); destruct (nb old k); discriminate.
    + destruct (near_ids minx maxx cx miny maxy cy old go Go) as (r & Er' & _). fold a in Er'. congruence.
  - cbn zeta. unfold del_from. rewrite Go. cbn [w_players w_mem]. unfold add_to. rewrite Gn.
    set (s3 := World (p_set pid (Pl x z) (w_players s)) (put (put (w_mem s) old (s_del pid (w_mem s old))) new (s_add pid (put (w_mem s) old (s_del pid (w_mem s old)) new)))).
    intros I. assert (W : winv s3 pos').
    { revert I. destruct (exchange a s3 pid x z old new) as (ms, b). destruct b; [|exact (fun X => X)]. destruct (option_map _ _); [|exact (fun X => X)]. destruct (each _ _). exact (fun X => X). }
    clear I. destruct (in_grids s3 pos' old go W Go) as (r & Er & To & Nr). destruct (in_grids s3 pos' new gn W Gn) as (r' & Er' & Tn & Nr').
    assert (L1 := those_filter s3 pos' r (fun g => negb (mem g r')) W Nr). assert (L2 := those_filter s3 pos' r' (fun g => negb (mem g r)) W Nr').
    unfold exchange. rewrite Er, Er'. cbn [option_map].
    rewrite (each_shape _ (fun q => [Msg q 201 0 pid None; Msg pid 201 0 q None]) s3 pos' _ W); [|intros q X; exact (those_online _ _ _ _ L1 X)|reflexivity].
    rewrite (each_shape _ (fun q => [Msg q 200 2 pid (Some (x, z)); Msg pid 200 2 q (pos' q)]) s3 pos' _ W); [|intros q X; exact (those_online _ _ _ _ L2 X)|intros q x0 z0 ->; reflexivity].
    rewrite (each_shape _ (fun q => [Msg q 200 4 pid (Some (x, z))]) s3 pos' _ W); [|intros q X; exact (those_online _ _ _ _ Tn X)|reflexivity].
    cbn [o_msgs]. eexists _, _, _. split; [|split; [|split; [exact Tn|now rewrite <- app_assoc]]]; unfold nb; rewrite Er, Er'; assumption.
Qed.

Lemma lost_full s pos pid x z g : winv s pos -> pos pid = Some (x, z) -> gid_by_pos a x z = Some g ->
  exists qs, those pos (nb g) qs /\ o_msgs (lost a s pid) = flat_map (fun q => [Msg q 201 0 pid None]) qs.
Proof.
  intros H E Eg. destruct (v_placed _ _ _ _ _ _ _ _ H pid x z E) as (gid & gr & Ep & Er). fold a in Ep, Er. assert (gid = g) by congruence. subst gid.
  destruct (in_grids s pos g gr H Er) as (r & E1 & T & _). exists (flat_map (w_mem s) r). split; [exact T|].
  unfold lost. rewrite (v_players _ _ _ _ _ _ _ _ H), E. cbn [option_map fst snd]. unfold pids_by_pos. rewrite Eg, E1. cbn [option_map].
  rewrite (each_shape _ (fun q => [Msg q 201 0 pid None]) s pos _ H); [|intros q X; exact (those_online _ _ _ _ T X)|reflexivity]. unfold del_from. rewrite Er. reflexivity.
Qed.

Lemma enter_full s pos pid x z g : winv s pos -> pos pid = None -> placed a x z -> gid_by_pos a x z = Some g ->
  let pos' := setp pos pid (Some (x, z)) in
  exists qs, those pos' (nb g) qs /\ o_ok (enter a s pid x z) = true /\
    o_msgs (enter a s pid x z) = [Msg pid 1 0 pid None; Msg pid 200 2 pid (Some (x, z))] ++ flat_map (fun q => [Msg q 200 2 pid (Some (x, z))]) qs ++ flat_map (fun q => [Msg pid 202 0 q (pos' q)]) qs.
Proof.
  intros H E P Eg pos'. destruct (join_ok minx maxx cx miny maxy cy s pos pid x z H E P) as (Ok & W). fold a in Ok, W. fold pos' in W. destruct P as (gid & gr & Ep & Er). assert (gid = g) by congruence. subst gid.
  unfold enter, enter_first, enter_last. rewrite Ok. set (s' := o_world (add_player a s pid x z)) in *. destruct (in_grids s' pos' g gr W Er) as (r & E1 & T & _). exists (flat_map (w_mem s') r). split; [exact T|].
  unfold pids_by_pos. rewrite Eg, E1. cbn [option_map].
  rewrite (each_shape _ (fun q => [Msg q 200 2 pid (Some (x, z))]) s' pos' _ W); [|intros q X; exact (those_online _ _ _ _ T X)|reflexivity]. cbn [o_ok].
  rewrite (each_shape _ (fun q => [Msg pid 202 0 q (pos' q)]) s' pos' _ W); [|intros q X; exact (those_online _ _ _ _ T X)|intros q x0 z0 ->; reflexivity].
  cbn [o_ok o_world o_msgs]. split; [reflexivity|now rewrite <- app_assoc].
Qed.

Lemma setp_same pos pid v : setp pos pid v pid = v.
Proof. unfold setp. now rewrite Z.eqb_refl. Qed.
Lemma setp_other pos pid v q : q <> pid -> setp pos pid v q = pos q.
Proof. unfold setp. intros N. replace (pid =? q) with false by lia. reflexivity. Qed.
Lemma grid_same pos pid x z : grid_of (setp pos pid (Some (x, z))) pid = gid_by_pos a x z.
Proof. unfold grid_of. now rewrite setp_same. Qed.
Lemma grid_other pos pid v q : q <> pid -> grid_of (setp pos pid v) q = grid_of pos q.
Proof. unfold grid_of. intros N. now rewrite setp_other. Qed.

(* How the screens change. *)
Lemma move_screens s pos pid ox oz x z q p : winv s pos -> pos pid = Some (ox, oz) -> placed a x z -> pos q <> None ->
  cell q p (expd pos q p) (o_msgs (update_pos a s pid x z)) = expd (setp pos pid (Some (x, z))) q p.
Proof.
  intros H E P On. destruct (v_placed _ _ _ _ _ _ _ _ H pid ox oz E) as (old & go & Eo & Go). fold a in Eo, Go. assert (P' := P). destruct P' as (new & gn & En & Gn).
  destruct (move_full s pos pid ox oz x z old new H E P Eo En) as (qs1 & qs2 & qs3 & T1 & T2 & T3 & ->). set (pos' := setp pos pid (Some (x, z))) in *.
  destruct (pos q) as [[xq zq]|] eqn:Eq; [|congruence]. clear On. destruct (grid_some s pos q xq zq H Eq) as (gq & gqr & Gq & Gqr).
  rewrite !cell_app.
  rewrite (cell_set q p None (flat_map _ qs1)); [|intros m X _ c; apply in_flat_map in X; destruct X as (k & _ & [<-|[<-|[]]]); reflexivity].
  rewrite (hits_both q p pid (fun k => Msg k 201 0 pid None) (fun k => Msg pid 201 0 k None)) by (intros k; split; reflexivity).
  rewrite (cell_set q p (pos' p) (flat_map _ qs2)).
  2:{ intros m X B c; apply in_flat_map in X; destruct X as (k & _ & [<-|[<-|[]]]); unfold hits in B; cbn [m_to m_pid] in B; unfold eff; cbn.
      - replace p with pid by lia. unfold pos'. now rewrite setp_same.
      - replace p with k by lia. reflexivity. }
  rewrite (hits_both q p pid (fun k => Msg k 200 2 pid (Some (x, z))) (fun k => Msg pid 200 2 k (pos' k))) by (intros k; split; reflexivity).
  rewrite (cell_move q p x z (flat_map _ qs3)); [|intros m X _ c; apply in_flat_map in X; destruct X as (k & _ & [<-|[]]); reflexivity].
  change (flat_map (fun q0 => [Msg q0 200 4 pid (Some (x, z))]) qs3) with (one (fun q0 => Msg q0 200 4 pid (Some (x, z))) qs3). rewrite one_map.
  rewrite (hits_to q p pid (fun k => Msg k 200 4 pid (Some (x, z)))) by (intros k; split; reflexivity).
  rewrite !(those_mem _ _ _ _ T1), !(those_mem _ _ _ _ T2), !(those_mem _ _ _ _ T3). unfold expd.
  assert (Gp : grid_of pos pid = Some old) by (unfold grid_of; now rewrite E).
  assert (Gp' : grid_of pos' pid = Some new) by (unfold pos'; now rewrite grid_same).
  destruct (Z.eq_dec q pid) as [->|Nq]; destruct (Z.eq_dec p pid) as [->|Np].
  - rewrite Gp, Gp', Z.eqb_refl, (nb_refl old go Go), (nb_refl new gn Gn), E. cbn [andb orb negb]. unfold pos'. rewrite setp_same. rewrite !andb_false_r. cbn [orb]. destruct (nb old new); reflexivity.
  - rewrite Gp, Gp', Z.eqb_refl. replace (p =? pid) with false by lia. cbn [andb orb]. unfold pos' at 1 2 3 4 5. rewrite (grid_other pos pid _ p Np), (setp_other pos pid _ p Np). destruct (grid_of pos p) as [k|]; [|reflexivity]. destruct (nb old k), (nb new k); reflexivity.
  - rewrite Gp, Gp', Gq, Z.eqb_refl. replace (q =? pid) with false by lia. cbn [andb orb]. unfold pos'. rewrite (grid_other pos pid _ q Nq), Gq, setp_same, E. rewrite (nb_sym gq gqr old go Gqr Go), (nb_sym gq gqr new gn Gqr Gn). destruct (nb old gq), (nb new gq); reflexivity.
  - replace (q =? pid) with false by lia. replace (p =? pid) with false by lia. cbn [andb orb]. unfold pos'. rewrite (grid_other pos pid _ q Nq), (grid_other pos pid _ p Np), (setp_other pos pid _ p Np). reflexivity.
Qed.

Lemma lost_screens s pos pid q p : winv s pos -> q <> pid -> pos q <> None ->
  cell q p (expd pos q p) (o_msgs (lost a s pid)) = expd (setp pos pid None) q p.
Proof.
  intros H Nq On. destruct (pos pid) as [[x z]|] eqn:E.
  - destruct (v_placed _ _ _ _ _ _ _ _ H pid x z E) as (g & gr & Eg & Gr). fold a in Eg, Gr. destruct (lost_full s pos pid x z g H E Eg) as (qs & T & ->).
    destruct (pos q) as [[xq zq]|] eqn:Eq; [|congruence]. destruct (grid_some s pos q xq zq H Eq) as (gq & gqr & Gq & Gqr).
    rewrite (cell_set q p None (flat_map _ qs)); [|intros m X _ c; apply in_flat_map in X; destruct X as (k & _ & [<-|[]]); reflexivity].
    change (flat_map (fun q0 => [Msg q0 201 0 pid None]) qs) with (one (fun q0 => Msg q0 201 0 pid None) qs). rewrite one_map.
    rewrite (hits_to q p pid (fun k => Msg k 201 0 pid None)) by (intros k; split; reflexivity). rewrite (those_mem _ _ _ _ T), Gq. unfold expd. rewrite (grid_other pos pid None q Nq), Gq.
    destruct (Z.eqb_spec p pid) as [->|Np].
    + unfold grid_of. rewrite setp_same, E, Eg, (nb_sym gq gqr g gr Gqr Gr). cbn [andb]. destruct (nb g gq); reflexivity.
    + cbn [andb]. now rewrite (grid_other pos pid None p Np), (setp_other pos pid None p Np).
  - unfold lost. rewrite (v_players _ _ _ _ _ _ _ _ H), E. cbn [option_map o_msgs cell fold_left]. unfold expd. rewrite (grid_other pos pid None q Nq). destruct (Z.eq_dec p pid) as [->|Np]; [|now rewrite (grid_other pos pid None p Np), (setp_other pos pid None p Np)].
    unfold grid_of. rewrite setp_same, E. reflexivity.
Qed.

Lemma enter_screens s pos pid x z q p c : winv s pos -> pos pid = None -> placed a x z -> pos q <> None \/ q = pid ->
  (q <> pid -> c = expd pos q p) -> (q = pid -> c = None) ->
  cell q p c (o_msgs (enter a s pid x z)) = expd (setp pos pid (Some (x, z))) q p.
Proof.
  intros H E P On C1 C2. assert (P' := P). destruct P' as (g & gr & Eg & Gr). destruct (enter_full s pos pid x z g H E P Eg) as (qs & T & _ & ->). set (pos' := setp pos pid (Some (x, z))) in *.
  assert (Gp' : grid_of pos' pid = Some g) by (unfold pos'; now rewrite grid_same).
  rewrite !cell_app.
  rewrite (cell_set q p (pos' p) (flat_map _ qs)).
  2:{ intros m X B c'; apply in_flat_map in X; destruct X as (k & _ & [<-|[]]). unfold hits in B; cbn [m_to m_pid] in B; unfold eff; cbn. replace p with k by lia. reflexivity. }
  rewrite (cell_set q p (Some (x, z)) (flat_map _ qs)); [|intros m X _ c'; apply in_flat_map in X; destruct X as (k & _ & [<-|[]]); reflexivity].
  change (flat_map (fun q0 => [Msg q0 200 2 pid (Some (x, z))]) qs) with (one (fun q0 => Msg q0 200 2 pid (Some (x, z))) qs).
  change (flat_map (fun q0 => [Msg pid 202 0 q0 (pos' q0)]) qs) with (one (fun q0 => Msg pid 202 0 q0 (pos' q0)) qs). rewrite !one_map.
  rewrite (hits_to q p pid (fun k => Msg k 200 2 pid (Some (x, z)))) by (intros k; split; reflexivity). rewrite (hits_about q p pid (fun k => Msg pid 202 0 k (pos' k))) by (intros k; split; reflexivity).
  rewrite !(those_mem _ _ _ _ T). unfold cell. cbn [fold_left hits m_to m_pid]. unfold hits. cbn [m_to m_pid]. rewrite (Z.eqb_sym pid q).
  destruct (Z.eqb_spec q pid) as [->|Nq]; destruct (Z.eqb_spec p pid) as [->|Np]; cbn [andb].
  - unfold expd. rewrite Gp', (nb_refl g gr Gr). reflexivity.
  - rewrite (C2 eq_refl). unfold expd. rewrite Gp'. destruct (grid_of pos' p) as [k|]; reflexivity.
  - rewrite (C1 Nq). unfold expd. rewrite Gp'. unfold grid_of at 3. rewrite E. destruct On as [On|On]; [|congruence]. destruct (pos q) as [[xq zq]|] eqn:Eq; [|congruence]. destruct (grid_some s pos q xq zq H Eq) as (gq & gqr & Gq & Gqr).
    unfold pos' at 1 2. rewrite (grid_other pos pid _ q Nq), Gq, (nb_sym gq gqr g gr Gqr Gr). unfold pos'. rewrite setp_same. destruct (nb g gq); reflexivity.
  - rewrite (C1 Nq). unfold expd, pos'. rewrite (grid_other pos pid _ q Nq), (grid_other pos pid _ p Np), (setp_other pos pid _ p Np). reflexivity.
Qed.

(* Nobody is sent anything before joining. *)
Lemma sent_to s pos pos' o m : winv s pos -> op_placed a o -> (forall q, pos' q = pos_after (pos q) q o) -> (forall p x z, o = WJoin p x z -> pos p = None) ->
  In m (o_msgs (v_call a s o)) -> pos (m_to m) <> None \/ pos' (m_to m) <> None.
Proof.
  intros H P S J X. destruct o as [pid x z|pid x z|pid]; cbn [v_call w_call op_placed] in *.
  - assert (E := J pid x z eq_refl). assert (P' := P). destruct P' as (g & gr & Eg & Gr). destruct (enter_full s pos pid x z g H E P Eg) as (qs & T & _ & Em). rewrite Em in X. right.
    assert (S' : forall q, pos' q = setp pos pid (Some (x, z)) q) by (intros q; rewrite S; reflexivity).
    assert (Self : pos' pid <> None) by (rewrite S', setp_same; discriminate).
    apply in_app_or in X. destruct X as [[<-|[<-|[]]]|X]; [exact Self|exact Self|]. apply in_app_or in X. destruct X as [X|X]; apply in_flat_map in X; destruct X as (k & Ik & [<-|[]]); [|exact Self]. cbn [m_to]. rewrite S'. destruct (those_online _ _ _ _ T Ik) as (x0 & z0 & ->). discriminate.
  - destruct (pos pid) as [[ox oz]|] eqn:E.
    + destruct (v_placed _ _ _ _ _ _ _ _ H pid ox oz E) as (old & go & Eo & Go). assert (P' := P). destruct P' as (new & gn & En & Gn). destruct (move_full s pos pid ox oz x z old new H E P Eo En) as (qs1 & qs2 & qs3 & T1 & T2 & T3 & Em). rewrite Em in X. right.
      assert (S' : forall q, pos' q = setp pos pid (Some (x, z)) q) by (intros q; rewrite S; unfold setp; cbn [pos_after]; destruct (Z.eqb_spec pid q) as [->|]; [now rewrite E|reflexivity]).
      assert (Self : pos' pid <> None) by (rewrite S', setp_same; discriminate).
      apply in_app_or in X. destruct X as [X|X]; [|apply in_app_or in X; destruct X as [X|X]]; apply in_flat_map in X; destruct X as (k & Ik & X); repeat destruct X as [<-|X]; try exact Self; try destruct X; cbn [m_to]; rewrite S'.
      * destruct (those_online _ _ _ _ T1 Ik) as (x0 & z0 & ->). discriminate.
      * destruct (those_online _ _ _ _ T2 Ik) as (x0 & z0 & ->). discriminate.
      * destruct (those_online _ _ _ _ T3 Ik) as (x0 & z0 & ->). discriminate.
    + unfold a in X. rewrite (move_none _ _ _ _ _ _ _ _ _ _ _ H E) in X. destruct X.
  - destruct (pos pid) as [[x z]|] eqn:E.
    + destruct (v_placed _ _ _ _ _ _ _ _ H pid x z E) as (g & gr & Eg & Gr). fold a in Eg, Gr. destruct (lost_full s pos pid x z g H E Eg) as (qs & T & Em). rewrite Em in X. left. apply in_flat_map in X. destruct X as (k & Ik & [<-|[]]). cbn [m_to]. destruct (those_online _ _ _ _ T Ik) as (x0 & z0 & ->). discriminate.
    + unfold lost in X. rewrite (v_players _ _ _ _ _ _ _ _ H), E in X. destruct X.
Qed.

Lemma enter_world s pid x z : o_world (enter a s pid x z) = o_world (add_player a s pid x z).
Proof.
  unfold enter, enter_first. destruct (o_ok (add_player a s pid x z)); [|reflexivity]. destruct (pids_by_pos _ _ _ _); [|reflexivity]. destruct (each _ (look _ _)) as (? & []); cbn [o_ok o_world o_msgs]; [|reflexivity]. destruct (enter_last _ _). reflexivity.
Qed.
Lemma v_call_world s o : o_world (v_call a s o) = o_world (w_call a s o).
Proof. destruct o; [apply enter_world|reflexivity..]. Qed.
Lemma v_run_snoc h o : forall s, v_run a s (h ++ [o]) = (o_world (v_call a (fst (v_run a s h)) o), snd (v_run a s h) ++ o_msgs (v_call a (fst (v_run a s h)) o)).
Proof.
  induction h as [|o' h IH]; intros s; [cbn [app v_run fst snd]; rewrite app_nil_r; reflexivity|]. cbn [app v_run]. rewrite IH. destruct (v_run a (o_world (v_call a s o')) h) as (s', ms). cbn [fst snd]. now rewrite app_assoc.
Qed.
Lemma v_run_world h : fst (v_run a new_world h) = w_run a h.
Proof. induction h as [|o h IH] using rev_ind; [reflexivity|]. rewrite v_run_snoc. cbn [fst]. rewrite IH, v_call_world. symmetry. apply run_snoc. Qed.

Lemma joined_dec h q : {In q (joined h)} + {~ In q (joined h)}.
Proof. apply in_dec, Z.eq_dec. Qed.
Lemma online_joined h q : last_pos h q <> None -> In q (joined h).
Proof. intros N. destruct (joined_dec h q) as [I|I]; [exact I|]. apply never_joined in I. contradiction. Qed.
Lemma joined_snoc h o : joined (h ++ [o]) = joined h ++ joined [o].
Proof. unfold joined. apply flat_map_app. Qed.
Lemma nodup_app_l {A} (l l' : list A) : NoDup (l ++ l') -> NoDup l.
Proof. induction l as [|x l IH]; intros N; [constructor|]. inversion N; subst. constructor; [intros X; apply H1; apply in_or_app; now left|now apply IH]. Qed.
Lemma nodup_app_dis {A} (l l' : list A) x : NoDup (l ++ l') -> In x l' -> ~ In x l.
Proof. induction l as [|y l IH]; intros N X Y; [destruct Y|]. inversion N; subst. destruct Y as [->|Y]; [apply H1; apply in_or_app; now right|exact (IH H2 X Y)]. Qed.

Lemma screens h : Forall (op_placed a) h -> NoDup (joined h) ->
  (forall q p, last_pos h q <> None -> cell q p None (snd (v_run a new_world h)) = expd (last_pos h) q p) /\
  (forall m, In m (snd (v_run a new_world h)) -> In (m_to m) (joined h)).
Proof.
  induction h as [|o h IH] using rev_ind; intros F N; [split; [intros q p X; now contradiction X|intros m []]|].
  apply Forall_app in F. destruct F as (F & Fo). inversion Fo as [|? ? Po _]; subst. rewrite joined_snoc in N. destruct (IH F (nodup_app_l _ _ N)) as (I1 & I2).
  assert (H := winv_run minx maxx cx miny maxy cy h F (nodup_app_l _ _ N)). fold a in H. rewrite v_run_snoc. cbn [snd]. rewrite v_run_world. set (s := w_run a h) in *.
  assert (New : forall p x z, o = WJoin p x z -> ~ In p (joined h)) by (intros p x z ->; apply (nodup_app_dis _ _ p N); left; reflexivity).
  assert (New' : forall p x z, o = WJoin p x z -> last_pos h p = None) by (intros p x z Eo; apply never_joined, (New p x z Eo)).
  split.
  - intros q p On. rewrite cell_app.
    assert (Ext : forall v p0, (forall k, last_pos (h ++ [o]) k = setp (last_pos h) p0 v k) -> expd (last_pos (h ++ [o])) q p = expd (setp (last_pos h) p0 v) q p).
    { intros v p0 X. unfold expd, grid_of. now rewrite !X. }
    destruct o as [pid x z|pid x z|pid]; cbn [v_call w_call op_placed] in *.
    + rewrite (Ext (Some (x, z)) pid) by (intros k; now rewrite last_pos_snoc). apply (enter_screens s); auto.
      * exact (New' pid x z eq_refl).
      * rewrite last_pos_snoc in On. cbn [pos_after] in On. destruct (Z.eqb_spec pid q) as [->|]; auto.
      * intros Nq. apply I1. rewrite last_pos_snoc in On. cbn [pos_after] in On. replace (pid =? q) with false in On by lia. exact On.
      * intros ->. apply cell_quiet. intros m X <-. exact (New _ _ _ eq_refl (I2 m X)).
    + destruct (last_pos h pid) as [[ox oz]|] eqn:E.
      * rewrite (Ext (Some (x, z)) pid) by (intros k; rewrite last_pos_snoc; unfold setp; cbn [pos_after]; destruct (Z.eqb_spec pid k) as [->|]; [now rewrite E|reflexivity]).
        assert (On' : last_pos h q <> None) by (rewrite last_pos_snoc in On; cbn [pos_after] in On; destruct (Z.eqb_spec pid q) as [->|]; [rewrite E; discriminate|exact On]).
        rewrite (I1 q p On'). now apply (move_screens s (last_pos h) pid ox oz).
      * unfold a, s. rewrite (move_none _ _ _ _ _ _ _ _ _ _ _ H E). cbn [o_msgs cell fold_left]. rewrite (Ext None pid) by (intros k; rewrite last_pos_snoc; unfold setp; cbn [pos_after]; destruct (Z.eqb_spec pid k) as [->|]; [now rewrite E|reflexivity]).
        assert (Same : forall k, setp (last_pos h) pid None k = last_pos h k) by (intros k; unfold setp; destruct (Z.eqb_spec pid k) as [->|]; [now rewrite E|reflexivity]).
        transitivity (expd (last_pos h) q p); [|unfold expd, grid_of; now rewrite !Same]. apply I1. rewrite last_pos_snoc in On. cbn [pos_after] in On. destruct (Z.eqb_spec pid q) as [->|]; [rewrite E in On; now contradiction On|exact On].
    + rewrite (Ext None pid) by (intros k; now rewrite last_pos_snoc). rewrite last_pos_snoc in On. cbn [pos_after] in On. destruct (Z.eqb_spec pid q) as [->|Nq]; [now contradiction On|].
      rewrite (I1 q p On). apply (lost_screens s); auto.
  - intros m X. apply in_app_or in X. rewrite joined_snoc. destruct X as [X|X]; [apply in_or_app; left; now apply I2|].
    rewrite <- joined_snoc. assert (S : forall q, last_pos (h ++ [o]) q = pos_after (last_pos h q) q o) by (intros q; apply last_pos_snoc).
    destruct (sent_to s (last_pos h) (last_pos (h ++ [o])) o m H Po S New' X) as [Y|Y]; [|now apply online_joined]. rewrite joined_snoc. apply in_or_app. left. now apply online_joined.
Qed.
End V.

Lemma p_del_fst pid l : map fst (p_del pid l) = filter (fun k => negb (k =? pid)) (map fst l).
Proof. unfold p_del. induction l as [|[i p] l IH]; [reflexivity|]. cbn [filter map fst]. destruct (i =? pid); cbn [negb map fst]; now rewrite IH. Qed.
Lemma p_set_nodup pid p l : NoDup (map fst l) -> NoDup (map fst (p_set pid p l)).
Proof.
  intros N. unfold p_set. cbn [map fst]. rewrite p_del_fst. constructor; [|now apply NoDup_filter]. rewrite filter_In. intros (_ & X). rewrite Z.eqb_refl in X. discriminate.
Qed.
Lemma p_del_nodup pid l : NoDup (map fst l) -> NoDup (map fst (p_del pid l)).
Proof. intros N. rewrite p_del_fst. now apply NoDup_filter. Qed.
Lemma call_nodup a s o : NoDup (map fst (w_players s)) -> NoDup (map fst (w_players (o_world (w_call a s o)))).
Proof.
  intros N. destruct o as [pid x z|pid x z|pid]; cbn [w_call].
  - unfold add_player. destruct (gid_by_pos a x z); [|cbn [o_world w_players]; now apply p_set_nodup]. destruct (add_to _ _ _ _); cbn [o_world w_players]; now apply p_set_nodup.
  - unfold update_pos. destruct (p_get pid (w_players s)) as [[ox oz]|]; [|exact N]. destruct (gid_by_pos a ox oz) as [old|]; [|exact N]. destruct (gid_by_pos a x z) as [new|]; [|exact N]. cbn zeta.
    assert (F : forall f ms, NoDup (map fst (w_players (o_world (match pids_by_pos a (World (p_set pid (Pl x z) (w_players s)) f) x z with
        | None => Out (World (p_set pid (Pl x z) (w_players s)) f) ms false
        | Some qs => let (m2, b) := each (fun q _ => [Msg q 200 4 pid (Some (x, z))]) (look (World (p_set pid (Pl x z) (w_players s)) f) qs) in Out (World (p_set pid (Pl x z) (w_players s)) f) (ms ++ m2) b end))))).
    { intros f ms. destruct (pids_by_pos _ _ _ _); [destruct (each _ _)|]; cbn [o_world w_players]; now apply p_set_nodup. }
    destruct (old =? new); [apply F|]. destruct (del_from _ _ _ _); [|cbn [o_world w_players]; now apply p_set_nodup]. destruct (add_to _ _ _ _); [|cbn [o_world w_players]; now apply p_set_nodup]. cbn [w_players]. destruct (exchange _ _ _ _ _ _ _) as (ms & []); [apply F|cbn [o_world w_players]; now apply p_set_nodup].
  - unfold lost. destruct (p_get pid (w_players s)) as [[x z]|]; [|exact N]. destruct (pids_by_pos _ _ _ _); [|exact N]. destruct (each _ _) as (ms & []); [|exact N]. destruct (gid_by_pos a x z); [|exact N]. destruct (del_from _ _ _ _); [|exact N]. cbn [o_world w_players]. now apply p_del_nodup.
Qed.
Lemma run_nodup a h : NoDup (map fst (w_players (w_run a h))).
Proof.
  unfold w_run. assert (N : NoDup (map fst (w_players new_world))) by constructor. revert N. generalize new_world. induction h as [|o h IH]; intros s N; [exact N|]. cbn [fold_left]. apply IH. now apply call_nodup.
Qed.
Lemma p_get_fst q l : p_get q l <> None <-> In q (map fst l).
Proof.
  induction l as [|[i p] l IH]; [split; [intros X; now contradiction X|intros []]|]. cbn [p_get map fst In]. destruct (Z.eqb_spec i q) as [->|N]; [split; [now left|discriminate]|]. rewrite IH. split; [now right|intros [->|X]; [congruence|exact X]].
Qed.

Lemma those_around minx maxx cx miny maxy cy h g gr qs : let a := new_aoi minx maxx cx miny maxy cy in
  g_get g (a_grids a) = Some gr -> those minx maxx cx miny maxy cy (last_pos h) (nb minx maxx cx miny maxy cy g) qs -> players_around a cx cy h g qs.
Proof.
  intros a G (N & I). split; [exact N|]. intros q. rewrite I. split.
  - intros (k & E & B). unfold grid_of in E. destruct (last_pos h q) as [[x z]|] eqn:El; [|discriminate]. exists x, z, k. split; [reflexivity|]. split; [exact E|]. now apply (nb_near minx maxx cx miny maxy cy g gr k G).
  - intros (x & z & k & El & E & Nk). exists k. unfold grid_of. rewrite El. split; [exact E|]. now apply (nb_near minx maxx cx miny maxy cy g gr k G).
Qed.
Lemma those_ext minx maxx cx miny maxy cy pos pos' f qs : (forall q, pos q = pos' q) -> those minx maxx cx miny maxy cy pos f qs -> those minx maxx cx miny maxy cy pos' f qs.
Proof. intros X (N & I). split; [exact N|]. intros q. rewrite I. unfold grid_of. now rewrite X. Qed.

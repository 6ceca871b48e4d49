From Coq Require Import ZArith List Bool Lia ZifyBool.
From Verif Require Import Aoi Spec_Aoi Aoi_proofs World Spec_World.
Import ListNotations.
Local Open Scope Z_scope.

Lemma mem_in x l : mem x l = true <-> In x l.
Proof. unfold mem. rewrite existsb_exists. split; [intros (y & H & E); replace x with y by lia; exact H|intros H; exists x; split; [exact H|lia]]. Qed.
Lemma s_add_in q p l : In q (s_add p l) <-> q = p \/ In q l.
Proof.
  unfold s_add. destruct (mem p l) eqn:E; [|rewrite in_app_iff; cbn; intuition]. apply mem_in in E. split; [auto|intros [->|H]; assumption].
Qed.
Lemma s_del_in q p l : In q (s_del p l) <-> q <> p /\ In q l.
Proof. unfold s_del. rewrite filter_In. destruct (Z.eqb_spec q p); cbn; intuition. Qed.
Lemma nodup_snoc {A} (x : A) l : NoDup l -> ~ In x l -> NoDup (l ++ [x]).
Proof.
  intros N H. rewrite <- (rev_involutive (l ++ [x])). apply NoDup_rev. rewrite rev_app_distr. cbn. constructor; [now rewrite <- in_rev|now apply NoDup_rev].
Qed.
Lemma s_add_nodup p l : NoDup l -> NoDup (s_add p l).
Proof. intros N. unfold s_add. destruct (mem p l) eqn:E; [exact N|]. apply nodup_snoc; [exact N|]. intros H. apply mem_in in H. congruence. Qed.
Lemma s_del_nodup p l : NoDup l -> NoDup (s_del p l).
Proof. apply NoDup_filter. Qed.

Lemma p_get_del q p l : p_get q (p_del p l) = if p =? q then None else p_get q l.
Proof.
  unfold p_del. induction l as [|[i x] l IH]; cbn [filter p_get fst]; [now destruct (p =? q)|].
  destruct (Z.eqb_spec i p) as [->|N]; cbn [negb p_get].
  - rewrite IH. destruct (Z.eqb_spec p q); reflexivity.
  - rewrite IH. destruct (Z.eqb_spec i q), (Z.eqb_spec p q); try reflexivity. congruence.
Qed.
Lemma p_get_set q p x l : p_get q (p_set p x l) = if p =? q then Some x else p_get q l.
Proof. unfold p_set. cbn [p_get]. rewrite p_get_del. destruct (p =? q); reflexivity. Qed.

Lemma gids_some l : Forall (fun o => o <> None) l -> exists r, gids l = Some r /\ map (option_map g_id) l = map Some r.
Proof.
  induction 1 as [|[g|] l N F (r & E & M)]; [exists []; split; reflexivity| |congruence]. exists (g_id g :: r). cbn. rewrite E, M. split; reflexivity.
Qed.
Lemma each_ok f s qs : (forall q, In q qs -> p_get q (w_players s) <> None) ->
  each f (look s qs) = (flat_map (fun q => match p_get q (w_players s) with Some p => f q p | None => [] end) qs, true).
Proof.
  induction qs as [|q qs IH]; intros H; [reflexivity|]. cbn [look map each flat_map]. fold (look s qs). destruct (p_get q (w_players s)) as [p|] eqn:E; [|exfalso; exact (H q (or_introl eq_refl) E)].
  rewrite IH by (intros x X; apply H; now right). reflexivity.
Qed.

Section W.
Variables minx maxx cx miny maxy cy : Z.
Let a := new_aoi minx maxx cx miny maxy cy.

Record winv (s : world) (pos : Z -> option (Z * Z)) : Prop := {
  v_players : forall q, p_get q (w_players s) = option_map (fun xz => Pl (fst xz) (snd xz)) (pos q);
  v_mem : forall q g, In q (w_mem s g) <-> exists x z, pos q = Some (x, z) /\ gid_by_pos a x z = Some g;
  v_nodup : forall g, NoDup (w_mem s g);
  v_placed : forall q x z, pos q = Some (x, z) -> placed a x z
}.

Lemma member_online s pos q g : winv s pos -> In q (w_mem s g) -> p_get q (w_players s) <> None.
Proof. intros H X. apply (v_mem _ _ H) in X. destruct X as (x & z & E & _). rewrite (v_players _ _ H), E. discriminate. Qed.

Lemma surround_gids g : exists r, gids (surround a g) = Some r /\ map (option_map g_id) (surround a g) = map Some r.
Proof. apply gids_some. apply surround_some. Qed.

Lemma near_ids g gr : g_get g (a_grids a) = Some gr -> exists r, gids (surround a g) = Some r /\ NoDup r /\ forall h, In h r <-> near cx cy g h.
Proof.
  intros E. destruct (surround_gids g) as (r & E1 & E2). destruct (surround_near minx maxx cx miny maxy cy g gr E) as (N & I). unfold ids in N, I. fold a in N, I. rewrite E2 in N, I. exists r. split; [exact E1|]. split; [now apply NoDup_map_inv in N|].
  intros h. rewrite <- I, in_map_iff. split; [intros H; exists h; auto|intros (x & [= ->] & H); exact H].
Qed.

Lemma around_ok s pos x z : winv s pos -> placed a x z ->
  exists qs, pids_by_pos a s x z = Some qs /\ forall q, In q qs -> p_get q (w_players s) <> None.
Proof.
  intros H (gid & g & E & Eg). unfold pids_by_pos. rewrite E. destruct (surround_gids gid) as (r & Er & _). rewrite Er. cbn. eexists. split; [reflexivity|].
  intros q X. apply in_flat_map in X. destruct X as (h & _ & X). exact (member_online s pos q h H X).
Qed.

(* Where the messages of a grid change go. *)
Lemma players_list s pos g g' gr gr' : winv s pos -> g_get g (a_grids a) = Some gr -> g_get g' (a_grids a) = Some gr' ->
  exists r r', gids (surround a g) = Some r /\ gids (surround a g') = Some r' /\
    lists_players cx cy s g g' (flat_map (w_mem s) (filter (fun h => negb (mem h r')) r)) /\
    forall q, In q (flat_map (w_mem s) (filter (fun h => negb (mem h r')) r)) -> p_get q (w_players s) <> None.
Proof.
  intros H Eg Eg'. destruct (near_ids g gr Eg) as (r & Er & Nr & Ir). destruct (near_ids g' gr' Eg') as (r' & Er' & Nr' & Ir'). exists r, r'. split; [exact Er|]. split; [exact Er'|]. split; [split|].
  - assert (Nf : NoDup (filter (fun h => negb (mem h r')) r)) by now apply NoDup_filter. induction (filter _ r) as [|h hs IH]; [constructor|]. inversion Nf; subst. cbn [flat_map].
    specialize (IH H3). assert (Nh := v_nodup _ _ H h). assert (Dis : forall q, In q (w_mem s h) -> ~ In q (flat_map (w_mem s) hs)).
    { intros q X Y. apply in_flat_map in Y. destruct Y as (k & Yk & Y). apply (v_mem _ _ H) in X, Y. destruct X as (x1 & z1 & P1 & G1). destruct Y as (x2 & z2 & P2 & G2). congruence. }
    clear - IH Nh Dis. induction (w_mem s h) as [|q qs IHq]; [exact IH|]. inversion Nh; subst. cbn. constructor.
    + rewrite in_app_iff. intros [X|X]; [contradiction|]. exact (Dis q (or_introl eq_refl) X).
    + apply IHq; [assumption|]. intros x X. apply Dis. now right.
  - intros q. rewrite in_flat_map. split.
    + intros (h & X & Y). apply filter_In in X. destruct X as (X & B). exists h. split; [exact Y|]. split; [now apply Ir|]. intros N. apply Ir' in N. apply mem_in in N. rewrite N in B. discriminate.
    + intros (h & X & N & N'). exists h. split; [|exact X]. apply filter_In. split; [now apply Ir|]. destruct (mem h r') eqn:B; [|reflexivity]. apply mem_in in B. apply Ir' in B. contradiction.
  - intros q X. apply in_flat_map in X. destruct X as (h & _ & X). exact (member_online s pos q h H X).
Qed.

Definition setp (pos : Z -> option (Z * Z)) (p : Z) (v : option (Z * Z)) : Z -> option (Z * Z) := fun q => if p =? q then v else pos q.

Lemma join_ok s pos pid x z : winv s pos -> pos pid = None -> placed a x z ->
  o_ok (add_player a s pid x z) = true /\ winv (o_world (add_player a s pid x z)) (setp pos pid (Some (x, z))).
Proof.
  intros H Hn (gid & g & E & Eg). unfold add_player. rewrite E. unfold add_to. rewrite Eg. cbn [o_ok o_world w_players w_mem]. split; [reflexivity|]. constructor; cbn [w_players w_mem].
  - intros q. rewrite p_get_set. unfold setp. destruct (pid =? q); [reflexivity|]. apply (v_players _ _ H).
  - intros q h. unfold put, setp. destruct (Z.eqb_spec h gid) as [->|N].
    + rewrite s_add_in. destruct (Z.eqb_spec pid q) as [->|Nq].
      * split; [intros _; exists x, z; auto|auto].
      * rewrite (v_mem _ _ H). split; [intros [->|X]; [congruence|exact X]|auto].
    + rewrite (v_mem _ _ H). destruct (Z.eqb_spec pid q) as [->|Nq]; [|reflexivity]. rewrite Hn. split; intros (x0 & z0 & A & B); [discriminate|]. injection A as <- <-. congruence.
  - intros h. unfold put. destruct (h =? gid); [apply s_add_nodup|]; apply (v_nodup _ _ H).
  - intros q x0 z0. unfold setp. destruct (pid =? q); [|apply (v_placed _ _ H)]. intros [= <- <-]. exists gid, g. auto.
Qed.

Lemma leave_ok s pos pid : winv s pos -> o_ok (lost a s pid) = true /\ winv (o_world (lost a s pid)) (setp pos pid None).
Proof.
  intros H. unfold lost. rewrite (v_players _ _ H). destruct (pos pid) as [[x z]|] eqn:E; cbn [option_map fst snd].
  - destruct (v_placed _ _ H pid x z E) as (gid & g & Ep & Eg). destruct (around_ok s pos x z H (v_placed _ _ H pid x z E)) as (qs & Eq & On). rewrite Eq, (each_ok _ s qs On), Ep. unfold del_from. rewrite Eg. cbn [o_ok o_world]. split; [reflexivity|]. constructor; cbn [w_players w_mem].
    + intros q. rewrite p_get_del. unfold setp. destruct (pid =? q); [reflexivity|]. apply (v_players _ _ H).
    + intros q h. unfold put, setp. destruct (Z.eqb_spec h gid) as [->|N].
      * rewrite s_del_in. destruct (Z.eqb_spec pid q) as [->|Nq]; [split; [intros (X & _); congruence|intros (? & ? & X & _); discriminate]|]. rewrite (v_mem _ _ H). split; [intros (_ & X); exact X|intros X; split; [congruence|exact X]].
      * rewrite (v_mem _ _ H). destruct (Z.eqb_spec pid q) as [->|Nq]; [|reflexivity]. rewrite E. split; intros (x0 & z0 & A & B); [|discriminate]. injection A as <- <-. congruence.
    + intros h. unfold put. destruct (h =? gid); [apply s_del_nodup|]; apply (v_nodup _ _ H).
    + intros q x0 z0. unfold setp. destruct (pid =? q); [discriminate|]. apply (v_placed _ _ H).
  - cbn [o_ok o_world]. split; [reflexivity|]. assert (S : forall q, setp pos pid None q = pos q) by (intros q; unfold setp; destruct (Z.eqb_spec pid q) as [->|]; [now rewrite E|reflexivity]).
    constructor; [intros q; rewrite S; apply (v_players _ _ H)|intros q g; rewrite (v_mem _ _ H), S; reflexivity|apply (v_nodup _ _ H)|intros q x z; rewrite S; apply (v_placed _ _ H)].
Qed.

Lemma move_none s pos pid x z : winv s pos -> pos pid = None -> update_pos a s pid x z = Out s [] false.
Proof. intros H E. unfold update_pos. rewrite (v_players _ _ H), E. reflexivity. Qed.

Lemma filter_flat {A B} (f : B -> bool) (g : A -> list B) l b : (forall x y, In y (g x) -> f y = b) -> filter f (flat_map g l) = if b then flat_map g l else [].
Proof.
  intros H. induction l as [|x l IH]; [now destruct b|]. cbn [flat_map]. rewrite filter_app, IH.
  assert (E : filter f (g x) = if b then g x else []).
  { specialize (H x). induction (g x) as [|y ys IHy]; [now destruct b|]. cbn. rewrite (H y (or_introl eq_refl)), IHy by (intros z Z; apply H; now right). now destruct b. }
  rewrite E. now destruct b.
Qed.

Definition both (f : Z -> pl -> list msg) (s : world) (q : Z) : list msg := match p_get q (w_players s) with Some p => f q p | None => [] end.

Lemma move_ok s pos pid ox oz x z old new : winv s pos -> pos pid = Some (ox, oz) -> placed a x z -> gid_by_pos a ox oz = Some old -> gid_by_pos a x z = Some new ->
  let o := update_pos a s pid x z in
  o_ok o = true /\ winv (o_world o) (setp pos pid (Some (x, z))) /\
  if old =? new then filter disappear (o_msgs o) = [] /\ filter appear (o_msgs o) = []
  else exists qs qs', lists_players cx cy (o_world o) old new qs /\ lists_players cx cy (o_world o) new old qs' /\
    filter disappear (o_msgs o) = flat_map (both (fun q _ => [Msg q 201 0 pid None; Msg pid 201 0 q None]) (o_world o)) qs /\
    filter appear (o_msgs o) = flat_map (both (fun q p => [Msg q 200 2 pid (Some (x, z)); Msg pid 200 2 q (Some (pl_x p, pl_z p))]) (o_world o)) qs'.
Proof.
  intros H E P Eo En o. subst o. unfold update_pos. rewrite (v_players _ _ H), E. cbn [option_map fst snd]. rewrite Eo, En.
  assert (P0 := v_placed _ _ H pid ox oz E). assert (Pn := P). destruct P0 as (gid0 & go & Q0 & Go). assert (gid0 = old) by congruence. subst gid0. destruct Pn as (gid1 & gn & Q1 & Gn). assert (gid1 = new) by congruence. subst gid1.
  destruct (Z.eqb_spec old new) as [<-|Ne].
  - set (s1 := World (p_set pid (Pl x z) (w_players s)) (w_mem s)).
    assert (I1 : winv s1 (setp pos pid (Some (x, z)))).
    { constructor; unfold s1; cbn [w_players w_mem].
      - intros q. rewrite p_get_set. unfold setp. destruct (pid =? q); [reflexivity|]. apply (v_players _ _ H).
      - intros q h. rewrite (v_mem _ _ H). unfold setp. destruct (Z.eqb_spec pid q) as [->|Nq]; [|reflexivity]. rewrite E. split; intros (x0 & z0 & A & B); injection A as <- <-; eexists _, _; (split; [reflexivity|]); congruence.
      - apply (v_nodup _ _ H).
      - intros q x0 z0. unfold setp. destruct (pid =? q); [|apply (v_placed _ _ H)]. intros [= <- <-]. exact P. }
    destruct (around_ok s1 _ x z I1 P) as (qs & Eq & On). cbn zeta. rewrite Eq, (each_ok _ s1 qs On). cbn [o_ok o_world o_msgs app]. split; [reflexivity|]. split; [exact I1|].
    split; rewrite (filter_flat _ _ _ false); try reflexivity; intros q y Y; destruct (p_get q (w_players s1)); cbn in Y; try contradiction; destruct Y as [<-|[]]; reflexivity.
  - cbn zeta. unfold del_from. rewrite Go. cbn [w_players w_mem]. unfold add_to. rewrite Gn.
    set (s3 := World (p_set pid (Pl x z) (w_players s)) (put (put (w_mem s) old (s_del pid (w_mem s old))) new (s_add pid (put (w_mem s) old (s_del pid (w_mem s old)) new)))).
    assert (I3 : winv s3 (setp pos pid (Some (x, z)))).
    { constructor; unfold s3; cbn [w_players w_mem].
      - intros q. rewrite p_get_set. unfold setp. destruct (pid =? q); [reflexivity|]. apply (v_players _ _ H).
      - intros q h. unfold put. replace (new =? old) with false by lia. destruct (Z.eqb_spec h new) as [->|N1].
        + rewrite s_add_in, (v_mem _ _ H). unfold setp. destruct (Z.eqb_spec pid q) as [->|Nq].
          * split; [intros _; exists x, z; auto|auto].
          * split; [intros [->|X]; [congruence|exact X]|auto].
        + destruct (Z.eqb_spec h old) as [->|N2].
          * rewrite s_del_in, (v_mem _ _ H). unfold setp. destruct (Z.eqb_spec pid q) as [->|Nq].
            -- split; [intros (X & _); congruence|]. intros (x0 & z0 & A & B). injection A as <- <-. congruence.
            -- split; [intros (_ & X); exact X|intros X; split; [congruence|exact X]].
          * rewrite (v_mem _ _ H). unfold setp. destruct (Z.eqb_spec pid q) as [->|Nq]; [|reflexivity]. rewrite E. split; intros (x0 & z0 & A & B); injection A as <- <-; congruence.
      - intros h. unfold put. destruct (h =? new); [apply s_add_nodup; destruct (new =? old); [apply s_del_nodup|]; apply (v_nodup _ _ H)|destruct (h =? old); [apply s_del_nodup|]; apply (v_nodup _ _ H)].
      - intros q x0 z0. unfold setp. destruct (pid =? q); [|apply (v_placed _ _ H)]. intros [= <- <-]. exact P. }
    destruct (players_list s3 _ old new go gn I3 Go Gn) as (r & r' & Er & Er' & L1 & O1). destruct (players_list s3 _ new old gn go I3 Gn Go) as (r2' & r2 & E2' & E2 & L2 & O2).
    assert (r2 = r) by congruence. assert (r2' = r') by congruence. subst r2 r2'.
    unfold exchange. rewrite Er, Er'. cbn zeta. rewrite (each_ok _ s3 _ O1), (each_ok _ s3 _ O2).
    destruct (around_ok s3 _ x z I3 P) as (qs & Eq & On). rewrite Eq, (each_ok _ s3 qs On). cbn [o_ok o_world o_msgs]. split; [reflexivity|]. split; [exact I3|].
    eexists _, _. split; [exact L1|]. split; [exact L2|]. rewrite !filter_app.
    split.
    + rewrite (filter_flat disappear _ (flat_map (w_mem s3) (filter (fun g => negb (mem g r')) r)) true), (filter_flat disappear _ (flat_map (w_mem s3) (filter (fun g => negb (mem g r)) r')) false), (filter_flat disappear _ qs false), !app_nil_r; [reflexivity|..].
      all: intros q y Y; destruct (p_get q (w_players s3)); cbn in Y; try contradiction; repeat destruct Y as [<-|Y]; try reflexivity; destruct Y.
    + rewrite (filter_flat appear _ (flat_map (w_mem s3) (filter (fun g => negb (mem g r')) r)) false), (filter_flat appear _ (flat_map (w_mem s3) (filter (fun g => negb (mem g r)) r')) true), (filter_flat appear _ qs false), !app_nil_r; [reflexivity|..].
      all: intros q y Y; destruct (p_get q (w_players s3)); cbn in Y; try contradiction; repeat destruct Y as [<-|Y]; try reflexivity; destruct Y.
Qed.

Lemma winv_ext s p p' : (forall q, p q = p' q) -> winv s p -> winv s p'.
Proof. intros X [A B C D]. constructor; [intros q; rewrite <- X; apply A|intros q g; rewrite B, X; reflexivity|exact C|intros q x z; rewrite <- X; apply D]. Qed.

Lemma last_pos_snoc h o q : last_pos (h ++ [o]) q = pos_after (last_pos h q) q o.
Proof. unfold last_pos. now rewrite fold_left_app. Qed.
Lemma run_snoc h o : w_run a (h ++ [o]) = o_world (w_call a (w_run a h) o).
Proof. unfold w_run. now rewrite fold_left_app. Qed.
Lemma never_joined h q : ~ In q (joined h) -> last_pos h q = None.
Proof.
  induction h as [|o h IH] using rev_ind; intros N; [reflexivity|]. rewrite last_pos_snoc. unfold joined in N. rewrite flat_map_app, in_app_iff in N. rewrite IH by (intros X; apply N; now left).
  destruct o as [p x z|p x z|p]; cbn [pos_after].
  - destruct (Z.eqb_spec p q) as [->|Np]; [exfalso; apply N; right; now left|reflexivity].
  - destruct (p =? q); reflexivity.
  - destruct (p =? q); reflexivity.
Qed.

Lemma winv_run h : Forall (op_placed a) h -> NoDup (joined h) -> winv (w_run a h) (last_pos h).
Proof.
  induction h as [|o h IH] using rev_ind; intros F N.
  - constructor; cbn; try (intros; discriminate); [reflexivity| |constructor]. intros q g. split; [intros []|intros (x & z & E & _); discriminate].
  - apply Forall_app in F. destruct F as (F & Fo). inversion Fo as [|? ? Po _]; subst. unfold joined in N. rewrite flat_map_app in N. fold (joined h) in N.
    assert (Nh : NoDup (joined h)) by (clear - N; induction (joined h) as [|x l IHl]; [constructor|]; inversion N; subst; constructor; [intros X; apply H1; apply in_or_app; now left|now apply IHl]).
    specialize (IH F Nh). rewrite run_snoc. destruct o as [p x z|p x z|p]; cbn [w_call op_placed] in *.
    + assert (Np : ~ In p (joined h)).
      { cbn in N. intros X. clear - N X. induction (joined h) as [|y l IHl]; [destruct X|]. inversion N; subst. destruct X as [->|X]; [apply H1; apply in_or_app; right; now left|now apply IHl]. }
      apply (winv_ext _ (setp (last_pos h) p (Some (x, z)))); [|apply join_ok; auto; now apply never_joined]. intros q. rewrite last_pos_snoc. reflexivity.
    + destruct (last_pos h p) as [[ox oz]|] eqn:E.
      * destruct (v_placed _ _ IH p ox oz E) as (old & g1 & Eo & _). assert (Po' := Po). destruct Po' as (new & g2 & En & _).
        apply (winv_ext _ (setp (last_pos h) p (Some (x, z)))); [|now apply (move_ok _ _ p ox oz x z old new)]. intros q. rewrite last_pos_snoc. unfold setp. cbn [pos_after]. destruct (Z.eqb_spec p q) as [->|]; [now rewrite E|reflexivity].
      * rewrite (move_none _ _ _ _ _ IH E). cbn [o_world]. apply (winv_ext _ (last_pos h)); [|exact IH]. intros q. rewrite last_pos_snoc. cbn [pos_after]. destruct (Z.eqb_spec p q) as [->|]; [now rewrite E|reflexivity].
    + apply (winv_ext _ (setp (last_pos h) p None)); [|now apply leave_ok]. intros q. rewrite last_pos_snoc. reflexivity.
Qed.
End W.

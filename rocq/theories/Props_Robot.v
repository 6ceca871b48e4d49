(* C96: the robot client of the game demo and the server. *)
From Coq Require Import ZArith List Bool Lia ZifyBool ZifyNat.
From Verif Require Import Bytes Pack FrameDecoder Chain Decoders Reader Spec_Codec Aoi Spec_Aoi World Spec_World WorldMsg Spec_WorldMsg Robot Spec_Robot Robot_proofs Aoi_proofs Props_Codec Props_WorldMsg.
Import ListNotations.
Local Open Scope Z_scope.

(* What the robot packs, the server's receive path (the LTV decoder main sets) hands on, whole
   and in order, however the network cuts it. *)
Theorem C96_up : forall msgs chunks, Forall msg_ok msgs -> concat chunks = concat (map robot_pack msgs) ->
  exists qs r, run_reader ltv_reader chunks = (qs, Running, r) /\ map seen qs = map Some msgs.
Proof.
  intros msgs chunks F E. destruct (C02_ltv_stream_roundtrip msgs chunks F) as (qs & r & H & S & _); [|now exists qs, r].
  rewrite E. unfold wire. rewrite ?flat_map_concat_map. f_equal.
Qed.
Print Assumptions C96_up.

(* Of what the server packs (the LTV packer main sets) the robot handles every message that has
   arrived whole, in order, and waits for the rest. *)
Theorem C96_down : forall msgs arrived coming, Forall fits msgs -> arrived ++ coming = wire pack_ltv msgs ->
  exists n t, robot_read arrived = (firstn n msgs, t) /\ arrived = wire pack_ltv (firstn n msgs) ++ t /\ (n <= length msgs)%nat /\
    ((n < length msgs)%nat -> zlen arrived < zlen (wire pack_ltv (firstn (S n) msgs))).
Proof. intros msgs l rest F E. exact (loop_wire (length l) msgs l rest F E (le_n _)). Qed.
Print Assumptions C96_down.
Example C96_case : let ms := [(2, [x01; x02]); (3, [])] in
  Forall fits ms /\ concat (map robot_pack ms) = wire pack_ltv ms /\ robot_read (wire pack_ltv ms) = (ms, []) /\
  robot_read (ztake 13 (wire pack_ltv ms)) = ([(2, [x01; x02])], [x00; x00; x00]).
Proof. cbv zeta. split; [repeat constructor; vm_compute; congruence|]. vm_compute. auto. Qed.

Lemma join_to h pid x z g : Forall (op_placed demo_aoi) h -> NoDup (joined h) -> ~ In pid (joined h) -> placed demo_aoi x z -> gid_by_pos demo_aoi x z = Some g ->
  exists ms, sent_to pid (o_msgs (v_call demo_aoi (w_run demo_aoi h) (WJoin pid x z))) = [Msg pid 1 0 pid None; Msg pid 200 2 pid (Some (x, z)); Msg pid 200 2 pid (Some (x, z))] ++ ms /\
    Forall (fun m => m_id m = 202) ms.
Proof.
  intros F N J P G. destruct (C72_join 85 410 10 75 400 20 h pid x z g F N J P G) as (qs & _ & (Nq & Iq) & E). change (new_aoi 85 410 10 75 400 20) with demo_aoi in *. rewrite E. unfold sent_to. cbn [app filter m_to]. rewrite Z.eqb_refl, filter_app.
  assert (Q : In pid qs).
  { apply Iq. exists x, z, g. split; [unfold last_pos; rewrite fold_left_app; cbn; now rewrite Z.eqb_refl|]. split; [exact G|]. destruct P as (g' & gr & G' & Gr). assert (g' = g) by congruence. subst g'.
    destruct (get_grid_inv 85 410 10 75 400 20 g gr Gr) as (r & c & M & -> & _). exists r, c, r, c. repeat split; try apply M; lia. }
  assert (H : forall l, NoDup l -> In pid l -> filter (fun m => m_to m =? pid) (map (fun q => Msg q 200 2 pid (Some (x, z))) l) = [Msg pid 200 2 pid (Some (x, z))]).
  { induction l as [|q l IH]; intros Nl Il; [destruct Il|]. inversion Nl; subst. cbn [map filter m_to]. destruct (q =? pid) eqn:Eq.
    - assert (q = pid) by lia. subst q. f_equal. assert (Z : forall l', ~ In pid l' -> filter (fun m => m_to m =? pid) (map (fun q => Msg q 200 2 pid (Some (x, z))) l') = []); [|now apply Z].
      induction l' as [|k l' IH']; intros X; [reflexivity|]. cbn [map filter m_to]. replace (k =? pid) with false by (symmetry; apply Z.eqb_neq; intros ->; apply X; now left). apply IH'. intros Y. apply X. now right.
    - apply IH; [assumption|]. destruct Il as [->|Il]; [lia|exact Il]. }
  rewrite (H qs Nq Q). eexists. split; [reflexivity|]. apply Forall_forall. intros m Hm. apply filter_In in Hm as (Hm & _). apply in_map_iff in Hm as (q & <- & _). reflexivity.
Qed.

Lemma list_ignored ms : forall r, Forall (fun m => m_id m = 202) ms -> do_msgs r ms = Some r.
Proof. induction ms as [|m ms IH]; intros r F; [reflexivity|]. inversion F; subst. cbn [do_msgs]. unfold do_msg. rewrite H1. cbn. now apply IH. Qed.

(* After the messages a joining player is sent, a new robot knows its ID and its place. *)
Theorem C96_learns : forall h pid x z, Forall (op_placed demo_aoi) h -> NoDup (joined h) -> ~ In pid (joined h) -> placed demo_aoi x z ->
  exists r, do_msgs new_robot (sent_to pid (o_msgs (v_call demo_aoi (w_run demo_aoi h) (WJoin pid x z)))) = Some r /\ r_pid r = pid /\ r_x r = x /\ r_z r = z.
Proof.
  intros h pid x z F N J P. assert (P' := P). destruct P' as (g & gr & G & _). destruct (join_to h pid x z g F N J P G) as (ms & E & L). rewrite E, do_msgs_app. cbn [do_msgs do_msg m_id m_tp m_pid m_at r_pid r_x r_z r_loops new_robot Z.eqb Pos.eqb andb].
  unfold do_msg. cbn [m_id m_tp m_pid m_at r_pid r_x r_z r_loops Z.eqb Pos.eqb andb]. rewrite Z.eqb_refl. cbn [do_msgs]. unfold do_msg. cbn [m_id m_tp m_pid m_at r_pid r_x r_z r_loops Z.eqb Pos.eqb andb]. rewrite Z.eqb_refl.
  rewrite list_ignored by exact L. eexists. split; [reflexivity|]. auto.
Qed.
Print Assumptions C96_learns.

Example C96_learns_case : let h := [WJoin 1 (170 * unit) (140 * unit); WMove 1 (179 * unit) (131 * unit)] in
  Forall (op_placed demo_aoi) h /\ NoDup (joined h) /\ ~ In 2 (joined h) /\ placed demo_aoi (160 * unit) (134 * unit) /\
  length (sent_to 2 (o_msgs (v_call demo_aoi (w_run demo_aoi h) (WJoin 2 (160 * unit) (134 * unit))))) = 5%nat.
Proof.
  cbv zeta. split; [repeat constructor; eexists; eexists; split; vm_compute; reflexivity|]. split; [repeat constructor; intros []|]. split; [cbn; intros [X|[]]; discriminate|].
  split; [eexists; eexists; split; vm_compute; reflexivity|]. vm_compute. reflexivity.
Qed.

(* Refuted (F99): by then every robot has started two action loops, not one, because it is sent
   its own place twice. *)
Theorem C96_once_refuted : forall h pid x z, Forall (op_placed demo_aoi) h -> NoDup (joined h) -> ~ In pid (joined h) -> placed demo_aoi x z ->
  exists r, do_msgs new_robot (sent_to pid (o_msgs (v_call demo_aoi (w_run demo_aoi h) (WJoin pid x z)))) = Some r /\ r_loops r = 2%nat.
Proof.
  intros h pid x z F N J P. assert (P' := P). destruct P' as (g & gr & G & _). destruct (join_to h pid x z g F N J P G) as (ms & E & L). rewrite E, do_msgs_app. cbn [do_msgs do_msg m_id m_tp m_pid m_at r_pid r_x r_z r_loops new_robot Z.eqb Pos.eqb andb].
  unfold do_msg. cbn [m_id m_tp m_pid m_at r_pid r_x r_z r_loops Z.eqb Pos.eqb andb]. rewrite Z.eqb_refl. cbn [do_msgs]. unfold do_msg. cbn [m_id m_tp m_pid m_at r_pid r_x r_z r_loops Z.eqb Pos.eqb andb]. rewrite Z.eqb_refl.
  rewrite list_ignored by exact L. eexists. split; [reflexivity|]. reflexivity.
Qed.
Print Assumptions C96_once_refuted.

(* What it is sent about others changes nothing. *)
Theorem C96_others : forall r m, m_id m <> 1 -> m_pid m <> r_pid r -> do_msg r m = Some r.
Proof. intros r m A B. unfold do_msg. replace (m_id m =? 1) with false by lia. replace (m_pid m =? r_pid r) with false by lia. rewrite andb_false_r. now destruct (m_id m =? 200). Qed.
Print Assumptions C96_others.

Lemma UMove_inj a b c d : UMove a b = UMove c d -> a = c /\ b = d.
Proof. intros E. now inversion E. Qed.
(* It never walks off the rectangle of the map, nor more than nine steps at a time. *)
Theorem C96_walk : forall r c x z, fair c -> act r c = UMove x z ->
  85 * unit <= x <= 410 * unit /\ 75 * unit <= z <= 400 * unit /\
  (85 * unit <= r_x r <= 410 * unit -> Z.abs (x - r_x r) <= 9 * unit) /\ (75 * unit <= r_z r <= 400 * unit -> Z.abs (z - r_z r) <= 9 * unit).
Proof.
  intros r [|back dx dz] x z Fc E; [discriminate|]. destruct Fc as (Fx & Fz). assert (U : 0 < unit) by reflexivity. unfold act in E.
  revert U E. generalize unit. intros u U E. apply UMove_inj in E as (<- & <-). split; [apply clamp_in; lia|]. split; [apply clamp_in; lia|]. split; intros R; (eapply Z.le_trans; [apply clamp_near; exact R|]); destruct back; nia.
Qed.
Print Assumptions C96_walk.

(* From where the server puts new players, every step leads to a place with a grid. *)
Theorem C96_on_map : forall r c x z, start_at (r_x r) (r_z r) -> fair c -> act r c = UMove x z -> placed demo_aoi x z.
Proof.
  assert (C : forallb (fun i => forallb (fun j => match gid_by_pos demo_aoi ((151 + i) * unit) ((125 + j) * unit) with Some g => match g_get g (a_grids demo_aoi) with Some _ => true | None => false end | None => false end) (upto 68)) (upto 68) = true) by (vm_compute; reflexivity).
  assert (Q : forall a b, 151 <= a < 219 -> 125 <= b < 193 -> placed demo_aoi (a * unit) (b * unit)).
  { intros a b A B. rewrite forallb_forall in C. assert (U : forall k n, 0 <= k < n -> In k (upto n)). { intros k n K. unfold upto. apply in_map_iff. exists (Z.to_nat k). split; [lia|]. apply in_seq. lia. }
    specialize (C (a - 151) (U (a - 151) 68 ltac:(lia))). cbv beta in C. rewrite forallb_forall in C. specialize (C (b - 125) (U (b - 125) 68 ltac:(lia))). cbv beta in C.
    replace (151 + (a - 151)) with a in C by lia. replace (125 + (b - 125)) with b in C by lia. unfold placed. destruct (gid_by_pos demo_aoi (a * unit) (b * unit)) as [g|]; [|discriminate]. destruct (g_get g (a_grids demo_aoi)) as [gr|] eqn:Eg; [|discriminate]. exists g, gr. auto. }
  intros r [|back dx dz] x z (i & j & I & J & Ex & Ez) Fc E; [discriminate|]. cbn [act] in E. destruct Fc as (Fx & Fz). assert (U : 0 < unit) by reflexivity.
  assert (K : forall lo hi v, lo <= v <= hi -> clamp (lo * unit) (hi * unit) (v * unit) = v * unit). { intros lo hi v V. unfold clamp. revert U. generalize unit. intros u U. replace (hi * u <? v * u) with false by (symmetry; apply Z.ltb_ge; nia). replace (v * u <? lo * u) with false by (symmetry; apply Z.ltb_ge; nia). reflexivity. }
  rewrite Ex, Ez in E. destruct back.
  - replace ((160 + i) * unit - dx * unit) with ((160 + i - dx) * unit) in E by lia. replace ((134 + j) * unit - dz * unit) with ((134 + j - dz) * unit) in E by lia. rewrite !K in E by lia. apply UMove_inj in E as (<- & <-). apply Q; lia.
  - replace ((160 + i) * unit + dx * unit) with ((160 + i + dx) * unit) in E by lia. replace ((134 + j) * unit + dz * unit) with ((134 + j + dz) * unit) in E by lia. rewrite !K in E by lia. apply UMove_inj in E as (<- & <-). apply Q; lia.
Qed.
Print Assumptions C96_on_map.
Example C96_on_map_case : let r := Robot 7 (209 * unit) (134 * unit) 2 in
  start_at (r_x r) (r_z r) /\ fair (Walk false 9 4) /\ act r (Walk false 9 4) = UMove (218 * unit) (138 * unit).
Proof. cbv zeta. split; [exists 49, 0; cbn; lia|]. split; [cbn; lia|]. vm_compute. reflexivity. Qed.

(* Refuted (F100), of the correction of the place alone: its bounds are not those of the grids. From a
   place with a grid a step may lead to one without, where the server's handler panics
   (C59_off_map_refuted). Today's robot does not get there, as it takes every step from the place the
   server first gave it (C96_on_map). *)
Theorem C96_bounds_refuted : exists r c x z, placed demo_aoi (r_x r) (r_z r) /\ fair c /\ act r c = UMove x z /\ ~ placed demo_aoi x z.
Proof.
  exists (Robot 1 (200 * unit) (392 * unit) 1), (Walk false 0 9), (200 * unit), (400 * unit). split; [|split; [cbn; lia|split; [vm_compute; reflexivity|]]].
  - exists 193. eexists. split; vm_compute; reflexivity.
  - intros (g & gr & G & R). vm_compute in G. injection G as <-. vm_compute in R. discriminate.
Qed.
Print Assumptions C96_bounds_refuted.

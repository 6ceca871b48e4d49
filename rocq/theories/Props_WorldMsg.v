(* C72: what the players' clients of the game demo are told, and so show. *)
From Coq Require Import ZArith List Bool Lia ZifyBool.
From Verif Require Import Aoi Spec_Aoi Aoi_proofs World Spec_World World_proofs WorldMsg Spec_WorldMsg WorldMsg_proofs.
Import ListNotations.
Local Open Scope Z_scope.

(* C72: after any history of joins, moves and leaves, the client of an online player q
   draws exactly the online players in the grids around q's own (q included), each where
   they last were.  Missing: overlapping calls, for which it is false (C72_overlap_refuted),
   and positions without a grid (C59_off_map_refuted). *)
Theorem C72_screen_partial : forall minx maxx cx miny maxy cy h q xq zq g, let a := new_aoi minx maxx cx miny maxy cy in
  Forall (op_placed a) h -> NoDup (joined h) -> last_pos h q = Some (xq, zq) -> gid_by_pos a xq zq = Some g ->
  forall p x z, screen_of q (snd (v_run a new_world h)) p = Some (x, z) <->
    last_pos h p = Some (x, z) /\ exists k, gid_by_pos a x z = Some k /\ near cx cy g k.
Proof.
  intros minx maxx cx miny maxy cy h q xq zq g a F N E Eg p x z. destruct (screens minx maxx cx miny maxy cy h F N) as (S & _). unfold screen_of. rewrite screen_cell. fold a in S. rewrite S by congruence.
  assert (H := winv_run minx maxx cx miny maxy cy h F N). destruct (v_placed _ _ _ _ _ _ _ _ H q xq zq E) as (g' & gr & Eg' & Gr). fold a in Eg', Gr. assert (g' = g) by congruence. subst g'.
  unfold expd, grid_of. fold a. rewrite E, Eg. destruct (last_pos h p) as [[x' z']|] eqn:Ep.
  - destruct (v_placed _ _ _ _ _ _ _ _ H p x' z' Ep) as (k & kr & Ek & _). fold a in Ek. rewrite Ek. destruct (nb minx maxx cx miny maxy cy g k) eqn:B.
    + split; [intros [= <- <-]; split; [reflexivity|]; exists k; split; [exact Ek|]; now apply (nb_near minx maxx cx miny maxy cy g gr k Gr)|intros (X & _); exact X].
    + split; [discriminate|]. intros ([= <- <-] & k' & Ek' & Nk). assert (k' = k) by congruence. subst k'. apply (nb_near minx maxx cx miny maxy cy g gr k Gr) in Nk. congruence.
  - split; [discriminate|intros (X & _); discriminate].
Qed.
Print Assumptions C72_screen_partial.

Definition u (n : Z) : Z := n * unit.
(* On the 5x4 map: 1 walks away from 2 and towards 3; 4 leaves. *)
Definition walk : list wop := [WJoin 1 (u 10) (u 10); WJoin 2 (u 10) (u 60); WJoin 3 (u 160) (u 60); WJoin 4 (u 60) (u 10); WMove 1 (u 110) (u 20); WMove 3 (u 161) (u 61); WLeave 4].
Example C72_screen_case : let a := new_aoi 0 250 5 0 200 4 in
  Forall (op_placed a) walk /\ NoDup (joined walk) /\ last_pos walk 1 = Some (u 110, u 20) /\
  (let v := screen_of 1 (snd (v_run a new_world walk)) in v 1 = Some (u 110, u 20) /\ v 2 = None /\ v 3 = Some (u 161, u 61) /\ v 4 = None) /\
  (let v := screen_of 1 (snd (v_run a new_world (firstn 4 walk))) in v 1 = Some (u 10, u 10) /\ v 2 = Some (u 10, u 60) /\ v 3 = None /\ v 4 = Some (u 60, u 10)).
Proof.
  cbn zeta. split; [|split; [vm_compute; repeat constructor; cbn; intuition; discriminate|]].
  - repeat constructor; cbn [op_placed]; unfold placed; (eexists _, _; split; [vm_compute; reflexivity|vm_compute; reflexivity]).
  - split; [vm_compute; reflexivity|]. split; (split; [vm_compute; reflexivity|split; [vm_compute; reflexivity|split; vm_compute; reflexivity]]).
Qed.

(* A player who joins is sent their ID and their position; every player around the place
   (the new one included) is sent one "here" message; and the new player is sent the list
   of exactly those players and where they are.  Nothing else is sent. *)
Theorem C72_join : forall minx maxx cx miny maxy cy h pid x z g, let a := new_aoi minx maxx cx miny maxy cy in
  Forall (op_placed a) h -> NoDup (joined h) -> ~ In pid (joined h) -> placed a x z -> gid_by_pos a x z = Some g ->
  let h' := h ++ [WJoin pid x z] in let o := v_call a (w_run a h) (WJoin pid x z) in
  exists qs, o_ok o = true /\ players_around a cx cy h' g qs /\
    o_msgs o = [Msg pid 1 0 pid None; Msg pid 200 2 pid (Some (x, z))]
      ++ map (fun q => Msg q 200 2 pid (Some (x, z))) qs ++ map (fun q => Msg pid 202 0 q (last_pos h' q)) qs.
Proof.
  intros minx maxx cx miny maxy cy h pid x z g a F N Nj P Eg h' o. assert (H := winv_run minx maxx cx miny maxy cy h F N). assert (P' := P). destruct P' as (g' & gr & Eg' & Gr). assert (g' = g) by congruence. subst g'.
  destruct (enter_full minx maxx cx miny maxy cy _ _ pid x z g H (never_joined h pid Nj) P Eg) as (qs & T & Ok & M).
  assert (S : forall q, setp (last_pos h) pid (Some (x, z)) q = last_pos h' q) by (intros q; unfold h'; now rewrite last_pos_snoc).
  exists qs. split; [exact Ok|]. split; [apply (those_around minx maxx cx miny maxy cy h' g gr qs Gr), (those_ext minx maxx cx miny maxy cy _ _ _ qs S T)|].
  unfold o, v_call, a. rewrite M. f_equal. rewrite <- (one_map (fun q => Msg q 200 2 pid (Some (x, z)))), <- (one_map (fun q => Msg pid 202 0 q (last_pos h' q))). unfold one. f_equal. apply flat_map_ext. intros q. now rewrite S.
Qed.
Print Assumptions C72_join.

Example C72_join_case : let a := new_aoi 0 250 5 0 200 4 in
  map (fun m => (m_to m, m_id m, m_tp m, m_pid m, m_at m)) (o_msgs (v_call a (w_run a (firstn 3 walk)) (WJoin 4 (u 60) (u 10))))
  = [(4, 1, 0, 4, None); (4, 200, 2, 4, Some (u 60, u 10)); (4, 200, 2, 4, Some (u 60, u 10)); (1, 200, 2, 4, Some (u 60, u 10)); (2, 200, 2, 4, Some (u 60, u 10));
     (4, 202, 0, 4, Some (u 60, u 10)); (4, 202, 0, 1, Some (u 10, u 10)); (4, 202, 0, 2, Some (u 10, u 60))].
Proof. vm_compute. reflexivity. Qed.

(* A move is reported once, with the new position, to every player around it (the mover
   included) and to nobody else. *)
Definition moved (m : msg) : bool := (m_id m =? 200) && (m_tp m =? 4).
Theorem C72_move : forall minx maxx cx miny maxy cy h pid ox oz x z g, let a := new_aoi minx maxx cx miny maxy cy in
  Forall (op_placed a) h -> NoDup (joined h) -> last_pos h pid = Some (ox, oz) -> placed a x z -> gid_by_pos a x z = Some g ->
  let h' := h ++ [WMove pid x z] in let o := v_call a (w_run a h) (WMove pid x z) in
  exists qs, players_around a cx cy h' g qs /\ filter moved (o_msgs o) = map (fun q => Msg q 200 4 pid (Some (x, z))) qs.
Proof.
  intros minx maxx cx miny maxy cy h pid ox oz x z g a F N E P Eg h' o. assert (H := winv_run minx maxx cx miny maxy cy h F N). assert (P' := P). destruct P' as (g' & gr & Eg' & Gr). assert (g' = g) by congruence. subst g'.
  destruct (v_placed _ _ _ _ _ _ _ _ H pid ox oz E) as (old & go & Eo & _).
  destruct (move_full minx maxx cx miny maxy cy _ _ pid ox oz x z old g H E P Eo Eg) as (qs1 & qs2 & qs & _ & _ & T & M).
  assert (S : forall q, setp (last_pos h) pid (Some (x, z)) q = last_pos h' q) by (intros q; unfold h'; rewrite last_pos_snoc; unfold setp; cbn [pos_after]; destruct (Z.eqb_spec pid q) as [->|]; [now rewrite E|reflexivity]).
  exists qs. split; [apply (those_around minx maxx cx miny maxy cy h' g gr qs Gr), (those_ext minx maxx cx miny maxy cy _ _ _ qs S T)|].
  unfold o, v_call, w_call, a. rewrite M, !filter_app, (filter_flat moved _ qs1 false), (filter_flat moved _ qs2 false), (filter_flat moved _ qs true).
  - cbn [app]. rewrite <- one_map. reflexivity.
  - intros q y [<-|[]]; reflexivity.
  - intros q y [<-|[<-|[]]]; reflexivity.
  - intros q y [<-|[<-|[]]]; reflexivity.
Qed.
Print Assumptions C72_move.

Example C72_move_case : let a := new_aoi 0 250 5 0 200 4 in
  map (fun m => (m_to m, m_pid m, m_at m)) (filter moved (o_msgs (v_call a (w_run a (firstn 4 walk)) (WMove 1 (u 110) (u 20))))) = [(1, 1, Some (u 110, u 20)); (4, 1, Some (u 110, u 20)); (3, 1, Some (u 110, u 20))].
Proof. vm_compute. reflexivity. Qed.

(* When a player's connection is lost, every player around (the leaving one included) is
   sent one "gone" message about that player, and nothing else is sent. *)
Theorem C72_leave : forall minx maxx cx miny maxy cy h pid x z g, let a := new_aoi minx maxx cx miny maxy cy in
  Forall (op_placed a) h -> NoDup (joined h) -> last_pos h pid = Some (x, z) -> gid_by_pos a x z = Some g ->
  exists qs, players_around a cx cy h g qs /\ o_msgs (v_call a (w_run a h) (WLeave pid)) = map (fun q => Msg q 201 0 pid None) qs.
Proof.
  intros minx maxx cx miny maxy cy h pid x z g a F N E Eg. assert (H := winv_run minx maxx cx miny maxy cy h F N). destruct (v_placed _ _ _ _ _ _ _ _ H pid x z E) as (g' & gr & Eg' & Gr). fold a in Eg', Gr. assert (g' = g) by congruence. subst g'.
  destruct (lost_full minx maxx cx miny maxy cy _ _ pid x z g H E Eg) as (qs & T & M). exists qs. split; [apply (those_around minx maxx cx miny maxy cy h g gr qs Gr), T|]. cbn [v_call w_call]. unfold a. rewrite M, <- one_map. reflexivity.
Qed.
Print Assumptions C72_leave.

Example C72_leave_case : let a := new_aoi 0 250 5 0 200 4 in
  map (fun m => (m_to m, m_pid m)) (o_msgs (v_call a (w_run a (firstn 4 walk)) (WLeave 4))) = [(4, 4); (1, 4); (2, 4)].
Proof. vm_compute. reflexivity. Qed.

(* Chat reaches every online player exactly once, wherever they are. *)
Theorem C72_chat : forall minx maxx cx miny maxy cy h pid, let a := new_aoi minx maxx cx miny maxy cy in
  Forall (op_placed a) h -> NoDup (joined h) -> last_pos h pid <> None ->
  let o := talk (w_run a h) pid in
  exists qs, NoDup qs /\ (forall q, In q qs <-> last_pos h q <> None) /\
    o_ok o = true /\ o_world o = w_run a h /\ o_msgs o = map (fun q => Msg q 200 1 pid None) qs.
Proof.
  intros minx maxx cx miny maxy cy h pid a F N E o. assert (H := winv_run minx maxx cx miny maxy cy h F N). exists (map fst (w_players (w_run a h))). split; [apply run_nodup|]. split.
  - intros q. rewrite <- p_get_fst. unfold a. rewrite (v_players _ _ _ _ _ _ _ _ H). destruct (last_pos h q); split; intros X; try discriminate; now contradiction X.
  - unfold o, talk. assert (V := v_players _ _ _ _ _ _ _ _ H pid). fold a in V. rewrite V. destruct (last_pos h pid) as [[x z]|]; [|now contradiction E]. cbn [option_map o_ok o_world o_msgs]. split; [reflexivity|]. split; [reflexivity|]. now rewrite map_map.
Qed.
Print Assumptions C72_chat.

Example C72_chat_case : map (fun m => (m_to m, m_tp m, m_pid m)) (o_msgs (talk (w_run (new_aoi 0 250 5 0 200 4) walk) 2)) = [(3, 1, 2); (1, 1, 2); (2, 1, 2)].
Proof. vm_compute. reflexivity. Qed.

(* C72 is false when calls overlap: player 1's connection is lost after the joining player
   2 has looked up who is around and before the list is sent.  Both calls finish, player 1
   is gone, and player 2's client goes on showing player 1. *)
Theorem C72_overlap_refuted : exists x1 z1 x2 z2,
  let a := demo_aoi in
  let s := w_run a [WJoin 1 x1 z1] in
  let (o1, seen) := enter_first a s 2 x2 z2 in
  let o2 := lost a (o_world o1) 1 in
  let (m3, b3) := enter_last 2 seen in
  Forall (op_placed a) [WJoin 1 x1 z1; WJoin 2 x2 z2] /\ o_ok o1 = true /\ o_ok o2 = true /\ b3 = true /\
  p_get 1 (w_players (o_world o2)) = None /\ p_get 2 (w_players (o_world o2)) <> None /\
  screen_of 2 (o_msgs o1 ++ o_msgs o2 ++ m3) 1 = Some (x1, z1).
Proof.
  exists (u 160), (u 140), (u 170), (u 150). cbn zeta. destruct (enter_first _ _ _ _ _) as (o1, seen) eqn:E1. destruct (enter_last 2 seen) as (m3, b3) eqn:E3.
  vm_compute in E1. injection E1 as <- <-. vm_compute in E3. injection E3 as <- <-. split; [repeat constructor; cbn [op_placed]; unfold placed; (eexists _, _; split; [vm_compute; reflexivity|vm_compute; reflexivity])|].
  split; [reflexivity|]. split; [vm_compute; reflexivity|]. split; [reflexivity|]. split; [vm_compute; reflexivity|]. split; [vm_compute; discriminate|vm_compute; reflexivity].
Qed.
Print Assumptions C72_overlap_refuted.

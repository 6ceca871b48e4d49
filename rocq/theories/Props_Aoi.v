(* C57-C60: areas of interest of the game demo. *)
From Coq Require Import ZArith List Bool Lia ZifyBool.
From Verif Require Import Aoi Spec_Aoi Aoi_proofs World Spec_World World_proofs WorldConc Spec_WorldConc WorldConc_proofs.
Import ListNotations.
Local Open Scope Z_scope.

(* C57: the grids returned are the neighbours on the map, each once, none of them nil. *)
Theorem C57_neighbours : forall minx maxx cx miny maxy cy row col, on_map cx cy row col ->
  let got := surround (new_aoi minx maxx cx miny maxy cy) (number cx row col) in
  NoDup (map (option_map g_id) got) /\ ~ In None got /\
  forall h, In (Some h) (map (option_map g_id) got) <->
    exists r c, on_map cx cy r c /\ h = number cx r c /\ Z.abs (row - r) <= 1 /\ Z.abs (col - c) <= 1.
Proof.
  intros minx maxx cx miny maxy cy row col O got. destruct (surround_near minx maxx cx miny maxy cy _ _ (get_grid minx maxx cx miny maxy cy row col O)) as (N & I). split; [exact N|]. split.
  - intros X. assert (F := surround_some minx maxx cx miny maxy cy (number cx row col)). rewrite Forall_forall in F. exact (F None X eq_refl).
  - intros h. assert (I' := I h). unfold ids in I'. fold got in I'. rewrite I'. split.
    + intros (r & c & r' & c' & A & B & C & -> & E & F). apply (number_inj minx maxx cx miny maxy cy) in C; [|apply O|apply A]. destruct C as (-> & ->). eauto 10.
    + intros (r & c & A & -> & E & F). exists row, col, r, c. auto 10.
Qed.
Print Assumptions C57_neighbours.

(* A number that is no grid of the map has no neighbours. *)
Theorem C57_off_map : forall minx maxx cx miny maxy cy gid, (forall row col, on_map cx cy row col -> gid <> number cx row col) ->
  surround (new_aoi minx maxx cx miny maxy cy) gid = [].
Proof.
  intros minx maxx cx miny maxy cy gid H. apply surround_none. destruct (g_get gid _) as [g|] eqn:E; [|reflexivity]. apply get_grid_inv in E. destruct E as (r & c & O & E & _). exfalso. exact (H r c O E).
Qed.
Print Assumptions C57_off_map.

Theorem C57_symmetric : forall minx maxx cx miny maxy cy g h, let m := new_aoi minx maxx cx miny maxy cy in
  In (Some h) (map (option_map g_id) (surround m g)) -> In (Some g) (map (option_map g_id) (surround m h)).
Proof.
  intros minx maxx cx miny maxy cy g h m H. destruct (g_get g (a_grids m)) as [gr|] eqn:E; [|unfold m in *; rewrite (surround_none _ _ _ _ _ _ _ E) in H; destruct H].
  apply (proj2 (surround_near minx maxx cx miny maxy cy g gr E) h) in H. assert (H' := near_sym _ _ _ _ H). destruct H as (_ & _ & r' & c' & _ & O & _ & -> & _).
  apply (proj2 (surround_near minx maxx cx miny maxy cy _ _ (get_grid minx maxx cx miny maxy cy r' c' O)) g). exact H'.
Qed.
Print Assumptions C57_symmetric.

(* A corner, an edge and the middle of a 5x4 map. *)
Example C57_case : let m := new_aoi 0 250 5 0 200 4 in
  map (option_map g_id) (surround m 0) = [Some 0; Some 5; Some 1; Some 6] /\
  map (option_map g_id) (surround m 9) = [Some 9; Some 3; Some 8; Some 13; Some 4; Some 14] /\
  length (surround m 12) = 9%nat /\ surround m 20 = [] /\ on_map 5 4 2 2.
Proof. vm_compute. repeat split; congruence. Qed.

(* C58, for the part of the map that its grids cover and coordinates that truncation rounds
   down: the position's grid exists, its rectangle contains the position, and no other
   grid's does.  Missing: the rest of the map, where it is false (C58_default_refuted,
   C58_negative_refuted). *)
Theorem C58_covered_partial : forall minx maxx cx miny maxy cy x y, let m := new_aoi minx maxx cx miny maxy cy in
  let w := Z.quot (maxx - minx) cx in let l := Z.quot (maxy - miny) cy in
  0 < cx -> 0 < cy -> 0 < w -> 0 < l -> rounds_down x -> rounds_down y ->
  minx * unit <= x < (minx + cx * w) * unit -> miny * unit <= y < (miny + cy * l) * unit ->
  exists gid g, gid_by_pos m x y = Some gid /\ g_get gid (a_grids m) = Some g /\ g_id g = gid /\ contains g x y /\
    forall gid' g', g_get gid' (a_grids m) = Some g' -> contains g' x y -> gid' = gid.
Proof. exact pos_grid. Qed.
Print Assumptions C58_covered_partial.

(* That is the whole map when the numbers of grids divide its sides and it has no negative
   coordinates. *)
Theorem C58_divides_partial : forall minx maxx cx miny maxy cy x y, let m := new_aoi minx maxx cx miny maxy cy in
  0 < cx -> 0 < cy -> (cx | maxx - minx) -> (cy | maxy - miny) -> 0 <= minx -> 0 <= miny -> in_bounds m x y ->
  exists gid g, gid_by_pos m x y = Some gid /\ g_get gid (a_grids m) = Some g /\ g_id g = gid /\ contains g x y /\
    forall gid' g', g_get gid' (a_grids m) = Some g' -> contains g' x y -> gid' = gid.
Proof.
  intros minx maxx cx miny maxy cy x y m Pc Pr (w & Ew) (l & El) Px Py (Bx & By). cbn [m a_minx a_maxx a_miny a_maxy new_aoi] in Bx, By. assert (U : 0 < unit) by reflexivity.
  assert (Qw : Z.quot (maxx - minx) cx = w) by (rewrite Ew; apply Z.quot_mul; lia). assert (Ql : Z.quot (maxy - miny) cy = l) by (rewrite El; apply Z.quot_mul; lia).
  assert (minx < maxx) by nia. assert (miny < maxy) by nia.
  apply pos_grid; rewrite ?Qw, ?Ql; try assumption; try nia; try (left; nia).
Qed.
Print Assumptions C58_divides_partial.

Example C58_case : let m := new_aoi 0 250 5 0 200 4 in let x := 249 * unit + unit / 2 in let y := 50 * unit in
  in_bounds m x y /\ (5 | 250 - 0) /\ (4 | 200 - 0) /\ gid_by_pos m x y = Some 9.
Proof. split; [vm_compute; repeat split; congruence|]. split; [exists 50; reflexivity|]. split; [exists 50; reflexivity|vm_compute; reflexivity]. Qed.

(* On the demo's own map: (407, 80) is within its bounds and is given a grid that does not
   contain it, and (100, 396) a grid number that does not exist. *)
Theorem C58_default_refuted :
  (exists x y gid g, in_bounds demo_aoi x y /\ gid_by_pos demo_aoi x y = Some gid /\ g_get gid (a_grids demo_aoi) = Some g /\ ~ contains g x y) /\
  (exists x y gid, in_bounds demo_aoi x y /\ gid_by_pos demo_aoi x y = Some gid /\ g_get gid (a_grids demo_aoi) = None).
Proof.
  split.
  - exists (407 * unit), (80 * unit), 10. eexists. split; [vm_compute; repeat split; congruence|]. split; [vm_compute; reflexivity|]. split; [vm_compute; reflexivity|]. intros ((_ & X) & _). vm_compute in X. discriminate.
  - exists (100 * unit), (396 * unit), 200. split; [vm_compute; repeat split; congruence|]. split; vm_compute; reflexivity.
Qed.
Print Assumptions C58_default_refuted.

(* Truncation rounds negative coordinates up: on a map from -10 to 10 the point (-0.5, 0)
   is given the grid from 0 to 5. *)
Theorem C58_negative_refuted : exists minx maxx cx miny maxy cy x y gid g, let m := new_aoi minx maxx cx miny maxy cy in
  0 < cx /\ 0 < cy /\ (cx | maxx - minx) /\ (cy | maxy - miny) /\ in_bounds m x y /\
  gid_by_pos m x y = Some gid /\ g_get gid (a_grids m) = Some g /\ ~ contains g x y.
Proof.
  exists (-10), 10, 4, (-10), 10, 4, (- (unit / 2)), 0, 10. eexists. split; [lia|]. split; [lia|]. split; [exists 5; reflexivity|]. split; [exists 5; reflexivity|]. split; [vm_compute; repeat split; congruence|].
  split; [vm_compute; reflexivity|]. split; [vm_compute; reflexivity|]. intros ((X & _) & _). vm_compute in X. congruence.
Qed.
Print Assumptions C58_negative_refuted.

(* C59, for histories whose positions all have a grid: each player is a member of the grid
   of their last position and of no other; no offline player is a member of any; Players
   holds exactly the online players.  Missing: positions without a grid and overlapping
   calls, for which it is false (the refutations below). *)
Theorem C59_membership_partial : forall minx maxx cx miny maxy cy h, let a := new_aoi minx maxx cx miny maxy cy in
  Forall (op_placed a) h -> NoDup (joined h) ->
  (forall pid gid, In pid (w_mem (w_run a h) gid) <-> exists x z, last_pos h pid = Some (x, z) /\ gid_by_pos a x z = Some gid) /\
  (forall pid, p_get pid (w_players (w_run a h)) = option_map (fun xz => Pl (fst xz) (snd xz)) (last_pos h pid)) /\
  (forall pid x z, last_pos h pid = Some (x, z) -> exists gid g, gid_by_pos a x z = Some gid /\ g_get gid (a_grids a) = Some g).
Proof.
  intros minx maxx cx miny maxy cy h a F N. assert (H := winv_run minx maxx cx miny maxy cy h F N). split; [exact (v_mem _ _ _ _ _ _ _ _ H)|]. split; [exact (v_players _ _ _ _ _ _ _ _ H)|exact (v_placed _ _ _ _ _ _ _ _ H)].
Qed.
Print Assumptions C59_membership_partial.

Definition u (n : Z) : Z := n * unit.
Example C59_case : let h := [WJoin 1 (u 160) (u 140); WJoin 2 (u 200) (u 180); WMove 1 (u 300) (u 300); WMove 2 (u 201) (u 180); WLeave 2] in
  Forall (op_placed demo_aoi) h /\ NoDup (joined h) /\ w_mem (w_run demo_aoi h) 146 = [1] /\ w_mem (w_run demo_aoi h) 42 = [] /\ w_mem (w_run demo_aoi h) 63 = [].
Proof.
  cbn zeta. split; [|split; [|vm_compute; repeat split]].
  - repeat constructor; cbn [op_placed]; unfold placed; (eexists _, _; split; [vm_compute; reflexivity|vm_compute; reflexivity]).
  - vm_compute. repeat constructor; cbn; intuition; discriminate.
Qed.

(* With calls interleaved in any way, as long as no two goroutines make calls for the same
   player: a player with no call in progress is, if still in Players, a member of exactly
   the grid of the position last written, and otherwise of none. *)
Theorem C59_interleaved_partial : forall a progs ts pid, own_calls progs ->
  (forall p o, In p progs -> In o p -> op_placed a o) -> NoDup (concat (map joined progs)) ->
  let s := c_run a (c_new progs) ts in resting s pid ->
  (In pid (c_players s) -> forall gid, In pid (c_mem s gid) <-> gid_by_pos a (pl_x (c_obj s pid)) (pl_z (c_obj s pid)) = Some gid) /\
  (~ In pid (c_players s) -> forall gid, ~ In pid (c_mem s gid)).
Proof.
  intros a progs ts pid O P F s R. destruct (z_rest _ _ _ (cinv_run a progs O P F ts) pid R) as (A & B). split.
  - intros X gid. exact (A X gid).
  - intros X gid Y. apply (B X gid) in Y. discriminate.
Qed.
Print Assumptions C59_interleaved_partial.

Example C59_interleaved_case : let progs := [[WJoin 1 (u 160) (u 140); WMove 1 (u 300) (u 300)]; [WJoin 2 (u 160) (u 140); WMove 2 (u 301) (u 300); WLeave 2]] in
  let s := c_run demo_aoi (c_new progs) [0; 1; 1; 0; 0; 1; 0; 1; 0; 1; 1; 0; 1; 1; 1; 1; 1; 1; 1]%nat in
  own_calls progs /\ NoDup (concat (map joined progs)) /\ resting s 1 /\ c_players s = [1] /\ c_mem s 146 = [1].
Proof.
  cbn zeta. split; [|split; [vm_compute; repeat constructor; cbn; intuition; discriminate|split; [|vm_compute; auto]]].
  - intros [|[|i]] [|[|j]] p q o o' Ep Eq Io Iq; try reflexivity; cbn [nth_error] in Ep, Eq; try discriminate; try (destruct i; discriminate); try (destruct j; discriminate); injection Ep as <-; injection Eq as <-; cbn [In] in Io, Iq; intuition; subst; cbn in *; discriminate.
  - intros [|[|t]] o r pc E Pd; vm_compute in E; try discriminate. destruct t; discriminate.
Qed.

(* C59 is false for positions the map gives no grid, even inside its bounds: the player
   stays online in no grid, and after the connection is lost stays online for ever. *)
Theorem C59_off_map_refuted : exists x z, in_bounds demo_aoi x z /\
  let h := [WJoin 1 (u 160) (u 140); WMove 1 x z] in
  last_pos h 1 = Some (x, z) /\ (forall gid, ~ In 1 (w_mem (w_run demo_aoi h) gid)) /\
  last_pos (h ++ [WLeave 1]) 1 = None /\ p_get 1 (w_players (w_run demo_aoi (h ++ [WLeave 1]))) <> None.
Proof.
  exists (u 100), (u 396). split; [vm_compute; repeat split; congruence|]. cbn zeta. split; [reflexivity|]. split; [|split; [reflexivity|vm_compute; discriminate]].
  assert (E : exists ps, w_run demo_aoi [WJoin 1 (u 160) (u 140); WMove 1 (u 100) (u 396)] = World ps (fun g => if g =? 42 then [] else if g =? 42 then [1] else [])) by (eexists; vm_compute; reflexivity).
  destruct E as (ps & ->). intros gid. cbn [w_mem]. destruct (gid =? 42); intros [].
Qed.
Print Assumptions C59_off_map_refuted.

(* C59 is false when a move and the loss of the connection overlap: all calls are over, the
   player is gone and is still a member of a grid. *)
Theorem C59_move_leave_refuted : exists progs ts,
  let s := c_run demo_aoi (c_new progs) ts in
  (forall p o, In p progs -> In o p -> op_placed demo_aoi o) /\ map c_prog (c_thr s) = [[]; []] /\ ~ In 1 (c_players s) /\ In 1 (c_mem s 146).
Proof.
  exists [[WJoin 1 (u 160) (u 140); WMove 1 (u 300) (u 300)]; [WLeave 1]], [0; 0; 0; 0; 1; 1; 1; 1; 1; 0; 0]%nat. split; [|vm_compute; repeat split; auto; tauto].
  intros p o [<-|[<-|[]]] X; cbn [In] in X; intuition; subst; cbn [op_placed]; try exact I; unfold placed; (eexists _, _; split; [vm_compute; reflexivity|vm_compute; reflexivity]).
Qed.
Print Assumptions C59_move_leave_refuted.

(* And when two neighbours lose their connections at the same time: all calls are over and
   player 1 is still online and in a grid. *)
Theorem C59_two_leave_refuted : exists progs ts,
  let s := c_run demo_aoi (c_new progs) ts in
  own_calls progs /\ (forall p o, In p progs -> In o p -> op_placed demo_aoi o) /\ In (WLeave 1) (concat progs) /\ map c_prog (c_thr s) = [[]; []] /\ In 1 (c_players s) /\ In 1 (c_mem s 42).
Proof.
  exists [[WJoin 1 (u 160) (u 140); WLeave 1]; [WJoin 2 (u 160) (u 140); WLeave 2]], [0; 0; 1; 1; 0; 0; 1; 1; 1; 1; 1; 1; 1; 0; 0]%nat. cbn zeta. split; [|split; [|split; [cbn; auto|vm_compute; auto]]].
  - intros [|[|i]] [|[|j]] p q o o' Ep Eq Io Iq; try reflexivity; cbn [nth_error] in Ep, Eq; try discriminate; try (destruct i; discriminate); try (destruct j; discriminate); injection Ep as <-; injection Eq as <-; cbn [In] in Io, Iq; intuition; subst; cbn in *; discriminate.
  - intros p o [<-|[<-|[]]] X; cbn [In] in X; intuition; subst; cbn [op_placed]; try exact I; unfold placed; (eexists _, _; split; [vm_compute; reflexivity|vm_compute; reflexivity]).
Qed.
Print Assumptions C59_two_leave_refuted.

(* C60: a player who moves to another grid.  qs are the players now in the grids left
   behind, qs' those in the grids newly around; each of qs and the player lose sight of each
   other, each of qs' and the player come into sight of each other, and no other
   disappear or appear message is sent. *)
Theorem C60_messages : forall minx maxx cx miny maxy cy h pid ox oz x z old new, let a := new_aoi minx maxx cx miny maxy cy in
  Forall (op_placed a) h -> NoDup (joined h) -> last_pos h pid = Some (ox, oz) -> placed a x z ->
  gid_by_pos a ox oz = Some old -> gid_by_pos a x z = Some new -> old <> new ->
  let o := w_call a (w_run a h) (WMove pid x z) in
  exists qs qs', o_ok o = true /\
    lists_players cx cy (o_world o) old new qs /\ lists_players cx cy (o_world o) new old qs' /\
    filter disappear (o_msgs o) = flat_map (fun q => [Msg q 201 0 pid None; Msg pid 201 0 q None]) qs /\
    filter appear (o_msgs o) = flat_map (fun q => [Msg q 200 2 pid (Some (x, z)); Msg pid 200 2 q (last_pos (h ++ [WMove pid x z]) q)]) qs'.
Proof.
  intros minx maxx cx miny maxy cy h pid ox oz x z old new a F N E P Eo En Ne o. assert (H := winv_run minx maxx cx miny maxy cy h F N).
  destruct (move_ok minx maxx cx miny maxy cy _ _ pid ox oz x z old new H E P Eo En) as (Ok & I & M). replace (old =? new) with false in M by lia. destruct M as (qs & qs' & L & L' & D & A). exists qs, qs'.
  assert (On : forall g g' l, lists_players cx cy (o_world o) g g' l -> forall q, In q l -> exists v, p_get q (w_players (o_world o)) = Some v /\ last_pos (h ++ [WMove pid x z]) q = Some (pl_x v, pl_z v)).
  { intros g g' l (_ & Hl) q Hq. apply Hl in Hq. destruct Hq as (k & Hk & _). assert (V := v_players _ _ _ _ _ _ _ _ I q). apply (v_mem _ _ _ _ _ _ _ _ I) in Hk. destruct Hk as (x0 & z0 & Ep & _). rewrite Ep in V. cbn in V. exists (Pl x0 z0). split; [exact V|].
    rewrite last_pos_snoc. unfold setp in Ep. cbn [pos_after pl_x pl_z]. destruct (Z.eqb_spec pid q) as [<-|]; [rewrite E; exact Ep|exact Ep]. }
  split; [exact Ok|]. split; [exact L|]. split; [exact L'|]. unfold o, w_call, a. rewrite D, A. split.
  - assert (On' := On _ _ _ L). clear - On'. unfold o, w_call, a in On'. induction qs as [|q qs IH]; [reflexivity|]. cbn [flat_map]. rewrite IH by (intros; apply On'; now right). destruct (On' q (or_introl eq_refl)) as (v & V & _). unfold both. now rewrite V.
  - assert (On' := On _ _ _ L'). clear - On'. unfold o, w_call, a in On'. induction qs' as [|q qs' IH]; [reflexivity|]. cbn [flat_map]. rewrite IH by (intros; apply On'; now right). destruct (On' q (or_introl eq_refl)) as (v & V & V'). unfold both. now rewrite V, V'.
Qed.
Print Assumptions C60_messages.

(* Within one grid no such message is sent. *)
Theorem C60_same_grid : forall minx maxx cx miny maxy cy h pid ox oz x z g, let a := new_aoi minx maxx cx miny maxy cy in
  Forall (op_placed a) h -> NoDup (joined h) -> last_pos h pid = Some (ox, oz) -> placed a x z ->
  gid_by_pos a ox oz = Some g -> gid_by_pos a x z = Some g ->
  let o := w_call a (w_run a h) (WMove pid x z) in filter disappear (o_msgs o) = [] /\ filter appear (o_msgs o) = [].
Proof.
  intros minx maxx cx miny maxy cy h pid ox oz x z g a F N E P Eo En o. assert (H := winv_run minx maxx cx miny maxy cy h F N).
  destruct (move_ok minx maxx cx miny maxy cy _ _ pid ox oz x z g g H E P Eo En) as (_ & _ & M). rewrite Z.eqb_refl in M. exact M.
Qed.
Print Assumptions C60_same_grid.

(* Player 1 moves from grid 0 to grid 2 of a 5x4 map: player 2 in grid 5 loses sight, player
   3 in grid 8 comes into sight, player 4 in grid 1 sees only the move.  Player 1's own grid
   is among those newly around, so player 1 is told about themselves, twice. *)
Example C60_case : let a := new_aoi 0 250 5 0 200 4 in
  let h := [WJoin 1 (u 10) (u 10); WJoin 2 (u 10) (u 60); WJoin 3 (u 160) (u 60); WJoin 4 (u 60) (u 10)] in
  let o := w_call a (w_run a h) (WMove 1 (u 110) (u 20)) in
  Forall (op_placed a) h /\ NoDup (joined h) /\ last_pos h 1 = Some (u 10, u 10) /\ gid_by_pos a (u 10) (u 10) = Some 0 /\ gid_by_pos a (u 110) (u 20) = Some 2 /\
  map (fun m => (m_to m, m_id m, m_tp m, m_pid m)) (o_msgs o) = [(2, 201, 0, 1); (1, 201, 0, 2); (1, 200, 2, 1); (1, 200, 2, 1); (3, 200, 2, 1); (1, 200, 2, 3); (1, 200, 4, 1); (4, 200, 4, 1); (3, 200, 4, 1)].
Proof.
  cbn zeta. split; [|split; [vm_compute; repeat constructor; cbn; intuition; discriminate|vm_compute; repeat split]].
  repeat constructor; cbn [op_placed]; unfold placed; (eexists _, _; split; [vm_compute; reflexivity|vm_compute; reflexivity]).
Qed.

From Coq Require Import ZArith List Bool Lia ZifyBool.
From Verif Require Import Bytes Pack Reader Aoi World Robot Spec_Robot.
Import ListNotations.
Local Open Scope Z_scope.

Lemma robot_pack_ltv p : robot_pack p = pack_ltv (new_msg_package (fst p) (snd p)).
Proof. reflexivity. Qed.

Lemma frame_len id data : zlen (pack_ltv (new_msg_package id data)) = 8 + zlen data.
Proof. unfold pack_ltv. cbn [m_len m_id m_data new_msg_package]. rewrite !zlen_app, !zlen_put_uint. lia. Qed.

Lemma unpack_frame id data l rest : fits (id, data) -> 8 <= zlen l -> (exists more, l ++ rest = pack_ltv (new_msg_package id data) ++ more) ->
  robot_unpack (ztake 8 l) = Some (zlen data, id).
Proof.
  intros (Hi & Hd) L (more & E). cbn [fst snd] in *. assert (T : ztake 8 l = put_uint LittleEndian 4 (u32 (zlen data)) ++ put_uint LittleEndian 4 id).
  { rewrite <- (ztake_app_le 8 l rest L), E. unfold pack_ltv. cbn [m_len m_id m_data new_msg_package]. rewrite app_assoc, <- app_assoc. apply ztake_app. rewrite zlen_app, !zlen_put_uint. reflexivity. }
  rewrite T. pose proof (zlen_put_uint LittleEndian 4 (u32 (zlen data))) as L1. pose proof (zlen_put_uint LittleEndian 4 id) as L2.
  unfold robot_unpack, read_u32. rewrite zlen_app, L1, L2. cbn [Z.of_nat Pos.of_succ_nat Pos.succ]. replace (4 + 4 <? 4) with false by reflexivity.
  rewrite (ztake_app 4), (zdrop_app 4) by (symmetry; exact L1). rewrite L2. replace (_ <? 4) with false by reflexivity.
  rewrite !get_put_uint.
  - unfold u32. rewrite Z.mod_small; [|unfold zlen in *; lia]. rewrite <- (app_nil_r (put_uint LittleEndian 4 id)), (ztake_app 4) by (symmetry; exact L2). rewrite get_put_uint; [reflexivity|]. change (256 ^ Z.of_nat 4) with (2 ^ 32). exact Hi.
  - change (256 ^ Z.of_nat 4) with (2 ^ 32). unfold u32. apply Z.mod_pos_bound. lia.
Qed.

Lemma wire_one id data ms : zlen (wire pack_ltv (firstn 1 ((id, data) :: ms))) = 8 + zlen data.
Proof. rewrite <- (frame_len id data). unfold wire. cbn [firstn map concat flat_map fst snd]. now rewrite app_nil_r. Qed.
Lemma wire_cons id data ms : wire pack_ltv ((id, data) :: ms) = pack_ltv (new_msg_package id data) ++ wire pack_ltv ms.
Proof. reflexivity. Qed.

Lemma loop_wire fuel : forall msgs l rest, Forall fits msgs -> l ++ rest = wire pack_ltv msgs -> (length l <= fuel)%nat ->
  exists n t, robot_loop fuel l = (firstn n msgs, t) /\ l = wire pack_ltv (firstn n msgs) ++ t /\ (n <= length msgs)%nat /\
    ((n < length msgs)%nat -> zlen l < zlen (wire pack_ltv (firstn (S n) msgs))).
Proof.
  induction fuel as [|fuel IH]; intros msgs l rest F E L.
  { destruct l; [|cbn in L; lia]. exists O, []. split; [reflexivity|]. split; [reflexivity|]. split; [lia|]. intros H. destruct msgs as [|[i d] ms]; [cbn in H; lia|]. rewrite wire_one. pose proof (zlen_nonneg d). unfold zlen at 1. cbn [length]. lia. }
  destruct msgs as [|[id data] ms].
  { cbn in E. apply app_eq_nil in E as (-> & _). exists O, []. cbn. repeat split; lia. }
  inversion F as [|? ? F1 F2]; subst. rewrite wire_cons in E. pose proof (frame_len id data) as FL. destruct F1 as (Fi & Fd). cbn [fst snd] in *.
  cbn [robot_loop]. destruct (zlen l <? 8) eqn:E8.
  { exists O, l. split; [reflexivity|]. split; [reflexivity|]. split; [lia|]. intros _. rewrite wire_one. pose proof (zlen_nonneg data). lia. }
  rewrite (unpack_frame id data l rest); [|now split|lia|now exists (wire pack_ltv ms)].
  assert (Ld : zlen (zdrop 8 l) = zlen l - 8) by (rewrite zlen_zdrop; lia).
  destruct (zlen (zdrop 8 l) <? zlen data) eqn:E9.
  { exists O, l. split; [reflexivity|]. split; [reflexivity|]. split; [lia|]. intros _. rewrite wire_one. lia. }
  (* the whole frame is there *)
  assert (S1 : exists l', l = pack_ltv (new_msg_package id data) ++ l').
  { exists (zdrop (8 + zlen data) l). rewrite <- (ztake_zdrop (8 + zlen data) l) at 1. f_equal. rewrite <- (ztake_app_le (8 + zlen data) l rest) by lia. rewrite E. apply ztake_app. lia. }
  destruct S1 as (l' & ->). rewrite <- app_assoc in E. apply app_inv_head in E.
  assert (Z1 : zdrop 8 (pack_ltv (new_msg_package id data) ++ l') = data ++ l').
  { unfold pack_ltv. cbn [m_len m_id m_data new_msg_package]. rewrite app_assoc, <- app_assoc. apply zdrop_app. rewrite zlen_app, !zlen_put_uint. reflexivity. }
  rewrite Z1, (zdrop_app (zlen data)), (ztake_app (zlen data)) by reflexivity.
  destruct (IH ms l' rest F2 E) as (n & t & R & W & N & M). { rewrite app_length in L. assert (8 <= length (pack_ltv (new_msg_package id data)))%nat by (pose proof (zlen_nonneg data); unfold zlen in *; lia). lia. }
  rewrite R. exists (S n), t. split; [reflexivity|]. change (firstn (S n) ((id, data) :: ms)) with ((id, data) :: firstn n ms). split; [|split; [cbn [length]; lia|]].
  - rewrite wire_cons, <- app_assoc. f_equal. exact W.
  - intros H. cbn [length] in H. specialize (M ltac:(lia)). change (firstn (S (S n)) ((id, data) :: ms)) with ((id, data) :: firstn (S n) ms). rewrite wire_cons, !zlen_app. lia.
Qed.

Lemma clamp_in lo hi x : lo <= hi -> lo <= clamp lo hi x <= hi.
Proof. unfold clamp. intros H. destruct (hi <? x) eqn:A, (x <? lo) eqn:B; lia. Qed.
Lemma clamp_near lo hi x y : lo <= x <= hi -> Z.abs (clamp lo hi y - x) <= Z.abs (y - x).
Proof. unfold clamp. intros H. destruct (hi <? y) eqn:A, (y <? lo) eqn:B; lia. Qed.

Lemma do_msgs_app r ms ms' : do_msgs r (ms ++ ms') = match do_msgs r ms with None => None | Some r1 => do_msgs r1 ms' end.
Proof. revert r. induction ms as [|m ms IH]; intros r; [reflexivity|]. cbn. destruct (do_msg r m); [apply IH|reflexivity]. Qed.

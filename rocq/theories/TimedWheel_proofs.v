From Coq Require Import ZArith List Bool Lia Permutation ZifyBool.
From Verif Require Import Bytes TimeWheel Spec_TimeWheel TimeWheel_proofs TimeWheel2_proofs TimedWheel.
Import ListNotations.
Local Open Scope Z_scope.
Local Opaque Z.mul Z.add Z.sub Z.modulo.

Definition due_ns (e : entry) : Z := e_due e * 1000000 + 999999.
Lemma milli_bound now e n : 0 <= now -> n <= e_due e - unix_milli now -> now + n * 1000000 <= due_ns e.
Proof.
  intros H. unfold unix_milli, due_ns. rewrite Z.quot_div_nonneg by lia. assert (X := Z.div_mod now 1000000 ltac:(lia)). assert (Y := Z.mod_pos_bound now 1000000 ltac:(lia)).
  set (q := now / 1000000) in *. lia.
Qed.

Section Inv.
Variables late smax : Z.
Hypothesis late_ok : 0 <= late.

Definition isnil {A} (l : list A) : bool := match l with [] => true | _ => false end.
Definition iv (w : wheel) : Z := w_interval w * 1000000.
Definition dist (w : wheel) (slot : Z) : Z := (slot - w_cur w) mod w_scales w.
Definition far (w : wheel) (d j : Z) (e : entry) : Prop := d + (j - 1) * (iv w + late) <= due_ns e + w_scales w * late.
Definition slot_ok (leaf : bool) (now d : Z) (w : wheel) (j : Z) (e : entry) : Prop :=
  match w_phase w with
  | Idle => (leaf = true /\ j = 0) \/ far w d (Z.max j 1) e
  | Curs _ => (j = 0 -> now + w_scales w * iv w <= due_ns e) /\ (1 <= j -> (leaf = true /\ j = 1) \/ far w d j e)
  | Nexts _ => (j = 0 -> now + w_scales w * iv w <= due_ns e) /\ (j = 1 -> leaf = true \/ now + iv w <= due_ns e) /\ (2 <= j -> far w d j e)
  end.
Definition shape_ok (now d : Z) (w : wheel) : Prop :=
  1 <= w_interval w /\ 2 <= w_scales w /\ 0 <= w_cur w < w_scales w /\ (now <= d <= now + iv w + late) /\ w_scales w <= smax.
Definition wheel_ok (leaf : bool) (now d : Z) (w : wheel) : Prop :=
  shape_ok now d w /\
  (forall x, In x (w_queue w) -> 0 <= fst x < w_scales w /\ slot_ok leaf now d w (dist w (fst x)) (snd x)) /\
  (forall e, In e (pending w) -> leaf = true \/ now <= due_ns e + w_scales w * late).

Fixpoint all_ok (now : Z) (ws : list wheel) (ds : list Z) : Prop :=
  match ws, ds with
  | [], [] => True
  | w :: lower, d :: dl => wheel_ok (isnil lower) now d w /\ all_ok now lower dl
  | _, _ => False
  end.

Lemma dist_range w slot : 2 <= w_scales w -> 0 <= dist w slot < w_scales w.
Proof. intros. apply Z.mod_pos_bound. lia. Qed.
Lemma dist_put w dn : 2 <= w_scales w -> dist w ((w_cur w + dn) mod w_scales w) = dn mod w_scales w.
Proof. intros. unfold dist. rewrite Zminus_mod_idemp_l. f_equal. lia. Qed.
Lemma dist_0 w slot : 2 <= w_scales w -> 0 <= w_cur w < w_scales w -> 0 <= slot < w_scales w -> dist w slot = 0 -> slot = w_cur w.
Proof.
  intros A B C. unfold dist. destruct (Z_lt_dec slot (w_cur w)) as [L|L].
  - rewrite <- (Z.mod_add _ 1) by lia. rewrite Z.mod_small by lia. lia.
  - rewrite Z.mod_small by lia. lia.
Qed.
Lemma dist_1 w slot : 2 <= w_scales w -> 0 <= w_cur w < w_scales w -> 0 <= slot < w_scales w -> dist w slot = 1 -> slot = next_slot w.
Proof.
  intros A B C. unfold dist, next_slot. intros E.
  assert (X : (w_cur w + (slot - w_cur w) mod w_scales w) mod w_scales w = slot) by (rewrite Zplus_mod_idemp_r; replace (w_cur w + (slot - w_cur w)) with slot by lia; apply Z.mod_small; lia).
  rewrite E in X. auto.
Qed.

(* Putting a timer at distance dn, at least an interval before it is due. *)
Lemma far_put now d w e dn : shape_ok now d w -> 1 <= dn -> now + dn * iv w <= due_ns e -> forall j, 1 <= j <= dn -> j <= w_scales w -> far w d j e.
Proof.
  intros (A & B & C & D) Hd He j Hj Hs. unfold far. assert (Hi : 0 <= iv w) by (unfold iv; lia).
  assert (M : j * iv w <= dn * iv w) by nia. assert (N : j * late <= w_scales w * late) by nia. nia.
Qed.

Lemma quot_le a b : 1 <= b -> b <= a -> 1 <= Z.quot a b /\ Z.quot a b * b <= a.
Proof. intros H L. rewrite Z.quot_div_nonneg by lia. assert (X := Z.div_mod a b ltac:(lia)). assert (Y := Z.mod_pos_bound a b ltac:(lia)). split; [apply Z.div_le_lower_bound; lia|lia]. Qed.

Lemma put_ok leaf now d w slot e : wheel_ok leaf now d w -> 0 <= slot < w_scales w -> slot_ok leaf now d w (dist w slot) e -> wheel_ok leaf now d (put w slot e).
Proof.
  intros (A & B & C) S O. split; [exact A|]. split; [|exact C]. intros x Hx. cbn in Hx. apply in_app_or in Hx. destruct Hx as [Hx|[<-|[]]]; [|auto].
  apply filter_In in Hx. now apply B.
Qed.

(* The slot for a timer at least one interval away, in all phases. *)
Lemma hash_ok leaf now d w e : 0 <= now -> shape_ok now d w -> w_interval w <= e_due e - unix_milli now ->
  slot_ok leaf now d w (dist w ((w_cur w + Z.quot (e_due e - unix_milli now) (w_interval w)) mod w_scales w)) e.
Proof.
  intros Hn S L. assert (S' := S). destruct S' as (A & B & C & D). destruct (quot_le _ _ A L) as (Q1 & Q2). set (dn := Z.quot _ _) in *.
  assert (F : now + dn * iv w <= due_ns e) by (unfold iv; rewrite Z.mul_assoc; apply milli_bound; assumption).
  rewrite dist_put by exact B. assert (R := Z.mod_pos_bound dn (w_scales w) ltac:(lia)).
  assert (J : dn mod w_scales w <= dn) by (apply Z.mod_le; lia).
  assert (Hi : 0 <= iv w) by (unfold iv; lia).
  assert (Z0 : dn mod w_scales w = 0 -> w_scales w <= dn).
  { intros E. destruct (Z_lt_dec dn (w_scales w)); [rewrite Z.mod_small in E by lia; lia|lia]. }
  unfold slot_ok. destruct (w_phase w).
  - right. apply (far_put now d w e dn S Q1 F); lia.
  - split; [intros E; apply Z0 in E; nia|]. intros H. right. apply (far_put now d w e dn S Q1 F); lia.
  - split; [intros E; apply Z0 in E; nia|]. split; [intros _; right; nia|]. intros H. apply (far_put now d w e dn S Q1 F); lia.
Qed.

Lemma add_ok now : 0 <= now -> forall ws ds n e ws', all_ok now ws ds -> (length ws <= n)%nat -> add_timer ws (repeat now n) e = Some ws' -> all_ok now ws' ds /\ length ws' = length ws.
Proof.
  intros Hn. induction ws as [|w lower IH]; intros ds n e ws' H L; cbn [add_timer]; [discriminate|]. destruct ds as [|d dl]; [destruct H|]. destruct H as (W & H).
  destruct n as [|n]; [cbn in L; lia|]. cbn [repeat hd tl]. destruct (idle w) eqn:Ei; [|discriminate].
  destruct (Z.leb_spec (w_interval w) (e_due e - unix_milli now)) as [Le|Gt].
  - intros [= <-]. split; [|reflexivity]. split; [|exact H]. apply put_ok; [exact W| |]; destruct W as (S & _); [apply Z.mod_pos_bound; destruct S; lia|]. now apply hash_ok.
  - destruct lower as [|w2 lower].
    + intros [= <-]. split; [|reflexivity]. split; [|exact H]. apply put_ok; [exact W|destruct W as (S & _); apply S|]. unfold slot_ok. unfold idle in Ei. destruct (w_phase w); [|discriminate..].
      left. split; [reflexivity|]. unfold dist. now rewrite Z.sub_diag, Zmod_0_l.
    + destruct (add_timer (w2 :: lower) (repeat now n) e) as [l|] eqn:E; [|discriminate]. intros [= <-].
      destruct (IH dl n e l H ltac:(cbn in *; lia) E) as (A & B). split; [|cbn in *; lia]. split; [|exact A]. now destruct l.
Qed.

Lemma readd_ok now w lower d dl n e ws' : 0 <= now -> all_ok now (w :: lower) (d :: dl) -> (length (w :: lower) <= n)%nat -> idle w = false ->
  readd w lower (repeat now n) e = Some ws' -> all_ok now ws' (d :: dl) /\ length ws' = length (w :: lower).
Proof.
  intros Hn (W & H) L Ei. unfold readd. destruct n as [|n]; [cbn in L; lia|]. cbn [repeat hd tl].
  destruct (Z.leb_spec (w_interval w) (e_due e - unix_milli now)) as [Le|Gt].
  - intros [= <-]. split; [|reflexivity]. split; [|exact H]. apply put_ok; [exact W| |]; destruct W as (S & _); [apply Z.mod_pos_bound; destruct S; lia|]. now apply hash_ok.
  - destruct lower as [|w2 lower].
    + intros [= <-]. split; [|reflexivity]. split; [|exact H]. assert (W' := W). destruct W' as ((A & B & C) & _).
      apply put_ok; [exact W|apply Z.mod_pos_bound; lia|]. rewrite dist_put, Z.mod_small by lia. unfold slot_ok. unfold idle in Ei. destruct (w_phase w); [discriminate| |]; cbn [isnil].
      * split; [lia|]. intros _. left. auto.
      * split; [lia|]. split; [left; reflexivity|lia].
    + destruct (add_timer (w2 :: lower) (repeat now n) e) as [l|] eqn:E; [|discriminate]. intros [= <-].
      destruct (add_ok now Hn (w2 :: lower) dl n e l H ltac:(cbn in *; lia) E) as (A & B). split; [|cbn in *; lia]. split; [|exact A]. now destruct l.
Qed.

Lemma move_ok now i n w lower d dl ws' : 0 <= now -> all_ok now (w :: lower) (d :: dl) -> (length (w :: lower) <= n)%nat ->
  tick_move i (repeat now n) w lower = Some ws' -> all_ok now ws' (d :: dl) /\ length ws' = length (w :: lower).
Proof.
  intros Hn (W & H) L. unfold tick_move. destruct (w_phase w) as [|pend|pend] eqn:Ep; [discriminate| |]; (destruct (take i pend) as [[e rest]|] eqn:Et; [|discriminate]);
    intros E; apply take_perm in Et; (lazymatch type of E with readd ?v _ _ _ = _ => apply (readd_ok now v lower d dl n e ws') end; [exact Hn| |exact L|reflexivity|exact E]); (split; [|exact H]); destruct W as (A & B & C);
    (split; [exact A|]); (split; [unfold slot_ok in *; rewrite Ep in B; exact B|]); intros y Hy; apply C; unfold pending; rewrite Ep, Et; now right.
Qed.

Lemma start_ok leaf now d w : wheel_ok leaf now d w -> w_phase w = Idle ->
  wheel_ok leaf now d (with_queue w (out_slot (w_cur w) (w_queue w)) (Curs (in_slot (w_cur w) (w_queue w)))).
Proof.
  intros (A & B & C) Ep. assert (A' := A). destruct A' as (I1 & S2 & Cu & D). split; [exact A|]. unfold slot_ok in B. rewrite Ep in B. split.
  - intros x Hx. cbn [w_queue with_queue] in Hx. unfold out_slot in Hx. apply filter_In in Hx. destruct Hx as (Hx & Ne). destruct (B x Hx) as (Sx & Bx). split; [exact Sx|].
    unfold slot_ok. cbn [w_phase with_queue]. assert (N0 : dist w (fst x) <> 0) by (intros Z0; apply dist_0 in Z0; auto; lia). change (dist (with_queue w _ _) (fst x)) with (dist w (fst x)).
    split; [lia|]. intros H1. right. destruct Bx as [(_ & Bx)|Bx]; [lia|]. now rewrite Z.max_l in Bx by lia.
  - intros e He. unfold pending in He. cbn [w_phase with_queue] in He. unfold in_slot in He. apply in_map_iff in He. destruct He as (x & <- & Hx). apply filter_In in Hx. destruct Hx as (Hx & Ne).
    destruct (B x Hx) as (Sx & [(Lf & _)|Bx]); [now left|]. right. unfold far in Bx. change (w_scales (with_queue w _ _)) with (w_scales w).
    assert (0 <= (Z.max (dist w (fst x)) 1 - 1) * (iv w + late)) by (unfold iv; nia). lia.
Qed.
Lemma next_ok leaf now d w : wheel_ok leaf now d w -> w_phase w = Curs [] ->
  wheel_ok leaf now d (with_queue w (out_slot (next_slot w) (w_queue w)) (Nexts (in_slot (next_slot w) (w_queue w)))).
Proof.
  intros (A & B & C) Ep. assert (A' := A). destruct A' as (I1 & S2 & Cu & D). split; [exact A|]. unfold slot_ok in B. rewrite Ep in B. split.
  - intros x Hx. cbn [w_queue with_queue] in Hx. unfold out_slot in Hx. apply filter_In in Hx. destruct Hx as (Hx & Ne). destruct (B x Hx) as (Sx & Bx). split; [exact Sx|].
    unfold slot_ok. cbn [w_phase with_queue]. assert (N0 : dist w (fst x) <> 1) by (intros Z0; apply dist_1 in Z0; auto; lia). change (dist (with_queue w _ _) (fst x)) with (dist w (fst x)).
    destruct Bx as (B0 & B1). split; [exact B0|]. split; [lia|]. intros H1. destruct B1 as [(_ & B1)|B1]; [lia|lia|exact B1].
  - intros e He. unfold pending in He. cbn [w_phase with_queue] in He. unfold in_slot in He. apply in_map_iff in He. destruct He as (x & <- & Hx). apply filter_In in Hx. destruct Hx as (Hx & Ne).
    destruct (B x Hx) as (Sx & B0 & B1).
    assert (Dx : dist w (fst x) = 1).
    { unfold next_slot in Ne. replace (fst x) with ((w_cur w + 1) mod w_scales w) by lia. rewrite dist_put by lia. apply Z.mod_small. lia. }
    rewrite Dx in B1. destruct B1 as [(Lf & _)|B1]; [lia|now left|]. right. unfold far in B1. change (w_scales (with_queue w _ _)) with (w_scales w). lia.
Qed.
Lemma end_ok leaf now d w : wheel_ok leaf now d w -> w_phase w = Nexts [] ->
  wheel_ok leaf now (now + period late (Wheel (w_interval w) (w_scales w) (next_slot w) (w_queue w) Idle)) (Wheel (w_interval w) (w_scales w) (next_slot w) (w_queue w) Idle).
Proof.
  intros (A & B & C) Ep. assert (A' := A). destruct A' as (I1 & S2 & Cu & D). unfold slot_ok in B. rewrite Ep in B. assert (Hi : 0 <= iv w) by (unfold iv; lia).
  split; [|split].
  - unfold shape_ok, period, iv. cbn [w_interval w_scales w_cur]. repeat split; try lia; unfold next_slot; apply Z.mod_pos_bound; lia.
  - intros x Hx. cbn [w_queue] in Hx. destruct (B x Hx) as (Sx & B0 & B1 & B2). split; [exact Sx|]. unfold slot_ok. cbn [w_phase]. unfold far, period. cbn [w_interval w_scales w_cur].
    change (iv (Wheel _ _ _ _ _)) with (iv w). change (w_interval w * 1000000) with (iv w).
    assert (R := dist_range w (fst x) S2). set (j := dist w (fst x)) in *.
    assert (Dn : dist (Wheel (w_interval w) (w_scales w) (next_slot w) (w_queue w) Idle) (fst x) = (j - 1) mod w_scales w).
    { unfold dist, j, next_slot, dist. cbn [w_scales w_cur]. rewrite Zminus_mod_idemp_r, Zminus_mod_idemp_l. f_equal. lia. }
    rewrite Dn. destruct (Z.eq_dec j 0) as [J0|J0].
    + right. replace ((j - 1) mod w_scales w) with (w_scales w - 1) by (rewrite J0, <- (Z.mod_add _ 1), Z.mod_small by lia; lia).
      specialize (B0 J0). rewrite Z.max_l by lia. nia.
    + rewrite Z.mod_small by lia. destruct (Z.eq_dec j 1) as [J1|J1].
      * destruct (B1 J1) as [Lf|Bx]; [left; split; [exact Lf|lia]|right]. rewrite J1. replace (Z.max (1 - 1) 1) with 1 by lia. nia.
      * right. specialize (B2 ltac:(lia)). unfold far in B2. rewrite Z.max_l by lia. nia.
  - intros e [].
Qed.
Lemma sub_ok leaf now d w q : wheel_ok leaf now d w -> incl q (w_queue w) -> wheel_ok leaf now d (with_queue w q (w_phase w)).
Proof. intros (A & B & C) H. split; [exact A|]. split; [|exact C]. intros x Hx. apply B. now apply H. Qed.

Lemma at_ok f now : (forall w lower ws' d dl, f w lower = Some ws' -> all_ok now (w :: lower) (d :: dl) -> all_ok now ws' (d :: dl) /\ length ws' = length (w :: lower)) ->
  forall ws k ws' ds, at_wheel k f ws = Some ws' -> all_ok now ws ds -> all_ok now ws' ds /\ length ws' = length ws.
Proof.
  intros Hf. induction ws as [|w lower IH]; intros k ws' ds; [destruct k; discriminate|]. destruct ds as [|d dl]; [intros _ []|]. destruct k as [|k]; cbn [at_wheel]; [apply Hf|].
  destruct (at_wheel k f lower) as [l|] eqn:E; [|discriminate]. intros [= <-] (W & H). destruct (IH _ _ _ E H) as (A & B). split; [|cbn; lia]. split; [|exact A].
  replace (isnil l) with (isnil lower); [exact W|]. destruct l, lower; cbn in B; try lia; reflexivity.
Qed.
Lemma at_end_ok now : forall ws k ws' ds, at_wheel k tick_end ws = Some ws' -> all_ok now ws ds ->
  exists w, nth_error ws' k = Some w /\ all_ok now ws' (set_at k (now + period late w) ds) /\ length ws' = length ws.
Proof.
  induction ws as [|w lower IH]; intros k ws' ds; [destruct k; discriminate|]. destruct ds as [|d dl]; [intros _ []|]. destruct k as [|k]; cbn [at_wheel].
  - unfold tick_end. destruct (w_phase w) as [| |[|]] eqn:E; try discriminate. intros [= <-] (W & H). eexists. split; [reflexivity|]. split; [|reflexivity]. cbn [set_at]. split; [|exact H].
    now apply (end_ok _ now d).
  - destruct (at_wheel k tick_end lower) as [l|] eqn:E; [|discriminate]. intros [= <-] (W & H). destruct (IH _ _ _ E H) as (w' & N & A & B). exists w'. split; [exact N|]. split; [|cbn; lia]. cbn [set_at]. split; [|exact A].
    replace (isnil l) with (isnil lower); [exact W|]. destruct l, lower; cbn in B; try lia; reflexivity.
Qed.


(* After a poll, what is left in the wheels is not (much) overdue. *)
Lemma poll_ok now : 0 <= now -> forall ws es ws' ds, poll_leaf (unix_milli now) ws = Some (es, ws') -> all_ok now ws ds ->
  all_ok now ws' ds /\ length ws' = length ws /\ (forall e, In e (all_of ws') -> now <= due_ns e + smax * late).
Proof.
  intros Hn. induction ws as [|w lower IH]; intros es ws' ds; [discriminate|]. destruct ds as [|d dl]; [intros _ []|]. destruct lower as [|w2 lower].
  - cbn [poll_leaf]. destruct (idle w) eqn:Ei; [|discriminate]. unfold poll_wheel. intros [= <- <-] (W & H).
    assert (W' : wheel_ok true now d (with_queue w (filter (fun x => negb ((fst x =? w_cur w) && due_soon (unix_milli now) (snd x))) (w_queue w)) (w_phase w))).
    { apply sub_ok; [exact W|]. intros x Hx. now apply filter_In in Hx. }
    split; [split; [exact W'|exact H]|]. split; [reflexivity|]. intros e He. cbn in He. rewrite app_nil_r in He. unfold wheel_timers in He.
    unfold idle in Ei. destruct (w_phase w) eqn:Ep; [|discriminate..]. unfold pending in He. cbn [w_phase with_queue w_queue] in He. rewrite app_nil_r in He. apply in_map_iff in He. destruct He as (x & <- & Hx).
    apply filter_In in Hx. destruct Hx as (Hx & Nx). destruct W as ((I1 & S2 & Cu & D) & B & _). destruct (B x Hx) as (Sx & Bx). unfold slot_ok in Bx. rewrite Ep in Bx.
    assert (Sm : w_scales w * late <= smax * late) by (destruct D; nia).
    destruct Bx as [(_ & B0)|Bx].
    + apply dist_0 in B0; [|lia..]. assert (F : due_soon (unix_milli now) (snd x) = false) by (rewrite B0, Z.eqb_refl in Nx; destruct (due_soon (unix_milli now) (snd x)); [discriminate Nx|reflexivity]). unfold due_soon, within in F.
      assert (M := milli_bound now (snd x) 100 Hn ltac:(lia)). assert (0 <= w_scales w * late) by nia. lia.
    + unfold far in Bx. assert (0 <= (Z.max (dist w (fst x)) 1 - 1) * (iv w + late)) by (unfold iv; nia). lia.
  - change (poll_leaf (unix_milli now) (w :: w2 :: lower)) with (match poll_leaf (unix_milli now) (w2 :: lower) with Some (es, l) => Some (es, w :: l) | None => None end).
    destruct (poll_leaf (unix_milli now) (w2 :: lower)) as [[es0 l]|] eqn:E; [|discriminate]. intros [= <- <-] (W & H).
    destruct (IH _ _ dl eq_refl H) as (A & B & C).
    split; [split; [destruct l; [cbn in B; lia|exact W]|exact A]|]. split; [cbn in *; lia|]. intros e He. cbn [all_of flat_map] in He. apply in_app_or in He. destruct He as [He|He]; [|now apply C].
    destruct W as ((I1 & S2 & Cu & D) & B' & C').
    assert (Sm : w_scales w * late <= smax * late) by (destruct D; nia). unfold wheel_timers in He. apply in_app_or in He. destruct He as [He|He]; [|destruct (C' e He) as [X|X]; [discriminate|lia]].
    apply in_map_iff in He. destruct He as (x & <- & Hx). destruct (B' x Hx) as (Sx & Bx). unfold slot_ok in Bx. assert (R := dist_range w (fst x) S2). assert (Hi : 0 <= iv w) by (unfold iv; lia).
    destruct (w_phase w).
    + destruct Bx as [(X & _)|Bx]; [discriminate|]. unfold far in Bx. assert (0 <= (Z.max (dist w (fst x)) 1 - 1) * (iv w + late)) by nia. lia.
    + destruct Bx as (B0 & B1). destruct (Z.eq_dec (dist w (fst x)) 0) as [J|J]; [specialize (B0 J); nia|]. destruct B1 as [(X & _)|B1]; [lia|discriminate|]. unfold far in B1.
      assert (0 <= (dist w (fst x) - 1) * (iv w + late)) by nia. lia.
    + destruct Bx as (B0 & B1 & B2). destruct (Z.eq_dec (dist w (fst x)) 0) as [J|J]; [specialize (B0 J); nia|]. destruct (Z.eq_dec (dist w (fst x)) 1) as [J1|J1].
      * destruct (B1 J1) as [X|X]; [discriminate|]. nia.
      * specialize (B2 ltac:(lia)). unfold far in B2. assert (0 <= (dist w (fst x) - 1) * (iv w + late)) by nia. lia.
Qed.

Lemma remove_ok now id w lower ws' d dl : remove_timer id w lower = Some ws' -> all_ok now (w :: lower) (d :: dl) -> all_ok now ws' (d :: dl) /\ length ws' = length (w :: lower).
Proof.
  unfold remove_timer. destruct (w_phase w) eqn:E; try discriminate. intros [= <-] (W & H). split; [|reflexivity]. split; [|exact H]. rewrite <- E. apply sub_ok; [exact W|]. intros x Hx. now apply filter_In in Hx.
Qed.
Lemma start_ok' now w lower ws' d dl : tick_start w lower = Some ws' -> all_ok now (w :: lower) (d :: dl) -> all_ok now ws' (d :: dl) /\ length ws' = length (w :: lower).
Proof. unfold tick_start. destruct (w_phase w) eqn:E; try discriminate. intros [= <-] (W & H). split; [|reflexivity]. split; [|exact H]. now apply start_ok. Qed.
Lemma next_ok' now w lower ws' d dl : tick_next w lower = Some ws' -> all_ok now (w :: lower) (d :: dl) -> all_ok now ws' (d :: dl) /\ length ws' = length (w :: lower).
Proof. unfold tick_next. destruct (w_phase w) as [|[|]|] eqn:E; try discriminate. intros [= <-] (W & H). split; [|reflexivity]. split; [|exact H]. now apply next_ok. Qed.
Lemma at_move_ok now i n : 0 <= now -> forall ws k ws' ds, (length ws <= n)%nat -> at_wheel k (tick_move i (repeat now n)) ws = Some ws' -> all_ok now ws ds -> all_ok now ws' ds /\ length ws' = length ws.
Proof.
  intros Hn. induction ws as [|w lower IH]; intros k ws' ds L; [destruct k; discriminate|]. destruct ds as [|d dl]; [intros _ []|]. destruct k as [|k]; cbn [at_wheel].
  - intros E H. now apply (move_ok now i n w lower d dl ws' Hn H L).
  - destruct (at_wheel k _ lower) as [l|] eqn:E; [|discriminate]. intros [= <-] (W & H). destruct (IH _ _ _ ltac:(cbn in L; lia) E H) as (A & B). split; [|cbn; lia]. split; [|exact A].
    replace (isnil l) with (isnil lower); [exact W|]. destruct l, lower; cbn in B; try lia; reflexivity.
Qed.

Variable gap : Z.
Hypothesis gap_ok : 0 <= gap.

Definition tm_ok (t : timed) : Prop :=
  0 <= t_now t /\ all_ok (t_now t) (s_wheels (t_sched t)) (t_due t) /\ t_last t <= t_now t <= t_last t + gap.

Lemma idle_ok now now' : forall ws ds, all_ok now ws ds -> now <= now' -> forallb idle ws = true -> forallb (fun x => now' <=? x) ds = true -> all_ok now' ws ds.
Proof.
  induction ws as [|w lower IH]; intros [|d dl]; cbn [all_ok forallb]; auto. intros (W & H) L I D. apply andb_true_iff in I, D. destruct I as (I & I'), D as (D & D'). split; [|now apply IH].
  destruct W as (A & B & C). unfold idle in I. destruct (w_phase w) eqn:Ep; [|discriminate..]. split; [|split].
  - unfold shape_ok in *. lia.
  - intros x Hx. destruct (B x Hx) as (Sx & Bx). split; [exact Sx|]. unfold slot_ok in *. now rewrite Ep in *.
  - unfold pending. rewrite Ep. intros e [].
Qed.

Lemma create_ok t due clock s' : tm_ok t -> clock = repeat (t_now t) (length (s_wheels (t_sched t))) -> create (t_sched t) due clock = Some s' -> all_ok (t_now t) (s_wheels s') (t_due t).
Proof.
  intros (Hn & A & _) ->. unfold create. destruct (s_cancel _); [discriminate|]. destruct (add_timer _ _ _) as [ws|] eqn:E; [|discriminate]. intros [= <-]. cbn [s_wheels].
  now apply (add_ok (t_now t) Hn _ _ _ _ _ A (Nat.le_refl _) E).
Qed.
Lemma tm_step_ok t l : tm_ok t -> tm_ok (tm_step late gap t l).
Proof.
  intros T. assert (T' := T). destruct T' as (Hn & A & G). destruct l as [d|l]; cbn [tm_step].
  - destruct (_ && _) eqn:E; [|exact T]. rewrite !andb_true_iff in E. destruct E as ((((E1 & E2) & E3) & E4) & E5). split; [cbn; lia|]. split; [|cbn; lia]. cbn [t_now t_sched t_due].
    apply (idle_ok (t_now t)); auto; lia.
  - destruct (t_step1 _ _) as [s'|] eqn:E; [|exact T].
    assert (K : all_ok (t_now t) (s_wheels s') (t_due t) -> t_last t <= t_now t <= t_last t + gap -> tm_ok (Timed s' (t_now t) (t_due t) (t_last t))) by (intros; repeat split; cbn; auto; lia).
    destruct l; cbn [stamp t_step1] in E.
    + unfold with_wheels in E. destruct (at_wheel k tick_start _) eqn:Ea; [|discriminate]. injection E as <-. apply K; [|exact G]. now apply (at_ok _ (t_now t) (start_ok' (t_now t)) _ _ _ _ Ea).
    + unfold with_wheels in E. destruct (at_wheel k (tick_move _ _) _) eqn:Ea; [|discriminate]. injection E as <-. apply K; [|exact G]. now apply (at_move_ok (t_now t) _ _ Hn _ _ _ _ (Nat.le_refl _) Ea).
    + unfold with_wheels in E. destruct (at_wheel k tick_next _) eqn:Ea; [|discriminate]. injection E as <-. apply K; [|exact G]. now apply (at_ok _ (t_now t) (next_ok' (t_now t)) _ _ _ _ Ea).
    + unfold with_wheels in E. destruct (at_wheel k tick_end _) eqn:Ea; [|discriminate]. injection E as <-. cbn [s_wheels]. destruct (at_end_ok _ _ _ _ _ Ea A) as (w & N & B & _). rewrite N. repeat split; cbn; auto; lia.
    + apply K; [|exact G]. now apply (create_ok t _ _ _ T eq_refl) in E.
    + apply K; [|exact G]. now apply (create_ok t _ _ _ T eq_refl) in E.
    + destruct (s_cancel _); [discriminate|]. injection E as <-. now apply K.
    + destruct (s_cancel _) as [[id k]|]; [|discriminate]. destruct (Nat.ltb _ _); [destruct (at_wheel k (remove_timer id) _) eqn:Ea; [|discriminate]|]; injection E as <-; [|now apply K].
      apply K; [|exact G]. now apply (at_ok _ (t_now t) (remove_ok (t_now t) id) _ _ _ _ Ea).
    + destruct (s_polled _); [|discriminate]. destruct (poll_leaf _ _) as [[es ws]|] eqn:Ep; [|discriminate]. injection E as <-. repeat split; cbn; try lia. now apply (poll_ok _ Hn _ _ _ _ Ep).
    + destruct (take _ _) as [[y rest]|]; [|discriminate]. injection E as <-. now apply K.
Qed.

(* One timer, created at c. *)
Definition limit (e : entry) (c : Z) : Z := Z.max (due_ns e) c + smax * late.
Definition prompt (e : entry) (c : Z) (t : timed) : Prop :=
  (In e (stored (t_sched t)) -> t_last t <= limit e c) /\
  (In e (taken (t_sched t)) -> t_now t <= limit e c + gap) /\
  (forall r, In (e, r) (s_polled (t_sched t)) -> r <= limit e c + gap) /\
  (forall r, In (e, r) (s_sent (t_sched t)) -> r <= limit e c + gap).

Lemma prompt_step e c t l : tm_ok t -> once (t_sched t) -> In e (s_made (t_sched t)) -> prompt e c t -> prompt e c (tm_step late gap t l).
Proof.
  intros T O Hm P. assert (P' := P). destruct P' as (P1 & P2 & P3 & P4). assert (T' := T). destruct T' as (Hn & A & G). destruct l as [d|l]; cbn [tm_step].
  - destruct (_ && _) eqn:E; [|exact P]. rewrite !andb_true_iff in E. destruct E as ((((E1 & E2) & E3) & E4) & E5). split; [exact P1|]. split; [|split; [exact P3|exact P4]].
    unfold taken. cbn. destruct (s_polled (t_sched t)); [intros []|discriminate].
  - destruct (t_step1 _ _) as [s'|] eqn:E; [|exact P].
    assert (Hs : In e (stored s') -> In e (stored (t_sched t))).
    { intros X. destruct (flow_step _ _ _ E) as (F & _). apply F in X. apply in_app_or in X. destruct X as [X|X]; [|exact X]. exfalso.
      destruct (fresh_single _ _ _ E) as [F0|(y & F0 & Ey & _)]; rewrite F0 in X; [exact X|]. destruct X as [->|[]]. apply In_nth_error in Hm. destruct Hm as (i & Hi).
      assert (i < length (s_made (t_sched t)))%nat by (apply nth_error_Some; congruence). destruct O as ((_ & M) & _). apply M in Hi. lia. }
    assert (K : s_polled s' = s_polled (t_sched t) -> s_sent s' = s_sent (t_sched t) -> forall ds, prompt e c (Timed s' (t_now t) ds (t_last t))).
    { intros X Y ds. unfold prompt, taken. cbn [t_sched t_last t_now]. rewrite X, Y. repeat split; auto. }
    destruct l; cbn [stamp t_step1] in E; try (unfold with_wheels in E; destruct (at_wheel _ _ _); [|discriminate]; injection E as <-; now apply K).
    + unfold create in E. destruct (s_cancel _); [discriminate|]. destruct (add_timer _ _ _); [|discriminate]. injection E as <-. now apply K.
    + unfold create in E. destruct (s_cancel _); [discriminate|]. destruct (add_timer _ _ _); [|discriminate]. injection E as <-. now apply K.
    + destruct (s_cancel _); [discriminate|]. injection E as <-. now apply K.
    + destruct (s_cancel _) as [[id k]|]; [|discriminate]. destruct (Nat.ltb _ _); [destruct (at_wheel k (remove_timer id) _) eqn:Ea; [|discriminate]|]; injection E as <-; now apply K.
    + destruct (s_polled _) eqn:Epl; [|discriminate]. destruct (poll_leaf _ _) as [[es ws]|] eqn:Ep; [|discriminate]. injection E as <-. unfold prompt. cbn [t_sched t_last t_now s_sent s_polled].
      destruct (poll_ok _ Hn _ _ _ _ Ep A) as (_ & _ & Q). assert (PP := poll_perm _ _ _ _ Ep).
      assert (B : In e es -> t_now t <= limit e c + gap).
      { intros X. assert (Y : In e (stored (t_sched t))) by (unfold stored; fold (all_of (s_wheels (t_sched t))); rewrite PP; apply in_or_app; now right). specialize (P1 Y). lia. }
      split; [|split; [|split; [|exact P4]]].
      * intros X. apply Q in X. unfold limit. lia.
      * unfold taken. cbn [s_polled]. rewrite map_map. cbn. now rewrite map_id.
      * intros r X. apply in_map_iff in X. destruct X as (y & [= -> <-] & X). auto.
    + destruct (take _ _) as [[y rest]|] eqn:Et; [|discriminate]. injection E as <-. apply take_perm in Et. unfold prompt, taken. cbn [t_sched t_last t_now s_sent s_polled].
      split; [exact P1|]. split; [|split].
      * intros X. apply P2. unfold taken. rewrite (Permutation_map fst Et). now right.
      * intros r X. apply P3. rewrite Et. now right.
      * intros r X. apply in_app_or in X. destruct X as [X|[->|[]]]; [now apply P4|]. apply P3. rewrite Et. now left.
Qed.

Lemma tm_once t l : once (t_sched t) -> once (t_sched (tm_step late gap t l)).
Proof.
  intros O. destruct l as [d|l]; cbn [tm_step]; [destruct (_ && _); exact O|]. destruct (t_step1 _ _) as [s'|] eqn:E; [|exact O]. exact (once_step _ _ _ O E).
Qed.
Lemma tm_made e t l : In e (s_made (t_sched t)) -> In e (s_made (t_sched (tm_step late gap t l))).
Proof.
  intros O. destruct l as [d|l]; cbn [tm_step]; [destruct (_ && _); exact O|]. destruct (t_step1 _ _) as [s'|] eqn:E; [|exact O]. cbn [t_sched]. destruct (made_grows _ _ _ E) as (x & ->). apply in_or_app. now left.
Qed.
Lemma tm_run_ok ls : forall t, tm_ok t -> once (t_sched t) -> tm_ok (tm_run late gap t ls) /\ once (t_sched (tm_run late gap t ls)).
Proof. induction ls as [|l ls IH]; intros t T O; [auto|]. cbn. apply IH; [now apply tm_step_ok|now apply tm_once]. Qed.
Lemma prompt_run e c ls : forall t, tm_ok t -> once (t_sched t) -> In e (s_made (t_sched t)) -> prompt e c t -> prompt e c (tm_run late gap t ls).
Proof.
  induction ls as [|l ls IH]; intros t T O M P; [exact P|]. cbn. apply IH; [now apply tm_step_ok|now apply tm_once|now apply tm_made|now apply prompt_step].
Qed.
Lemma start_ok0 conf now due : 0 <= now -> Forall (fun c => 1 <= fst c /\ 2 <= snd c <= smax) conf -> first_ticks late conf now due -> tm_ok (tm_start conf now due).
Proof.
  intros Hn F H. split; [exact Hn|]. split; [|cbn; lia]. cbn [t_now t_sched t_due tm_start]. unfold new_sched_of. cbn [s_wheels]. unfold first_ticks in H.
  induction H as [|c d conf due Hc H IH]; [exact I|]. inversion F; subst. cbn [map all_ok]. split; [|now apply IH]. split; [|split].
  - unfold shape_ok, iv, new_wheel. cbn. lia.
  - intros x [].
  - intros e [].
Qed.
End Inv.

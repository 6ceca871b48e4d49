From Coq Require Import ZArith List Bool Lia ZifyBool.
From Verif Require Import Aoi Spec_Aoi.
Import ListNotations.
Local Open Scope Z_scope.

Lemma upto_in n i : In i (upto n) <-> 0 <= i < n.
Proof.
  unfold upto. rewrite in_map_iff. split.
  - intros (k & <- & H). apply in_seq in H. lia.
  - intros H. exists (Z.to_nat i). rewrite in_seq. lia.
Qed.

Lemma g_get_in id g : forall l, g_get id l = Some g -> In (id, g) l.
Proof. induction l as [|[i h] l IH]; cbn; [discriminate|]. destruct (Z.eqb_spec i id) as [->|N]; [intros [= ->]; now left|right; auto]. Qed.
Lemma g_get_some id g : forall l, (forall h, In (id, h) l -> h = g) -> In (id, g) l -> g_get id l = Some g.
Proof.
  induction l as [|[i h] l IH]; cbn [g_get]; intros U H; [destruct H|]. destruct (Z.eqb_spec i id) as [->|N].
  - f_equal. apply U. now left.
  - apply IH; [intros x X; apply U; now right|]. destruct H as [E|H]; [congruence|exact H].
Qed.

Lemma inner_in {A B} (f : A -> B) l : forall acc z, In z (fold_left (fun gs x => f x :: gs) l acc) <-> In z acc \/ exists x, In x l /\ z = f x.
Proof.
  induction l as [|a l IH]; intros acc z; cbn [fold_left]; [split; [auto|intros [H|(x & [] & _)]; exact H]|].
  rewrite IH. cbn [In]. split.
  - intros [[<-|H]|(x & H & E)]; [right; exists a; auto|auto|right; exists x; auto].
  - intros [H|(x & [<-|H] & E)]; [auto|left; left; auto|right; exists x; auto].
Qed.
Lemma outer_in {A B C} (f : C -> A -> B) l ys : forall acc z,
  In z (fold_left (fun gs y => fold_left (fun gs x => f y x :: gs) l gs) ys acc) <-> In z acc \/ exists y x, In y ys /\ In x l /\ z = f y x.
Proof.
  induction ys as [|y ys IH]; intros acc z; cbn [fold_left]; [split; [auto|intros [H|(y & x & [] & _)]; exact H]|].
  rewrite IH, inner_in. cbn [In]. split.
  - intros [[H|(x & H & E)]|(y0 & x & H & H' & E)]; [auto|right; exists y, x; auto|right; exists y0, x; auto].
  - intros [H|(y0 & x & [<-|H] & H' & E)]; [auto|left; right; exists x; auto|right; exists y0, x; auto].
Qed.

Section Map.
Variables minx maxx cx miny maxy cy : Z.
Let m := new_aoi minx maxx cx miny maxy cy.
Let w := Z.quot (maxx - minx) cx.
Let l := Z.quot (maxy - miny) cy.
Definition the_grid (r c : Z) : grid := snd (grid_at minx miny cx w l r c).

Lemma grids_in z : In z (a_grids m) <-> exists r c, on_map cx cy r c /\ z = (number cx r c, the_grid r c).
Proof.
  unfold m, new_aoi. cbn [a_grids]. rewrite outer_in. split.
  - intros [[]|(r & c & Hr & Hc & ->)]. apply upto_in in Hr, Hc. exists r, c. split; [split; assumption|]. unfold the_grid, w, l, width, len. cbn [a_cx a_cy a_minx a_maxx a_miny a_maxy].
    destruct (Z.eqb_spec cx 0); [lia|]. destruct (Z.eqb_spec cy 0); [lia|]. reflexivity.
  - intros (r & c & (Hr & Hc) & ->). right. exists r, c. rewrite !upto_in. split; [exact Hr|]. split; [exact Hc|]. unfold the_grid, w, l, width, len. cbn [a_cx a_cy a_minx a_maxx a_miny a_maxy].
    destruct (Z.eqb_spec cx 0); [lia|]. destruct (Z.eqb_spec cy 0); [lia|]. reflexivity.
Qed.

Lemma number_inj r c r' c' : 0 <= c < cx -> 0 <= c' < cx -> number cx r c = number cx r' c' -> r = r' /\ c = c'.
Proof. unfold number. intros Hc Hc' E. assert (r = r') by nia. subst. split; lia. Qed.

Lemma get_grid r c : on_map cx cy r c -> g_get (number cx r c) (a_grids m) = Some (the_grid r c).
Proof.
  intros H. apply g_get_some.
  - intros h Hh. apply grids_in in Hh. destruct Hh as (r' & c' & H' & E). injection E as E1 ->. apply number_inj in E1; [|apply H|apply H']. destruct E1 as (-> & ->). reflexivity.
  - apply grids_in. eauto.
Qed.
Lemma get_grid_inv id g : g_get id (a_grids m) = Some g -> exists r c, on_map cx cy r c /\ id = number cx r c /\ g = the_grid r c.
Proof. intros H. apply g_get_in in H. apply grids_in in H. destruct H as (r & c & H & E). injection E as -> ->. eauto. Qed.
Lemma the_grid_id r c : g_id (the_grid r c) = number cx r c.
Proof. reflexivity. Qed.

Lemma row_col r c : on_map cx cy r c -> Z.rem (number cx r c) cx = c /\ Z.quot (number cx r c) cx = r.
Proof.
  intros (Hr & Hc). unfold number. rewrite Z.rem_mod_nonneg, Z.quot_div_nonneg by nia. split.
  - rewrite Z.add_comm, Z_mod_plus_full. now apply Z.mod_small.
  - rewrite Z.add_comm, Z_div_plus_full by lia. rewrite Z.div_small by assumption. lia.
Qed.

Definition around (r c : Z) : list (Z * Z) :=
  (r, c) :: flat_map (fun d => let nx := c + fst d in let ny := r + snd d in
     if (0 <=? nx) && (nx <? cx) && (0 <=? ny) && (ny <? cy) then [(ny, nx)] else []) dirs.
Lemma around_in r c r' c' : on_map cx cy r c -> In (r', c') (around r c) <-> on_map cx cy r' c' /\ Z.abs (r - r') <= 1 /\ Z.abs (c - c') <= 1.
Proof.
  intros H. unfold around, on_map in *. cbn [In]. rewrite in_flat_map. split.
  - intros [E|((dx & dy) & Hd & X)]; [injection E as <- <-; lia|]. cbn [fst snd] in X. destruct ((0 <=? _) && _ && _ && _) eqn:B; [|destruct X]. destruct X as [X|[]]. injection X as <- <-.
    assert (-1 <= dx <= 1 /\ -1 <= dy <= 1) by (repeat destruct Hd as [Hd|Hd]; try (injection Hd as <- <-; lia); destruct Hd). lia.
  - intros (O & R & C). destruct (Z.eq_dec r r') as [Er|Nr], (Z.eq_dec c c') as [Ec|Nc]; [left; congruence|right..]; exists (c' - c, r' - r); cbn [fst snd].
    all: split; [|replace (c + (c' - c)) with c' by lia; replace (r + (r' - r)) with r' by lia; destruct ((0 <=? _) && _ && _ && _) eqn:B; [now left|exfalso; lia]].
    all: unfold dirs; assert (c' - c = -1 \/ c' - c = 0 \/ c' - c = 1) as [E|[E|E]] by lia; assert (r' - r = -1 \/ r' - r = 0 \/ r' - r = 1) as [F|[F|F]] by lia; rewrite ?E, ?F; cbn; try tauto; lia.
Qed.
Lemma around_nodup r c : NoDup (around r c).
Proof.
  unfold around, dirs. cbn [flat_map fst snd app].
  repeat match goal with |- context [if ?b then _ else _] => destruct b; cbn [app] end.
  all: repeat (constructor; [cbn [In]; intros X; repeat (destruct X as [X|X]; [injection X; lia|]); exact X|]); constructor.
Qed.

Lemma surround_eq r c : on_map cx cy r c -> surround m (number cx r c) = map (fun x => Some (the_grid (fst x) (snd x))) (around r c).
Proof.
  intros H. unfold surround. rewrite (get_grid r c H). change (a_cx m) with cx. change (a_cy m) with cy. destruct (row_col r c H) as (-> & ->). unfold around. cbn [map fst snd]. f_equal.
  unfold dirs. induction ([(-1, -1); (-1, 0); (-1, 1); (0, -1); (0, 1); (1, -1); (1, 0); (1, 1)]) as [|d ds IH]; [reflexivity|]. cbn [flat_map]. rewrite !map_app, IH. f_equal.
  destruct ((0 <=? _) && _ && _ && _) eqn:B; [|reflexivity]. cbn [map fst snd]. f_equal. apply get_grid. unfold on_map. lia.
Qed.

(* The numbers of the grids around a grid. *)
Definition ids (gs : list (option grid)) : list (option Z) := map (option_map g_id) gs.
Lemma surround_near gid g : g_get gid (a_grids m) = Some g ->
  NoDup (ids (surround m gid)) /\ forall h, In (Some h) (ids (surround m gid)) <-> near cx cy gid h.
Proof.
  intros Hg. apply get_grid_inv in Hg. destruct Hg as (r & c & H & -> & ->). unfold ids. rewrite (surround_eq r c H), map_map. cbn [option_map].
  rewrite (map_ext _ (fun x => Some (number cx (fst x) (snd x)))) by reflexivity. split.
  - assert (A : forall z, In z (around r c) -> on_map cx cy (fst z) (snd z)) by (intros [r' c'] X; now apply (around_in r c r' c' H) in X).
    assert (N := around_nodup r c). induction (around r c) as [|z zs IH]; [constructor|]. inversion N; subst. cbn [map]. constructor.
    + intros X. apply in_map_iff in X. destruct X as (y & E & X). injection E as E. assert (Oy := A y (or_intror X)). assert (Oz := A z (or_introl eq_refl)).
      destruct y as [ry cy'], z as [rz cz]. cbn [fst snd] in *. apply number_inj in E; [|apply Oy|apply Oz]. destruct E as (-> & ->). contradiction.
    + apply IH; [intros y Y; apply A; now right|assumption].
  - intros h. rewrite in_map_iff. split.
    + intros ((r' & c') & E & X). cbn [fst snd] in E. injection E as <-. apply (around_in r c r' c' H) in X. destruct X as (O & R & C). exists r, c, r', c'. auto 10.
    + intros (r0 & c0 & r' & c' & O & O' & E & -> & R & C). apply number_inj in E; [|apply H|apply O]. destruct E as (<- & <-). exists (r', c'). split; [reflexivity|]. apply (around_in r c r' c' H). auto.
Qed.
Lemma surround_some gid : Forall (fun o => o <> None) (surround m gid).
Proof.
  destruct (g_get gid (a_grids m)) as [g|] eqn:E.
  - apply get_grid_inv in E. destruct E as (r & c & H & -> & _). rewrite (surround_eq r c H). apply Forall_forall. intros o X. apply in_map_iff in X. destruct X as (z & <- & _). discriminate.
  - unfold surround. rewrite E. constructor.
Qed.
Lemma surround_none gid : g_get gid (a_grids m) = None -> surround m gid = [].
Proof. intros E. unfold surround. now rewrite E. Qed.

(* Positions. *)
Lemma int_floor x : rounds_down x -> int_of x = x / unit.
Proof.
  intros [H|(k & ->)]; unfold int_of; assert (0 < unit) by reflexivity; [now apply Z.quot_div_nonneg|]. rewrite Z.quot_mul, Z.div_mul by lia. reflexivity.
Qed.
Lemma int_bounds x a b : rounds_down x -> a * unit <= x < b * unit -> a <= int_of x < b.
Proof. intros R H. rewrite (int_floor x R). assert (0 < unit) by reflexivity. split; [apply Z.div_le_lower_bound; lia|apply Z.div_lt_upper_bound; lia]. Qed.
Lemma int_back x a b : rounds_down x -> a <= int_of x < b -> a * unit <= x < b * unit.
Proof.
  intros R. rewrite (int_floor x R). assert (P : 0 < unit) by reflexivity. assert (D := Z.div_mod x unit ltac:(lia)). assert (M := Z.mod_pos_bound x unit P). generalize dependent (x / unit). generalize dependent (x mod unit). intros r M q D H.
  split; nia.
Qed.

Lemma pos_grid x y : 0 < cx -> 0 < cy -> 0 < w -> 0 < l -> rounds_down x -> rounds_down y ->
  minx * unit <= x < (minx + cx * w) * unit -> miny * unit <= y < (miny + cy * l) * unit ->
  exists gid g, gid_by_pos m x y = Some gid /\ g_get gid (a_grids m) = Some g /\ g_id g = gid /\ contains g x y /\
    forall gid' g', g_get gid' (a_grids m) = Some g' -> contains g' x y -> gid' = gid.
Proof.
  intros Pc Pr Pw Pl Rx Ry Hx Hy. assert (Bx := int_bounds x _ _ Rx Hx). assert (By := int_bounds y _ _ Ry Hy).
  set (c := (int_of x - minx) / w). set (r := (int_of y - miny) / l).
  assert (Ec : c * w <= int_of x - minx < (c + 1) * w) by (unfold c; assert (D := Z.div_mod (int_of x - minx) w ltac:(lia)); assert (M := Z.mod_pos_bound (int_of x - minx) w Pw); lia).
  assert (Er : r * l <= int_of y - miny < (r + 1) * l) by (unfold r; assert (D := Z.div_mod (int_of y - miny) l ltac:(lia)); assert (M := Z.mod_pos_bound (int_of y - miny) l Pl); lia).
  assert (O : on_map cx cy r c) by (unfold on_map; nia).
  exists (number cx r c), (the_grid r c). split; [|split; [now apply get_grid|split; [reflexivity|split]]].
  - unfold gid_by_pos, width, len. change (a_cx m) with cx. change (a_cy m) with cy. change (a_minx m) with minx. change (a_maxx m) with maxx. change (a_miny m) with miny. change (a_maxy m) with maxy.
    fold w l. destruct (Z.eqb_spec cx 0); [lia|]. destruct (Z.eqb_spec cy 0); [lia|]. destruct (Z.eqb_spec w 0); [lia|]. destruct (Z.eqb_spec l 0); [lia|]. cbn [orb]. unfold number, r, c. rewrite !Z.quot_div_nonneg by lia. reflexivity.
  - unfold contains, the_grid, grid_at. cbn [snd g_minx g_maxx g_miny g_maxy]. split; apply int_back; auto; lia.
  - intros gid' g' E (Cx & Cy). apply get_grid_inv in E. destruct E as (r' & c' & O' & -> & ->). unfold the_grid, grid_at in Cx, Cy. cbn [snd g_minx g_maxx g_miny g_maxy] in Cx, Cy.
    apply int_bounds in Cx, Cy; auto. assert (c' = c) by nia. assert (r' = r) by nia. subst. reflexivity.
Qed.
End Map.

Lemma near_sym cx cy g h : near cx cy g h -> near cx cy h g.
Proof. intros (r & c & r' & c' & A & B & C & D & E & F). exists r', c', r, c. assert (Z.abs (r' - r) <= 1 /\ Z.abs (c' - c) <= 1) as (E' & F') by lia. auto 10. Qed.

Lemma near_self cx cy g h : near cx cy g h -> near cx cy g g.
Proof. intros (r & c & r' & c' & A & B & C & D & E & F). exists r, c, r, c. repeat split; auto; try apply A; lia. Qed.

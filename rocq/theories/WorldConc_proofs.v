From Coq Require Import ZArith List Bool Lia ZifyBool.
From Verif Require Import AsyncResult Async_proofs AsyncWorker_proofs Aoi Spec_Aoi Aoi_proofs World Spec_World World_proofs WorldConc Spec_WorldConc.
Import ListNotations.
Local Open Scope Z_scope.

Section C.
Variable a : aoi.
Variable progs : list (list wop).
Hypothesis Own : own_calls progs.
Hypothesis Placed : forall p o, In p progs -> In o p -> op_placed a o.
Hypothesis Fresh : NoDup (concat (map joined progs)).

Definition gpos (f : Z -> pl) (p : Z) : option Z := gid_by_pos a (pl_x (f p)) (pl_z (f p)).
(* The grids p is in are exactly those in [g]. *)
Definition sits (s : cworld) (p : Z) (g : option Z) : Prop := forall h, In p (c_mem s h) <-> g = Some h.

Definition local (s : cworld) (p : Z) (pc : cpc) (o : wop) : Prop :=
  match o, pc with
  | WJoin _ x z, J1 => In p (c_players s) /\ sits s p None /\ c_obj s p = Pl x z
  | WMove _ _ _, M1 => In p (c_players s) /\ sits s p (gpos (c_obj s) p)
  | WMove _ x z, M2 old new => In p (c_players s) /\ sits s p (Some old) /\ gpos (c_obj s) p = Some new /\ gid_by_pos a x z = Some new /\ c_obj s p = Pl x z /\ old <> new /\ g_get old (a_grids a) <> None
  | WMove _ x z, M3 new => In p (c_players s) /\ sits s p None /\ gpos (c_obj s) p = Some new /\ gid_by_pos a x z = Some new /\ c_obj s p = Pl x z
  | WLeave _, L1 | WLeave _, L2 _ | WLeave _, L3 => In p (c_players s) /\ sits s p (gpos (c_obj s) p)
  | WLeave _, L4 => In p (c_players s) /\ sits s p None
  | _, Idle => True
  | _, _ => False
  end.
Definition settled (s : cworld) (p : Z) : Prop :=
  (In p (c_players s) -> sits s p (gpos (c_obj s) p)) /\ (~ In p (c_players s) -> sits s p None).

Record cinv (s : cworld) : Prop := {
  z_len : length (c_thr s) = length progs;
  z_suffix : forall t x, nth_error (c_thr s) t = Some x -> exists p done, nth_error progs t = Some p /\ p = done ++ c_prog x;
  z_idle : forall t pc, nth_error (c_thr s) t = Some (Thr [] pc) -> pc = Idle;
  z_local : forall t o r pc, nth_error (c_thr s) t = Some (Thr (o :: r) pc) -> local s (op_pid o) pc o;
  z_rest : forall p, resting s p -> settled s p;
  z_online : forall p, In p (c_players s) -> placed a (pl_x (c_obj s p)) (pl_z (c_obj s p));
  z_fresh : forall t r pc p, nth_error (c_thr s) t = Some (Thr r pc) -> In p (joined (match pc with Idle => r | _ => tl r end)) -> ~ In p (c_players s)
}.

Lemma prog_in s t x o : cinv s -> nth_error (c_thr s) t = Some x -> In o (c_prog x) -> exists p, nth_error progs t = Some p /\ In o p.
Proof. intros H E X. destruct (z_suffix _ H t x E) as (p & d & Ep & ->). exists (d ++ c_prog x). split; [exact Ep|]. apply in_or_app. now right. Qed.
Lemma joined_op q l : In q (joined l) -> exists o, In o l /\ op_pid o = q.
Proof. unfold joined. intros H. apply in_flat_map in H. destruct H as (o & X & Y). exists o. split; [exact X|]. destruct o; cbn in Y; try contradiction. destruct Y as [<-|[]]. reflexivity. Qed.

Lemma other_pid s t x o t' x' o' : cinv s -> nth_error (c_thr s) t = Some x -> In o (c_prog x) -> nth_error (c_thr s) t' = Some x' -> In o' (c_prog x') -> t <> t' -> op_pid o <> op_pid o'.
Proof.
  intros H E X E' X' N P. destruct (prog_in s t x o H E X) as (p & Ep & Ip). destruct (prog_in s t' x' o' H E' X') as (p' & Ep' & Ip'). apply N. exact (Own t t' p p' o o' Ep Ep' Ip Ip' P).
Qed.

Lemma nodup_concat {A} (x : list A) : forall l, In x l -> NoDup (concat l) -> NoDup x.
Proof.
  induction l as [|y l IH]; [intros []|]. cbn. intros [->|H] N.
  - clear - N. induction x as [|z x IHx]; [constructor|]. inversion N; subst. constructor; [intros X; apply H1; apply in_or_app; now left|now apply IHx].
  - apply IH; [exact H|]. clear - N. induction y as [|z y IHy]; [exact N|]. inversion N; subst. auto.
Qed.
Lemma join_once s t p x z r pc : cinv s -> nth_error (c_thr s) t = Some (Thr (WJoin p x z :: r) pc) -> ~ In p (joined r).
Proof.
  intros H E X. destruct (z_suffix _ H t _ E) as (pr & d & Ep & Eq). cbn [c_prog] in Eq. apply nth_error_In in Ep. assert (N : NoDup (joined pr)) by (apply (nodup_concat _ (map joined progs)); [now apply in_map|exact Fresh]).
  rewrite Eq in N. unfold joined in N. rewrite flat_map_app in N. cbn [flat_map app] in N. fold (joined r) in N. apply NoDup_remove_2 in N. apply N. apply in_or_app. now right.
Qed.

Definition same (s s' : cworld) (q : Z) : Prop := (In q (c_players s') <-> In q (c_players s)) /\ c_obj s' q = c_obj s q /\ forall h, In q (c_mem s' h) <-> In q (c_mem s h).
Lemma same_sits s s' q g : same s s' q -> sits s q g -> sits s' q g.
Proof. intros (_ & _ & M) H h. rewrite M. apply H. Qed.
Lemma same_settled s s' q : same s s' q -> settled s q -> settled s' q.
Proof. intros S (A & B). assert (S' := S). destruct S as (P & O & M). unfold settled, gpos. rewrite P, O. split; intros X; apply (same_sits s s'); auto. Qed.
Lemma same_local s s' q pc o : same s s' q -> local s q pc o -> local s' q pc o.
Proof.
  intros S. assert (S' := S). destruct S as (P & O & M). destruct o, pc; unfold local, gpos; rewrite ?O; auto; intros H; decompose [and] H; repeat split; auto; try (now apply P); try (now apply M); try (eapply same_sits; eassumption); apply (same_sits s s' q _ S'); assumption.
Qed.

Lemma frame_step s t o r pc s' x : cinv s -> nth_error (c_thr s) t = Some (Thr (o :: r) pc) -> c_thr s' = upd t x (c_thr s) ->
  (forall q, q <> op_pid o -> same s s' q) ->
  ((exists pc', x = Thr (o :: r) pc' /\ pc' <> Idle /\ local s' (op_pid o) pc' o) \/ (x = Thr r Idle /\ settled s' (op_pid o))) ->
  (In (op_pid o) (c_players s') -> placed a (pl_x (c_obj s' (op_pid o))) (pl_z (c_obj s' (op_pid o)))) ->
  (In (op_pid o) (c_players s') -> In (op_pid o) (c_players s) \/ exists p u v, o = WJoin p u v) ->
  cinv s'.
Proof.
  intros H E Et Fr Nx On New. assert (Ex : nth_error (c_thr s') t = Some x) by (rewrite Et; now apply (upd_nth t x (Thr (o :: r) pc))).
  assert (Eo : forall t', t <> t' -> nth_error (c_thr s') t' = nth_error (c_thr s) t') by (intros t' N; rewrite Et; now apply upd_nth_other).
  assert (Oth : forall t' x' o', t <> t' -> nth_error (c_thr s) t' = Some x' -> In o' (c_prog x') -> op_pid o' <> op_pid o).
  { intros t' x' o' N E' X' P. exact (other_pid s t _ o t' x' o' H E (or_introl eq_refl) E' X' N (eq_sym P)). }
  constructor.
  - rewrite Et. assert (L : forall i (y : thr) l, length (upd i y l) = length l) by (clear; induction i as [|i IH]; intros y [|z l]; cbn; auto). rewrite L. apply (z_len _ H).
  - intros t' x' E'. destruct (Nat.eq_dec t t') as [<-|N]; [|rewrite Eo in E' by exact N; exact (z_suffix _ H t' x' E')]. rewrite Ex in E'. injection E' as <-. destruct (z_suffix _ H t _ E) as (p & d & Ep & Eq). cbn [c_prog] in Eq. exists p. destruct Nx as [(pc' & -> & _)|(-> & _)]; cbn [c_prog].
    + exists d. auto.
    + exists (d ++ [o]). split; [exact Ep|]. now rewrite <- app_assoc.
  - intros t' pc' E'. destruct (Nat.eq_dec t t') as [<-|N]; [|rewrite Eo in E' by exact N; exact (z_idle _ H t' pc' E')]. rewrite Ex in E'. destruct Nx as [(pc1 & -> & _)|(-> & _)]; [discriminate|]. injection E' as E1 E2. now symmetry.
  - intros t' o' r' pc' E'. destruct (Nat.eq_dec t t') as [<-|N].
    + rewrite Ex in E'. destruct Nx as [(pc1 & -> & _ & L)|(-> & _)]; injection E' as E1 E2; [subst; exact L|subst pc']. destruct o'; exact I.
    + rewrite Eo in E' by exact N. apply (same_local s); [|exact (z_local _ H t' o' r' pc' E')]. apply Fr. apply (Oth t' _ o' N E'). now left.
  - intros q R. destruct (Z.eq_dec q (op_pid o)) as [->|Nq].
    + destruct Nx as [(pc1 & -> & Np & _)|(_ & S)]; [|exact S]. exfalso. apply Np. exact (R t o r pc1 Ex eq_refl).
    + apply (same_settled s); [now apply Fr|]. apply (z_rest _ H). intros t' o' r' pc' E' P. destruct (Nat.eq_dec t t') as [<-|N]; [rewrite E in E'; injection E' as <- <- <-; congruence|]. apply (R t' o' r'); [now rewrite Eo|exact P].
  - intros q Hq. destruct (Z.eq_dec q (op_pid o)) as [->|Nq]; [now apply On|]. destruct (Fr q Nq) as (P & O & _). rewrite O. apply (z_online _ H). now apply P.
  - intros t' r' pc' q E' J Hq. destruct (Nat.eq_dec t t') as [<-|N].
    + assert (Jr : In q (joined r)) by (rewrite Ex in E'; destruct Nx as [(pc1 & -> & Np & _)|(-> & _)]; injection E' as <- <-; [destruct pc1; try congruence; exact J|exact J]).
      assert (Ns : ~ In q (c_players s)).
      { apply (z_fresh _ H t (o :: r) pc q E). destruct pc; try exact Jr. unfold joined. cbn [flat_map]. apply in_or_app. now right. }
      destruct (Z.eq_dec q (op_pid o)) as [Q|Nq]; [|destruct (Fr q Nq) as (P & _); apply Ns; now apply P]. rewrite Q in *. destruct (New Hq) as [X|(p & u & v & ->)]; [contradiction|]. cbn in *. exact (join_once s t p u v r pc H E Jr).
    + rewrite Eo in E' by exact N. assert (Ns := z_fresh _ H t' r' pc' q E' J). destruct (Z.eq_dec q (op_pid o)) as [Q|Nq]; [|destruct (Fr q Nq) as (P & _); apply Ns; now apply P].
      apply joined_op in J. destruct J as (o' & X & P). apply (Oth t' (Thr r' pc') o' N E'); [|congruence]. cbn [c_prog]. destruct pc'; try exact X; destruct r'; [destruct X|now right|destruct X|now right|destruct X|now right|destruct X|now right|destruct X|now right|destruct X|now right|destruct X|now right|destruct X|now right].
Qed.

Lemma rest_head s t o r : cinv s -> nth_error (c_thr s) t = Some (Thr (o :: r) Idle) -> resting s (op_pid o).
Proof.
  intros H E t' o' r' pc' E' P. destruct (Nat.eq_dec t t') as [<-|N]; [congruence|]. exfalso. apply (other_pid s t _ o t' _ o' H E (or_introl eq_refl) E' (or_introl eq_refl) N). now symmetry.
Qed.

Lemma put_same f g l q h : (h = g -> (In q l <-> In q (f g))) -> (In q (put f g l h) <-> In q (f h)).
Proof. unfold put. destruct (Z.eqb_spec h g) as [->|]; [auto|reflexivity]. Qed.
Lemma add_same f g p q h : q <> p -> (In q (put f g (s_add p (f g)) h) <-> In q (f h)).
Proof. intros N. apply put_same. intros _. rewrite s_add_in. intuition. Qed.
Lemma del_same f g p q h : q <> p -> (In q (put f g (s_del p (f g)) h) <-> In q (f h)).
Proof. intros N. apply put_same. intros _. rewrite s_del_in. intuition. Qed.
Lemma obj_same f p v q : q <> p -> set_obj f p v q = f q.
Proof. intros N. unfold set_obj. destruct (Z.eqb_spec q p); congruence. Qed.
Lemma obj_self f p v : set_obj f p v p = v.
Proof. unfold set_obj. now rewrite Z.eqb_refl. Qed.

Lemma cinv_step s t s' : cinv s -> c_step1 a s t = Some s' -> cinv s'.
Proof.
  intros H E0. unfold c_step1 in E0. destruct (nth_error (c_thr s) t) as [[[|o r] pc]|] eqn:E; try discriminate.
  assert (L := z_local _ H t o r pc E).
  assert (Po : op_placed a o) by (destruct (prog_in s t _ o H E (or_introl eq_refl)) as (pr & Ep & Ip); exact (Placed pr o (nth_error_In _ _ Ep) Ip)).
  assert (Keep : forall q, same s s q) by (intros q; split; [reflexivity|split; [reflexivity|intros h; reflexivity]]).
  destruct o as [p x z|p x z|p]; destruct pc as [| | |old new|new| |todo| |]; try discriminate; cbn [op_pid local op_placed] in *; try contradiction.
  - (* join: entered in Players *)
    injection E0 as <-. assert (R := rest_head s t _ r H E). cbn [op_pid] in R. assert (Np : ~ In p (c_players s)) by (apply (z_fresh _ H t _ Idle p E); now left).
    destruct (z_rest _ H p R) as (_ & S0). specialize (S0 Np).
    eapply (frame_step s t _ r Idle); [exact H|exact E|reflexivity|..]; cbn [op_pid c_players c_obj c_mem].
    + intros q N. unfold same. cbn [c_players c_obj c_mem]. rewrite s_add_in. split; [intuition|]. split; [now apply obj_same|reflexivity].
    + left. exists J1. split; [reflexivity|]. split; [discriminate|]. cbn [local c_players c_obj c_mem]. rewrite s_add_in, obj_self. split; [now left|]. split; [exact S0|reflexivity].
    + intros _. rewrite obj_self. exact Po.
    + intros _. right. eauto.
  - (* join: put in the grid *)
    destruct L as (Lp & Ls & Lo). assert (Po' := Po). destruct Po' as (g & gr & Eg & Er). rewrite Eg in E0. unfold add_to in E0. rewrite Er in E0. injection E0 as <-.
    eapply (frame_step s t _ r J1); [exact H|exact E|reflexivity|..]; cbn [op_pid c_players c_obj c_mem].
    + intros q N. unfold same. cbn [c_players c_obj c_mem]. split; [reflexivity|]. split; [reflexivity|]. intros h. now apply add_same.
    + right. split; [reflexivity|]. unfold settled, gpos. cbn [c_players c_obj c_mem]. split; [intros _|contradiction]. rewrite Lo. cbn [pl_x pl_z]. rewrite Eg. intros h. cbn [c_mem]. unfold put. destruct (Z.eqb_spec h g) as [->|N]; [rewrite s_add_in; intuition|]. rewrite (Ls h). split; [discriminate|congruence].
    + intros _. rewrite Lo. exact Po.
    + auto.
  - (* move: handler *)
    assert (R := rest_head s t _ r H E). cbn [op_pid] in R. destruct (mem p (c_players s)) eqn:Em; injection E0 as <-.
    + apply mem_in in Em. eapply (frame_step s t _ r Idle); [exact H|exact E|reflexivity|..]; cbn [op_pid c_players c_obj c_mem]; auto.
      * intros q _. exact (Keep q).
      * left. exists M1. split; [reflexivity|]. split; [discriminate|]. split; [exact Em|]. exact (proj1 (z_rest _ H p R) Em).
      * apply (z_online _ H).
    + eapply (frame_step s t _ r Idle); [exact H|exact E|reflexivity|..]; cbn [op_pid c_players c_obj c_mem]; auto.
      * intros q _. exact (Keep q).
      * right. split; [reflexivity|]. exact (z_rest _ H p R).
      * apply (z_online _ H).
  - (* move: position written *)
    destruct L as (Lp & Ls). assert (Pl0 := z_online _ H p Lp). destruct Pl0 as (g0 & gr0 & Eg0 & Er0). assert (Po' := Po). destruct Po' as (g & gr & Eg & Er). rewrite Eg0, Eg in E0. unfold gpos in Ls. rewrite Eg0 in Ls.
    destruct (Z.eqb_spec g0 g) as [Eqg|Ne]; [assert (E1 := f_equal Some Eqg); rewrite <- E1 in Eg; clear E1|]; injection E0 as <-.
    + eapply (frame_step s t _ r M1); [exact H|exact E|reflexivity|..]; cbn [op_pid c_players c_obj c_mem].
      * intros q N. split; [reflexivity|]. cbn [c_obj c_mem]. split; [now apply obj_same|reflexivity].
      * right. split; [reflexivity|]. split; [intros _|cbn [c_players]; contradiction]. unfold gpos. cbn [c_obj]. rewrite obj_self. cbn [pl_x pl_z]. rewrite Eg. exact Ls.
      * intros _. rewrite obj_self. exact Po.
      * auto.
    + eapply (frame_step s t _ r M1); [exact H|exact E|reflexivity|..]; cbn [op_pid c_players c_obj c_mem].
      * intros q N. split; [reflexivity|]. cbn [c_obj c_mem]. split; [now apply obj_same|reflexivity].
      * left. exists (M2 g0 g). split; [reflexivity|]. split; [discriminate|]. unfold local, gpos. cbn [c_players c_obj c_mem]. rewrite obj_self. cbn [pl_x pl_z]. assert (g_get g0 (a_grids a) <> None) by congruence. auto 10.
      * intros _. rewrite obj_self. exact Po.
      * auto.
  - (* move: out of the old grid *)
    destruct L as (Lp & Ls & Lg & Lx & Lo & Ne & Mo). unfold del_from in E0. destruct (g_get old (a_grids a)) as [gro|] eqn:Ego; [|congruence]. injection E0 as <-.
    eapply (frame_step s t _ r (M2 old new)); [exact H|exact E|reflexivity|..]; cbn [op_pid c_players c_obj c_mem].
    + intros q N. split; [reflexivity|]. cbn [c_obj c_mem]. split; [reflexivity|]. intros h. now apply del_same.
    + left. exists (M3 new). split; [reflexivity|]. split; [discriminate|]. unfold local. cbn [c_players c_obj c_mem]. split; [exact Lp|]. split; [|auto]. intros h. cbn [c_mem]. unfold put. destruct (Z.eqb_spec h old) as [->|N]; [rewrite s_del_in; intuition; discriminate|]. rewrite (Ls h). split; [congruence|discriminate].
    + intros _. rewrite Lo. exact Po.
    + auto.
  - (* move: into the new grid *)
    destruct L as (Lp & Ls & Lg & Lx & Lo). assert (Po' := Po). destruct Po' as (g & gr & Eg & Er). assert (g = new) by congruence. subst g. unfold add_to in E0. rewrite Er in E0. injection E0 as <-.
    eapply (frame_step s t _ r (M3 new)); [exact H|exact E|reflexivity|..]; cbn [op_pid c_players c_obj c_mem].
    + intros q N. split; [reflexivity|]. cbn [c_obj c_mem]. split; [reflexivity|]. intros h. now apply add_same.
    + right. split; [reflexivity|]. split; [intros _|cbn [c_players]; contradiction]. unfold gpos in *. cbn [c_obj]. rewrite Lg. intros h. cbn [c_mem]. unfold put. destruct (Z.eqb_spec h new) as [->|N]; [rewrite s_add_in; intuition|]. rewrite (Ls h). split; [discriminate|congruence].
    + intros _. rewrite Lo. exact Po.
    + auto.
  - (* leave: hook *)
    assert (R := rest_head s t _ r H E). cbn [op_pid] in R. destruct (mem p (c_players s)) eqn:Em; injection E0 as <-.
    + apply mem_in in Em. eapply (frame_step s t _ r Idle); [exact H|exact E|reflexivity|..]; cbn [op_pid c_players c_obj c_mem]; auto.
      * intros q _. exact (Keep q).
      * left. exists L1. split; [reflexivity|]. split; [discriminate|]. split; [exact Em|]. exact (proj1 (z_rest _ H p R) Em).
      * apply (z_online _ H).
    + eapply (frame_step s t _ r Idle); [exact H|exact E|reflexivity|..]; cbn [op_pid c_players c_obj c_mem]; auto.
      * intros q _. exact (Keep q).
      * right. split; [reflexivity|]. exact (z_rest _ H p R).
      * apply (z_online _ H).
  - (* leave: IDs read *)
    destruct L as (Lp & Ls). assert (Ov : forall x, (exists pc', x = Thr (WLeave p :: r) pc' /\ pc' <> Idle /\ local (CWorld (c_players s) (c_obj s) (c_mem s) (upd t x (c_thr s))) p pc' (WLeave p)) \/ x = Thr r Idle ->
      cinv (CWorld (c_players s) (c_obj s) (c_mem s) (upd t x (c_thr s)))).
    { intros y Y. eapply (frame_step s t (WLeave p) r L1); [exact H|exact E|reflexivity|..]; cbn [op_pid c_players c_obj c_mem]; auto; [intros q _; exact (Keep q)| |apply (z_online _ H)].
      destruct Y as [Y| ->]; [now left|right]. split; [reflexivity|]. split; [intros _; exact Ls|contradiction]. }
    destruct (gid_by_pos a _ _) as [g|]; [|injection E0 as <-; apply Ov; now right]. destruct (gids _) as [rr|]; injection E0 as <-; apply Ov; [left|now right]. eexists. split; [reflexivity|]. split; [discriminate|]. split; [exact Lp|exact Ls].
  - (* leave: players looked up *)
    destruct L as (Lp & Ls). assert (Ov : forall x, (exists pc', x = Thr (WLeave p :: r) pc' /\ pc' <> Idle /\ local (CWorld (c_players s) (c_obj s) (c_mem s) (upd t x (c_thr s))) p pc' (WLeave p)) \/ x = Thr r Idle ->
      cinv (CWorld (c_players s) (c_obj s) (c_mem s) (upd t x (c_thr s)))).
    { intros y Y. eapply (frame_step s t (WLeave p) r (L2 todo)); [exact H|exact E|reflexivity|..]; cbn [op_pid c_players c_obj c_mem]; auto; [intros q _; exact (Keep q)| |apply (z_online _ H)].
      destruct Y as [Y| ->]; [now left|right]. split; [reflexivity|]. split; [intros _; exact Ls|contradiction]. }
    destruct todo as [|q todo]; [injection E0 as <-; apply Ov; left; exists L3; split; [reflexivity|]; split; [discriminate|]; split; [exact Lp|exact Ls]|].
    destruct (mem q (c_players s)); injection E0 as <-; apply Ov; [left|now right]. eexists. split; [reflexivity|]. split; [discriminate|]. split; [exact Lp|exact Ls].
  - (* leave: out of the grid *)
    destruct L as (Lp & Ls). assert (Pl0 := z_online _ H p Lp). destruct Pl0 as (g0 & gr0 & Eg0 & Er0). rewrite Eg0 in E0. unfold gpos in Ls. rewrite Eg0 in Ls. unfold del_from in E0. rewrite Er0 in E0. injection E0 as <-.
    eapply (frame_step s t _ r L3); [exact H|exact E|reflexivity|..]; cbn [op_pid c_players c_obj c_mem].
    + intros q N. split; [reflexivity|]. cbn [c_obj c_mem]. split; [reflexivity|]. intros h. now apply del_same.
    + left. exists L4. split; [reflexivity|]. split; [discriminate|]. split; [exact Lp|]. intros h. cbn [c_mem]. unfold put. destruct (Z.eqb_spec h g0) as [->|N]; [rewrite s_del_in; intuition; discriminate|]. rewrite (Ls h). split; [congruence|discriminate].
    + apply (z_online _ H).
    + auto.
  - (* leave: out of Players *)
    destruct L as (Lp & Ls). injection E0 as <-. assert (Np : ~ In p (s_del p (c_players s))) by (rewrite s_del_in; tauto).
    eapply (frame_step s t _ r L4); [exact H|exact E|reflexivity|..]; cbn [op_pid c_players c_obj c_mem].
    + intros q N. split; [cbn [c_players]; rewrite s_del_in; tauto|]. split; reflexivity.
    + right. split; [reflexivity|]. split; cbn [c_players]; [contradiction|intros _; exact Ls].
    + contradiction.
    + contradiction.
Qed.

Lemma cinv_new : cinv (c_new progs).
Proof.
  assert (T : forall t x, nth_error (c_thr (c_new progs)) t = Some x -> exists p, nth_error progs t = Some p /\ x = Thr p Idle).
  { intros t x. cbn. rewrite nth_error_map. destruct (nth_error progs t) as [p|]; [|discriminate]. intros [= <-]. eauto. }
  constructor.
  - cbn. apply map_length.
  - intros t x E. destruct (T t x E) as (p & Ep & ->). exists p, []. auto.
  - intros t pc E. destruct (T t _ E) as (p & _ & [= _ ->]). reflexivity.
  - intros t o r pc E. destruct (T t _ E) as (p & _ & [= _ ->]). destruct o; exact I.
  - intros p _. split; [intros []|]. intros _ h. cbn. split; [intros []|discriminate].
  - intros p [].
  - intros t r pc p _ _ [].
Qed.
Lemma cinv_run ts : cinv (c_run a (c_new progs) ts).
Proof.
  unfold c_run. generalize cinv_new. generalize (c_new progs). induction ts as [|t ts IH]; intros s H; [exact H|]. cbn. apply IH. unfold c_step. destruct (c_step1 a s t) eqn:E; [exact (cinv_step s t _ H E)|exact H].
Qed.
End C.

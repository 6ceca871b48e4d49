From Coq Require Import ZArith List Bool Lia.
From Verif Require Import AsyncResult Spec_Async.
Import ListNotations.

Lemma upd_In {A} i (x : A) : forall l y, In y (upd i x l) -> y = x \/ In y l.
Proof. induction i as [|i IH]; intros [|z l] y; cbn; auto; [intros [<-|H]; auto|]. intros [<-|H]; auto. destruct (IH _ _ H); auto. Qed.
Lemma upd_new {A} i (x z : A) : forall l, nth_error l i = Some z -> In x (upd i x l).
Proof. induction i as [|i IH]; intros [|y l]; cbn; try discriminate; auto. Qed.
Lemma upd_keep {A} i (x z y : A) : forall l, nth_error l i = Some z -> In y l -> y <> z -> In y (upd i x l).
Proof.
  induction i as [|i IH]; intros [|w l]; cbn; try discriminate.
  - intros [= ->] [H|H] N; [congruence|auto].
  - intros E [H|H] N; auto.
Qed.
Lemma upd_map {A B} (f : A -> B) i x z : forall l, nth_error l i = Some z -> f x = f z -> map f (upd i x l) = map f l.
Proof. induction i as [|i IH]; intros [|w l]; cbn; try discriminate; [intros [= ->] ->; auto|]. intros E F. now rewrite IH. Qed.

(* How many calls satisfy f. *)
Definition cnt (f : call * pc -> bool) (l : list (call * pc)) : nat := length (filter f l).
Definition b2n (b : bool) : nat := if b then 1 else 0.
Lemma cnt_upd f i x z : forall l, nth_error l i = Some z -> (cnt f (upd i x l) + b2n (f z) = cnt f l + b2n (f x))%nat.
Proof.
  unfold cnt. induction i as [|i IH]; intros [|w l]; cbn [nth_error upd filter]; try discriminate.
  - intros [= ->]. destruct (f x), (f z); cbn; lia.
  - intros E. specialize (IH _ E). destruct (f w); cbn [length]; lia.
Qed.
Lemma cnt_pos f x : forall l, In x l -> f x = true -> (1 <= cnt f l)%nat.
Proof. unfold cnt. induction l as [|y l IH]; [intros []|]. intros [->|H] E; cbn; [rewrite E; cbn; lia|]. specialize (IH H E). destruct (f y); cbn; lia. Qed.
Lemma cnt_exists f l : (1 <= cnt f l)%nat -> exists x, In x l /\ f x = true.
Proof. unfold cnt. induction l as [|y l IH]; cbn; [lia|]. destruct (f y) eqn:E; [intros _; exists y; auto|]. intros H. destruct (IH H) as (x & A & B). exists x. auto. Qed.

Definition isp (q : pc) (p : pc) : bool := match q, p with P0, P0 | P1, P1 | P2, P2 | D0, D0 | D1, D1 | D2, D2 | End, End => true | _, _ => false end.
Definition set_at (q : pc) (x : call * pc) : bool := is_set (fst x) && isp q (snd x).
Definition cb_at (q : pc) (x : call * pc) : bool := negb (is_set (fst x)) && isp q (snd x).
Definition at_d (x : call * pc) : bool := match snd x with D0 | D1 | D2 => true | _ => false end.
Definition at_d12 (x : call * pc) : bool := match snd x with D1 | D2 => true | _ => false end.
Definition at_d2 (x : call * pc) : bool := isp D2 (snd x).
Definition set_begun (x : call * pc) : bool := is_set (fst x) && negb (isp P0 (snd x)).
Definition cb_begun (x : call * pc) : bool := negb (is_set (fst x)) && negb (isp P0 (snd x)).
(* Will reach the compare-and-swap of doComplete. *)
Definition bound (x : call * pc) : bool :=
  match x with (_, D0) | (_, D1) | (CbCall _, P2) | (SetCall _, P1) => true | _ => false end.

Record Inv (s : asys) : Prop := {
  i_set : r_hasret (a_mem s) = false -> cnt set_begun (a_calls s) = 0%nat /\ r_obj (a_mem s) = None;
  i_set2 : (1 <= cnt set_begun (a_calls s))%nat -> r_hasret (a_mem s) = true;
  i_p1 : (cnt (set_at P1) (a_calls s) <= 1)%nat;
  i_obj : r_hasret (a_mem s) = true -> cnt (set_at P1) (a_calls s) = 0%nat -> exists v, r_obj (a_mem s) = Some v /\ In (SetCall v) (map fst (a_calls s));
  i_c : r_hasfn (a_mem s) = false -> cnt cb_begun (a_calls s) = 0%nat /\ r_fn (a_mem s) = None;
  i_c2 : (1 <= cnt cb_begun (a_calls s))%nat -> r_hasfn (a_mem s) = true;
  i_cp1 : (cnt (cb_at P1) (a_calls s) <= 1)%nat;
  i_fn0 : (1 <= cnt (cb_at P1) (a_calls s))%nat -> r_fn (a_mem s) = None;
  i_fn : r_hasfn (a_mem s) = true -> cnt (cb_at P1) (a_calls s) = 0%nat -> In (CbCall (r_fn (a_mem s))) (map fst (a_calls s));
  i_d : (1 <= cnt at_d (a_calls s))%nat -> r_hasret (a_mem s) = true;
  i_d12 : (1 <= cnt at_d12 (a_calls s))%nat -> r_fn (a_mem s) <> None;
  i_called : r_called (a_mem s) = true -> r_hasret (a_mem s) = true /\ r_fn (a_mem s) <> None /\ (cnt at_d2 (a_calls s) + length (scheduled s) = 1)%nat;
  i_uncalled : r_called (a_mem s) = false -> cnt at_d2 (a_calls s) = 0%nat /\ scheduled s = [];
  i_what : forall f, In f (scheduled s) -> f = r_fn (a_mem s);
  i_lost : r_hasret (a_mem s) = true -> r_fn (a_mem s) <> None -> r_called (a_mem s) = false -> (1 <= cnt bound (a_calls s))%nat;
  i_hf : r_hasfn (a_mem s) = true -> (1 <= cnt cb_begun (a_calls s))%nat;
  i_hr : r_hasret (a_mem s) = true -> (1 <= cnt set_begun (a_calls s))%nat
}.

Arguments set_begun x /. Arguments set_at q x /. Arguments cb_begun x /. Arguments cb_at q x /. Arguments at_d x /. Arguments at_d12 x /. Arguments at_d2 x /. Arguments bound x /. Arguments b2n b /.
Local Arguments cnt : simpl never.
Lemma cnt0 f calls : (forall c, f (c, P0) = false) -> cnt f (map (fun c => (c, P0)) calls) = 0%nat.
Proof. intros H. unfold cnt. induction calls as [|c l IH]; [reflexivity|]. cbn. now rewrite H. Qed.

Lemma inv_new calls : Inv (a_new calls).
Proof.
  assert (B : forall f, (forall c, f (c, P0) = false) -> cnt f (a_calls (a_new calls)) = 0%nat) by (intros; now apply cnt0).
  assert (B1 := B set_begun ltac:(intros c; unfold set_begun; cbn; apply andb_false_r)). assert (B2 := B (set_at P1) ltac:(intros c; unfold set_at; cbn; apply andb_false_r)).
  assert (B3 := B cb_begun ltac:(intros c; unfold cb_begun; cbn; apply andb_false_r)). assert (B4 := B (cb_at P1) ltac:(intros c; unfold cb_at; cbn; apply andb_false_r)).
  assert (B5 := B at_d ltac:(reflexivity)). assert (B6 := B at_d12 ltac:(reflexivity)). assert (B7 := B at_d2 ltac:(reflexivity)).
  constructor; rewrite ?B1, ?B2, ?B3, ?B4, ?B5, ?B6, ?B7; cbn; try discriminate; try lia; auto.
Qed.


Lemma cnt_le f g l : (forall x, f x = true -> g x = true) -> (cnt f l <= cnt g l)%nat.
Proof. intros H. unfold cnt. induction l as [|x l IH]; cbn; [lia|]. specialize (H x). destruct (f x); [rewrite H by reflexivity; cbn; lia|]. destruct (g x); cbn; lia. Qed.
Lemma le1 l : (cnt (set_at P1) l <= cnt set_begun l)%nat.
Proof. apply cnt_le. intros [[v|f] []]; auto. Qed.
Lemma le2 l : (cnt (cb_at P1) l <= cnt cb_begun l)%nat.
Proof. apply cnt_le. intros [[v|f] []]; auto. Qed.
Lemma le3 l : (cnt at_d12 l <= cnt at_d l)%nat.
Proof. apply cnt_le. intros [[v|f] []]; auto. Qed.
Lemma le4 l : (cnt at_d2 l <= cnt at_d12 l)%nat.
Proof. apply cnt_le. intros [[v|f] []]; auto. Qed.

Ltac facts U Mp Pz q := let F := fresh in
  assert (F := U set_begun q); assert (F2 := U (set_at P1) q); assert (F3 := U cb_begun q); assert (F4 := U (cb_at P1) q); assert (F5 := U at_d q);
  assert (F6 := U at_d12 q); assert (F7 := U at_d2 q); assert (F8 := U bound q); assert (M := Mp q);
  assert (Z1 := Pz set_begun); assert (Z2 := Pz (set_at P1)); assert (Z3 := Pz cb_begun); assert (Z4 := Pz (cb_at P1)); assert (Z5 := Pz at_d); assert (Z6 := Pz at_d12); assert (Z7 := Pz at_d2); assert (Z8 := Pz bound);
  cbn in F, F2, F3, F4, F5, F6, F7, F8, Z1, Z2, Z3, Z4, Z5, Z6, Z7, Z8; clear U Mp Pz.
Ltac close := constructor; cbn [a_mem a_calls r_hasret r_hasfn r_called r_obj r_fn r_queue r_ran]; unfold scheduled; cbn [a_mem r_hasret r_hasfn r_called r_obj r_fn r_queue r_ran];
  match goal with M : map fst _ = _ |- _ => rewrite ?M end; 
  try solve [intuition (try lia; try congruence; eauto)];
  try match goal with H : _ -> _ |- _ => solve [intros; apply H; first [lia|assumption|reflexivity]] end;
  try match goal with H8 : _ -> ?fn = None, H11 : _ -> ?fn <> None |- _ => solve [intros; exfalso; apply H11; [|apply H8]; lia] end.

Lemma inv_go s i : Inv s -> Inv (a_step s (Go i)).
Proof.
  intros H. cbn [a_step]. destruct (nth_error (a_calls s) i) as [[c p]|] eqn:E; [|exact H].
  destruct s as [m calls]. cbn [a_mem a_calls] in *.
  assert (U : forall f p', (cnt f (upd i (c, p') calls) + b2n (f (c, p)) = cnt f calls + b2n (f (c, p')))%nat) by (intros; now apply cnt_upd).
  assert (Hin : In c (map fst calls)) by (apply nth_error_In in E; apply in_map_iff; now exists (c, p)).
  assert (Pz : forall f, f (c, p) = true -> (1 <= cnt f calls)%nat) by (intros f Hf; apply (cnt_pos f (c, p)); [eapply nth_error_In; exact E|exact Hf]).
  assert (Mp : forall p', map fst (upd i (c, p') calls) = map fst calls) by (intros; apply (upd_map fst i (c, p') (c, p)); [exact E|reflexivity]).
  destruct H as [h1 h2 h3 h4 h5 h6 h7 h8 h9 h10 h11 h12 h13 h14 h15 h16 h17]. cbn [a_mem a_calls] in *. unfold scheduled in *. cbn [a_mem] in *. clear E. assert (L1 := le1 calls). assert (L2 := le2 calls). assert (L3 := le3 calls). assert (L4 := le4 calls).
  destruct m as [hr hf ca ob fn q rn]. cbn [r_hasret r_hasfn r_called r_obj r_fn r_queue r_ran] in *.
  destruct p; [destruct c as [v|f]|destruct c as [v|f]| | | | |]; cbn [call_step r_hasret r_hasfn r_called r_obj r_fn r_queue r_ran].
  - destruct hr; [facts U Mp Pz End|facts U Mp Pz P1]; close.
  - destruct hf; [facts U Mp Pz End|facts U Mp Pz P1]; close.
  - facts U Mp Pz D0; close.
  - facts U Mp Pz P2; close. intros f0 Hf0. destruct ca; [destruct h12 as (_ & X & _); [reflexivity|]; exfalso; apply X; apply h8; lia|]. destruct h13 as (_ & X); [reflexivity|]. rewrite X in Hf0. destruct Hf0.
  - destruct hr; [facts U Mp Pz D0|facts U Mp Pz End]; destruct c; close.
  - destruct fn; [facts U Mp Pz D1|facts U Mp Pz End]; destruct c; close.
  - destruct ca; [facts U Mp Pz End|facts U Mp Pz D2]; destruct c; close.
    + intros _. destruct h13 as (X & Y); [reflexivity|]. rewrite Y. split; [apply h10; lia|]. split; [apply h11; lia|cbn; lia].
    + intros _. destruct h13 as (X & Y); [reflexivity|]. rewrite Y. split; [apply h10; lia|]. split; [apply h11; lia|cbn; lia].
  - facts U Mp Pz End; destruct c; close.
    + intros Hc. destruct (h12 Hc) as (X & Y & W). split; [exact X|]. split; [exact Y|]. rewrite app_assoc, app_length. cbn [length]. lia.
    + intros f Hf. rewrite app_assoc in Hf. apply in_app_or in Hf. destruct Hf as [Hf|[Hf|[]]]; auto.
    + intros Hc. destruct (h12 Hc) as (X & Y & W). split; [exact X|]. split; [exact Y|]. rewrite app_assoc, app_length. cbn [length]. lia.
    + intros f1 Hf. rewrite app_assoc in Hf. apply in_app_or in Hf. destruct Hf as [Hf|[Hf|[]]]; auto.
  - facts U Mp Pz End; destruct c; close.
Qed.

Lemma inv_cb s : Inv s -> Inv (a_step s Run).
Proof.
  intros H. cbn [a_step]. destruct s as [[hr hf ca ob fn q rn] calls]. cbn [a_mem r_queue]. destruct q as [|f q]; [exact H|].
  assert (E : forall x, map fst (rn ++ [(f, x)]) ++ q = map fst rn ++ f :: q) by (intros; rewrite map_app, <- app_assoc; reflexivity).
  destruct H. constructor; unfold scheduled in *; cbn [a_mem a_calls r_hasret r_hasfn r_called r_obj r_fn r_queue r_ran] in *; rewrite ?E; auto.
Qed.

Lemma inv_step s l : Inv s -> Inv (a_step s l).
Proof. destruct l; [apply inv_go|apply inv_cb]. Qed.
Lemma inv_run ls : forall s, Inv s -> Inv (a_run s ls).
Proof. induction ls as [|l ls IH]; intros s H; [exact H|]. cbn. apply IH. now apply inv_step. Qed.
Lemma inv_reach calls ls : Inv (a_run (a_new calls) ls).
Proof. apply inv_run, inv_new. Qed.

Lemma calls_step s l : map fst (a_calls (a_step s l)) = map fst (a_calls s).
Proof.
  destruct l as [i|]; cbn [a_step].
  - destruct (nth_error (a_calls s) i) as [[c p]|] eqn:E; [|reflexivity]. destruct (call_step c p (a_mem s)) as [m p']. cbn. now apply (upd_map fst i (c, p') (c, p)).
  - destruct (r_queue (a_mem s)); reflexivity.
Qed.
Lemma calls_run ls : forall s, map fst (a_calls (a_run s ls)) = map fst (a_calls s).
Proof. induction ls as [|l ls IH]; intros s; [reflexivity|]. cbn. fold (a_run (a_step s l) ls). now rewrite IH, calls_step. Qed.
Lemma calls_reach calls ls : map fst (a_calls (a_run (a_new calls) ls)) = calls.
Proof. rewrite calls_run. cbn. rewrite map_map. cbn. apply map_id. Qed.

Lemma cnt_zero f l : (forall x, In x l -> f x = false) -> cnt f l = 0%nat.
Proof. unfold cnt. induction l as [|x l IH]; intros H; [reflexivity|]. cbn. rewrite (H x) by now left. apply IH. intros y Hy. apply H. now right. Qed.

Lemma at_most_one calls ls : (length (scheduled (a_run (a_new calls) ls)) <= 1)%nat /\
  (forall f, In f (scheduled (a_run (a_new calls) ls)) -> f <> None /\ In (CbCall f) calls /\ exists v, In (SetCall v) calls).
Proof.
  set (s := a_run (a_new calls) ls). assert (I := inv_reach calls ls). fold s in I. destruct (r_called (a_mem s)) eqn:E.
  - destruct (i_called s I E) as (A & B & C). split; [lia|]. intros f Hf. rewrite (i_what s I f Hf). split; [exact B|]. split.
    + rewrite <- (calls_reach calls ls). fold s. destruct (r_hasfn (a_mem s)) eqn:Ef; [|now destruct (i_c s I Ef)].
      apply (i_fn s I Ef). destruct (cnt (cb_at P1) (a_calls s)) eqn:Ec; [reflexivity|]. exfalso. apply B. apply (i_fn0 s I). lia.
    + assert (X : (1 <= cnt (fun x => is_set (fst x)) (a_calls s))%nat).
      { destruct (cnt (set_at P1) (a_calls s)) eqn:Ec.
        - destruct (i_obj s I A Ec) as (v & _ & Hv). apply in_map_iff in Hv. destruct Hv as ((c & p) & Ev & Hv). cbn in Ev. subst c. now apply (cnt_pos _ (SetCall v, p)).
        - assert (cnt (set_at P1) (a_calls s) <= cnt (fun x => is_set (fst x)) (a_calls s))%nat by (apply cnt_le; intros [[v|g] p]; cbn; auto). lia. }
      apply cnt_exists in X. destruct X as (([v|g] & p) & X & Y); [|discriminate]. exists v. rewrite <- (calls_reach calls ls). fold s. apply in_map_iff. now exists (SetCall v, p).
  - destruct (i_uncalled s I E) as (_ & X). rewrite X. split; [cbn; lia|intros f []].
Qed.

Lemma exactly_once calls ls v f : In (SetCall v) calls -> In (CbCall f) calls -> ~ In (CbCall None) calls -> all_returned (a_run (a_new calls) ls) ->
  exists g, In (CbCall (Some g)) calls /\ scheduled (a_run (a_new calls) ls) = [Some g].
Proof.
  intros Hs Hc Hn Hd. set (s := a_run (a_new calls) ls) in *. assert (I := inv_reach calls ls). fold s in I. assert (Ec := calls_reach calls ls). fold s in Ec.
  assert (Z : forall g, (forall c, g (c, End) = false) -> cnt g (a_calls s) = 0%nat) by (intros g Hg; apply cnt_zero; intros [c p] Hx; rewrite (Hd c p Hx); apply Hg).
  assert (R : r_hasret (a_mem s) = true).
  { apply (i_set2 s I). rewrite <- Ec in Hs. apply in_map_iff in Hs. destruct Hs as ((c & p) & E1 & E2). cbn in E1. subst c. apply (cnt_pos _ (SetCall v, p)); [exact E2|]. rewrite (Hd _ _ E2). reflexivity. }
  assert (F : r_hasfn (a_mem s) = true).
  { apply (i_c2 s I). rewrite <- Ec in Hc. apply in_map_iff in Hc. destruct Hc as ((c & p) & E1 & E2). cbn in E1. subst c. apply (cnt_pos _ (CbCall f, p)); [exact E2|]. rewrite (Hd _ _ E2). reflexivity. }
  assert (G := i_fn s I F (Z (cb_at P1) ltac:(intros []; reflexivity))). rewrite Ec in G.
  destruct (r_fn (a_mem s)) as [g|] eqn:Eg; [|contradiction]. exists g. split; [exact G|].
  assert (C : r_called (a_mem s) = true).
  { destruct (r_called (a_mem s)) eqn:C; [reflexivity|]. exfalso. assert (X := i_lost s I R ltac:(congruence) C). rewrite (Z bound) in X by (intros []; reflexivity). lia. }
  destruct (i_called s I C) as (_ & _ & N). rewrite (Z at_d2) in N by reflexivity. assert (W := i_what s I). destruct (scheduled s) as [|x [|y r]]; cbn in N; try lia. now rewrite (W x (or_introl eq_refl)), Eg.
Qed.

(* The result is there once its store is done. *)
Definition stored_ok (s : asys) : Prop := r_hasret (a_mem s) = true /\ cnt (set_at P1) (a_calls s) = 0%nat.
Lemma stored_step s l : stored_ok s -> stored_ok (a_step s l) /\ r_obj (a_mem (a_step s l)) = r_obj (a_mem s).
Proof.
  intros (A & B). destruct l as [i|]; cbn [a_step].
  - destruct (nth_error (a_calls s) i) as [[c p]|] eqn:E; [|repeat split; assumption].
    assert (U : forall p', (cnt (set_at P1) (upd i (c, p') (a_calls s)) + b2n (set_at P1 (c, p)) = cnt (set_at P1) (a_calls s) + b2n (set_at P1 (c, p')))%nat) by (intros; now apply cnt_upd).
    assert (N : set_at P1 (c, p) = false) by (destruct (set_at P1 (c, p)) eqn:X; [|reflexivity]; apply nth_error_In in E; assert (Y := cnt_pos _ _ _ E X); lia).
    destruct c as [v|f], p; cbn [call_step]; rewrite ?A; try discriminate N; unfold stored_ok;
      repeat match goal with |- context [if ?b then _ else _] => destruct b | |- context [match r_fn ?b with Some _ => _ | None => _ end] => destruct (r_fn b) end;
      cbn [a_mem a_calls r_hasret r_obj]; (split; [split; [first [assumption|reflexivity]|]|reflexivity]); match goal with |- cnt _ (upd _ (_, ?q) _) = _ => specialize (U q) end; cbn in U; lia.
  - destruct (r_queue (a_mem s)); repeat split; assumption.
Qed.

Definition good (calls : list call) (x : option Z * option Z) : Prop := exists v, snd x = Some v /\ In (SetCall v) calls.
Lemma stored_good calls ls : stored_ok (a_run (a_new calls) ls) -> exists v, r_obj (a_mem (a_run (a_new calls) ls)) = Some v /\ In (SetCall v) calls.
Proof.
  intros (A & B). destruct (i_obj _ (inv_reach calls ls) A B) as (v & E & H). rewrite calls_reach in H. eauto.
Qed.
Lemma a_run_snoc s ls l : a_run s (ls ++ [l]) = a_step (a_run s ls) l.
Proof. unfold a_run. now rewrite fold_left_app. Qed.
Lemma a_run_app s a b : a_run s (a ++ b) = a_run (a_run s a) b.
Proof. unfold a_run. now rewrite fold_left_app. Qed.
Lemma ran_step s l : r_ran (a_mem (a_step s l)) = r_ran (a_mem s) \/ (l = Run /\ exists f q, r_queue (a_mem s) = f :: q /\ r_ran (a_mem (a_step s l)) = r_ran (a_mem s) ++ [(f, r_obj (a_mem s))]).
Proof.
  destruct l as [i|]; cbn [a_step].
  - left. destruct (nth_error (a_calls s) i) as [[c p]|]; [|reflexivity]. destruct c, p; cbn [call_step]; try reflexivity.
    all: repeat match goal with |- context [if ?b then _ else _] => destruct b end; reflexivity.
  - destruct (r_queue (a_mem s)) as [|f q]; [now left|right]. split; [reflexivity|]. exists f, q. auto.
Qed.

Lemma no_set_p2 calls ls : cnt (set_at P2) (a_calls (a_run (a_new calls) ls)) = 0%nat.
Proof.
  induction ls as [|l ls IH] using rev_ind; [apply cnt0; intros c; unfold set_at; cbn; apply andb_false_r|]. rewrite a_run_snoc. set (s := a_run (a_new calls) ls) in *.
  destruct l as [i|]; cbn [a_step]; [|destruct (r_queue (a_mem s)); exact IH]. destruct (nth_error (a_calls s) i) as [[c p]|] eqn:E; [|exact IH].
  assert (U : forall p', (cnt (set_at P2) (upd i (c, p') (a_calls s)) + b2n (set_at P2 (c, p)) = cnt (set_at P2) (a_calls s) + b2n (set_at P2 (c, p')))%nat) by (intros; now apply cnt_upd).
  destruct (call_step c p (a_mem s)) as [m p'] eqn:Ec. cbn [a_calls]. specialize (U p'). assert (N : set_at P2 (c, p') = false); [|rewrite N in U; cbn [b2n] in U; lia].
  destruct c as [v|f]; [|reflexivity]. destruct p; cbn in Ec; repeat match type of Ec with context [if ?b then _ else _] => destruct b | context [match ?b with Some _ => _ | None => _ end] => destruct b end; injection Ec as _ <-; reflexivity.
Qed.

Lemma set_first calls v ls1 ls2 : let s1 := a_run (a_new calls) ls1 in In (SetCall v) calls -> returned is_set s1 -> untouched (fun c => negb (is_set c)) s1 ->
  forall x, In x (r_ran (a_mem (a_run s1 ls2))) -> good calls x.
Proof.
  intros s1 Hv Hr Hu. assert (I := inv_reach calls ls1). fold s1 in I. assert (Ec := calls_reach calls ls1). fold s1 in Ec.
  assert (St : stored_ok s1).
  { split.
    - apply (i_set2 s1 I). rewrite <- Ec in Hv. apply in_map_iff in Hv. destruct Hv as ((c & p) & E1 & E2). cbn in E1. subst c. apply (cnt_pos _ (SetCall v, p)); [exact E2|]. now rewrite (Hr _ _ E2 eq_refl).
    - apply cnt_zero. intros [c p] Hx. unfold set_at. cbn [fst snd]. destruct (is_set c) eqn:E; [|reflexivity]. now rewrite (Hr _ _ Hx E). }
  assert (R0 : r_ran (a_mem s1) = []).
  { assert (Zb : cnt cb_begun (a_calls s1) = 0%nat).
    { apply cnt_zero. intros [c p] Hx. unfold cb_begun. cbn [fst snd]. destruct (is_set c) eqn:E; [reflexivity|]. rewrite (Hu _ _ Hx); [reflexivity|now rewrite E]. }
    destruct (r_hasfn (a_mem s1)) eqn:Ef; [assert (X := i_hf s1 I Ef); lia|]. destruct (i_c s1 I Ef) as (_ & Fn).
    destruct (r_called (a_mem s1)) eqn:C; [destruct (i_called s1 I C) as (_ & X & _); contradiction|]. destruct (i_uncalled s1 I C) as (_ & X). unfold scheduled in X. apply app_eq_nil in X. destruct X as (X & _). now apply map_eq_nil in X. }
  assert (G : forall ls2, stored_ok (a_run s1 ls2) /\ forall x, In x (r_ran (a_mem (a_run s1 ls2))) -> good calls x).
  { intros l2. induction l2 as [|l l2 IH] using rev_ind; [split; [exact St|]; cbn [a_run fold_left]; rewrite R0; intros x []|]. destruct IH as (A & B). rewrite a_run_snoc. split; [now apply stored_step|].
    intros x Hx. destruct (ran_step (a_run s1 l2) l) as [E|(-> & f & q & Eq & E)]; rewrite E in Hx; [now apply B|]. apply in_app_or in Hx. destruct Hx as [Hx|[<-|[]]]; [now apply B|].
    unfold s1 in *. rewrite <- a_run_app in *. exact (stored_good calls _ A). }
  intros x. apply G.
Qed.

Lemma cb_first calls ls1 ls2 : let s1 := a_run (a_new calls) ls1 in returned (fun c => negb (is_set c)) s1 -> untouched is_set s1 ->
  forall x, In x (r_ran (a_mem (a_run s1 ls2))) -> good calls x.
Proof.
  intros s1 Hr Hu. assert (I := inv_reach calls ls1). fold s1 in I.
  assert (Zs : r_hasret (a_mem s1) = false).
  { destruct (r_hasret (a_mem s1)) eqn:E; [|reflexivity]. assert (X := i_hr s1 I E). rewrite cnt_zero in X; [lia|]. intros [c p] Hx. unfold set_begun. cbn [fst snd]. destruct (is_set c) eqn:Ei; [|reflexivity]. now rewrite (Hu _ _ Hx Ei). }
  assert (Nc : r_called (a_mem s1) = false) by (destruct (r_called (a_mem s1)) eqn:C; [destruct (i_called s1 I C); congruence|reflexivity]).
  destruct (i_uncalled s1 I Nc) as (_ & Sc). unfold scheduled in Sc. apply app_eq_nil in Sc. destruct Sc as (R0 & Q0). apply map_eq_nil in R0.
  set (Q := fun s => returned (fun c => negb (is_set c)) s /\ ((1 <= cnt at_d (a_calls s))%nat -> stored_ok s) /\ (r_queue (a_mem s) <> [] -> stored_ok s) /\ forall x, In x (r_ran (a_mem s)) -> good calls x).
  assert (G : forall ls2, Q (a_run s1 ls2)).
  { intros l2. induction l2 as [|l l2 IH] using rev_ind.
    - cbn [a_run fold_left]. split; [exact Hr|]. split; [intros X; apply (i_d s1 I) in X; congruence|]. split; [congruence|]. rewrite R0. intros x [].
    - rewrite a_run_snoc. assert (I2 : Inv (a_run s1 l2)) by (unfold s1; rewrite <- a_run_app; apply inv_reach). assert (SG := fun A => stored_good calls (ls1 ++ l2) A). rewrite a_run_app in SG. fold s1 in SG.
      set (s := a_run s1 l2) in *. destruct IH as (A & B & C & D).
      assert (D' : forall x, In x (r_ran (a_mem (a_step s l))) -> good calls x).
      { intros x Hx. destruct (ran_step s l) as [E|(-> & f & q & Eq & E)]; rewrite E in Hx; [now apply D|]. apply in_app_or in Hx. destruct Hx as [Hx|[<-|[]]]; [now apply D|]. apply SG. apply C. rewrite Eq. discriminate. }
      split; [|split; [|split; [|exact D']]].
      + destruct l as [i|]; cbn [a_step]; [|destruct (r_queue (a_mem s)); exact A]. destruct (nth_error (a_calls s) i) as [[c p]|] eqn:E; [|exact A]. destruct (call_step c p (a_mem s)) as [m p'] eqn:Ec. intros c0 p0 Hx Hn. cbn [a_calls] in Hx.
        apply upd_In in Hx. destruct Hx as [[= -> ->]|Hx]; [|now apply (A c0)]. apply nth_error_In in E. rewrite (A _ _ E Hn) in Ec. cbn in Ec. congruence.
      + destruct (cnt at_d (a_calls s)) eqn:Ed; [|intros _; apply stored_step; apply B; lia].
        destruct l as [i|]; cbn [a_step]; [|destruct (r_queue (a_mem s)) eqn:Eq; cbn [a_calls]; lia]. destruct (nth_error (a_calls s) i) as [[c p]|] eqn:E; [|lia].
        assert (U : forall p', (cnt at_d (upd i (c, p') (a_calls s)) + b2n (at_d (c, p)) = cnt at_d (a_calls s) + b2n (at_d (c, p')))%nat) by (intros; now apply cnt_upd).
        assert (U1 : forall p', (cnt (set_at P1) (upd i (c, p') (a_calls s)) + b2n (set_at P1 (c, p)) = cnt (set_at P1) (a_calls s) + b2n (set_at P1 (c, p')))%nat) by (intros; now apply cnt_upd).
        assert (Nd : at_d (c, p) = false) by (destruct (at_d (c, p)) eqn:X; [|reflexivity]; apply nth_error_In in E; assert (Y := cnt_pos _ _ _ E X); lia).
        assert (Ce : is_set c = false -> p = End) by (intros X; apply nth_error_In in E; apply (A _ _ E); now rewrite X).
        destruct c as [v|f]; [|specialize (Ce eq_refl); subst p; cbn [call_step a_calls]; intros X; specialize (U End); cbn in U; lia].
        destruct p; try discriminate Nd; cbn [call_step].
        * destruct (r_hasret (a_mem s)); cbn [a_calls]; intros X; [specialize (U End)|specialize (U P1)]; cbn in U; lia.
        * intros _. apply nth_error_In in E. assert (Y := cnt_pos (set_at P1) _ _ E eq_refl). assert (Y1 := i_p1 s I2). specialize (U1 D0). cbn in U1. split; cbn [a_mem a_calls r_hasret]; [|lia].
          apply (i_set2 s I2). assert (Z1 := le1 (a_calls s)). lia.
        * cbn [a_calls]. destruct (r_hasret (a_mem s)) eqn:Er; intros X; [|specialize (U End); cbn in U; lia].
          exfalso. (* SetCall never reaches P2 *) revert X. intros _. assert (Np := no_set_p2 calls (ls1 ++ l2)). rewrite a_run_app in Np. fold s1 s in Np. apply nth_error_In in E. assert (Y := cnt_pos (set_at P2) _ _ E eq_refl). lia.
        * cbn [a_calls]. intros X. specialize (U End). cbn in U. lia.
      + intros X. destruct (list_eq_dec (fun a b : option Z => ltac:(decide equality; apply Z.eq_dec) : {a = b} + {a <> b}) (r_queue (a_mem s)) []) as [Eq|Ne]; [|apply stored_step; now apply C].
        destruct l as [i|]; cbn [a_step] in *; [|rewrite Eq in X; now rewrite Eq in X]. destruct (nth_error (a_calls s) i) as [[c p]|] eqn:E; [|contradiction].
        assert (Dd : p = D2).
        { destruct p; auto; exfalso; apply X; destruct c; cbn [call_step]; repeat match goal with |- context [if ?b then _ else _] => destruct b end; exact Eq. }
        subst p. assert (W : stored_ok (a_step s (Go i))) by (apply stored_step; apply B; apply nth_error_In in E; apply (cnt_pos at_d _ _ E eq_refl)). cbn [a_step] in W. now rewrite E in W. }
  intros x. apply (G ls2).
Qed.

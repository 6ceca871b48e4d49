From Coq Require Import ZArith List Bool Arith Lia.
From Verif Require Import Bytes Pack Request Request_proofs RequestHeap GoSlice Spec_RequestHeap Router_proofs.
Import ListNotations.

Section S.
  Variable pooled : bool.
  Variable nc : bool.       (* no copies are made *)

  Record qsim (s : qstate) (l : list vreq) : Prop := {
    qs_len : length (q_handles s) = length l;
    qs_live : forall h r b v, nth_error (q_handles s) h = Some (r, b) -> nth_error l h = Some v -> b = v_live v;
    qs_obj : forall h r v, nth_error (q_handles s) h = Some (r, true) -> nth_error l h = Some v ->
       exists o, nth_error (w_objs (q_world s)) r = Some o /\
         (forall k, kv_get k (obj_keys (q_world s) o) = v_keys v k) /\ m_id (o_msg o) = m_id (v_msg v) /\
         (forall a, o_keys o = Some a -> a < length (w_maps (q_world s))) /\
         (nc = true -> (forall x, v_resp v = Some x -> o_resp o = Some x) /\
                       (pooled = false -> o_resp o = v_resp v));
    qs_distinct : forall h h' r r', h <> h' -> nth_error (q_handles s) h = Some (r, true) ->
       nth_error (q_handles s) h' = Some (r', true) -> r <> r';
    qs_pool : NoDup (w_pool (q_world s)) /\ (forall r, In r (w_pool (q_world s)) -> r < length (w_objs (q_world s))) /\
       (forall h r, nth_error (q_handles s) h = Some (r, true) -> ~ In r (w_pool (q_world s)));
    qs_maps : forall h h' r r' o o' a, h <> h' -> nth_error (q_handles s) h = Some (r, true) ->
       nth_error (q_handles s) h' = Some (r', true) ->
       nth_error (w_objs (q_world s)) r = Some o -> nth_error (w_objs (q_world s)) r' = Some o' ->
       o_keys o = Some a -> o_keys o' <> Some a
  }.

  Lemma live_spec s l h r : qsim s l -> live s h = Some r ->
    nth_error (q_handles s) h = Some (r, true) /\ exists v, nth_error l h = Some v /\ v_live v = true.
  Proof.
    intros H E. unfold live in E. destruct (nth_error (q_handles s) h) as [[r0 [|]]|] eqn:Eh; try discriminate.
    injection E as ->. split; [reflexivity|].
    destruct (nth_error l h) as [v|] eqn:Ev.
    - exists v. split; [reflexivity|]. symmetry. eapply qs_live; eauto.
    - exfalso. apply nth_error_None in Ev. rewrite <- (qs_len _ _ H) in Ev.
      apply nth_error_None in Ev. congruence.
  Qed.

  Lemma dead_spec s l h : qsim s l -> live s h = None ->
    match nth_error l h with Some v => v_live v = false | None => True end.
  Proof.
    intros H E. unfold live in E. destruct (nth_error l h) as [v|] eqn:Ev; [|exact I].
    destruct (nth_error (q_handles s) h) as [[r b]|] eqn:Eh.
    - rewrite <- (qs_live _ _ H h r b v Eh Ev). destruct b; [discriminate|reflexivity].
    - exfalso. apply nth_error_None in Eh. rewrite (qs_len _ _ H) in Eh. apply nth_error_None in Eh. congruence.
  Qed.

  Lemma vupd_dead s l h f : qsim s l -> live s h = None -> vupd l h f = l.
  Proof.
    intros H E. pose proof (dead_spec _ _ _ H E) as Hd. unfold vupd.
    destruct (nth_error l h) as [v|]; [|reflexivity]. now rewrite Hd.
  Qed.
  Lemma vupd_live s l h r f v : qsim s l -> live s h = Some r -> nth_error l h = Some v -> vupd l h f = set_nth h (f v) l.
  Proof.
    intros H E Ev. destruct (live_spec _ _ _ _ H E) as (_ & v' & Ev' & Hv). unfold vupd.
    rewrite Ev. assert (v' = v) as -> by congruence. now rewrite Hv.
  Qed.

  (* a new handle on a new or reset object without keys, or a copy *)
  Lemma qsim_add s l w' r o v :
    qsim s l ->
    nth_error (w_objs w') r = Some o ->
    length (w_objs (q_world s)) <= length (w_objs w') ->
    (forall h r0, nth_error (q_handles s) h = Some (r0, true) ->
        r0 <> r /\ nth_error (w_objs w') r0 = nth_error (w_objs (q_world s)) r0) ->
    (exists ext, w_maps w' = w_maps (q_world s) ++ ext) ->
    (o_keys o = None \/ o_keys o = Some (length (w_maps (q_world s))) /\
        length (w_maps (q_world s)) < length (w_maps w')) ->
    (forall k, kv_get k (obj_keys w' o) = v_keys v k) -> m_id (o_msg o) = m_id (v_msg v) -> v_live v = true ->
    (nc = true -> (forall x, v_resp v = Some x -> o_resp o = Some x) /\ (pooled = false -> o_resp o = v_resp v)) ->
    NoDup (w_pool w') -> (forall x, In x (w_pool w') -> In x (w_pool (q_world s)) /\ x <> r) ->
    qsim {| q_world := w'; q_handles := q_handles s ++ [(r, true)] |} (l ++ [v]).
  Proof.
    intros H Eo Hlen Hold [ext Hmaps] Hkeys Hk Hid Hv Hresp Hnd Hpool.
    assert (Hsame : forall o0 a, o_keys o0 = Some a -> a < length (w_maps (q_world s)) ->
              obj_keys w' o0 = obj_keys (q_world s) o0).
    { intros o0 a Ea La. unfold obj_keys. rewrite Ea, Hmaps. now rewrite app_nth1. }
    assert (Hsame0 : forall o0, (forall a, o_keys o0 = Some a -> a < length (w_maps (q_world s))) ->
              obj_keys w' o0 = obj_keys (q_world s) o0).
    { intros o0 Ha. destruct (o_keys o0) as [a|] eqn:Ea; [apply Hsame with a; auto|].
      unfold obj_keys. now rewrite Ea. }
    assert (Hsplit : forall h x, nth_error (q_handles s ++ [(r, true)]) h = Some x ->
              (h = length (q_handles s) /\ x = (r, true)) \/ (h <> length (q_handles s) /\ nth_error (q_handles s) h = Some x)).
    { intros h x E. rewrite nth_error_snoc in E. destruct (Nat.eqb_spec h (length (q_handles s))).
      - left. split; congruence. - right. split; congruence. }
    constructor; cbn [q_world q_handles].
    - rewrite !app_length, (qs_len _ _ H). reflexivity.
    - intros h r0 b v0 Eh Ev. rewrite nth_error_snoc in Ev. destruct (Hsplit _ _ Eh) as [[-> [= -> ->]]|[N Eh']].
      + rewrite (qs_len _ _ H), Nat.eqb_refl in Ev. injection Ev as <-. congruence.
      + rewrite <- (qs_len _ _ H) in Ev. destruct (Nat.eqb_spec h (length (q_handles s))); [congruence|].
        eapply qs_live; eauto.
    - intros h r0 v0 Eh Ev. rewrite nth_error_snoc in Ev. destruct (Hsplit _ _ Eh) as [[-> [= ->]]|[N Eh']].
      + rewrite (qs_len _ _ H), Nat.eqb_refl in Ev. injection Ev as <-. exists o. repeat split; auto.
        * intros a Ea. destruct Hkeys as [?|[Hk1 Hk2]]; [congruence|]. rewrite Hk1 in Ea. injection Ea as <-. exact Hk2.
        * now apply Hresp.
        * now apply Hresp.
      + rewrite <- (qs_len _ _ H) in Ev. destruct (Nat.eqb_spec h (length (q_handles s))); [congruence|].
        destruct (qs_obj _ _ H h r0 v0 Eh' Ev) as (o0 & E0 & K0 & I0 & L0 & R0).
        destruct (Hold _ _ Eh') as [_ Ho]. exists o0. rewrite Ho. split; [exact E0|].
        split; [intros k0; now rewrite Hsame0|]. split; [exact I0|]. split; [|exact R0].
        intros a Ea. rewrite Hmaps, app_length. specialize (L0 a Ea). lia.
    - intros h h' r0 r0' N E E'. destruct (Hsplit _ _ E) as [[-> [= ->]]|[N1 E1]];
        destruct (Hsplit _ _ E') as [[-> [= ->]]|[N2 E2]].
      + congruence.
      + apply not_eq_sym. apply (Hold _ _ E2).
      + apply (Hold _ _ E1).
      + apply (qs_distinct _ _ H h h'); auto.
    - split; [exact Hnd|]. split.
      + intros x Hx. destruct (Hpool x Hx) as [Hx1 _]. apply (proj1 (proj2 (qs_pool _ _ H))) in Hx1. lia.
      + intros h r0 E Hin. destruct (Hpool _ Hin) as [Hx1 Hx2].
        destruct (Hsplit _ _ E) as [[-> [= ->]]|[N1 E1]]; [congruence|].
        exact (proj2 (proj2 (qs_pool _ _ H)) h r0 E1 Hx1).
    - intros h h' r0 r0' o0 o0' a N E E' Eo0 Eo0' Ea Ea'.
      assert (Hnew : forall h1 r1 o1, h1 <> length (q_handles s) -> nth_error (q_handles s) h1 = Some (r1, true) ->
                nth_error (w_objs w') r1 = Some o1 -> o_keys o1 = o_keys o -> o_keys o1 = Some a -> False).
      { intros h1 r1 o1 N1 E1 Eo1 Ek Ek1. destruct Hkeys as [Hn|[Hn _]]; [congruence|].
        destruct (Hold _ _ E1) as [_ Ho]. rewrite Ho in Eo1.
        destruct (nth_error l h1) as [v1|] eqn:Ev1.
        - destruct (qs_obj _ _ H h1 r1 v1 E1 Ev1) as (o2 & E2 & _ & _ & L2 & _).
          assert (o2 = o1) as -> by congruence. specialize (L2 a Ek1).
          rewrite Hn in Ek. rewrite Ek in Ek1. injection Ek1 as <-. lia.
        - apply nth_error_None in Ev1. rewrite <- (qs_len _ _ H) in Ev1. apply nth_error_None in Ev1. congruence. }
      destruct (Hsplit _ _ E) as [[-> [= ->]]|[N1 E1]]; destruct (Hsplit _ _ E') as [[-> [= ->]]|[N2 E2]].
      + congruence.
      + assert (o0 = o) as -> by congruence. apply (Hnew h' r0' o0'); auto. congruence.
      + assert (o0' = o) as -> by congruence. apply (Hnew h r0 o0); auto. congruence.
      + destruct (Hold _ _ E1) as [_ Ho1]. destruct (Hold _ _ E2) as [_ Ho2].
        rewrite Ho1 in Eo0. rewrite Ho2 in Eo0'.
        exact (qs_maps _ _ H h h' r0 r0' o0 o0' a N E1 E2 Eo0 Eo0' Ea Ea').
  Qed.

  (* the object of one live handle changes *)
  Lemma qsim_change s l w' h r o' v' :
    qsim s l ->
    nth_error (q_handles s) h = Some (r, true) ->
    nth_error (w_objs w') r = Some o' ->
    (forall r0, r0 <> r -> nth_error (w_objs w') r0 = nth_error (w_objs (q_world s)) r0) ->
    length (w_objs w') = length (w_objs (q_world s)) ->
    w_pool w' = w_pool (q_world s) ->
    length (w_maps (q_world s)) <= length (w_maps w') ->
    (forall a, o_keys o' = Some a -> a < length (w_maps w')) ->
    (forall a, a < length (w_maps (q_world s)) -> o_keys o' <> Some a -> nth a (w_maps w') [] = nth a (w_maps (q_world s)) []) ->
    (forall o a, nth_error (w_objs (q_world s)) r = Some o -> o_keys o' = Some a ->
        o_keys o = Some a \/ length (w_maps (q_world s)) <= a) ->
    (forall k, kv_get k (obj_keys w' o') = v_keys v' k) -> m_id (o_msg o') = m_id (v_msg v') -> v_live v' = true ->
    (nc = true -> (forall x, v_resp v' = Some x -> o_resp o' = Some x) /\ (pooled = false -> o_resp o' = v_resp v')) ->
    qsim {| q_world := w'; q_handles := q_handles s |} (set_nth h v' l).
  Proof.
    intros H Eh Eo' Hoth Hlen Hpool Hmlen Hkr Hmaps Hown Hk Hid Hv Hresp.
    assert (Hhl : h < length l) by (rewrite <- (qs_len _ _ H); apply nth_error_Some; congruence).
    assert (Hvof : forall h1 x, nth_error (q_handles s) h1 = Some x -> exists v, nth_error l h1 = Some v).
    { intros h1 x E1. destruct (nth_error l h1) as [v|] eqn:Ev; [now exists v|].
      apply nth_error_None in Ev. rewrite <- (qs_len _ _ H) in Ev. apply nth_error_None in Ev. congruence. }
    destruct (Hvof _ _ Eh) as [v Ev].
    destruct (qs_obj _ _ H h r v Eh Ev) as (o & Eo & _ & _ & _ & _).
    constructor; cbn [q_world q_handles].
    - rewrite set_nth_length. apply (qs_len _ _ H).
    - intros h1 r1 b v1 E1 E2. destruct (Nat.eq_dec h h1) as [<-|N].
      + rewrite nth_error_set_nth_same in E2 by exact Hhl. injection E2 as <-. congruence.
      + rewrite nth_error_set_nth_other in E2 by exact N. eapply qs_live; eauto.
    - intros h1 r1 v1 E1 E2. destruct (Nat.eq_dec h h1) as [<-|N].
      + rewrite nth_error_set_nth_same in E2 by exact Hhl. injection E2 as <-.
        assert (r1 = r) as -> by congruence. exists o'. auto 10.
      + rewrite nth_error_set_nth_other in E2 by exact N.
        destruct (qs_obj _ _ H h1 r1 v1 E1 E2) as (o1 & Eo1 & K1 & I1 & L1 & R1).
        assert (Nr : r1 <> r) by (apply (qs_distinct _ _ H h1 h); auto).
        exists o1. rewrite Hoth by exact Nr. split; [exact Eo1|]. split; [|split; [exact I1|split; [|exact R1]]].
        * intros k0. rewrite <- K1. f_equal. unfold obj_keys. destruct (o_keys o1) as [a|] eqn:Ea; [|reflexivity].
          apply Hmaps; [now apply L1|]. intros Ea'.
          destruct (Hown o a Eo Ea') as [Ho|Ho].
          -- exact (qs_maps _ _ H h h1 r r1 o o1 a N Eh E1 Eo Eo1 Ho Ea).
          -- specialize (L1 a eq_refl). lia.
        * intros a Ea. specialize (L1 a Ea). lia.
    - intros h1 h2 r1 r2 N E1 E2. apply (qs_distinct _ _ H h1 h2); auto.
    - rewrite Hpool, Hlen. apply (qs_pool _ _ H).
    - intros h1 h2 r1 r2 o1 o2 a N E1 E2 Eo1 Eo2 Ea1 Ea2.
      destruct (Nat.eq_dec h1 h) as [->|N1].
      + assert (r1 = r) as -> by congruence. assert (o1 = o') as -> by congruence.
        assert (Nr : r2 <> r) by (apply (qs_distinct _ _ H h2 h); auto).
        rewrite Hoth in Eo2 by exact Nr.
        destruct (Hown o a Eo Ea1) as [Ho|Ho].
        * exact (qs_maps _ _ H h h2 r r2 o o2 a N Eh E2 Eo Eo2 Ho Ea2).
        * destruct (Hvof _ _ E2) as [v2 Ev2].
          destruct (qs_obj _ _ H h2 r2 v2 E2 Ev2) as (o3 & Eo3 & _ & _ & L3 & _).
          assert (o3 = o2) as -> by congruence. specialize (L3 a Ea2). lia.
      + assert (Nr : r1 <> r) by (apply (qs_distinct _ _ H h1 h); auto).
        rewrite Hoth in Eo1 by exact Nr.
        destruct (Nat.eq_dec h2 h) as [->|N2].
        * assert (r2 = r) as -> by congruence. assert (o2 = o') as -> by congruence.
          destruct (Hown o a Eo Ea2) as [Ho|Ho].
          -- exact (qs_maps _ _ H h1 h r1 r o1 o a N E1 Eh Eo1 Eo Ea1 Ho).
          -- destruct (Hvof _ _ E1) as [v1 Ev1].
             destruct (qs_obj _ _ H h1 r1 v1 E1 Ev1) as (o3 & Eo3 & _ & _ & L3 & _).
             assert (o3 = o1) as -> by congruence. specialize (L3 a Ea1). lia.
        * assert (Nr2 : r2 <> r) by (apply (qs_distinct _ _ H h2 h); auto).
          rewrite Hoth in Eo2 by exact Nr2.
          exact (qs_maps _ _ H h1 h2 r1 r2 o1 o2 a N E1 E2 Eo1 Eo2 Ea1 Ea2).
  Qed.

  Definition out_ok (x y : qout) : Prop :=
    match x, y with
    | QNothing, QNothing => True
    | QValue a, QValue b => a = b
    | QResponse a, QResponse b => nc = true -> (forall z, b = Some z -> a = Some z) /\ (pooled = false -> a = b)
    | _, _ => False
    end.

  Lemma NoDup_remove_nth {B} (l : list B) i x : NoDup l -> nth_error l i = Some x ->
    NoDup (remove_nth i l) /\ (forall y, In y (remove_nth i l) -> In y l /\ y <> x).
  Proof.
    intros Hnd E. unfold remove_nth.
    assert (El : l = firstn i l ++ x :: skipn (S i) l).
    { clear Hnd. revert i E. induction l as [|y l IH]; intros [|i] E; cbn in E; try discriminate.
      - injection E as ->. reflexivity.
      - cbn [firstn skipn app]. f_equal. now apply IH. }
    rewrite El in Hnd. split.
    - now apply NoDup_remove_1 in Hnd.
    - intros y Hy. apply NoDup_remove_2 in Hnd. split.
      + rewrite El. apply in_app_or in Hy. apply in_or_app. destruct Hy; [now left|right; now right].
      + intros ->. now apply Hnd.
  Qed.

  Lemma qsim_new_obj s l conn m :
    qsim s l ->
    qsim {| q_world := fst (add_obj (q_world s) (new_request conn m));
            q_handles := q_handles s ++ [(snd (add_obj (q_world s) (new_request conn m)), true)] |}
         (l ++ [{| v_msg := m; v_keys := fun _ => None; v_resp := None; v_live := true |}]).
  Proof.
    intros H. cbn [add_obj fst snd].
    apply qsim_add with (o := new_request conn m); auto.
    - cbn. rewrite nth_error_snoc, Nat.eqb_refl. reflexivity.
    - cbn. rewrite app_length. lia.
    - intros h r0 E. assert (Hr : r0 < length (w_objs (q_world s))).
      { destruct (nth_error l h) as [v|] eqn:Ev.
        - destruct (qs_obj _ _ H h r0 v E Ev) as (o & Eo & _). apply nth_error_Some. congruence.
        - apply nth_error_None in Ev. rewrite <- (qs_len _ _ H) in Ev. apply nth_error_None in Ev. congruence. }
      split; [lia|]. cbn. now rewrite nth_error_app1.
    - exists []. cbn. now rewrite app_nil_r.
    - apply (qs_pool _ _ H).
    - intros x Hx. split; [exact Hx|]. apply (proj1 (proj2 (qs_pool _ _ H))) in Hx. lia.
  Qed.

  Lemma qstep_sim s l o :
    qsim s l -> (nc = true -> forall h, o <> QCopy h) ->
    qsim (fst (qstep pooled s o)) (fst (vstep l o)) /\
    out_ok (snd (qstep pooled s o)) (snd (vstep l o)).
  Proof.
    intros H Hnc. destruct o as [pick conn m|h|h key v|h key|h v|h|h a b c|h]; cbn [qstep vstep].
    - (* QNew *)
      unfold get_request. destruct pooled eqn:Ep.
      2:{ pose proof (qsim_new_obj s l conn m H) as HH. cbn [add_obj fst snd] in *. now split. }
      destruct pick as [i|].
      2:{ pose proof (qsim_new_obj s l conn m H) as HH. cbn [add_obj fst snd] in *. now split. }
      destruct (nth_error (w_pool (q_world s)) i) as [r|] eqn:Ei.
      2:{ pose proof (qsim_new_obj s l conn m H) as HH. cbn [add_obj fst snd] in *. now split. }
      destruct (nth_error (w_objs (q_world s)) r) as [o|] eqn:Eo.
      2:{ pose proof (qsim_new_obj s l conn m H) as HH. cbn [add_obj fst snd] in *. now split. }
      cbn [fst snd]. split; [|exact I]. destruct (qs_pool _ _ H) as (Hnd & Hlt & Hnl).
      assert (Hr : r < length (w_objs (q_world s))) by (apply nth_error_Some; congruence).
      destruct (NoDup_remove_nth _ _ _ Hnd Ei) as [Hnd' Hin'].
      apply qsim_add with (o := reset o conn m); auto.
      + cbn. now rewrite nth_error_set_nth_same.
      + cbn. rewrite set_nth_length. lia.
      + intros h r0 E. assert (Nr : r0 <> r).
        { intros ->. apply (Hnl _ _ E). eapply nth_error_In; eauto. }
        split; [exact Nr|]. cbn. apply nth_error_set_nth_other. congruence.
      + exists []. cbn. now rewrite app_nil_r.
      + intros _. split; [discriminate|]. rewrite Ep. discriminate.
    - (* QPut *)
      destruct (live s h) as [r|] eqn:El.
      2:{ rewrite (vupd_dead _ _ _ _ H El). now split. }
      destruct (live_spec _ _ _ _ H El) as (Eh & v & Ev & Hv).
      rewrite (vupd_live _ _ _ _ _ _ H El Ev). cbn [fst snd]. split; [|exact I].
      assert (Hhl : h < length l) by (apply nth_error_Some; congruence).
      assert (Hhl2 : h < length (q_handles s)) by (rewrite (qs_len _ _ H); exact Hhl).
      assert (Hother : forall h1 r1, nth_error (set_nth h (r, false) (q_handles s)) h1 = Some (r1, true) ->
                h1 <> h /\ nth_error (q_handles s) h1 = Some (r1, true)).
      { intros h1 r1 E1. destruct (Nat.eq_dec h h1) as [<-|N].
        - rewrite nth_error_set_nth_same in E1 by exact Hhl2. discriminate.
        - rewrite nth_error_set_nth_other in E1 by exact N. split; congruence. }
      assert (Ew : w_objs (put_request pooled (q_world s) r) = w_objs (q_world s) /\
                   w_maps (put_request pooled (q_world s) r) = w_maps (q_world s)).
      { unfold put_request. destruct pooled; split; reflexivity. }
      destruct Ew as [Ew1 Ew2].
      constructor; cbn [q_world q_handles].
      + rewrite !set_nth_length. apply (qs_len _ _ H).
      + intros h1 r1 b v1 E1 E2. destruct (Nat.eq_dec h h1) as [<-|N].
        * rewrite nth_error_set_nth_same in E1 by exact Hhl2. rewrite nth_error_set_nth_same in E2 by exact Hhl.
          injection E1 as <- <-. injection E2 as <-. reflexivity.
        * rewrite nth_error_set_nth_other in E1 by exact N. rewrite nth_error_set_nth_other in E2 by exact N. eapply qs_live; eauto.
      + intros h1 r1 v1 E1 E2. destruct (Hother _ _ E1) as [N E1'].
        rewrite nth_error_set_nth_other in E2 by congruence.
        destruct (qs_obj _ _ H h1 r1 v1 E1' E2) as (o & Eo & K & I0 & L & R).
        exists o. rewrite Ew1, Ew2. unfold obj_keys in *. rewrite Ew2. auto 10.
      + intros h1 h2 r1 r2 N E1 E2. destruct (Hother _ _ E1) as [_ E1']. destruct (Hother _ _ E2) as [_ E2'].
        apply (qs_distinct _ _ H h1 h2); auto.
      + destruct (qs_pool _ _ H) as (Hnd & Hlt & Hnl).
        assert (Hrl : r < length (w_objs (q_world s))).
        { destruct (qs_obj _ _ H h r v Eh Ev) as (o & Eo & _). apply nth_error_Some. congruence. }
        rewrite Ew1. unfold put_request. destruct pooled; cbn [w_pool].
        * split; [constructor; [apply (Hnl h r Eh)|exact Hnd]|]. split.
          -- intros x [<-|Hx]; [exact Hrl|now apply Hlt].
          -- intros h1 r1 E1 [<-|Hx]; destruct (Hother _ _ E1) as [N E1'].
             ++ apply (qs_distinct _ _ H h1 h r r N E1' Eh). reflexivity.
             ++ exact (Hnl _ _ E1' Hx).
        * split; [exact Hnd|]. split; [exact Hlt|]. intros h1 r1 E1. destruct (Hother _ _ E1) as [N E1'].
          exact (Hnl _ _ E1').
      + intros h1 h2 r1 r2 o1 o2 a N E1 E2 Eo1 Eo2. destruct (Hother _ _ E1) as [_ E1']. destruct (Hother _ _ E2) as [_ E2'].
        rewrite Ew1 in Eo1, Eo2. apply (qs_maps _ _ H h1 h2 r1 r2 o1 o2 a N E1' E2' Eo1 Eo2).
    - (* QSet *)
      destruct (live s h) as [r|] eqn:El.
      2:{ rewrite (vupd_dead _ _ _ _ H El). now split. }
      destruct (live_spec _ _ _ _ H El) as (Eh & v0 & Ev & Hv).
      rewrite (vupd_live _ _ _ _ _ _ H El Ev). cbn [fst snd]. split; [|exact I].
      destruct (qs_obj _ _ H h r v0 Eh Ev) as (o & Eo & K & I0 & L & R).
      assert (Hr : r < length (w_objs (q_world s))) by (apply nth_error_Some; congruence).
      unfold req_set. rewrite Eo. destruct (o_keys o) as [a|] eqn:Ea.
      + specialize (L a eq_refl).
        apply qsim_change with (r := r) (o' := o); auto.
        * cbn. rewrite set_nth_length. lia.
        * cbn. intros a0 E0. rewrite set_nth_length. rewrite Ea in E0. injection E0 as <-. exact L.
        * cbn. intros a0 La0 Na0. apply nth_set_nth_other. congruence.
        * intros o0 a0 E0 Ea0. left. congruence.
        * intros k0. unfold obj_keys in *. rewrite Ea in *. cbn. rewrite nth_set_nth_same by exact L. rewrite kv_get_put. unfold assign. now rewrite K.
      + apply qsim_change with (r := r) (o' := with_keys o (Some (length (w_maps (q_world s))))); auto.
        * cbn. now rewrite nth_error_set_nth_same.
        * cbn. intros r0 N. apply nth_error_set_nth_other. congruence.
        * cbn. apply set_nth_length.
        * cbn. rewrite app_length. lia.
        * cbn. intros a0 [= <-]. rewrite app_length. cbn. lia.
        * cbn. intros a0 La0 Na0. now rewrite app_nth1.
        * intros o0 a0 E0 Ea0. right. cbn in Ea0. injection Ea0 as <-. lia.
        * intros k0. unfold obj_keys in *. rewrite Ea in K. cbn [with_keys o_keys w_maps v_keys].
          rewrite app_nth2, Nat.sub_diag by lia. cbn [nth]. rewrite kv_get_put. unfold assign. now rewrite <- K.
    - (* QGet *)
      destruct (live s h) as [r|] eqn:El; cbn [fst snd].
      + destruct (live_spec _ _ _ _ H El) as (Eh & v0 & Ev & Hv). rewrite Ev, Hv.
        split; [exact H|]. cbn. destruct (qs_obj _ _ H h r v0 Eh Ev) as (o & Eo & K & _).
        unfold req_get. now rewrite Eo, K.
      + split; [exact H|]. pose proof (dead_spec _ _ _ H El) as Hd.
        destruct (nth_error l h) as [v0|]; [|exact I]. now rewrite Hd.
    - (* QSetResp *)
      destruct (live s h) as [r|] eqn:El.
      2:{ rewrite (vupd_dead _ _ _ _ H El). now split. }
      destruct (live_spec _ _ _ _ H El) as (Eh & v0 & Ev & Hv).
      rewrite (vupd_live _ _ _ _ _ _ H El Ev). cbn [fst snd]. split; [|exact I].
      destruct (qs_obj _ _ H h r v0 Eh Ev) as (o & Eo & K & I0 & L & R).
      assert (Hr : r < length (w_objs (q_world s))) by (apply nth_error_Some; congruence).
      unfold req_set_resp. rewrite Eo.
      apply qsim_change with (r := r) (o' := with_resp o (Some v)); auto.
      + cbn. now rewrite nth_error_set_nth_same.
      + cbn. intros r0 N. apply nth_error_set_nth_other. congruence.
      + cbn. apply set_nth_length.
      + intros o0 a0 E0 Ea0. left. cbn in Ea0. congruence.
    - (* QGetResp *)
      destruct (live s h) as [r|] eqn:El; cbn [fst snd].
      + destruct (live_spec _ _ _ _ H El) as (Eh & v0 & Ev & Hv). rewrite Ev, Hv.
        split; [exact H|]. cbn. destruct (qs_obj _ _ H h r v0 Eh Ev) as (o & Eo & K & _ & _ & R).
        unfold req_get_resp. rewrite Eo. intros Hn. now apply R.
      + split; [exact H|]. pose proof (dead_spec _ _ _ H El) as Hd.
        destruct (nth_error l h) as [v0|]; [|exact I]. now rewrite Hd.
    - (* QControl *)
      destruct (live s h) as [r|] eqn:El; [|now split].
      destruct (nth_error (w_objs (q_world s)) r) as [o|] eqn:Eo; [|now split].
      destruct (live_spec _ _ _ _ H El) as (Eh & v0 & Ev & Hv). cbn [fst snd]. split; [|exact I].
      destruct (qs_obj _ _ H h r v0 Eh Ev) as (o1 & Eo1 & K & I0 & L & R).
      assert (o1 = o) as -> by congruence.
      assert (Hr : r < length (w_objs (q_world s))) by (apply nth_error_Some; congruence).
      replace l with (set_nth h v0 l) by (clear - Ev; revert h Ev; induction l as [|x l IH]; intros [|h] Ev; cbn in *; try discriminate; [congruence|f_equal; auto]).
      apply qsim_change with (r := r) (o' := with_control o a b c); auto.
      + cbn. now rewrite nth_error_set_nth_same.
      + cbn. intros r0 N. apply nth_error_set_nth_other. congruence.
      + cbn. apply set_nth_length.
      + intros o0 a0 E0 Ea0. left. cbn in Ea0. congruence.
    - (* QCopy *)
      destruct (live s h) as [r|] eqn:El.
      2:{ pose proof (dead_spec _ _ _ H El) as Hd. destruct (nth_error l h) as [v0|]; [rewrite Hd|]; now split. }
      destruct (live_spec _ _ _ _ H El) as (Eh & v0 & Ev & Hv). rewrite Ev, Hv.
      destruct (qs_obj _ _ H h r v0 Eh Ev) as (o & Eo & K & I0 & L & R).
      unfold req_copy. rewrite Eo. cbn [add_obj fst snd]. split; [|exact I].
      eapply (qsim_add _ _ _ _ _ _ H).
      + cbn. rewrite nth_error_snoc, Nat.eqb_refl. reflexivity.
      + cbn. rewrite app_length. lia.
      + intros h1 r0 E. assert (Hr : r0 < length (w_objs (q_world s))).
        { destruct (nth_error l h1) as [v|] eqn:Ev1.
          - destruct (qs_obj _ _ H h1 r0 v E Ev1) as (o1 & Eo1 & _). apply nth_error_Some. congruence.
          - apply nth_error_None in Ev1. rewrite <- (qs_len _ _ H) in Ev1. apply nth_error_None in Ev1. congruence. }
        cbn. split; [lia|]. now rewrite nth_error_app1.
      + cbn. now eexists.
      + right. cbn. rewrite app_length. cbn. split; [reflexivity|lia].
      + unfold obj_keys at 1. cbn [o_keys w_maps]. rewrite app_nth2, Nat.sub_diag by lia. exact K.
      + cbn. exact I0.
      + exact Hv.
      + intros Hn. exfalso. exact (Hnc Hn h eq_refl).
      + apply (qs_pool _ _ H).
      + cbn. intros x Hx. split; [exact Hx|]. apply (proj1 (proj2 (qs_pool _ _ H))) in Hx. lia.
  Qed.

  Lemma qsim_init : qsim qinit [].
  Proof.
    constructor; cbn.
    - reflexivity.
    - intros [|h]; discriminate.
    - intros [|h]; discriminate.
    - intros [|h]; discriminate.
    - split; [constructor|]. split; [intros ? []|]. intros [|h]; discriminate.
    - intros [|h]; discriminate.
  Qed.

  Lemma qrun_sim os : forall s l, qsim s l -> (nc = true -> no_copies os) ->
    qsim (fst (qrun pooled s os)) (fst (vrun l os)) /\
    Forall2 out_ok (snd (qrun pooled s os)) (snd (vrun l os)).
  Proof.
    induction os as [|o os IH]; intros s l H Hn; cbn [qrun vrun]; [split; [exact H|constructor]|].
    destruct (qstep_sim s l o H) as [H1 H2].
    { intros Hnc h ->. apply (Hn Hnc h). now left. }
    destruct (qstep pooled s o) as [s1 x]. destruct (vstep l o) as [l1 y]. cbn [fst snd] in *.
    destruct (IH s1 l1 H1) as [H3 H4].
    { intros Hnc h Hin. apply (Hn Hnc h). now right. }
    destruct (qrun pooled s1 os) as [s2 xs]. destruct (vrun l1 os) as [l2 ys]. cbn [fst snd] in *.
    split; [exact H3|]. now constructor.
  Qed.
End S.

Lemma keys_refine pooled os :
  key_observations (snd (qrun pooled qinit os)) = key_observations (snd (vrun [] os)).
Proof.
  destruct (qrun_sim pooled false os _ _ (qsim_init pooled false) ltac:(discriminate)) as [_ H].
  unfold key_observations. induction H as [|x y xs ys Hxy _ IH]; [reflexivity|]. cbn [flat_map].
  rewrite IH. destruct x, y; cbn in Hxy; try contradiction; congruence.
Qed.

(* every response a request itself set is what it reads back *)
Lemma resp_own pooled os :
  no_copies os ->
  Forall2 (fun a b => forall x, b = Some x -> a = Some x)
    (response_observations (snd (qrun pooled qinit os))) (response_observations (snd (vrun [] os))).
Proof.
  intros Hn.
  destruct (qrun_sim pooled true os _ _ (qsim_init pooled true) ltac:(auto)) as [_ H].
  unfold response_observations. induction H as [|x y xs ys Hxy _ IH]; [constructor|]. cbn [flat_map].
  destruct x, y; cbn in Hxy; try contradiction; try exact IH.
  constructor; [|exact IH]. now apply Hxy.
Qed.

Lemma resp_no_pool os :
  no_copies os ->
  response_observations (snd (qrun false qinit os)) = response_observations (snd (vrun [] os)).
Proof.
  intros Hn.
  destruct (qrun_sim false true os _ _ (qsim_init false true) ltac:(auto)) as [_ H].
  unfold response_observations. induction H as [|x y xs ys Hxy _ IH]; [reflexivity|]. cbn [flat_map].
  rewrite IH. destruct x, y; cbn in Hxy; try contradiction; try reflexivity.
  cbn [app]. f_equal. now apply Hxy.
Qed.

(* a request fresh from the pool has a fresh control state *)
Lemma control_fresh pooled pick w conn m w' r :
  get_request pooled pick w conn m = (w', r) ->
  exists o, nth_error (w_objs w') r = Some o /\ o_conn o = Some conn /\ o_msg o = m /\
    o_steps o = 0%Z /\ o_need o = true /\ o_index o = (-1)%Z /\ o_keys o = None.
Proof.
  assert (Hnew : add_obj w (new_request conn m) = (w', r) ->
    exists o, nth_error (w_objs w') r = Some o /\ o_conn o = Some conn /\ o_msg o = m /\
    o_steps o = 0%Z /\ o_need o = true /\ o_index o = (-1)%Z /\ o_keys o = None).
  { intros [= <- <-]. exists (new_request conn m). cbn. rewrite nth_error_snoc, Nat.eqb_refl. auto 10. }
  unfold get_request. destruct pooled; [|exact Hnew]. destruct pick as [i|]; [|exact Hnew].
  destruct (nth_error (w_pool w) i) as [r0|]; [|exact Hnew].
  destruct (nth_error (w_objs w) r0) as [o|] eqn:Eo; [|exact Hnew].
  intros [= <- <-]. exists (reset o conn m). cbn.
  rewrite nth_error_set_nth_same by (apply nth_error_Some; congruence). auto 10.
Qed.

Lemma copy_fields w r o :
  nth_error (w_objs w) r = Some o ->
  exists oc, nth_error (w_objs (fst (req_copy w r))) (snd (req_copy w r)) = Some oc /\
    m_id (o_msg oc) = m_id (o_msg o) /\ m_data (o_msg oc) = m_raw (o_msg o) /\ o_resp oc = None /\
    (forall key, req_get (fst (req_copy w r)) (snd (req_copy w r)) key = req_get w r key).
Proof.
  intros E. unfold req_copy. rewrite E. cbn [add_obj fst snd w_objs].
  eexists. rewrite nth_error_snoc, Nat.eqb_refl. split; [reflexivity|]. cbn.
  repeat split. intros key. unfold req_get. cbn [w_objs]. rewrite nth_error_snoc, Nat.eqb_refl, E.
  f_equal. unfold obj_keys at 1. cbn. rewrite app_nth2, Nat.sub_diag by lia. reflexivity.
Qed.

From Coq Require Import ZArith List Bool Arith Lia.
From Verif Require Import GoSlice Router Spec_Router.
Import ListNotations.

(* ---------- slices ---------- *)
Section Sl.
  Context {A : Type}.
  Variable zero : A.
  Variable grow : nat -> nat -> nat.
  Implicit Types (h : @heap A) (s : slice).

  Definition swf h s : Prop :=
    sl_len s <= sl_cap s /\ sl_off s + sl_cap s <= length (nth (sl_arr s) h []).
  Definition sep s t : Prop := sl_cap s = 0 \/ sl_cap t = 0 \/ sl_arr s <> sl_arr t.

  Lemma sep_sym s t : sep s t -> sep t s.
  Proof. unfold sep. intuition. Qed.

  Lemma swf_arr h s : swf h s -> sl_cap s <> 0 -> sl_arr s < length h.
  Proof.
    intros [_ H] Hc. destruct (le_lt_dec (length h) (sl_arr s)) as [Hl|Hl]; [|exact Hl].
    rewrite nth_overflow in H by exact Hl. cbn in H. lia.
  Qed.

  Lemma sl_read_cap0 h s : swf h s -> sl_cap s = 0 -> sl_read h s = [].
  Proof. intros [H _] Hc. unfold sl_read. replace (sl_len s) with 0 by lia. reflexivity. Qed.

  Lemma sl_read_length h s : swf h s -> length (sl_read h s) = sl_len s.
  Proof. intros [H1 H2]. unfold sl_read. rewrite firstn_length, skipn_length. lia. Qed.

  Lemma set_nth_length {B} n (x : B) l : length (set_nth n x l) = length l.
  Proof. revert n. induction l; intros [|n]; cbn; auto. Qed.
  Lemma nth_set_nth_same {B} n (x d : B) l : n < length l -> nth n (set_nth n x l) d = x.
  Proof. revert n. induction l; intros [|n] H; cbn in *; try lia; [reflexivity|]. apply IHl. lia. Qed.
  Lemma nth_set_nth_other {B} n m (x d : B) l : n <> m -> nth m (set_nth n x l) d = nth m l d.
  Proof.
    revert n m. induction l; intros [|n] [|m] H; cbn; try reflexivity; try lia. apply IHl. lia.
  Qed.
  Lemma nth_error_set_nth_same {B} n (x : B) l : n < length l -> nth_error (set_nth n x l) n = Some x.
  Proof. revert n. induction l; intros [|n] H; cbn in *; try lia; [reflexivity|]. apply IHl. lia. Qed.
  Lemma nth_error_set_nth_other {B} n m (x : B) l : n <> m -> nth_error (set_nth n x l) m = nth_error l m.
  Proof.
    revert n m. induction l; intros [|n] [|m] H; cbn; try reflexivity; try lia. apply IHl. lia.
  Qed.
  Lemma set_nth_over {B} n (x : B) l : length l <= n -> set_nth n x l = l.
  Proof. revert n. induction l; intros [|n] H; cbn in *; try reflexivity; try lia. f_equal. apply IHl. lia. Qed.

  Lemma write_at_length (l : list A) i xs : i + length xs <= length l -> length (write_at l i xs) = length l.
  Proof. intros. unfold write_at. rewrite !app_length, firstn_length, skipn_length. lia. Qed.
  Lemma write_at_nil (l : list A) i : write_at l i [] = l.
  Proof. unfold write_at. cbn. rewrite Nat.add_0_r. apply firstn_skipn. Qed.

  Lemma write_len h s i xs a :
    sl_off s + i + length xs <= length (nth (sl_arr s) h []) ->
    length (nth a (sl_write h s i xs) []) = length (nth a h []).
  Proof.
    intros H. unfold sl_write. destruct (Nat.eq_dec (sl_arr s) a) as [<-|N].
    - destruct (le_lt_dec (length h) (sl_arr s)).
      + rewrite set_nth_over by assumption. reflexivity.
      + rewrite nth_set_nth_same by assumption. apply write_at_length. lia.
    - now rewrite nth_set_nth_other.
  Qed.

  Lemma write_frame h s i xs t :
    swf h s -> i + length xs <= sl_cap s -> swf h t -> sep s t ->
    swf (sl_write h s i xs) t /\ sl_read (sl_write h s i xs) t = sl_read h t.
  Proof.
    intros [Hs1 Hs2] Hi Ht Hsep.
    assert (Hlen : swf (sl_write h s i xs) t).
    { destruct Ht as [Ht1 Ht2]. split; [exact Ht1|]. rewrite write_len by lia. exact Ht2. }
    split; [exact Hlen|].
    destruct Hsep as [Hc|[Hc|Hc]].
    - assert (xs = []) as -> by (destruct xs; [reflexivity|cbn in Hi; lia]).
      unfold sl_write. rewrite write_at_nil. unfold sl_read.
      destruct (Nat.eq_dec (sl_arr s) (sl_arr t)) as [E|N].
      + rewrite <- E. destruct (le_lt_dec (length h) (sl_arr s)).
        * now rewrite set_nth_over.
        * now rewrite nth_set_nth_same.
      + now rewrite nth_set_nth_other.
    - rewrite !sl_read_cap0; auto.
    - unfold sl_read, sl_write. rewrite nth_set_nth_other by exact Hc. reflexivity.
  Qed.

  Lemma alloc_frame h l t : swf h t -> swf (h ++ [l]) t /\ sl_read (h ++ [l]) t = sl_read h t.
  Proof.
    intros Ht. destruct (Nat.eq_dec (sl_cap t) 0) as [Hc|Hc].
    - assert (Hw : swf (h ++ [l]) t).
      { destruct Ht as [Ht1 Ht2]. split; [exact Ht1|].
        destruct (le_lt_dec (length h) (sl_arr t)) as [Hl|Hl].
        - rewrite (nth_overflow h) in Ht2 by exact Hl. cbn in Ht2. lia.
        - rewrite app_nth1 by exact Hl. exact Ht2. }
      split; [exact Hw|]. rewrite !sl_read_cap0; auto.
    - pose proof (swf_arr _ _ Ht Hc) as Hl. destruct Ht as [Ht1 Ht2].
      unfold swf, sl_read. rewrite app_nth1 by exact Hl. auto.
  Qed.

  Lemma nth_last (h : list (list A)) l : nth (length h) (h ++ [l]) [] = l.
  Proof. rewrite app_nth2, Nat.sub_diag by lia. reflexivity. Qed.

  Lemma write_read_prefix h s i xs :
    swf h s -> i <= sl_len s -> i + length xs <= sl_cap s ->
    forall n, n = i + length xs ->
    sl_read (sl_write h s i xs)
      {| sl_arr := sl_arr s; sl_off := sl_off s; sl_len := n; sl_cap := sl_cap s |}
    = firstn i (sl_read h s) ++ xs.
  Proof.
    intros [Hs1 Hs2] Hi Hx n ->. unfold sl_read, sl_write. cbn [sl_arr sl_off sl_len].
    destruct (le_lt_dec (length h) (sl_arr s)) as [Hl|Hl].
    - rewrite set_nth_over by exact Hl. rewrite (nth_overflow h) in * by exact Hl. cbn in Hs2.
      assert (xs = []) as -> by (destruct xs; [reflexivity|cbn in Hx; lia]).
      assert (i = 0) as -> by lia. reflexivity.
    - rewrite nth_set_nth_same by exact Hl. set (l := nth (sl_arr s) h []) in *.
      unfold write_at. rewrite firstn_firstn. rewrite Nat.min_l by exact Hi.
      rewrite skipn_app, firstn_length. rewrite Nat.min_l by lia.
      replace (sl_off s - (sl_off s + i)) with 0 by lia. cbn [skipn].
      rewrite firstn_app. rewrite skipn_length, firstn_length, Nat.min_l by lia.
      replace (i + length xs - (sl_off s + i - sl_off s)) with (length xs) by lia.
      rewrite firstn_app. rewrite firstn_all, Nat.sub_diag. cbn [firstn]. rewrite app_nil_r. f_equal.
      rewrite firstn_all2 by (rewrite skipn_length, firstn_length; lia).
      rewrite firstn_skipn_comm. reflexivity.
  Qed.

  Lemma append_spec h s xs h' s' :
    swf h s -> sl_append zero grow h s xs = (h', s') ->
    swf h' s' /\ sl_read h' s' = sl_read h s ++ xs /\
    (forall t, swf h t -> sep s t -> swf h' t /\ sl_read h' t = sl_read h t /\ sep s' t).
  Proof.
    intros Hs. unfold sl_append. destruct (sl_len s + length xs <=? sl_cap s) eqn:E; intros [= <- <-].
    - apply Nat.leb_le in E. destruct (Hs) as [Hs1 Hs2].
      split; [|split].
      + split; cbn [sl_len sl_cap sl_off sl_arr]; [exact E|]. rewrite write_len by lia. exact Hs2.
      + rewrite write_read_prefix by (auto; lia). f_equal. apply firstn_all2.
        rewrite sl_read_length by exact Hs. lia.
      + intros t Ht Hsep. destruct (write_frame h s (sl_len s) xs t Hs E Ht Hsep) as [H1 H2].
        split; [exact H1|]. split; [exact H2|]. exact Hsep.
    - set (g := grow (sl_cap s) (sl_len s + length xs)).
      split; [|split].
      + split; cbn [sl_len sl_cap sl_off sl_arr]; [lia|]. rewrite nth_last.
        rewrite !app_length, repeat_length, sl_read_length by exact Hs. lia.
      + unfold sl_read at 1. cbn [sl_len sl_cap sl_off sl_arr]. rewrite nth_last. cbn [skipn].
        rewrite app_assoc. rewrite firstn_app. rewrite app_length, sl_read_length by exact Hs.
        rewrite Nat.sub_diag. cbn [firstn]. rewrite app_nil_r. apply firstn_all2.
        rewrite app_length, sl_read_length by exact Hs. lia.
      + intros t Ht Hsep. destruct (alloc_frame h (sl_read h s ++ xs ++ repeat zero g) t Ht) as [H1 H2].
        split; [exact H1|]. split; [exact H2|]. unfold sep. cbn [sl_cap sl_arr].
        destruct (Nat.eq_dec (sl_cap t) 0) as [Hc|Hc]; [now right; left|].
        pose proof (swf_arr _ _ Ht Hc). right. right. lia.
  Qed.

  Lemma make_spec h len extra h' s' :
    sl_make zero h len extra = (h', s') ->
    swf h' s' /\ sl_read h' s' = repeat zero len /\ sl_arr s' = length h /\ sl_len s' = len /\
    sl_cap s' = len + extra /\ sl_off s' = 0 /\
    (forall t, swf h t -> swf h' t /\ sl_read h' t = sl_read h t /\ sep s' t).
  Proof.
    intros [= <- <-]. split; [|split; [|do 4 (split; [reflexivity|])]].
    - split; cbn [sl_len sl_cap sl_off sl_arr]; [lia|]. rewrite nth_last, repeat_length. lia.
    - unfold sl_read. cbn [sl_len sl_cap sl_off sl_arr]. rewrite nth_last. cbn [skipn].
      rewrite repeat_app, firstn_app, repeat_length, Nat.sub_diag. cbn [firstn]. rewrite app_nil_r.
      apply firstn_all2. rewrite repeat_length. lia.
    - intros t H. destruct (alloc_frame h (repeat zero (len + extra)) t H) as [F1 F2].
      split; [exact F1|]. split; [exact F2|]. unfold sep. cbn [sl_cap sl_arr].
      destruct (Nat.eq_dec (sl_cap t) 0) as [Hc|Hc]; [now right; left|].
      pose proof (swf_arr _ _ H Hc). right. right. lia.
  Qed.

  (* make, copy the first, copy the second behind it *)
  Lemma merge_spec h a b h1 m :
    swf h a -> swf h b -> sl_make zero h (sl_len a + sl_len b) 0 = (h1, m) ->
    let h2 := sl_copy h1 m (sl_read h1 a) in
    let h3 := sl_copy h2 (sl_from m (sl_len a)) (sl_read h2 b) in
    swf h3 m /\ sl_read h3 m = sl_read h a ++ sl_read h b /\
    (forall t, swf h t -> swf h3 t /\ sl_read h3 t = sl_read h t /\ sep m t).
  Proof.
    intros Ha Hb Em h2 h3.
    destruct (make_spec _ _ _ _ _ Em) as (Hm & _ & Harr & Hlen & Hcap & Hoff & Hfr).
    destruct (Hfr a Ha) as (Ha1 & Ra1 & Sa). destruct (Hfr b Hb) as (Hb1 & Rb1 & Sb).
    assert (La : length (sl_read h1 a) = sl_len a) by now apply sl_read_length.
    assert (F2 : firstn (sl_len m) (sl_read h1 a) = sl_read h1 a) by (apply firstn_all2; lia).
    assert (E2 : h2 = sl_write h1 m 0 (sl_read h1 a)) by (unfold h2, sl_copy; now rewrite F2).
    assert (Fr2 : forall t, swf h t -> swf h2 t /\ sl_read h2 t = sl_read h t).
    { intros t Ht. destruct (Hfr t Ht) as (Ht1 & Rt1 & St). rewrite E2, <- Rt1.
      apply write_frame; auto. lia. }
    assert (Hm2 : swf h2 m).
    { rewrite E2. destruct Hm as [M1 M2]. split; [exact M1|]. rewrite write_len by lia. exact M2. }
    destruct (Fr2 b Hb) as [Hb2 Rb2].
    assert (Lb : length (sl_read h2 b) = sl_len b) by now apply sl_read_length.
    assert (F3 : firstn (sl_len (sl_from m (sl_len a))) (sl_read h2 b) = sl_read h2 b).
    { apply firstn_all2. cbn [sl_from sl_len]. lia. }
    assert (E3 : h3 = sl_write h2 m (sl_len a) (sl_read h2 b)).
    { unfold h3, sl_copy. rewrite F3. unfold sl_write. cbn [sl_from sl_arr sl_off].
      now rewrite Nat.add_0_r. }
    split; [|split].
    - rewrite E3. destruct Hm2 as [M1 M2]. split; [exact M1|]. rewrite write_len by lia. exact M2.
    - rewrite E3.
      pose proof (write_read_prefix h2 m (sl_len a) (sl_read h2 b) Hm2 ltac:(lia) ltac:(lia) (sl_len m) ltac:(lia)) as R.
      replace m with {| sl_arr := sl_arr m; sl_off := sl_off m; sl_len := sl_len m; sl_cap := sl_cap m |} at 2
        by (destruct m; reflexivity).
      rewrite R, Rb2. f_equal.
      pose proof (write_read_prefix h1 m 0 (sl_read h1 a) Hm ltac:(lia) ltac:(lia) (sl_len a) ltac:(lia)) as R2.
      rewrite <- E2 in R2. cbn [firstn app] in R2. rewrite <- Ra1, <- R2.
      unfold sl_read. cbn [sl_arr sl_off sl_len]. rewrite firstn_firstn. f_equal. lia.
    - intros t Ht. destruct (Hfr t Ht) as (_ & _ & St). destruct (Fr2 t Ht) as [Ht2 Rt2].
      rewrite E3. destruct (write_frame h2 m (sl_len a) (sl_read h2 b) t Hm2 ltac:(lia) Ht2 St) as [H1 H2].
      split; [exact H1|]. split; [now rewrite H2|exact St].
  Qed.

  Lemma swf_nil h : swf h nil_slice.
  Proof. split; cbn; lia. Qed.
  Lemma sep_nil t : sep nil_slice t.
  Proof. now left. Qed.
  Lemma read_nil h : sl_read h nil_slice = [].
  Proof. reflexivity. Qed.

  (* ---------- tables ---------- *)
  Inductive slot := SGlobal | SGroup (n : nat) | SApi (id : Z) | SUser (i : nat).
  Lemma slot_dec (x y : slot) : {x = y} + {x <> y}.
  Proof. repeat decide equality. Qed.

  Definition slice_at (t : rtab A) (x : slot) : option slice :=
    match x with
    | SGlobal => Some (rt_handlers t)
    | SGroup n => option_map gr_handlers (nth_error (rt_groups t) n)
    | SApi id => api_lookup id (rt_apis t)
    | SUser i => nth_error (rt_user t) i
    end.
  Definition spec_at (r : reg A) (x : slot) : option (list A) :=
    match x with
    | SGlobal => Some (g_global r)
    | SGroup n => option_map snd (nth_error (g_groups r) n)
    | SApi id => bound_to r id
    | SUser i => nth_error (g_slices r) i
    end.
  Definition range_at (t : rtab A) (n : nat) := option_map (fun g => (gr_start g, gr_end g)) (nth_error (rt_groups t) n).
  Definition spec_range (r : reg A) (n : nat) := option_map fst (nth_error (g_groups r) n).

  Record sim (t : rtab A) (r : reg A) : Prop := {
    sim_wf : forall x s, slice_at t x = Some s -> swf (rt_heap t) s;
    sim_sep : forall x y s s', x <> y -> slice_at t x = Some s -> slice_at t y = Some s' -> sep s s';
    sim_read : forall x, option_map (sl_read (rt_heap t)) (slice_at t x) = spec_at r x;
    sim_range : forall n, range_at t n = spec_range r n;
    sim_glen : length (rt_groups t) = length (g_groups r);
    sim_ulen : length (rt_user t) = length (g_slices r)
  }.

  (* one slot changes, the heap keeps the others *)
  Lemma sim_update t r t' r' x s' v :
    sim t r ->
    slice_at t' x = Some s' -> spec_at r' x = Some v ->
    (forall y, y <> x -> slice_at t' y = slice_at t y) ->
    (forall y, y <> x -> spec_at r' y = spec_at r y) ->
    swf (rt_heap t') s' -> sl_read (rt_heap t') s' = v ->
    (forall y s, y <> x -> slice_at t y = Some s ->
       swf (rt_heap t') s /\ sl_read (rt_heap t') s = sl_read (rt_heap t) s /\ sep s' s) ->
    (forall n, range_at t' n = spec_range r' n) ->
    length (rt_groups t') = length (g_groups r') ->
    length (rt_user t') = length (g_slices r') ->
    sim t' r'.
  Proof.
    intros Hsim Hx Hv Ho Hso Hw Hr Hfr Hrange Hg Hu. constructor; auto.
    - intros y s Hy. destruct (slot_dec y x) as [->|N].
      + rewrite Hx in Hy. injection Hy as <-. exact Hw.
      + rewrite Ho in Hy by exact N. apply (Hfr y s N Hy).
    - intros y z s s2 Hyz Hy Hz. destruct (slot_dec y x) as [->|N].
      + rewrite Hx in Hy. injection Hy as <-. rewrite Ho in Hz by congruence.
        apply (Hfr z); [congruence|exact Hz].
      + rewrite Ho in Hy by exact N. destruct (slot_dec z x) as [->|M].
        * rewrite Hx in Hz. injection Hz as <-. apply sep_sym. apply (Hfr y); assumption.
        * rewrite Ho in Hz by exact M. exact (sim_sep _ _ Hsim y z s s2 Hyz Hy Hz).
    - intros y. destruct (slot_dec y x) as [->|N].
      + rewrite Hx, Hv. cbn. now rewrite Hr.
      + rewrite Ho, Hso by exact N. rewrite <- (sim_read _ _ Hsim y).
        destruct (slice_at t y) as [s|] eqn:Ey; [|reflexivity].
        cbn. f_equal. apply (Hfr y s N Ey).
  Qed.

  (* the abstract content of a slot *)
  Lemma sim_at t r x s : sim t r -> slice_at t x = Some s -> spec_at r x = Some (sl_read (rt_heap t) s).
  Proof. intros H E. rewrite <- (sim_read _ _ H x), E. reflexivity. Qed.

  Lemma sim_heap t r h :
    sim t r -> (forall s, swf (rt_heap t) s -> swf h s /\ sl_read h s = sl_read (rt_heap t) s) ->
    sim (with_heap t h) r.
  Proof.
    intros Hsim Hfr. constructor.
    - intros x s Hx. cbn. apply Hfr. apply (sim_wf _ _ Hsim x s). destruct x; exact Hx.
    - intros x y s s' N Hx Hy. apply (sim_sep _ _ Hsim x y s s' N); destruct x, y; assumption.
    - intros x. rewrite <- (sim_read _ _ Hsim x).
      replace (slice_at (with_heap t h) x) with (slice_at t x) by (destruct x; reflexivity).
      destruct (slice_at t x) as [s|] eqn:E; [|reflexivity]. cbn. f_equal. apply Hfr.
      apply (sim_wf _ _ Hsim x s E).
    - apply (sim_range _ _ Hsim).
    - apply (sim_glen _ _ Hsim).
    - apply (sim_ulen _ _ Hsim).
  Qed.

  Lemma sim_bound t r id : sim t r -> (api_lookup id (rt_apis t) = None <-> bound_to r id = None).
  Proof.
    intros H. pose proof (sim_read _ _ H (SApi id)) as E. cbn [slice_at spec_at] in E.
    destruct (api_lookup id (rt_apis t)); rewrite <- E; cbn; split; congruence.
  Qed.

  Definition result_ok (x : option (rtab A)) (t : rtab A) (y : reg A * bool) : Prop :=
    match x with
    | Some t' => sim t' (fst y) /\ snd y = false
    | None => sim t (fst y) /\ snd y = true
    end.

  Lemma add_handler_sim t r id arg :
    sim t r -> swf (rt_heap t) arg ->
    result_ok (add_handler zero grow t id arg) t (bind r id (g_global r ++ sl_read (rt_heap t) arg)).
  Proof.
    intros Hsim Harg. unfold add_handler, bind.
    pose proof (sim_bound t r id Hsim) as Hb.
    destruct (api_lookup id (rt_apis t)) as [s0|] eqn:El.
    { destruct (bound_to r id); [|exfalso; destruct Hb as [_ Hb]; discriminate Hb; reflexivity].
      split; [exact Hsim|reflexivity]. }
    destruct (bound_to r id) eqn:Ebd; [exfalso; destruct Hb as [Hb _]; discriminate (Hb eq_refl)|].
    destruct (sl_make zero (rt_heap t) (sl_len (rt_handlers t) + sl_len arg) 0) as [h1 m] eqn:Em.
    assert (Hg : swf (rt_heap t) (rt_handlers t)) by (apply (sim_wf _ _ Hsim SGlobal); reflexivity).
    destruct (merge_spec _ _ _ _ _ Hg Harg Em) as (Hm & Rm & Fr).
    set (h2 := sl_copy h1 m (sl_read h1 (rt_handlers t))) in *.
    set (h3 := sl_copy h2 (sl_from m (sl_len (rt_handlers t))) (sl_read h2 arg)) in *.
    destruct (sl_append zero grow h3 nil_slice (sl_read h3 m)) as [h4 s] eqn:Ea.
    destruct (append_spec _ _ _ _ _ (swf_nil h3) Ea) as (Hs & Rs & Fs).
    rewrite read_nil in Rs. cbn [app] in Rs. rewrite Rm in Rs.
    cbn [result_ok fst snd]. split; [|reflexivity].
    apply sim_update with (t := t) (r := r) (x := SApi id) (s' := s)
      (v := g_global r ++ sl_read (rt_heap t) arg); auto.
    - cbn. now rewrite Z.eqb_refl.
    - unfold spec_at, bound_to. cbn. now rewrite Z.eqb_refl.
    - intros [|n|id'|i] N; try reflexivity. cbn. destruct (Z.eqb_spec id id'); [congruence|reflexivity].
    - intros [|n|id'|i] N; try reflexivity. cbn. unfold bound_to. cbn.
      destruct (Z.eqb_spec id id'); [congruence|reflexivity].
    - cbn [rt_heap]. rewrite Rs. f_equal. pose proof (sim_at _ _ SGlobal _ Hsim eq_refl) as E.
      cbn in E. now injection E as ->.
    - intros y s0 N Ey. cbn [rt_heap]. pose proof (sim_wf _ _ Hsim y s0 Ey) as Hw0.
      destruct (Fr s0 Hw0) as (F1 & F2 & _). destruct (Fs s0 F1 (sep_nil s0)) as (F3 & F4 & F5).
      split; [exact F3|]. split; [now rewrite F4|exact F5].
    - apply (sim_range _ _ Hsim).
    - apply (sim_glen _ _ Hsim).
    - apply (sim_ulen _ _ Hsim).
  Qed.

  Lemma sim_range_none t r n : sim t r -> nth_error (rt_groups t) n = None -> nth_error (g_groups r) n = None.
  Proof. intros H E. apply nth_error_None. apply nth_error_None in E. rewrite <- (sim_glen _ _ H). exact E. Qed.

  Lemma sim_group t r n g : sim t r -> nth_error (rt_groups t) n = Some g ->
    nth_error (g_groups r) n = Some (gr_start g, gr_end g, sl_read (rt_heap t) (gr_handlers g)).
  Proof.
    intros H E. pose proof (sim_range _ _ H n) as Hr. pose proof (sim_read _ _ H (SGroup n)) as Hc.
    unfold range_at, spec_range in Hr. cbn [slice_at spec_at] in Hc. rewrite E in Hr, Hc.
    destruct (nth_error (g_groups r) n) as [[ab l]|]; cbn in *; [|discriminate].
    injection Hr as <-. injection Hc as <-. reflexivity.
  Qed.

  Lemma sim_user t r i s : sim t r -> nth_error (rt_user t) i = Some s ->
    swf (rt_heap t) s /\ nth_error (g_slices r) i = Some (sl_read (rt_heap t) s).
  Proof.
    intros H E. split; [apply (sim_wf _ _ H (SUser i)); exact E|].
    apply (sim_at _ _ (SUser i) _ H E).
  Qed.
  Lemma sim_user_none t r i : sim t r -> nth_error (rt_user t) i = None -> nth_error (g_slices r) i = None.
  Proof. intros H E. apply nth_error_None. apply nth_error_None in E. rewrite <- (sim_ulen _ _ H). exact E. Qed.

  Lemma nth_error_snoc {B} (l : list B) x n :
    nth_error (l ++ [x]) n = if n =? length l then Some x else nth_error l n.
  Proof.
    destruct (Nat.eqb_spec n (length l)) as [->|N].
    - rewrite nth_error_app2, Nat.sub_diag by lia. reflexivity.
    - destruct (lt_dec n (length l)).
      + apply nth_error_app1. assumption.
      + rewrite !(proj2 (nth_error_None _ _)); [reflexivity|lia|rewrite app_length; cbn; lia].
  Qed.

  Lemma skipn_add (a b : nat) (l : list A) : skipn (a + b) l = skipn b (skipn a l).
  Proof.
    revert l. induction a as [|a IH]; intros l; [reflexivity|].
    destruct l; cbn; [now rewrite skipn_nil|apply IH].
  Qed.

  Lemma write_at_set_nth (l : list A) off k x n :
    k < n -> off + n <= length l ->
    firstn n (skipn off (write_at l (off + k) [x])) = set_nth k x (firstn n (skipn off l)).
  Proof.
    intros Hk Hn. unfold write_at. cbn [length].
    rewrite skipn_app, firstn_length, Nat.min_l by lia.
    replace (off - (off + k)) with 0 by lia. cbn [skipn].
    rewrite skipn_firstn_comm. replace (off + k - off) with k by lia.
    assert (E : skipn (off + k + 1) l = skipn (k + 1) (skipn off l)).
    { rewrite <- Nat.add_assoc. apply skipn_add. }
    rewrite E.
    assert (Hl : n <= length (skipn off l)) by (rewrite skipn_length; lia).
    revert Hl. generalize (skipn off l). clear - Hk. intros m Hl.
    revert n m Hk Hl. induction k as [|k IH]; intros n m Hk Hl.
    - destruct m as [|y m]; cbn in Hl; [lia|]. destruct n; [lia|]. reflexivity.
    - destruct m as [|y m]; cbn in Hl; [lia|]. destruct n; [lia|].
      cbn [firstn skipn Nat.add app set_nth]. f_equal. apply IH; [lia|]. cbn in Hl. lia.
  Qed.

  Lemma rstep_sim t r o :
    sim t r ->
    sim (fst (rstep zero grow t o)) (fst (reg_step r o)) /\
    snd (rstep zero grow t o) = snd (reg_step r o).
  Proof.
    intros Hsim. destruct o as [hs|i k x|i|a b i|g i|id i|g id i]; cbn [rstep reg_step].
    - (* OpSlice *)
      split; [|reflexivity]. cbn [fst].
      set (s' := {| sl_arr := length (rt_heap t); sl_off := 0; sl_len := length hs; sl_cap := length hs |}).
      apply sim_update with (t := t) (r := r) (x := SUser (length (rt_user t))) (s' := s') (v := hs); auto.
      + cbn. rewrite nth_error_snoc, Nat.eqb_refl. reflexivity.
      + cbn. rewrite nth_error_snoc, (sim_ulen _ _ Hsim), Nat.eqb_refl. reflexivity.
      + intros [|n|id|j] N; try reflexivity. cbn. rewrite nth_error_snoc.
        destruct (Nat.eqb_spec j (length (rt_user t))); [congruence|reflexivity].
      + intros [|n|id|j] N; try reflexivity. cbn. rewrite nth_error_snoc.
        destruct (Nat.eqb_spec j (length (g_slices r))) as [->|]; [|reflexivity].
        rewrite <- (sim_ulen _ _ Hsim) in N. congruence.
      + split; cbn [s' sl_len sl_cap sl_off sl_arr rt_heap]; [lia|]. rewrite nth_last. lia.
      + unfold sl_read. cbn [s' sl_len sl_cap sl_off sl_arr rt_heap]. rewrite nth_last. cbn [skipn].
        apply firstn_all.
      + intros y s N Ey. pose proof (sim_wf _ _ Hsim y s Ey) as Hw. cbn [rt_heap].
        destruct (alloc_frame (rt_heap t) hs s Hw) as [F1 F2].
        split; [exact F1|]. split; [exact F2|]. unfold sep. cbn [s' sl_cap sl_arr].
        destruct (Nat.eq_dec (sl_cap s) 0) as [Hc|Hc]; [now right; left|].
        pose proof (swf_arr _ _ Hw Hc). right. right. lia.
      + apply (sim_range _ _ Hsim).
      + apply (sim_glen _ _ Hsim).
      + cbn. rewrite !app_length, (sim_ulen _ _ Hsim). reflexivity.
    - (* OpWrite *)
      destruct (nth_error (rt_user t) i) as [s|] eqn:Ei.
      2:{ rewrite (sim_user_none _ _ _ Hsim Ei). now split. }
      destruct (sim_user _ _ _ _ Hsim Ei) as [Hw Es]. rewrite Es.
      rewrite sl_read_length by exact Hw.
      destruct (k <? sl_len s) eqn:Ek; [|now split]. apply Nat.ltb_lt in Ek.
      split; [|reflexivity]. cbn [fst]. pose proof Hw as [Hw1 Hw2].
      assert (Hil : i < length (g_slices r)) by (apply nth_error_Some; congruence).
      apply sim_update with (t := t) (r := r) (x := SUser i) (s' := s)
        (v := set_nth k x (sl_read (rt_heap t) s)); auto.
      + cbn. now rewrite nth_error_set_nth_same.
      + intros [|n|id|j] N; try reflexivity. cbn. apply nth_error_set_nth_other. congruence.
      + cbn [with_heap rt_heap]. split; [exact Hw1|]. rewrite write_len by (cbn [length]; lia). exact Hw2.
      + cbn [with_heap rt_heap]. unfold sl_read, sl_write.
        assert (Harr : sl_arr s < length (rt_heap t)) by (apply swf_arr; [exact Hw|lia]).
        rewrite nth_set_nth_same by exact Harr.
        apply write_at_set_nth; lia.
      + intros y s0 N Ey. cbn [with_heap rt_heap].
        assert (Hsep : sep s s0) by (apply (sim_sep _ _ Hsim (SUser i) y); [congruence|exact Ei|exact Ey]).
        destruct (write_frame (rt_heap t) s k [x] s0 Hw ltac:(cbn [length]; lia) (sim_wf _ _ Hsim y s0 Ey) Hsep) as [F1 F2].
        auto.
      + apply (sim_range _ _ Hsim).
      + apply (sim_glen _ _ Hsim).
      + cbn. rewrite set_nth_length. apply (sim_ulen _ _ Hsim).
    - (* OpUse *)
      destruct (nth_error (rt_user t) i) as [s|] eqn:Ei.
      2:{ rewrite (sim_user_none _ _ _ Hsim Ei). now split. }
      destruct (sim_user _ _ _ _ Hsim Ei) as [Hw Es]. rewrite Es. split; [|reflexivity].
      cbn [fst]. unfold use.
      destruct (sl_append zero grow (rt_heap t) (rt_handlers t) (sl_read (rt_heap t) s)) as [h' s'] eqn:Ea.
      assert (Hg : swf (rt_heap t) (rt_handlers t)) by (apply (sim_wf _ _ Hsim SGlobal); reflexivity).
      destruct (append_spec _ _ _ _ _ Hg Ea) as (Hs' & Rs' & Fr).
      pose proof (sim_at _ _ SGlobal _ Hsim eq_refl) as Eg. cbn in Eg. injection Eg as Eg.
      apply sim_update with (t := t) (r := r) (x := SGlobal) (s' := s')
        (v := g_global r ++ sl_read (rt_heap t) s); auto.
      + intros [|n|id|j] N; try reflexivity. congruence.
      + intros [|n|id|j] N; try reflexivity. congruence.
      + cbn [rt_heap]. now rewrite Rs', Eg.
      + intros y s0 N Ey. cbn [rt_heap]. apply Fr; [apply (sim_wf _ _ Hsim y s0 Ey)|].
        apply (sim_sep _ _ Hsim SGlobal y); [congruence|reflexivity|exact Ey].
      + apply (sim_range _ _ Hsim).
      + apply (sim_glen _ _ Hsim).
      + apply (sim_ulen _ _ Hsim).
    - (* OpGroup *)
      destruct (nth_error (rt_user t) i) as [s|] eqn:Ei.
      2:{ rewrite (sim_user_none _ _ _ Hsim Ei). now split. }
      destruct (sim_user _ _ _ _ Hsim Ei) as [Hw Es]. rewrite Es. split; [|reflexivity].
      cbn [fst]. unfold new_group.
      destruct (sl_make zero (rt_heap t) 0 (sl_len s)) as [h1 s1] eqn:Em.
      destruct (make_spec _ _ _ _ _ Em) as (Hm & Rm & Harr & Hlen & Hcap & Hoff & Hfr).
      destruct (sl_append zero grow h1 s1 (sl_read h1 s)) as [h2 s2] eqn:Ea.
      destruct (append_spec _ _ _ _ _ Hm Ea) as (Hs2 & Rs2 & Fr2).
      destruct (Hfr s Hw) as (_ & Rs & _). rewrite Rm, Rs in Rs2. cbn [repeat app] in Rs2.
      apply sim_update with (t := t) (r := r) (x := SGroup (length (rt_groups t))) (s' := s2)
        (v := sl_read (rt_heap t) s); auto.
      + cbn. rewrite nth_error_snoc, Nat.eqb_refl. reflexivity.
      + cbn. rewrite nth_error_snoc, (sim_glen _ _ Hsim), Nat.eqb_refl. reflexivity.
      + intros [|n|id|j] N; try reflexivity. cbn. rewrite nth_error_snoc.
        destruct (Nat.eqb_spec n (length (rt_groups t))); [congruence|reflexivity].
      + intros [|n|id|j] N; try reflexivity. cbn. rewrite nth_error_snoc.
        destruct (Nat.eqb_spec n (length (g_groups r))) as [->|]; [|reflexivity].
        rewrite <- (sim_glen _ _ Hsim) in N. congruence.
      + intros y s0 N Ey. cbn [rt_heap]. destruct (Hfr s0 (sim_wf _ _ Hsim y s0 Ey)) as (F1 & F2 & F3).
        destruct (Fr2 s0 F1 F3) as (F4 & F5 & F6). split; [exact F4|]. split; [now rewrite F5|exact F6].
      + intros n. unfold range_at, spec_range. cbn [rt_groups g_groups].
        rewrite !nth_error_snoc, <- (sim_glen _ _ Hsim).
        destruct (n =? length (rt_groups t)); [reflexivity|]. apply (sim_range _ _ Hsim n).
      + cbn. rewrite !app_length, (sim_glen _ _ Hsim). reflexivity.
      + apply (sim_ulen _ _ Hsim).
    - (* OpGroupUse *)
      destruct (nth_error (rt_user t) i) as [s|] eqn:Ei.
      2:{ rewrite (sim_user_none _ _ _ Hsim Ei). now split. }
      destruct (sim_user _ _ _ _ Hsim Ei) as [Hw Es]. rewrite Es.
      destruct (nth_error (rt_groups t) g) as [gr|] eqn:Eg.
      2:{ rewrite (sim_range_none _ _ _ Hsim Eg). now split. }
      rewrite (sim_group _ _ _ _ Hsim Eg). unfold group_use. rewrite Eg.
      destruct (sl_append zero grow (rt_heap t) (gr_handlers gr) (sl_read (rt_heap t) s)) as [h' s'] eqn:Ea.
      split; [|reflexivity]. cbn [fst].
      assert (Hat : slice_at t (SGroup g) = Some (gr_handlers gr)) by (cbn; now rewrite Eg).
      assert (Hg : swf (rt_heap t) (gr_handlers gr)) by (apply (sim_wf _ _ Hsim (SGroup g)); exact Hat).
      destruct (append_spec _ _ _ _ _ Hg Ea) as (Hs' & Rs' & Fr).
      assert (Hgl : g < length (rt_groups t)) by (apply nth_error_Some; congruence).
      apply sim_update with (t := t) (r := r) (x := SGroup g) (s' := s')
        (v := sl_read (rt_heap t) (gr_handlers gr) ++ sl_read (rt_heap t) s); auto.
      + cbn. rewrite nth_error_set_nth_same by exact Hgl. reflexivity.
      + cbn. rewrite nth_error_set_nth_same by (rewrite <- (sim_glen _ _ Hsim); exact Hgl). reflexivity.
      + intros [|n|id|j] N; try reflexivity. cbn. rewrite nth_error_set_nth_other by congruence. reflexivity.
      + intros [|n|id|j] N; try reflexivity. cbn. rewrite nth_error_set_nth_other by congruence. reflexivity.
      + intros y s0 N Ey. cbn [rt_heap]. apply Fr; [apply (sim_wf _ _ Hsim y s0 Ey)|].
        apply (sim_sep _ _ Hsim (SGroup g) y); [congruence|exact Hat|exact Ey].
      + intros n. unfold range_at, spec_range. cbn [rt_groups g_groups].
        destruct (Nat.eq_dec g n) as [<-|N].
        * rewrite !nth_error_set_nth_same by (rewrite <- ?(sim_glen _ _ Hsim); exact Hgl). reflexivity.
        * rewrite !nth_error_set_nth_other by exact N. apply (sim_range _ _ Hsim n).
      + cbn. rewrite !set_nth_length. apply (sim_glen _ _ Hsim).
      + apply (sim_ulen _ _ Hsim).
    - (* OpAdd *)
      destruct (nth_error (rt_user t) i) as [s|] eqn:Ei.
      2:{ rewrite (sim_user_none _ _ _ Hsim Ei). now split. }
      destruct (sim_user _ _ _ _ Hsim Ei) as [Hw Es]. rewrite Es.
      pose proof (add_handler_sim t r id s Hsim Hw) as H. unfold result_ok in H.
      destruct (add_handler zero grow t id s); destruct H as [H1 H2]; rewrite H2; now split.
    - (* OpGroupAdd *)
      destruct (nth_error (rt_user t) i) as [s|] eqn:Ei.
      2:{ rewrite (sim_user_none _ _ _ Hsim Ei). now split. }
      destruct (sim_user _ _ _ _ Hsim Ei) as [Hw Es]. rewrite Es.
      destruct (nth_error (rt_groups t) g) as [gr|] eqn:Eg.
      2:{ rewrite (sim_range_none _ _ _ Hsim Eg). now split. }
      rewrite (sim_group _ _ _ _ Hsim Eg). unfold group_add_handler. rewrite Eg.
      destruct (Z.ltb_spec id (gr_start gr)).
      { cbn [orb]. replace (gr_start gr <=? id)%Z with false by lia. now split. }
      destruct (Z.ltb_spec (gr_end gr) id).
      { cbn [orb]. replace (id <=? gr_end gr)%Z with false by lia. rewrite Bool.andb_false_r. now split. }
      cbn [orb]. replace (gr_start gr <=? id)%Z with true by lia.
      replace (id <=? gr_end gr)%Z with true by lia. cbn [andb].
      destruct (sl_make zero (rt_heap t) (sl_len (gr_handlers gr) + sl_len s) 0) as [h1 m] eqn:Em.
      assert (Hat : slice_at t (SGroup g) = Some (gr_handlers gr)) by (cbn; now rewrite Eg).
      assert (Hg : swf (rt_heap t) (gr_handlers gr)) by (apply (sim_wf _ _ Hsim (SGroup g)); exact Hat).
      destruct (merge_spec _ _ _ _ _ Hg Hw Em) as (Hm & Rm & Fr).
      set (h2 := sl_copy h1 m (sl_read h1 (gr_handlers gr))) in *.
      set (h3 := sl_copy h2 (sl_from m (sl_len (gr_handlers gr))) (sl_read h2 s)) in *.
      assert (Hsim3 : sim (with_heap t h3) r).
      { apply sim_heap; [exact Hsim|]. intros s0 Hs0. destruct (Fr s0 Hs0) as (F1 & F2 & _). auto. }
      pose proof (add_handler_sim (with_heap t h3) r id m Hsim3 Hm) as H1.
      cbn [with_heap rt_heap] in H1. rewrite Rm in H1. unfold result_ok in H1.
      destruct (add_handler zero grow (with_heap t h3) id m).
      + destruct H1 as [H1 H2]. rewrite H2. now split.
      + destruct H1 as [H1 H2]. rewrite H2. split; [|reflexivity]. cbn [fst].
        assert (Eb : fst (bind r id (g_global r ++ sl_read (rt_heap t) (gr_handlers gr) ++ sl_read (rt_heap t) s)) = r).
        { unfold bind in *. destruct (bound_to r id); [reflexivity|discriminate]. }
        rewrite Eb. exact Hsim.
  Qed.

  Lemma sim_init : sim (new_router_slices zero) empty_reg.
  Proof.
    constructor.
    - intros [|n|id|i] s E; cbn in E; try (destruct n; discriminate); try discriminate; try (destruct i; discriminate).
      injection E as <-. split; cbn; lia.
    - intros x y s s' N Hx Hy.
      destruct x as [|n|id|i]; cbn in Hx; try (destruct n; discriminate); try discriminate; try (destruct i; discriminate).
      destruct y as [|n|id|i]; cbn in Hy; try (destruct n; discriminate); try discriminate; try (destruct i; discriminate).
      congruence.
    - intros [|[|n]|id|[|i]]; reflexivity.
    - intros [|n]; reflexivity.
    - reflexivity.
    - reflexivity.
  Qed.

  Lemma rrun_sim os : forall t r, sim t r ->
    sim (fst (rrun zero grow t os)) (fst (reg_run r os)) /\
    snd (rrun zero grow t os) = snd (reg_run r os).
  Proof.
    induction os as [|o os IH]; intros t r H; cbn [rrun reg_run]; [now split|].
    destruct (rstep_sim t r o H) as [H1 H2].
    destruct (rstep zero grow t o) as [t1 b1]. destruct (reg_step r o) as [r1 b2]. cbn [fst snd] in *.
    destruct (IH t1 r1 H1) as [H3 H4].
    destruct (rrun zero grow t1 os) as [t2 bs]. destruct (reg_run r1 os) as [r2 bs']. cbn [fst snd] in *.
    split; [exact H3|]. congruence.
  Qed.

  Lemma sim_handlers t r id : sim t r -> get_handlers t id = bound_to r id.
  Proof.
    intros H. pose proof (sim_read _ _ H (SApi id)) as E. cbn [slice_at spec_at] in E.
    unfold get_handlers. rewrite <- E. destruct (api_lookup id (rt_apis t)); reflexivity.
  Qed.

  Lemma registration_refines os id :
    get_handlers (fst (rrun zero grow (new_router_slices zero) os)) id
      = bound_to (fst (reg_run empty_reg os)) id /\
    snd (rrun zero grow (new_router_slices zero) os) = snd (reg_run empty_reg os).
  Proof.
    destruct (rrun_sim os _ _ sim_init) as [H1 H2]. split; [now apply sim_handlers|exact H2].
  Qed.

  (* bindings of the specification never change *)
  Lemma reg_step_stable (r : reg A) o id hs : bound_to r id = Some hs -> bound_to (fst (reg_step r o)) id = Some hs.
  Proof.
    intros H.
    assert (Hbind : forall i l, bound_to (fst (bind r i l)) id = Some hs).
    { intros i l. unfold bind. destruct (bound_to r i) eqn:E; [exact H|]. cbn. unfold bound_to. cbn.
      destruct (Z.eqb_spec i id) as [->|]; [congruence|exact H]. }
    destruct o as [l|i k x|i|a b i|g i|i j|g i j]; cbn [reg_step].
    - exact H.
    - destruct (nth_error (g_slices r) i); [|exact H]. destruct (Nat.ltb k (length l)); exact H.
    - destruct (nth_error (g_slices r) i); exact H.
    - destruct (nth_error (g_slices r) i); exact H.
    - destruct (nth_error (g_slices r) i); [|exact H].
      destruct (nth_error (g_groups r) g) as [[[? ?] ?]|]; exact H.
    - destruct (nth_error (g_slices r) j); [apply Hbind|exact H].
    - destruct (nth_error (g_slices r) j); [|exact H].
      destruct (nth_error (g_groups r) g) as [[[a b] l0]|]; [|exact H].
      destruct (_ && _)%bool; [apply Hbind|exact H].
  Qed.

  Lemma reg_run_app (r : reg A) os1 os2 :
    fst (reg_run r (os1 ++ os2)) = fst (reg_run (fst (reg_run r os1)) os2).
  Proof.
    revert r. induction os1 as [|o os1 IH]; intros r; [reflexivity|]. cbn [app reg_run].
    destruct (reg_step r o) as [r1 b]. specialize (IH r1).
    destruct (reg_run r1 (os1 ++ os2)). destruct (reg_run r1 os1). exact IH.
  Qed.

  Lemma reg_run_stable os : forall (r : reg A) id hs, bound_to r id = Some hs -> bound_to (fst (reg_run r os)) id = Some hs.
  Proof.
    induction os as [|o os IH]; intros r id hs H; [exact H|]. cbn [reg_run].
    pose proof (reg_step_stable r o id hs H) as H1. destruct (reg_step r o) as [r1 b].
    specialize (IH r1 id hs H1). destruct (reg_run r1 os). exact IH.
  Qed.

  Lemma registration_stable os1 os2 id hs :
    get_handlers (fst (rrun zero grow (new_router_slices zero) os1)) id = Some hs ->
    get_handlers (fst (rrun zero grow (new_router_slices zero) (os1 ++ os2))) id = Some hs.
  Proof.
    rewrite !(proj1 (registration_refines _ id)), reg_run_app. apply reg_run_stable.
  Qed.
End Sl.

From Coq Require Import ZArith List Bool Lia ZifyBool ZifyNat Permutation.
From Verif Require Import Bytes Pack Request Spec_Request.
Import ListNotations.
Local Open Scope Z_scope.
Ltac Zify.zify_post_hook ::= Z.div_mod_to_equations.

(* ---------- traces ---------- *)
Lemma starts_app a b : starts (a ++ b) = starts a ++ starts b.
Proof. apply flat_map_app. Qed.
Lemma ends_app a b : ends (a ++ b) = ends a ++ ends b.
Proof. apply flat_map_app. Qed.
Definition nexts (es : list hev) : nat :=
  length (filter (fun e => match e with HvNext => true | _ => false end) es).
Lemma nexts_app a b : nexts (a ++ b) = (nexts a + nexts b)%nat.
Proof. unfold nexts. rewrite filter_app, app_length. reflexivity. Qed.
Definition ticks (es : list hev) : Z := Z.of_nat (nexts es + length (ends es)).
Lemma ticks_app a b : ticks (a ++ b) = ticks a + ticks b.
Proof. unfold ticks. rewrite nexts_app, ends_app, app_length. lia. Qed.
Lemma ticks_nonneg a : 0 <= ticks a.
Proof. unfold ticks. lia. Qed.
Lemma ticks_start n a : ticks (HvStart n :: a) = ticks a.
Proof. reflexivity. Qed.
Lemma ticks_end n a : ticks (HvEnd n :: a) = 1 + ticks a.
Proof. unfold ticks. cbn [ends flat_map app length nexts filter]. unfold ends, nexts. lia. Qed.
Lemma ticks_next a : ticks (HvNext :: a) = 1 + ticks a.
Proof. unfold ticks. cbn [ends flat_map app length nexts filter]. unfold ends, nexts. cbn [length]. lia. Qed.

Definition abort_safe (es : list hev) : Prop :=
  forall t1 t2, es = t1 ++ HvAbort :: t2 -> starts t2 = [].

Lemma abort_safe_app a b :
  abort_safe a -> abort_safe b -> (In HvAbort a -> starts b = []) -> abort_safe (a ++ b).
Proof.
  intros Ha Hb Hx. induction a as [|x a IH]; [exact Hb|].
  intros [|y t1] t2 E.
  - cbn in E. injection E as -> E. subst t2.
    rewrite starts_app, Hx by now left. rewrite app_nil_r. apply (Ha [] a eq_refl).
  - cbn in E. injection E as -> E. apply (IH) with t1; auto.
    + intros u1 u2 Eu. apply (Ha (y :: u1)). now rewrite Eu.
    + intros Hin. apply Hx. now right.
Qed.

Lemma abort_safe_nil : abort_safe [].
Proof. intros [|? t1] t2 E; discriminate E. Qed.

Lemma abort_safe_cons x es : x <> HvAbort -> abort_safe es -> abort_safe (x :: es).
Proof.
  intros Hx H [|y t1] t2 E; cbn in E; injection E as E1 E2; subst.
  - congruence.
  - now apply (H t1).
Qed.

Lemma s8_range z : -128 <= s8 z <= 127.
Proof. unfold s8. lia. Qed.
Lemma s8_le z : 0 <= z -> s8 z <= z.
Proof. unfold s8. lia. Qed.

(* ---------- handler slices ---------- *)
Section Slices.
  Variable hs : list handler.
  Let L := s8 (zlen hs).
  Hypothesis HL : 0 <= L.

  Definition names := map h_name hs.
  Definition reachable_names := firstn (Z.to_nat L) names.
  Definition rem_from (i : Z) := skipn (Z.to_nat i) reachable_names.

  Definition okst (lo : Z) (s : rst) : Prop :=
    lo <= rs_index s <= 127 /\ rs_nhandlers s = zlen hs.

  (* [d] is 1 for a run that starts by incrementing the index. *)
  Definition good (lo d : Z) (s : rst) (es : list hev) (o : hout) : Prop :=
    exists rest,
      rem_from (rs_index s + 1) = starts es ++ rest /\
      abort_safe es /\
      o <> HFuel /\
      (o = HPanicked -> no_panic es ->
         127 < Z.max (rs_index s) L + d + ticks es /\
         (no_abort es -> 127 < rs_index s + d + ticks es /\ rest = [])) /\
      (forall s', o = HDone s' ->
         okst lo s' /\ Permutation (starts es) (ends es) /\ no_panic es /\
         rs_index s' <= Z.max (rs_index s) L + d + ticks es /\
         (no_abort es -> rs_index s' = rs_index s + d + ticks es /\ rem_from (rs_index s' + 1) = rest) /\
         (In HvAbort es -> rem_from (rs_index s' + 1) = [] /\ L <= rs_index s') /\
         (d = 1 -> L <= rs_index s')).

  Lemma rem_end i : L <= i -> rem_from i = [].
  Proof.
    intros. unfold rem_from, reachable_names. apply skipn_all2. rewrite firstn_length. lia.
  Qed.

  Lemma in_abort_dec es : {In HvAbort es} + {~ In HvAbort es}.
  Proof.
    induction es as [|e es [IH|IH]]; [right; intros []|left; now right|].
    assert (D : {e = HvAbort} + {e <> HvAbort}) by (destruct e; (now left) || (right; discriminate)).
    destruct D as [->|N]; [left; now left|right; intros [H|H]; [now apply N|now apply IH]].
  Defined.

  Lemma app_nil_prefix {A} (a b : list A) : [] = a ++ b -> a = [].
  Proof. destruct a; [reflexivity|discriminate]. Qed.

  (* a run followed by another one *)
  Lemma good_seq lo d1 d2 s es o1 es' o' s1 :
    good lo d1 s es o1 -> o1 = HDone s1 -> good lo d2 s1 es' o' ->
    lo <= rs_index s ->
    0 <= d1 -> 0 <= d2 ->
    good lo (d1 + d2) s (es ++ es') o'.
  Proof.
    intros (rest & Hr & Has & _ & _ & Hd) -> (rest' & Hr' & Has' & Hf' & Hp' & Hd') Hlo Hd10 Hd2.
    destruct (Hd _ eq_refl) as (Hok & Hperm & Hnp & Hle & Hna & Hab & Hd1).
    assert (Hst : In HvAbort es -> starts es' = []).
    { intros Hin. destruct (Hab Hin) as [E _]. rewrite E in Hr'. now apply app_nil_prefix in Hr'. }
    pose proof (ticks_nonneg es). pose proof (ticks_nonneg es').
    exists (if in_abort_dec es then rest else rest').
    split; [|split; [|split; [|split]]].
    - rewrite starts_app. destruct (in_abort_dec es) as [Hin|Hin].
      + rewrite (Hst Hin), app_nil_r. exact Hr.
      + destruct (Hna Hin) as [_ E]. rewrite Hr, <- E, Hr', app_assoc. reflexivity.
    - apply abort_safe_app; auto.
    - exact Hf'.
    - intros E Hnp2. destruct (Hp' E) as [Hb1 Hb2].
      { intros Hin. apply Hnp2. apply in_or_app. now right. }
      rewrite ticks_app. split.
      + lia.
      + intros Hnab. destruct Hna as [Ei _].
        { intros Hin. apply Hnab. apply in_or_app. now left. }
        assert (no_abort es') by (intros Hin; apply Hnab; apply in_or_app; now right).
        destruct (Hb2 H1) as [Hb3 Hb4]. split; [lia|].
        destruct (in_abort_dec es) as [Hin|Hin]; [|exact Hb4].
        exfalso. apply Hnab. apply in_or_app. now left.
    - intros s' E. destruct (Hd' _ E) as (Hok' & Hperm' & Hnp' & Hle' & Hna' & Hab' & Hd1').
      repeat split; try apply Hok'.
      + rewrite starts_app, ends_app. now apply Permutation_app.
      + intros Hin. apply in_app_or in Hin. destruct Hin; [now apply Hnp|now apply Hnp'].
      + rewrite ticks_app. lia.
      + rewrite ticks_app. destruct Hna as [Ei _].
        { intros Hin. apply H1. apply in_or_app. now left. }
        destruct Hna' as [Ei' _].
        { intros Hin. apply H1. apply in_or_app. now right. }
        lia.
      + destruct Hna' as [_ Er].
        { intros Hin. apply H1. apply in_or_app. now right. }
        destruct (in_abort_dec es) as [Hin|Hin]; [|exact Er].
        exfalso. apply H1. apply in_or_app. now left.
      + apply in_app_or in H1. destruct (in_abort_dec es') as [Hin|Hin]; [now apply Hab'|].
        destruct H1 as [H1|H1]; [|contradiction].
        destruct (Hab H1) as [E1 E2]. apply rem_end.
        destruct (Hna' Hin) as [Ei' _]. lia.
      + apply in_app_or in H1. destruct (in_abort_dec es') as [Hin|Hin]; [now apply Hab'|].
        destruct H1 as [H1|H1]; [|contradiction].
        destruct (Hab H1) as [E1 E2]. destruct (Hna' Hin) as [Ei' _]. lia.
      + intros Ed. destruct (in_abort_dec es') as [Hin|Hin]; [now apply Hab'|].
        destruct (Hna' Hin) as [Ei' _].
        assert (d1 = 1 \/ d2 = 1) as [Hone|Hone] by lia.
        * specialize (Hd1 Hone). lia.
        * now apply Hd1'.
  Qed.

  Lemma good_index lo d s s2 es o :
    rs_index s = rs_index s2 -> good lo d s es o -> good lo d s2 es o.
  Proof. intros E. unfold good. rewrite E. auto. Qed.

  Definition benign (e : hev) : Prop :=
    match e with HvGoto _ | HvSet _ _ | HvGot _ _ | HvSetResp _ | HvGotResp _ | HvMsg _ => True | _ => False end.

  Lemma good_cons e lo d s es o : benign e -> good lo d s es o -> good lo d s (e :: es) o.
  Proof.
    intros Hb (rest & Hr & Has & Hf & Hp & Hd). exists rest.
    assert (Es : starts (e :: es) = starts es) by (destruct e; try contradiction; reflexivity).
    assert (Ee : ends (e :: es) = ends es) by (destruct e; try contradiction; reflexivity).
    assert (Et : ticks (e :: es) = ticks es) by (destruct e; try contradiction; reflexivity).
    assert (Na : no_abort (e :: es) <-> no_abort es).
    { unfold no_abort. cbn [In]. destruct e; try contradiction; intuition discriminate. }
    assert (Np : no_panic (e :: es) <-> no_panic es).
    { unfold no_panic. cbn [In]. destruct e; try contradiction; intuition discriminate. }
    assert (Ia : In HvAbort (e :: es) <-> In HvAbort es).
    { cbn [In]. destruct e; try contradiction; intuition discriminate. }
    rewrite Es, Et, Ee. rewrite Na, Np.
    split; [exact Hr|]. split.
    { apply abort_safe_cons; [destruct e; try contradiction; discriminate|exact Has]. }
    split; [exact Hf|]. split; [exact Hp|].
    intros s' E. destruct (Hd s' E) as (H1 & H2 & H3 & H4 & H5 & H6 & H7).
    rewrite ?Na, ?Np, ?Ia.
    repeat (split; [assumption|]). assumption.
  Qed.

  Lemma good_next lo s es o : good lo 1 s es o -> good lo 0 s (HvNext :: es) o.
  Proof.
    intros (rest & Hr & Has & Hf & Hp & Hd). exists rest.
    assert (Na : no_abort (HvNext :: es) <-> no_abort es).
    { unfold no_abort. cbn [In]. intuition discriminate. }
    assert (Np : no_panic (HvNext :: es) <-> no_panic es).
    { unfold no_panic. cbn [In]. intuition discriminate. }
    assert (Ia : In HvAbort (HvNext :: es) <-> In HvAbort es).
    { cbn [In]. intuition discriminate. }
    rewrite ticks_next. rewrite Na, Np.
    change (starts (HvNext :: es)) with (starts es).
    change (ends (HvNext :: es)) with (ends es).
    split; [exact Hr|]. split; [apply abort_safe_cons; [discriminate|exact Has]|].
    split; [exact Hf|]. split.
    - intros E Hn. destruct (Hp E Hn) as [H1 H2]. split; [lia|]. intros H. destruct (H2 H). split; [lia|assumption].
    - intros s' E. destruct (Hd s' E) as (H1 & H2 & H3 & H4 & H5 & H6 & H7).
      rewrite ?Na, ?Np, ?Ia.
      split; [exact H1|]. split; [exact H2|]. split; [exact H3|]. split; [lia|].
      split; [|split; [exact H6|lia]].
      intros H. destruct (H5 H) as [H8 H9]. split; [lia|exact H9].
  Qed.

  Lemma good_nil lo s : okst lo s -> good lo 0 s [] (HDone s).
  Proof.
    intros Hok. exists (rem_from (rs_index s + 1)). split; [reflexivity|].
    split; [apply abort_safe_nil|]. split; [discriminate|]. split; [discriminate|].
    intros s' [= <-]. change (ticks []) with 0.
    split; [exact Hok|]. split; [constructor|]. split; [intros []|]. split; [lia|].
    split; [|split; [intros []|lia]].
    intros _. split; [lia|reflexivity].
  Qed.

  Lemma good_abort lo s es o :
    good lo 0 (abort true s) es o -> rs_nhandlers s = zlen hs ->
    good lo 0 s (HvAbort :: es) o.
  Proof.
    intros (rest & Hr & Has & Hf & Hp & Hd) Hn. cbn [abort set_index rs_index] in *.
    rewrite Hn in *. fold L in Hr, Hp, Hd.
    rewrite rem_end in Hr by lia. pose proof (app_nil_prefix _ _ Hr) as Es.
    exists (rem_from (rs_index s + 1)).
    change (starts (HvAbort :: es)) with (starts es).
    change (ends (HvAbort :: es)) with (ends es).
    change (ticks (HvAbort :: es)) with (ticks es).
    split; [now rewrite Es|]. split.
    { change (HvAbort :: es) with ([HvAbort] ++ es). apply abort_safe_app; auto.
      intros [|y t1] t2 E; [injection E as <-; reflexivity|].
      injection E as E1 E2. destruct t1; discriminate E2. }
    split; [exact Hf|]. split.
    - intros E H. destruct (Hp E) as [H1 _].
      { intros Hin. apply H. now right. }
      split; [lia|]. intros Hx. exfalso. apply Hx. now left.
    - intros s' E. destruct (Hd s' E) as (H1 & H2 & H3 & H4 & H5 & H6 & H7).
      assert (HLs : L <= rs_index s').
      { destruct (in_abort_dec es) as [Hin|Hin]; [now apply H6|].
        destruct (H5 Hin) as [H8 _]. pose proof (ticks_nonneg es). lia. }
      split; [exact H1|]. split; [exact H2|].
      split; [intros [?|Hin]; [discriminate|]; now apply H3|]. split; [lia|].
      split; [intros H; exfalso; apply H; now left|]. split; [|lia].
      intros _. split; [apply rem_end; lia|exact HLs].
  Qed.

  Lemma good_panic lo d s : good lo d s [HvPanic] HPanicked.
  Proof.
    exists (rem_from (rs_index s + 1)). split; [reflexivity|].
    split; [apply abort_safe_cons; [discriminate|apply abort_safe_nil]|].
    split; [discriminate|]. split; [|discriminate].
    intros _ H. exfalso. apply H. now left.
  Qed.

  Lemma okst_abort lo s : lo <= L -> okst lo s -> okst lo (abort true s).
  Proof.
    intros H [H1 H2]. split; cbn [abort set_index rs_index rs_nhandlers]; [|exact H2].
    rewrite H2. fold L. pose proof (s8_range (zlen hs)). fold L in H0. lia.
  Qed.

  Lemma run_hact_good lo next :
    lo <= L ->
    (forall s es o, okst lo s -> next s = (es, o) -> good lo 1 s es o) ->
    forall a s es o, okst lo s -> run_hact true next a s = (es, o) -> good lo 0 s es o.
  Proof.
    intros Hlo Hnext. induction a as [| |k IH|n k IH|k IH|key v k IH|key k IH|v k IH|k IH|k IH];
      intros s es o Hok E; cbn [run_hact] in E.
    - injection E as <- <-. now apply good_nil.
    - injection E as <- <-. apply good_panic.
    - destruct (run_hact true next k (abort true s)) as [es1 o1] eqn:E1.
      injection E as <- <-. apply good_abort; [|apply Hok].
      eapply IH; [|exact E1]. now apply okst_abort.
    - destruct (run_hact true next k (goto n s)) as [es1 o1] eqn:E1.
      injection E as <- <-. apply good_cons; [exact I|].
      apply good_index with (goto n s); [reflexivity|]. eapply IH; [|exact E1]. exact Hok.
    - destruct (next s) as [es1 o1] eqn:E1. pose proof (Hnext _ _ _ Hok E1) as G1.
      destruct o1 as [s1| |].
      + destruct (run_hact true next k s1) as [es2 o2] eqn:E2. injection E as <- <-.
        apply good_next. change 1 with (1 + 0).
        eapply good_seq; [exact G1|reflexivity| | | lia|lia].
        * eapply IH; [|exact E2]. destruct G1 as (r & _ & _ & _ & _ & Hd). apply (Hd _ eq_refl).
        * apply Hok.
      + injection E as <- <-. now apply good_next.
      + injection E as <- <-. now apply good_next.
    - destruct (run_hact true next k (set_keys s (kv_put key v (rs_keys s)))) as [es1 o1] eqn:E1.
      injection E as <- <-. apply good_cons; [exact I|].
      eapply good_index; [|eapply IH; [|exact E1]; exact Hok]. reflexivity.
    - destruct (run_hact true next (k (kv_get key (rs_keys s))) s) as [es1 o1] eqn:E1.
      injection E as <- <-. apply good_cons; [exact I|]. eapply IH; [|exact E1]. exact Hok.
    - destruct (run_hact true next k (set_rresp s (Some v))) as [es1 o1] eqn:E1.
      injection E as <- <-. apply good_cons; [exact I|].
      eapply good_index; [|eapply IH; [|exact E1]; exact Hok]. reflexivity.
    - destruct (run_hact true next (k (rs_resp s)) s) as [es1 o1] eqn:E1.
      injection E as <- <-. apply good_cons; [exact I|]. eapply IH; [|exact E1]. exact Hok.
    - destruct (run_hact true next (k (rs_msg s)) s) as [es1 o1] eqn:E1.
      injection E as <- <-. apply good_cons; [exact I|]. eapply IH; [|exact E1]. exact Hok.
  Qed.

  Lemma abort_safe_insert n a b : abort_safe (a ++ b) -> abort_safe (a ++ HvEnd n :: b).
  Proof.
    intros H. apply abort_safe_app.
    - intros t1 t2 E. assert (starts (t2 ++ b) = []).
      { apply (H t1). rewrite E, <- app_assoc. reflexivity. }
      rewrite starts_app in H0. now apply app_eq_nil in H0.
    - apply abort_safe_cons; [discriminate|]. intros t1 t2 E. apply (H (a ++ t1)).
      rewrite E, <- app_assoc. reflexivity.
    - intros Hin. apply in_split in Hin. destruct Hin as (t1 & t2 & E).
      assert (starts (t2 ++ b) = []).
      { apply (H t1). rewrite E, <- app_assoc. reflexivity. }
      rewrite starts_app in H0. now apply app_eq_nil in H0.
  Qed.

  Lemma nth_error_firstn_lt {A} (l : list A) n m :
    (n < m)%nat -> nth_error (firstn m l) n = nth_error l n.
  Proof.
    revert n l. induction m as [|m IH]; intros n l H; [lia|].
    destruct l; [reflexivity|]. destruct n; [reflexivity|]. cbn. apply IH. lia.
  Qed.

  Lemma rem_step j h : 0 <= j < L -> nth_error hs (Z.to_nat j) = Some h ->
    rem_from j = h_name h :: rem_from (j + 1).
  Proof.
    intros Hj Hn. unfold rem_from, reachable_names, names.
    replace (Z.to_nat (j + 1)) with (S (Z.to_nat j)) by lia.
    rewrite firstn_map, !skipn_map.
    assert (Hf : nth_error (firstn (Z.to_nat L) hs) (Z.to_nat j) = Some h).
    { rewrite nth_error_firstn_lt; [exact Hn|lia]. }
    clear - Hf. revert Hf. generalize (firstn (Z.to_nat L) hs) (Z.to_nat j).
    intros l n. revert l. induction n as [|n IH]; intros [|x l] H; cbn in H; try discriminate.
    - injection H as ->. reflexivity.
    - cbn [skipn]. apply IH. exact H.
  Qed.

  Lemma L_le : L <= zlen hs.
  Proof. apply s8_le. apply zlen_nonneg. Qed.

  Lemma okst_weaken lo lo' s : lo' <= lo -> okst lo s -> okst lo' s.
  Proof. intros H [H1 H2]. split; [lia|exact H2]. Qed.

  Lemma loop_good fuel : forall lo s es o,
    okst lo s -> -1 <= lo -> lo <= L -> Z.max 0 (L - (rs_index s + 1)) < Z.of_nat fuel ->
    slices_loop fuel hs (set_index s (s8 (rs_index s + 1))) = (es, o) ->
    good lo 1 s es o.
  Proof.
    induction fuel as [|fuel IH]; intros lo s es o [Hi Hn] Hlo HloL Hfuel E; [lia|].
    cbn [slices_loop] in E. cbn [rs_index set_index] in E. fold L in E.
    pose proof (s8_range (zlen hs)) as HLr. fold L in HLr. pose proof L_le as HLle.
    destruct (Z.eq_dec (rs_index s) 127) as [E127|N127].
    { rewrite E127 in E. change (s8 (127 + 1)) with (-128) in E.
      replace (-128 <? L) with true in E by lia. cbn in E. injection E as <- <-.
      exists (rem_from (rs_index s + 1)). split; [reflexivity|].
      split; [apply abort_safe_nil|]. split; [discriminate|]. split; [|discriminate].
      intros _ _. change (ticks []) with 0. split; [lia|]. intros _. split; [lia|].
      apply rem_end. lia. }
    rewrite (s8_small (rs_index s + 1)) in E by lia.
    set (j := rs_index s + 1) in *.
    destruct (j <? L) eqn:EjL.
    2:{ injection E as <- <-. exists (rem_from j). split; [reflexivity|].
        split; [apply abort_safe_nil|]. split; [discriminate|]. split; [discriminate|].
        intros s' [= <-]. cbn [rs_index set_index rs_nhandlers]. change (ticks []) with 0.
        split; [split; cbn [rs_index set_index rs_nhandlers]; [lia|exact Hn]|].
        split; [constructor|]. split; [intros []|]. split; [lia|].
        split; [|split; [intros []|lia]].
        intros _. split; [lia|]. rewrite !rem_end by lia. reflexivity. }
    replace (j <? 0) with false in E by lia.
    destruct (nth_error hs (Z.to_nat j)) as [h|] eqn:Eh.
    2:{ apply nth_error_None in Eh. unfold zlen in HLle. lia. }
    set (s2 := set_index s j) in *.
    assert (Hok2 : okst j s2) by (split; cbn [rs_index set_index rs_nhandlers s2]; [lia|exact Hn]).
    match type of E with context [run_hact true ?nx _ _] => set (next := nx) in * end.
    assert (Hnext : forall s1 es1 o1, okst j s1 -> next s1 = (es1, o1) -> good j 1 s1 es1 o1).
    { intros s1 es1 o1 Hok1 E1. eapply IH; [exact Hok1|lia|lia| |exact E1].
      destruct Hok1. lia. }
    destruct (run_hact true next (h_body h) s2) as [es1 o1] eqn:E1.
    pose proof (run_hact_good j next ltac:(lia) Hnext _ _ _ _ Hok2 E1) as G1.
    assert (Erem : rem_from j = h_name h :: rem_from (j + 1)) by (apply rem_step; [lia|exact Eh]).
    assert (Ej2 : rs_index s2 = j) by reflexivity.
    assert (Hbad : o1 <> HFuel -> (forall s', o1 <> HDone s') -> good lo 1 s (HvStart (h_name h) :: es1) o1).
    { intros _ Hnd. destruct G1 as (rest & Hr & Has & Hf & Hp & Hd). exists rest.
      rewrite ticks_start. fold j. rewrite Erem.
      rewrite Ej2 in Hr, Hp. split; [cbn [starts flat_map app]; unfold starts in Hr; rewrite Hr; reflexivity|].
      split; [apply abort_safe_cons; [discriminate|exact Has]|].
      split; [exact Hf|]. split.
      - intros Ep Hnp. destruct (Hp Ep) as [H1 H2].
        { intros Hin. apply Hnp. now right. }
        split; [lia|]. intros Hna. assert (no_abort es1) by (intros Hin; apply Hna; now right).
        destruct (H2 H). split; [lia|assumption].
      - intros s' Es'. exfalso. exact (Hnd s' Es'). }
    destruct o1 as [s1| |].
    2:{ injection E as <- <-. apply Hbad; discriminate. }
    2:{ exfalso. destruct G1 as (rest & _ & _ & Hf & _). now apply Hf. }
    change (slices_loop fuel hs (set_index s1 (s8 (rs_index s1 + 1)))) with (next s1) in E.
    destruct (next s1) as [es2 o2] eqn:E2. injection E as <- <-.
    assert (Hok1 : okst j s1) by (destruct G1 as (r & _ & _ & _ & _ & Hd); apply (Hd _ eq_refl)).
    pose proof (Hnext _ _ _ Hok1 E2) as G2.
    pose proof (good_seq j 0 1 s2 es1 _ es2 o2 s1 G1 eq_refl G2 ltac:(lia) ltac:(lia) ltac:(lia)) as G.
    destruct G as (rest & Hr & Has & Hf & Hp & Hd). rewrite Ej2 in Hr, Hp, Hd.
    exists rest. fold j. rewrite Erem. rewrite ticks_start, ticks_app, ticks_end.
    rewrite ticks_app in Hp, Hd.
    assert (Es : starts (HvStart (h_name h) :: es1 ++ HvEnd (h_name h) :: es2)
                 = h_name h :: starts (es1 ++ es2)).
    { change (h_name h :: starts (es1 ++ HvEnd (h_name h) :: es2) = h_name h :: starts (es1 ++ es2)).
      rewrite !starts_app. reflexivity. }
    assert (Ia : forall x, (forall n, x <> HvStart n) -> (forall n, x <> HvEnd n) ->
              (In x (HvStart (h_name h) :: es1 ++ HvEnd (h_name h) :: es2) <-> In x (es1 ++ es2))).
    { intros x Hx1 Hx2. cbn [In]. rewrite !in_app_iff. cbn [In].
      specialize (Hx1 (h_name h)). specialize (Hx2 (h_name h)). intuition congruence. }
    assert (Na : no_abort (HvStart (h_name h) :: es1 ++ HvEnd (h_name h) :: es2) <-> no_abort (es1 ++ es2)).
    { unfold no_abort. rewrite Ia by discriminate. reflexivity. }
    assert (Np : no_panic (HvStart (h_name h) :: es1 ++ HvEnd (h_name h) :: es2) <-> no_panic (es1 ++ es2)).
    { unfold no_panic. rewrite Ia by discriminate. reflexivity. }
    pose proof (Ia HvAbort ltac:(discriminate) ltac:(discriminate)) as Iab.
    rewrite Na, Np, Es.
    split; [cbn [app]; now rewrite Hr|].
    split; [apply abort_safe_cons; [discriminate|now apply abort_safe_insert]|].
    split; [exact Hf|]. split.
    - intros Ep Hnp. destruct (Hp Ep Hnp) as [H1 H2]. split; [lia|]. intros Hna. destruct (H2 Hna). split; [lia|assumption].
    - intros s' Es'. destruct (Hd s' Es') as (H1 & H2 & H3 & H4 & H5 & H6 & H7).
      rewrite Na, Np, Iab.
      split; [apply okst_weaken with j; [lia|exact H1]|].
      split.
      { change (ends (HvStart (h_name h) :: es1 ++ HvEnd (h_name h) :: es2))
          with (ends (es1 ++ HvEnd (h_name h) :: es2)).
        rewrite ends_app. cbn [ends flat_map]. cbn [app]. change (flat_map _ es2) with (ends es2).
        apply Permutation_cons_app. rewrite <- ends_app. exact H2. }
      split; [exact H3|]. split; [lia|]. split.
      { intros Hna. destruct (H5 Hna) as [H8 H9]. split; [lia|exact H9]. }
      split; [exact H6|]. intros _. apply H7. lia.
  Qed.

  Lemma run_slices_good s es o :
    rs_index s = -1 -> run_slices hs s = (es, o) ->
    good (-1) 1 (set_nhandlers s (zlen hs)) es o.
  Proof.
    intros Hi. unfold run_slices, slices_next. intros E. eapply loop_good; [| | | |exact E].
    - split; cbn [rs_index set_nhandlers rs_nhandlers]; [lia|reflexivity].
    - lia.
    - lia.
    - cbn [rs_index set_nhandlers]. unfold slices_fuel. pose proof L_le. unfold zlen in *. lia.
  Qed.
End Slices.

Lemma run_slices_none hs s :
  s8 (zlen hs) <= 0 -> rs_index s = -1 ->
  run_slices hs s = ([], HDone (set_index (set_nhandlers s (zlen hs)) 0)).
Proof.
  intros H Hi. unfold run_slices, slices_next, slices_fuel. cbn [slices_loop].
  cbn [rs_index set_index set_nhandlers]. rewrite Hi. change (s8 (-1 + 1)) with 0.
  replace (0 <? s8 (zlen hs)) with false by lia. reflexivity.
Qed.

Lemma slices_terminates hs s es o :
  rs_index s = -1 -> run_slices hs s = (es, o) -> o <> HFuel.
Proof.
  intros Hi E. destruct (Z_le_gt_dec (s8 (zlen hs)) 0) as [Hn|Hp].
  - rewrite run_slices_none in E by assumption. injection E as <- <-. discriminate.
  - destruct (run_slices_good hs ltac:(lia) s es o Hi E) as (r & _ & _ & Hf & _). exact Hf.
Qed.

Lemma abort_no_start hs s es o t1 t2 :
  rs_index s = -1 -> run_slices hs s = (es, o) -> es = t1 ++ HvAbort :: t2 -> starts t2 = [].
Proof.
  intros Hi E. destruct (Z_le_gt_dec (s8 (zlen hs)) 0) as [Hn|Hp].
  - rewrite run_slices_none in E by assumption. injection E as <- <-. destruct t1; discriminate.
  - destruct (run_slices_good hs ltac:(lia) s es o Hi E) as (r & _ & Ha & _). apply Ha.
Qed.

Lemma slices_prefix hs s es o :
  rs_index s = -1 -> run_slices hs s = (es, o) ->
  exists rest, map h_name hs = starts es ++ rest.
Proof.
  intros Hi E. destruct (Z_le_gt_dec (s8 (zlen hs)) 0) as [Hn|Hp].
  - rewrite run_slices_none in E by assumption. injection E as <- <-. now exists (map h_name hs).
  - destruct (run_slices_good hs ltac:(lia) s es o Hi E) as (r & Hr & _).
    cbn [rs_index set_nhandlers] in Hr. rewrite Hi in Hr. unfold rem_from, reachable_names in Hr.
    cbn [Z.add Z.to_nat skipn] in Hr. change (Z.to_nat (-1 + 1)) with 0%nat in Hr. cbn [skipn] in Hr.
    exists (r ++ skipn (Z.to_nat (s8 (zlen hs))) (map h_name hs)).
    rewrite app_assoc, <- Hr. symmetry. apply firstn_skipn.
Qed.

Lemma slices_too_many hs s es o :
  128 <= zlen hs -> rs_index s = -1 -> run_slices hs s = (es, o) ->
  (length (starts es) < length hs)%nat /\ (zlen hs <= 255 -> es = []).
Proof.
  intros Hlen Hi E. pose proof (s8_range (zlen hs)) as Hr8.
  destruct (Z_le_gt_dec (s8 (zlen hs)) 0) as [Hn|Hp].
  - rewrite run_slices_none in E by assumption. injection E as <- <-. split; [|reflexivity].
    unfold zlen in Hlen. cbn. lia.
  - destruct (run_slices_good hs ltac:(lia) s es o Hi E) as (r & Hr & _).
    apply (f_equal (@length _)) in Hr. unfold rem_from, reachable_names in Hr.
    rewrite skipn_length, firstn_length, app_length in Hr. unfold names in Hr. rewrite map_length in Hr.
    split; [unfold zlen in Hlen; lia|]. intros H255.
    exfalso. unfold s8 in Hp. lia.
Qed.

Lemma next_calls_nexts es : next_calls es = Z.of_nat (nexts es).
Proof. reflexivity. Qed.

Lemma slices_all hs s es o :
  zlen hs <= 127 -> rs_index s = -1 -> run_slices hs s = (es, o) ->
  no_abort es -> no_panic es ->
  starts es = map h_name hs.
Proof.
  intros Hlen Hi E Hna Hnp. pose proof (zlen_nonneg hs) as Hz.
  assert (EL : s8 (zlen hs) = zlen hs) by (apply s8_small; lia).
  destruct (run_slices_good hs ltac:(lia) s es o Hi E) as (r & Hr & _ & Hf & Hp & Hd).
  cbn [rs_index set_nhandlers] in *. rewrite Hi in *.
  assert (Er : r = []).
  { destruct o as [s'| |].
    - destruct (Hd _ eq_refl) as (_ & _ & _ & _ & H5 & _ & H7).
      destruct (H5 Hna) as [_ <-]. apply rem_end. specialize (H7 eq_refl). lia.
    - destruct (Hp eq_refl Hnp) as [_ H]. now apply H.
    - now contradiction Hf. }
  subst r. rewrite app_nil_r in Hr. rewrite <- Hr. unfold rem_from, reachable_names.
  rewrite EL. unfold zlen. rewrite Nat2Z.id. change (Z.to_nat (-1 + 1)) with 0%nat. cbn [skipn].
  unfold names. rewrite <- (map_length h_name hs). rewrite firstn_all. reflexivity.
Qed.

Lemma ends_le_starts_done hs s es s' :
  rs_index s = -1 -> run_slices hs s = (es, HDone s') -> Permutation (starts es) (ends es).
Proof.
  intros Hi E. destruct (Z_le_gt_dec (s8 (zlen hs)) 0) as [Hn|Hp].
  - rewrite run_slices_none in E by assumption. injection E as <- <-. constructor.
  - destruct (run_slices_good hs ltac:(lia) s es _ Hi E) as (r & _ & _ & _ & _ & Hd).
    apply (Hd _ eq_refl).
Qed.

(* every HvEnd has its HvStart before it, in any run *)
Definition balanced (es : list hev) : Prop := (length (ends es) <= length (starts es))%nat.

Lemma balanced_app a b : balanced a -> balanced b -> balanced (a ++ b).
Proof. unfold balanced. rewrite ends_app, starts_app, !app_length. lia. Qed.

Lemma run_hact_balanced mode next :
  (forall s, balanced (fst (next s))) ->
  forall a s, balanced (fst (run_hact mode next a s)).
Proof.
  intros Hn. induction a as [| |k IH|n k IH|k IH|key v k IH|key k IH|v k IH|k IH|k IH];
    intros s; cbn [run_hact].
  - unfold balanced; cbn; lia.
  - unfold balanced; cbn; lia.
  - specialize (IH (abort mode s)). destruct run_hact as [es o]. exact IH.
  - specialize (IH (goto n s)). destruct run_hact as [es o]. exact IH.
  - specialize (Hn s). destruct (next s) as [es o]. destruct o as [s'| |]; try exact Hn.
    specialize (IH s'). destruct run_hact as [es' o'].
    change (HvNext :: es ++ es') with ((HvNext :: es) ++ es'). now apply balanced_app.
  - specialize (IH (set_keys s (kv_put key v (rs_keys s)))). destruct run_hact as [es o]. exact IH.
  - specialize (IH (kv_get key (rs_keys s)) s). destruct run_hact as [es o]. exact IH.
  - specialize (IH (set_rresp s (Some v))). destruct run_hact as [es o]. exact IH.
  - specialize (IH (rs_resp s) s). destruct run_hact as [es o]. exact IH.
  - specialize (IH (rs_msg s) s). destruct run_hact as [es o]. exact IH.
Qed.

Lemma slices_loop_balanced fuel hs : forall s, balanced (fst (slices_loop fuel hs s)).
Proof.
  induction fuel as [|fuel IH]; intros s; [unfold balanced; cbn; lia|].
  cbn [slices_loop]. destruct (rs_index s <? _); [|unfold balanced; cbn; lia].
  destruct (rs_index s <? 0); [unfold balanced; cbn; lia|].
  destruct nth_error as [h|]; [|unfold balanced; cbn; lia].
  pose proof (run_hact_balanced true
    (fun s1 => slices_loop fuel hs (set_index s1 (s8 (rs_index s1 + 1)))) (fun s1 => IH _)
    (h_body h) s) as Hb.
  destruct (run_hact true _ (h_body h) s) as [es o]. cbn [fst] in Hb.
  destruct o as [s'| |].
  - specialize (IH (set_index s' (s8 (rs_index s' + 1)))).
    destruct (slices_loop fuel hs (set_index s' (s8 (rs_index s' + 1)))) as [es' o']. cbn [fst] in *.
    revert Hb IH. unfold balanced.
    cbn [ends starts flat_map]. cbn [app].
    change (length (ends es) <= length (starts es) -> length (ends es') <= length (starts es') ->
      (length (ends (es ++ HvEnd (h_name h) :: es')) <= S (length (starts (es ++ HvEnd (h_name h) :: es')))))%nat.
    rewrite ends_app, starts_app, !app_length. cbn [ends starts flat_map]. cbn [app length].
    change (flat_map _ es') with (ends es') at 1. unfold starts, ends. lia.
  - cbn [fst]. revert Hb. unfold balanced. cbn [ends starts flat_map app length].
    unfold starts, ends. lia.
  - cbn [fst]. revert Hb. unfold balanced. cbn [ends starts flat_map app length].
    unfold starts, ends. lia.
Qed.

Lemma slices_done hs s es o :
  zlen hs <= 127 -> rs_index s = -1 -> run_slices hs s = (es, o) -> no_panic es ->
  (no_abort es -> zlen hs + next_calls es <= 127 -> exists s', o = HDone s') /\
  (zlen hs + zlen (ends es) + next_calls es <= 126 -> exists s', o = HDone s').
Proof.
  intros Hlen Hi E Hnp. pose proof (zlen_nonneg hs) as Hz.
  assert (EL : s8 (zlen hs) = zlen hs) by (apply s8_small; lia).
  pose proof (slices_prefix hs s es o Hi E) as (rest & Hpre).
  assert (Hbal : balanced es).
  { pose proof (slices_loop_balanced (slices_fuel hs) hs (set_index (set_nhandlers s (zlen hs)) (s8 (rs_index s + 1)))) as H.
    unfold run_slices, slices_next in E. cbn [rs_index set_nhandlers] in E. rewrite E in H. exact H. }
  apply (f_equal (@length _)) in Hpre. rewrite map_length, app_length in Hpre.
  destruct (run_slices_good hs ltac:(lia) s es o Hi E) as (r & Hr & _ & Hf & Hp & Hd).
  cbn [rs_index set_nhandlers] in *. rewrite Hi in *. rewrite EL in *.
  unfold balanced in Hbal. rewrite next_calls_nexts.
  destruct o as [s'| |].
  - split; intros; now exists s'.
  - destruct (Hp eq_refl Hnp) as [H1 H2]. unfold ticks in *. unfold zlen in *. split.
    + intros Hna H. destruct (H2 Hna) as [H3 _]. lia.
    + intros H. lia.
  - now contradiction Hf.
Qed.

(* ---------- three phases ---------- *)
Lemma last_redirect_app a b :
  last_redirect (a ++ b) =
  match last_redirect b with NoRedirect => last_redirect a | r => r end.
Proof.
  induction a as [|e a IH]; cbn [app last_redirect].
  - destruct (last_redirect b); reflexivity.
  - rewrite IH. destruct (last_redirect b); reflexivity.
Qed.

Definition finished (o : hout) : bool := match o with HDone _ => true | _ => false end.

Lemma phase_body_run a : forall s es o,
  run_hact false next_without_handlers a s = (es, o) ->
  (inside es /\ body_trace (finished o) a es) /\ o <> HFuel /\
  forall s', o = HDone s' ->
    match last_redirect es with
    | NoRedirect => rs_steps s' = rs_steps s /\ rs_need s' = rs_need s
    | Stop => rs_steps s' = 3
    | Continue n => rs_steps s' = n /\ rs_need s' = false
    end.
Proof.
  induction a as [| |k IH|n k IH|k IH|key v k IH|key k IH|v k IH|k IH|k IH];
    intros s es o E; cbn [run_hact] in E.
  - injection E as <- <-. split; [split; [now split|constructor]|]. split; [discriminate|]. intros s' [= <-]. now split.
  - injection E as <- <-. split; [split; [now split|constructor]|]. split; discriminate.
  - destruct (run_hact false next_without_handlers k (abort false s)) as [es1 o1] eqn:E1.
    injection E as <- <-. destruct (IH _ _ _ E1) as ((Hin & Hb) & Hf & Hd).
    split; [split; [exact Hin|now constructor]|]. split; [exact Hf|]. intros s' Es. specialize (Hd s' Es).
    cbn [last_redirect]. destruct (last_redirect es1); [|exact Hd|exact Hd].
    destruct Hd as [Hd _]. exact Hd.
  - destruct (run_hact false next_without_handlers k (goto n s)) as [es1 o1] eqn:E1.
    injection E as <- <-. destruct (IH _ _ _ E1) as ((Hin & Hb) & Hf & Hd).
    split; [split; [exact Hin|now constructor]|]. split; [exact Hf|]. intros s' Es. specialize (Hd s' Es).
    cbn [last_redirect]. destruct (last_redirect es1); exact Hd.
  - unfold next_without_handlers at 1 in E.
    destruct (s8 (rs_index s + 1) <? 0).
    + injection E as <- <-. split; [split; [now split|apply BT_next_panic]|]. split; discriminate.
    + destruct (run_hact false next_without_handlers k (set_index s (s8 (rs_index s + 1)))) as [es1 o1] eqn:E1.
      injection E as <- <-. destruct (IH _ _ _ E1) as ((Hin & Hb) & Hf & Hd).
      split; [split; [exact Hin|now constructor]|]. split; [exact Hf|]. intros s' Es. specialize (Hd s' Es).
      cbn [last_redirect app]. destruct (last_redirect es1); exact Hd.
  - destruct (run_hact false next_without_handlers k (set_keys s (kv_put key v (rs_keys s)))) as [es1 o1] eqn:E1.
    injection E as <- <-. destruct (IH _ _ _ E1) as ((Hin & Hb) & Hf & Hd).
    split; [split; [exact Hin|now constructor]|]. split; [exact Hf|]. intros s' Es. specialize (Hd s' Es).
    cbn [last_redirect]. destruct (last_redirect es1); exact Hd.
  - destruct (run_hact false next_without_handlers (k (kv_get key (rs_keys s))) s) as [es1 o1] eqn:E1.
    injection E as <- <-. destruct (IH _ _ _ _ E1) as ((Hin & Hb) & Hf & Hd).
    split; [split; [exact Hin|now constructor]|]. split; [exact Hf|]. intros s' Es. specialize (Hd s' Es).
    cbn [last_redirect]. destruct (last_redirect es1); exact Hd.
  - destruct (run_hact false next_without_handlers k (set_rresp s (Some v))) as [es1 o1] eqn:E1.
    injection E as <- <-. destruct (IH _ _ _ E1) as ((Hin & Hb) & Hf & Hd).
    split; [split; [exact Hin|now constructor]|]. split; [exact Hf|]. intros s' Es. specialize (Hd s' Es).
    cbn [last_redirect]. destruct (last_redirect es1); exact Hd.
  - destruct (run_hact false next_without_handlers (k (rs_resp s)) s) as [es1 o1] eqn:E1.
    injection E as <- <-. destruct (IH _ _ _ _ E1) as ((Hin & Hb) & Hf & Hd).
    split; [split; [exact Hin|now constructor]|]. split; [exact Hf|]. intros s' Es. specialize (Hd s' Es).
    cbn [last_redirect]. destruct (last_redirect es1); exact Hd.
  - destruct (run_hact false next_without_handlers (k (rs_msg s)) s) as [es1 o1] eqn:E1.
    injection E as <- <-. destruct (IH _ _ _ _ E1) as ((Hin & Hb) & Hf & Hd).
    split; [split; [exact Hin|now constructor]|]. split; [exact Hf|]. intros s' Es. specialize (Hd s' Es).
    cbn [last_redirect]. destruct (last_redirect es1); exact Hd.
Qed.

Lemma code_of_body r n body : phase_body r n = Some body -> code_of r n = body.
Proof.
  unfold phase_body. destruct (Z.eqb_spec n 0) as [->|]; [now intros [= <-]|].
  destruct (Z.eqb_spec n 1) as [->|]; [now intros [= <-]|].
  destruct (Z.eqb_spec n 2) as [->|]; [now intros [= <-]|discriminate].
Qed.

Lemma call_loop_phases fuel r : forall s es o,
  rs_need s = true -> call_loop fuel r s = (es, o) ->
  phase_run r (completed o) (valid_phase (rs_steps s)) es /\
  (forall s', o = HDone s' -> rs_steps s' = 0 /\ rs_need s' = true) /\
  (o = HFuel -> no_goto es -> rs_steps s >= 0 -> Z.of_nat fuel <= Z.max 0 (3 - rs_steps s)).
Proof.
  induction fuel as [|fuel IH]; intros s es o Hneed E; cbn [call_loop] in E.
  { injection E as <- <-. split; [now constructor|]. split; [discriminate|]. lia. }
  destruct (rs_steps s <? 3) eqn:E3.
  2:{ injection E as <- <-. unfold valid_phase. replace (rs_steps s <? 0) with false by lia.
      rewrite E3. split; [constructor|]. split; [|discriminate]. intros s' [= <-]. now split. }
  destruct (phase_body r (rs_steps s)) as [body|] eqn:Eb.
  2:{ assert (Hneg : rs_steps s < 0).
      { unfold phase_body in Eb. destruct (rs_steps s =? 0) eqn:?; [discriminate|].
        destruct (rs_steps s =? 1) eqn:?; [discriminate|].
        destruct (rs_steps s =? 2) eqn:?; [discriminate|]. lia. }
      assert (En : next_step s = set_steps s (rs_steps s + 1)) by (unfold next_step; now rewrite Hneed).
      rewrite En in E. destruct (IH (set_steps s (rs_steps s + 1)) _ _ Hneed E) as (H1 & H2 & H3).
      cbn [rs_steps set_steps] in H1.
      split; [|split; [exact H2|lia]].
      replace (valid_phase (rs_steps s)) with (valid_phase (rs_steps s + 1)); [exact H1|].
      unfold valid_phase. replace (rs_steps s <? 0) with true by lia.
      destruct (rs_steps s + 1 <? 0) eqn:?; [reflexivity|].
      replace (rs_steps s + 1 <? 3) with true by lia. f_equal. lia. }
  assert (Hrange : 0 <= rs_steps s).
  { unfold phase_body in Eb. destruct (rs_steps s =? 0) eqn:?; [lia|].
    destruct (rs_steps s =? 1) eqn:?; [lia|].
    destruct (rs_steps s =? 2) eqn:?; [lia|discriminate]. }
  assert (Evp : valid_phase (rs_steps s) = Some (rs_steps s)).
  { unfold valid_phase. replace (rs_steps s <? 0) with false by lia. now rewrite E3. }
  rewrite Evp. set (n := rs_steps s) in *.
  destruct (run_hact false next_without_handlers body s) as [es1 o1] eqn:E1.
  destruct (phase_body_run _ _ _ _ E1) as ((Hin & Hb) & Hf & Hd).
  rewrite <- (code_of_body r n body Eb) in Hb.
  destruct o1 as [s1| |].
  - destruct (call_loop fuel r (next_step s1)) as [es2 o2] eqn:E2. injection E as <- <-.
    specialize (Hd _ eq_refl).
    assert (Hn1 : rs_need (next_step s1) = true).
    { unfold next_step. destruct (rs_need s1) eqn:En; [exact En|reflexivity]. }
    destruct (IH _ _ _ Hn1 E2) as (H1 & H2 & H3).
    split; [|split; [exact H2|]].
    + apply PR_phase; [exact Hin|exact Hb|].
      replace (following n es1) with (valid_phase (rs_steps (next_step s1))); [exact H1|].
      unfold following, next_step. destruct (last_redirect es1) as [| |t].
      * destruct Hd as [Hd1 Hd2]. rewrite Hd2, Hneed. cbn [rs_steps set_steps]. rewrite Hd1. reflexivity.
      * destruct (rs_need s1); cbn [rs_steps set_steps set_need]; rewrite Hd; reflexivity.
      * destruct Hd as [Hd1 Hd2]. rewrite Hd2. cbn [rs_steps set_need]. rewrite Hd1. reflexivity.
    + intros Ho Hng _.
      assert (Hng2 : no_goto es2).
      { intros t Hi. apply (Hng t). right. apply in_or_app. right. now right. }
      assert (Hst : last_redirect es1 = NoRedirect /\ rs_steps (next_step s1) = n + 1 \/
                    3 <= rs_steps (next_step s1)).
      { unfold next_step. destruct (last_redirect es1) as [| |t] eqn:El.
        - left. split; [reflexivity|]. destruct Hd as [Hd1 Hd2]. rewrite Hd2, Hneed.
          cbn [rs_steps set_steps]. now rewrite Hd1.
        - right. destruct (rs_need s1); cbn [rs_steps set_steps set_need]; lia.
        - exfalso. assert (Hi : In (HvGoto t) es1).
          { clear - El. induction es1 as [|e es1 IH]; [discriminate|]. cbn [last_redirect] in El.
            destruct (last_redirect es1) as [| |u] eqn:E.
            - destruct e; try discriminate. injection El as ->. now left.
            - discriminate.
            - right. apply IH. exact El. }
          apply (Hng t). right. apply in_or_app. now left. }
      destruct Hst as [[_ Hst]|Hst].
      * specialize (H3 Ho Hng2 ltac:(lia)). lia.
      * specialize (H3 Ho Hng2 ltac:(lia)). lia.
  - injection E as <- <-. split; [now apply PR_cut_in|]. split; discriminate.
  - now contradiction Hf.
Qed.

Lemma split_two {A} (x y : A) a b t1 t2 :
  x <> y -> a ++ x :: b = t1 ++ y :: t2 ->
  (exists l, a = t1 ++ y :: l /\ t2 = l ++ x :: b) \/
  (exists l, t1 = a ++ x :: l /\ b = l ++ y :: t2).
Proof.
  intros Hxy. revert t1. induction a as [|z a IH]; intros t1 E.
  - destruct t1 as [|z t1]; cbn in E; injection E as E1 E2; [congruence|].
    subst. right. now exists t1.
  - destruct t1 as [|w t1]; cbn in E; injection E as E1 E2; subst.
    + left. now exists a.
    + destruct (IH _ E2) as [(l & -> & ->)|(l & -> & ->)]; [left|right]; now exists l.
Qed.

Lemma last_redirect_none es : no_abort es -> no_goto es -> last_redirect es = NoRedirect.
Proof.
  intros Ha Hg. induction es as [|e es IH]; [reflexivity|]. cbn [last_redirect].
  rewrite IH.
  - destruct e; try reflexivity.
    + exfalso. apply Ha. now left.
    + exfalso. apply (Hg s). now left.
  - intros H. apply Ha. now right.
  - intros n H. apply (Hg n). now right.
Qed.

Lemma starts_cons_start n es : starts (HvStart n :: es) = n :: starts es.
Proof. reflexivity. Qed.
Lemma ends_cons_end n es : ends (HvEnd n :: es) = n :: ends es.
Proof. reflexivity. Qed.

Lemma phase_run_step r n es :
  phase_run r true (Some n) es -> no_abort es -> no_goto es ->
  exists rest, starts es = n :: starts rest /\ ends es = n :: ends rest /\
    phase_run r true (valid_phase (n + 1)) rest /\ no_abort rest /\ no_goto rest.
Proof.
  intros H Ha Hg. inversion H; subst; try discriminate.
  assert (El : last_redirect es0 = NoRedirect).
  { apply last_redirect_none.
    - intros Hi. apply Ha. right. apply in_or_app. now left.
    - intros t Hi. apply (Hg t). right. apply in_or_app. now left. }
  unfold following in H3. rewrite El in H3. destruct H1 as [Hs He].
  exists rest. split; [|split; [|split; [exact H3|split]]].
  - rewrite starts_cons_start, starts_app, Hs. reflexivity.
  - change (ends (es0 ++ HvEnd n :: rest) = n :: ends rest). rewrite ends_app, He. reflexivity.
  - intros Hi. apply Ha. right. apply in_or_app. right. now right.
  - intros t Hi. apply (Hg t). right. apply in_or_app. right. now right.
Qed.

Lemma phases_no_redirect r es :
  phase_run r true (Some 0) es -> no_abort es -> no_goto es ->
  starts es = [0; 1; 2] /\ ends es = [0; 1; 2].
Proof.
  intros H Ha Hg.
  destruct (phase_run_step _ _ _ H Ha Hg) as (r1 & S1 & E1 & H1 & Ha1 & Hg1).
  destruct (phase_run_step _ _ _ H1 Ha1 Hg1) as (r2 & S2 & E2 & H2 & Ha2 & Hg2).
  destruct (phase_run_step _ _ _ H2 Ha2 Hg2) as (r3 & S3 & E3 & H3 & Ha3 & Hg3).
  change (valid_phase (1 + 1 + 1)) with (@None Z) in H3.
  inversion H3; subst; [|discriminate].
  rewrite S1, S2, S3, E1, E2, E3. split; reflexivity.
Qed.

Lemma last_redirect_stop t : no_goto t -> last_redirect (HvAbort :: t) = Stop.
Proof.
  intros Hg. cbn [last_redirect]. induction t as [|e t IH]; [reflexivity|].
  assert (Hg' : no_goto t) by (intros n Hi; apply (Hg n); now right).
  specialize (IH Hg'). cbn [last_redirect]. destruct (last_redirect t) eqn:E.
  - destruct e; try reflexivity. exfalso. apply (Hg s). now left.
  - reflexivity.
  - discriminate.
Qed.

Lemma phases_abort r c f es : phase_run r c f es -> forall t1 t2,
  es = t1 ++ HvAbort :: t2 -> no_goto t2 -> starts t2 = [].
Proof.
  induction 1 as [|n Hc|n es Hc Hin Hbt|n es rest Hin Hbt Hrun IH]; intros t1 t2 E Hg.
  - destruct t1; discriminate.
  - destruct t1; discriminate.
  - destruct t1 as [|x t1]; [discriminate|]. injection E as _ E. subst es.
    destruct Hin as [Hs _]. rewrite starts_app in Hs. apply app_eq_nil in Hs. apply Hs.
  - destruct t1 as [|x t1]; [discriminate|]. injection E as _ E.
    apply split_two in E; [|discriminate].
    destruct E as [(l & -> & ->)|(l & -> & ->)].
    + destruct Hin as [Hs _]. rewrite starts_app in Hs. apply app_eq_nil in Hs. destruct Hs as [_ Hs].
      assert (Hgl : no_goto l) by (intros n' Hi; apply (Hg n'); apply in_or_app; now left).
      unfold following in Hrun. rewrite last_redirect_app, (last_redirect_stop _ Hgl) in Hrun.
      assert (rest = []) as -> by (inversion Hrun; reflexivity).
      rewrite starts_app. change (starts l ++ [] = []). rewrite app_nil_r. exact Hs.
    + now apply IH with l.
Qed.

Lemma phases_goto r f es : phase_run r true f es -> forall t1 n t2 p rest,
  es = t1 ++ HvGoto n :: t2 ++ HvEnd p :: rest -> inside t2 -> last_redirect t2 = NoRedirect ->
  match valid_phase n with
  | Some q => exists rest', rest = HvStart q :: rest'
  | None => rest = []
  end.
Proof.
  induction 1 as [|n Hc|n es Hc Hin Hbt|n es rest Hin Hbt Hrun IH]; intros t1 m t2 p rest0 E Hin2 Hl.
  - destruct t1; discriminate.
  - discriminate.
  - discriminate.
  - destruct t1 as [|x t1]; [discriminate|]. injection E as _ E.
    apply split_two in E; [|discriminate].
    destruct E as [(l & -> & E)|(l & -> & E)].
    + (* the Goto is in this phase *)
      assert (Ex : t2 = l /\ HvEnd p :: rest0 = HvEnd n :: rest).
      { clear - E Hin Hin2. destruct Hin2 as [_ He2]. destruct Hin as [_ He].
        rewrite ends_app in He. apply app_eq_nil in He. destruct He as [_ He].
        change (ends l = []) in He. revert t2 He2 E. induction l as [|x l IH]; intros t2 He2 E.
        - destruct t2 as [|y t2]; [now split|]. injection E as E1 E2. subst y. discriminate He2.
        - destruct t2 as [|y t2].
          + injection E as E1 E2. subst x. discriminate He.
          + injection E as E1 E2. subst y.
            assert (He' : ends l = []) by (destruct x; (exact He || discriminate He)).
            assert (He2' : ends t2 = []) by (destruct x; (exact He2 || discriminate He2)).
            destruct (IH He' t2 He2' E2) as [-> E3]. now split. }
      destruct Ex as [-> Ex]. injection Ex as -> ->.
      unfold following in Hrun. rewrite last_redirect_app in Hrun. cbn [last_redirect] in Hrun.
      rewrite Hl in Hrun. destruct (valid_phase m) as [q|].
      * inversion Hrun; subst; try discriminate. now eexists.
      * inversion Hrun; subst; [reflexivity|discriminate].
    + now apply (IH l m t2 p rest0).
Qed.

(* ---------- the context of a request ---------- *)
Lemma kv_get_put key v l k : kv_get k (kv_put key v l) = if k =? key then Some v else kv_get k l.
Proof.
  induction l as [|[k0 w] l IH]; cbn [kv_put kv_get].
  - rewrite Z.eqb_sym. reflexivity.
  - destruct (Z.eqb_spec k0 key) as [->|N]; cbn [kv_get].
    + rewrite (Z.eqb_sym key k). destruct (k =? key); reflexivity.
    + destruct (Z.eqb_spec k0 k) as [->|N2]; [|exact IH].
      destruct (Z.eqb_spec k key); [congruence|reflexivity].
Qed.

Section Context_.
  Variable m : message.

  (* the state agrees with the history *)
  Definition agrees (t : list hev) (s : rst) : Prop :=
    (forall k, kv_get k (rs_keys s) = last_set k t) /\ rs_resp s = last_response t /\ rs_msg s = m.

  Definition reads_from (t es : list hev) : Prop :=
    forall t1 e t2, es = t1 ++ e :: t2 ->
    match e with
    | HvGot key v => v = last_set key (t ++ t1)
    | HvGotResp v => v = last_response (t ++ t1)
    | HvMsg m' => m' = m
    | _ => True
    end.

  Definition ctx_run (t es : list hev) (o : hout) : Prop :=
    reads_from t es /\ forall s', o = HDone s' -> agrees (t ++ es) s'.

  Definition plain (e : hev) : Prop :=
    match e with
    | HvSet _ _ | HvSetResp _ | HvGot _ _ | HvGotResp _ | HvMsg _ => False
    | _ => True
    end.

  Lemma last_set_snoc k t e :
    last_set k (t ++ [e]) = match e with HvSet k' v => if k' =? k then Some v else last_set k t | _ => last_set k t end.
  Proof. unfold last_set. rewrite fold_left_app. reflexivity. Qed.
  Lemma last_response_snoc t e :
    last_response (t ++ [e]) = match e with HvSetResp v => Some v | _ => last_response t end.
  Proof. unfold last_response. rewrite fold_left_app. reflexivity. Qed.

  Lemma reads_nil t : reads_from t [].
  Proof. intros [|x t1] e t2 E; discriminate. Qed.

  Lemma reads_cons t e es :
    match e with
    | HvGot key v => v = last_set key t
    | HvGotResp v => v = last_response t
    | HvMsg m' => m' = m
    | _ => True
    end -> reads_from (t ++ [e]) es -> reads_from t (e :: es).
  Proof.
    intros He H [|x t1] e' t2 E; injection E as E1 E2; subst.
    - rewrite app_nil_r. exact He.
    - specialize (H t1 e' t2 eq_refl). rewrite <- app_assoc in H. exact H.
  Qed.

  Lemma reads_app t a b : reads_from t a -> reads_from (t ++ a) b -> reads_from t (a ++ b).
  Proof.
    revert t. induction a as [|x a IH]; intros t Ha Hb; [now rewrite app_nil_r in Hb|].
    cbn [app]. apply reads_cons.
    - specialize (Ha [] x a eq_refl). now rewrite app_nil_r in Ha.
    - apply IH.
      + intros t1 e t2 E. subst a. specialize (Ha (x :: t1) e t2 eq_refl). now rewrite <- app_assoc.
      + now rewrite <- app_assoc.
  Qed.

  Lemma agrees_plain t s s' e : plain e -> agrees t s ->
    rs_keys s' = rs_keys s -> rs_resp s' = rs_resp s -> rs_msg s' = rs_msg s -> agrees (t ++ [e]) s'.
  Proof.
    intros Hp (H1 & H2 & H3) E1 E2 E3. split; [|split].
    - intros k. rewrite last_set_snoc, E1, H1. destruct e; try reflexivity; contradiction.
    - rewrite last_response_snoc, E2, H2. destruct e; try reflexivity; contradiction.
    - congruence.
  Qed.

  Lemma ctx_cons t e es o :
    match e with
    | HvGot key v => v = last_set key t
    | HvGotResp v => v = last_response t
    | HvMsg m' => m' = m
    | _ => True
    end -> ctx_run (t ++ [e]) es o -> ctx_run t (e :: es) o.
  Proof.
    intros He [H1 H2]. split; [now apply reads_cons|].
    intros s' E. specialize (H2 s' E). now rewrite <- app_assoc in H2.
  Qed.

  Lemma ctx_app t a b s1 o : ctx_run t a (HDone s1) -> (agrees (t ++ a) s1 -> ctx_run (t ++ a) b o) -> ctx_run t (a ++ b) o.
  Proof.
    intros [H1 H2] Hb. destruct (Hb (H2 s1 eq_refl)) as [H3 H4]. split; [now apply reads_app|].
    intros s' E. rewrite app_assoc. now apply H4.
  Qed.

  Lemma run_hact_ctx mode next :
    (forall t s es o, agrees t s -> next s = (es, o) -> ctx_run t es o) ->
    forall a t s es o, agrees t s -> run_hact mode next a s = (es, o) -> ctx_run t es o.
  Proof.
    intros Hn. induction a as [| |k IH|n k IH|k IH|key v k IH|key k IH|v k IH|k IH|k IH];
      intros t s es o Ha E; cbn [run_hact] in E.
    - injection E as <- <-. split; [apply reads_nil|]. intros s' [= <-]. now rewrite app_nil_r.
    - injection E as <- <-. split; [|discriminate]. apply reads_cons; [exact I|apply reads_nil].
    - destruct (run_hact mode next k (abort mode s)) as [es1 o1] eqn:E1. injection E as <- <-.
      apply ctx_cons; [exact I|]. eapply IH; [|exact E1].
      apply agrees_plain with s; [exact I|exact Ha|..]; unfold abort; destruct mode; reflexivity.
    - destruct (run_hact mode next k (goto n s)) as [es1 o1] eqn:E1. injection E as <- <-.
      apply ctx_cons; [exact I|]. eapply IH; [|exact E1].
      apply agrees_plain with s; [exact I|exact Ha|..]; reflexivity.
    - destruct (next s) as [es1 o1] eqn:E1.
      assert (Ha' : agrees (t ++ [HvNext]) s) by (apply agrees_plain with s; auto; exact I).
      pose proof (Hn _ _ _ _ Ha' E1) as C1.
      destruct o1 as [s1| |].
      + destruct (run_hact mode next k s1) as [es2 o2] eqn:E2. injection E as <- <-.
        apply ctx_cons; [exact I|]. apply ctx_app with s1; [exact C1|].
        intros Hs. eapply IH; [exact Hs|exact E2].
      + injection E as <- <-. now apply ctx_cons.
      + injection E as <- <-. now apply ctx_cons.
    - destruct (run_hact mode next k (set_keys s (kv_put key v (rs_keys s)))) as [es1 o1] eqn:E1.
      injection E as <- <-. apply ctx_cons; [exact I|]. eapply IH; [|exact E1].
      destruct Ha as (H1 & H2 & H3). split; [|split; [|exact H3]].
      + intros k0. cbn [rs_keys set_keys]. rewrite kv_get_put, last_set_snoc, H1, Z.eqb_sym. reflexivity.
      + rewrite last_response_snoc. exact H2.
    - destruct (run_hact mode next (k (kv_get key (rs_keys s))) s) as [es1 o1] eqn:E1.
      injection E as <- <-. pose proof Ha as (H1 & H2 & H3). apply ctx_cons; [apply H1|]. eapply IH; [|exact E1].
      split; [|split; [|exact H3]].
      + intros k0. rewrite last_set_snoc. apply H1.
      + rewrite last_response_snoc. exact H2.
    - destruct (run_hact mode next k (set_rresp s (Some v))) as [es1 o1] eqn:E1.
      injection E as <- <-. apply ctx_cons; [exact I|]. eapply IH; [|exact E1].
      destruct Ha as (H1 & H2 & H3). split; [|split; [|exact H3]].
      + intros k0. rewrite last_set_snoc. apply H1.
      + rewrite last_response_snoc. reflexivity.
    - destruct (run_hact mode next (k (rs_resp s)) s) as [es1 o1] eqn:E1.
      injection E as <- <-. pose proof Ha as (H1 & H2 & H3). apply ctx_cons; [exact H2|]. eapply IH; [|exact E1].
      split; [|split; [|exact H3]].
      + intros k0. rewrite last_set_snoc. apply H1.
      + rewrite last_response_snoc. exact H2.
    - destruct (run_hact mode next (k (rs_msg s)) s) as [es1 o1] eqn:E1.
      injection E as <- <-. pose proof Ha as (H1 & H2 & H3). apply ctx_cons; [exact H3|]. eapply IH; [|exact E1].
      split; [|split; [|exact H3]].
      + intros k0. rewrite last_set_snoc. apply H1.
      + rewrite last_response_snoc. exact H2.
  Qed.

  Lemma slices_loop_ctx fuel hs : forall t s es o,
    agrees t s -> slices_loop fuel hs s = (es, o) -> ctx_run t es o.
  Proof.
    induction fuel as [|fuel IH]; intros t s es o Ha E; cbn [slices_loop] in E.
    { injection E as <- <-. split; [apply reads_nil|discriminate]. }
    destruct (rs_index s <? s8 (zlen hs)).
    2:{ injection E as <- <-. split; [apply reads_nil|]. intros s' [= <-]. now rewrite app_nil_r. }
    destruct (rs_index s <? 0); [injection E as <- <-; split; [apply reads_nil|discriminate]|].
    destruct (nth_error hs (Z.to_nat (rs_index s))) as [h|];
      [|injection E as <- <-; split; [apply reads_nil|discriminate]].
    match type of E with context [run_hact true ?nx _ _] => set (next := nx) in * end.
    assert (Hnext : forall t0 s0 es0 o0, agrees t0 s0 -> next s0 = (es0, o0) -> ctx_run t0 es0 o0).
    { intros t0 s0 es0 o0 H0 E0. eapply IH; [|exact E0]. exact H0. }
    destruct (run_hact true next (h_body h) s) as [es1 o1] eqn:E1.
    assert (Ha' : agrees (t ++ [HvStart (h_name h)]) s) by (apply agrees_plain with s; auto; exact I).
    pose proof (run_hact_ctx true next Hnext _ _ _ _ _ Ha' E1) as C1.
    destruct o1 as [s1| |].
    - change (slices_loop fuel hs (set_index s1 (s8 (rs_index s1 + 1)))) with (next s1) in E.
      destruct (next s1) as [es2 o2] eqn:E2. injection E as <- <-.
      apply ctx_cons; [exact I|]. apply ctx_app with s1; [exact C1|]. intros Hs.
      apply ctx_cons; [exact I|]. eapply Hnext; [|exact E2].
      apply agrees_plain with s1; auto; exact I.
    - injection E as <- <-. now apply ctx_cons.
    - injection E as <- <-. now apply ctx_cons.
  Qed.

  Lemma call_loop_ctx fuel r : forall t s es o,
    agrees t s -> call_loop fuel r s = (es, o) -> ctx_run t es o.
  Proof.
    assert (Hns : forall t s, agrees t s -> agrees t (next_step s)).
    { intros t s H. unfold next_step. destruct (rs_need s); exact H. }
    induction fuel as [|fuel IH]; intros t s es o Ha E; cbn [call_loop] in E.
    { injection E as <- <-. split; [apply reads_nil|discriminate]. }
    destruct (rs_steps s <? 3).
    2:{ injection E as <- <-. split; [apply reads_nil|]. intros s' [= <-]. rewrite app_nil_r. exact Ha. }
    destruct (phase_body r (rs_steps s)) as [body|]; [|eapply IH; [|exact E]; auto].
    destruct (run_hact false next_without_handlers body s) as [es1 o1] eqn:E1.
    assert (Ha' : agrees (t ++ [HvStart (rs_steps s)]) s) by (apply agrees_plain with s; auto; exact I).
    assert (C1 : ctx_run (t ++ [HvStart (rs_steps s)]) es1 o1).
    { eapply run_hact_ctx; [|exact Ha'|exact E1]. intros t0 s0 es0 o0 H0 E0.
      unfold next_without_handlers in E0. destruct (s8 (rs_index s0 + 1) <? 0); injection E0 as <- <-.
      - split; [apply reads_nil|discriminate].
      - split; [apply reads_nil|]. intros s' [= <-]. rewrite app_nil_r. exact H0. }
    destruct o1 as [s1| |].
    - destruct (call_loop fuel r (next_step s1)) as [es2 o2] eqn:E2. injection E as <- <-.
      apply ctx_cons; [exact I|]. apply ctx_app with s1; [exact C1|]. intros Hs.
      apply ctx_cons; [exact I|]. eapply IH; [|exact E2]. apply Hns.
      apply agrees_plain with s1; auto; exact I.
    - injection E as <- <-. now apply ctx_cons.
    - injection E as <- <-. now apply ctx_cons.
  Qed.
End Context_.

Lemma call_reads fuel r m es o :
  call fuel (Some r) (fresh_request m) = (es, o) -> reads_back m es.
Proof.
  intros E. apply (call_loop_ctx m fuel r [] (fresh_request m) es o); [|exact E].
  split; [|split]; reflexivity.
Qed.

Lemma slices_reads hs m es o :
  run_slices hs (fresh_request m) = (es, o) -> reads_back m es.
Proof.
  intros E. unfold run_slices, slices_next in E.
  refine (proj1 (slices_loop_ctx m (slices_fuel hs) hs [] _ es o _ E)).
  split; [|split]; reflexivity.
Qed.

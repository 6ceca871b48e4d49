From Coq Require Import ZArith List Bool Lia ZifyBool.
From Verif Require Import Bytes AsyncResult Async_proofs AsyncWorker Spec_AsyncWorker.
Import ListNotations.
Local Open Scope Z_scope.

Lemma index_range id : - 2 ^ 63 <= id < 2 ^ 63 -> 0 <= worker_index id < worker_count.
Proof.
  intros H. unfold worker_index, worker_count. destruct (Z.ltb_spec id 0) as [L|L]; [|apply Z.rem_bound_pos; lia].
  destruct (Z.eq_dec id (- 2 ^ 63)) as [->|N]; [vm_compute; split; congruence|].
  unfold s64. rewrite Z.mod_small by lia. replace (- id + 2 ^ 63 - 2 ^ 63) with (- id) by lia. apply Z.rem_bound_pos; lia.
Qed.

Definition FM (F : aworker -> list task) (i : Z) (h : list aworker) : list task := flat_map (fun k => if k_idx k =? i then F k else []) h.
Lemma fm_out F i h : ~ In i (map k_idx h) -> FM F i h = [].
Proof. unfold FM. induction h as [|k h IH]; [reflexivity|]. cbn. intros N. destruct (Z.eqb_spec (k_idx k) i) as [E|E]; [exfalso; auto|]. cbn. auto. Qed.
Lemma fm_at F : forall h w k, NoDup (map k_idx h) -> nth_error h w = Some k -> FM F (k_idx k) h = F k.
Proof.
  induction h as [|x h IH]; intros [|w] k; cbn [nth_error map]; try discriminate; intros N; inversion N; subst.
  - intros [= ->]. unfold FM. cbn. rewrite Z.eqb_refl. fold (FM F (k_idx k) h). rewrite fm_out by assumption. apply app_nil_r.
  - intros E. unfold FM. cbn. fold (FM F (k_idx k) h). destruct (Z.eqb_spec (k_idx x) (k_idx k)) as [Q|Q]; [exfalso; apply H1; rewrite Q; apply in_map; eapply nth_error_In; exact E|]. cbn. now apply (IH w).
Qed.
Lemma fm_other F i : forall h w k k', nth_error h w = Some k -> k_idx k' = k_idx k -> k_idx k <> i -> FM F i (upd w k' h) = FM F i h.
Proof.
  induction h as [|x h IH]; intros [|w] k k'; cbn [nth_error upd]; try discriminate.
  - intros [= ->] E N. unfold FM. cbn. rewrite E. destruct (Z.eqb_spec (k_idx k) i); [contradiction|reflexivity].
  - intros E Q N. unfold FM. cbn. f_equal. now apply (IH w k).
Qed.
Lemma upd_nth {A} i (x z : A) : forall l, nth_error l i = Some z -> nth_error (upd i x l) i = Some x.
Proof. induction i as [|i IH]; intros [|y l]; cbn; try discriminate; auto. Qed.
Lemma upd_nth_other {A} i j (x : A) : forall l, i <> j -> nth_error (upd i x l) j = nth_error l j.
Proof. revert j. induction i as [|i IH]; intros [|j] [|y l] N; cbn; auto; try lia. Qed.
Lemma upd_idx w k k' h : nth_error h w = Some k -> k_idx k' = k_idx k -> map k_idx (upd w k' h) = map k_idx h.
Proof. intros E Q. now apply (upd_map k_idx w k' k). Qed.
Lemma fm_upd F i h w k k' : NoDup (map k_idx h) -> nth_error h w = Some k -> k_idx k' = k_idx k ->
  FM F i (upd w k' h) = if k_idx k =? i then F k' else FM F i h.
Proof.
  intros N E Q. destruct (Z.eqb_spec (k_idx k) i) as [<-|Ne]; [|now apply (fm_other F i h w k)]. rewrite <- Q. apply (fm_at F _ w); [now rewrite (upd_idx w k)|]. now apply (upd_nth w k' k).
Qed.

Definition creating (i : Z) (g : gor) : bool := match g_pc g with GCreate j => j =? i | _ => false end.
Definition gcnt (f : gor -> bool) (l : list gor) : nat := length (filter f l).
Lemma gcnt_upd f i x z : forall l, nth_error l i = Some z -> (gcnt f (upd i x l) + b2n (f z) = gcnt f l + b2n (f x))%nat.
Proof.
  unfold gcnt. induction i as [|i IH]; intros [|w l]; cbn [nth_error upd filter]; try discriminate.
  - intros [= ->]. destruct (f x), (f z); cbn; lia.
  - intros E. specialize (IH _ E). destruct (f w); cbn [length]; lia.
Qed.
Lemma gcnt_pos f x : forall l, In x l -> f x = true -> (1 <= gcnt f l)%nat.
Proof. unfold gcnt. induction l as [|y l IH]; [intros []|]. intros [->|H] E; cbn; [rewrite E; cbn; lia|]. specialize (IH H E). destruct (f y); cbn; lia. Qed.

Definition head_ok (g : gor) : Prop :=
  match g_pc g with GIdle => True | GCreate i | GSend i => match g_prog g with (id, Some _) :: _ => worker_index id = i | _ => False end end.

Record WInv (progs : list (list (Z * option Z))) (s : wsys) : Prop := {
  j_nodup : NoDup (map k_idx (y_heap s));
  j_heap : forall w k, nth_error (y_heap s) w = Some k -> y_once s (k_idx k) = Made /\ y_arr s (k_idx k) = Some w;
  j_made : forall i, y_once s i = Made -> exists w k, y_arr s i = Some w /\ nth_error (y_heap s) w = Some k /\ k_idx k = i;
  j_create : forall i, gcnt (creating i) (y_gors s) = match y_once s i with Busy => 1%nat | _ => 0%nat end;
  j_head : forall g, In g (y_gors s) -> head_ok g;
  j_send : forall g i, In g (y_gors s) -> g_pc g = GSend i -> y_once s i = Made;
  j_sent : forall i, at_index i (y_sent s) = at_index i (y_started s) ++ waiting i s;
  j_started : forall i, at_index i (y_started s) = at_index i (map fst (y_ended s)) ++ running i s;
  j_where : forall x, In x (y_sent s) -> fst x = worker_index (t_id (snd x));
  j_prog : forall g p, nth_error progs g = Some p -> exists gr, nth_error (y_gors s) g = Some gr /\ tasks_of g p = from g (y_sent s) ++ tasks_of g (g_prog gr)
}.

Lemma winv_new progs : WInv progs (w_new progs).
Proof.
  constructor; cbn; try (now intros); try discriminate.
  - constructor.
  - intros w k. destruct w; discriminate.
  - intros i. unfold gcnt. induction progs as [|p l IH]; [reflexivity|]. exact IH.
  - intros g H. apply in_map_iff in H. destruct H as (p & <- & _). exact I.
  - intros g i H. apply in_map_iff in H. destruct H as (p & <- & _). discriminate.
  - intros g p H. rewrite nth_error_map, H. cbn. eexists. split; reflexivity.
Qed.

Lemma at_index_snoc i l k t : at_index i (l ++ [(k, t)]) = at_index i l ++ (if k =? i then [t] else []).
Proof. unfold at_index. rewrite filter_app, map_app. cbn. now destruct (k =? i). Qed.

Lemma wat F i s : flat_map (fun k => if k_idx k =? i then F k else []) (y_heap s) = FM F i (y_heap s).
Proof. reflexivity. Qed.

Lemma creating_head i g : creating i g = true -> g_pc g = GCreate i.
Proof. unfold creating. destruct (g_pc g); try discriminate. intros E. f_equal. lia. Qed.

Lemma winv_step progs s l s' : WInv progs s -> w_step1 s l = Some s' -> WInv progs s'.
Proof.
  intros H E. destruct s as [on ar hp gs se st en]. destruct l as [g|w|w b]; cbn [w_step1] in E.
  - unfold sub_step in E. cbn [y_once y_arr y_heap y_gors y_sent y_started y_ended] in E. destruct (nth_error gs g) as [[prog pc]|] eqn:Eg; [|discriminate].
    destruct H as [h1 h2 h3 h4 h5 h6 h7 h8 h9 h10]. cbn [y_once y_arr y_heap y_gors y_sent y_started y_ended] in *. unfold waiting, running in *. cbn [y_heap] in *.
    assert (U : forall i x, (gcnt (creating i) (upd g x gs) + b2n (creating i (Gor prog pc)) = gcnt (creating i) gs + b2n (creating i x))%nat) by (intros; now apply gcnt_upd).
    assert (Ig := nth_error_In _ _ Eg).
    assert (PR : forall x, tasks_of g (g_prog x) = tasks_of g prog -> forall g0 p, nth_error progs g0 = Some p ->
      exists gr, nth_error (upd g x gs) g0 = Some gr /\ tasks_of g0 p = from g0 se ++ tasks_of g0 (g_prog gr)).
    { intros x Ex g0 p Hp. destruct (h10 g0 p Hp) as (gr & A & B). destruct (Nat.eq_dec g g0) as [<-|Ne].
      - exists x. split; [now apply (upd_nth g x (Gor prog pc))|]. rewrite B. f_equal. rewrite Ex. rewrite Eg in A. injection A as <-. reflexivity.
      - exists gr. split; [rewrite upd_nth_other by exact Ne; exact A|exact B]. }
    destruct pc as [|i|i].
    + destruct prog as [|[id [op|]] r]; [discriminate| |].
      * destruct (on (worker_index id)) eqn:Eo; [|discriminate|]; injection E as <-; constructor; cbn [y_once y_arr y_heap y_gors y_sent y_started y_ended]; auto.
        -- intros w k Hw. destruct (h2 w k Hw) as (A & B). split; [|exact B]. unfold fset. destruct (Z.eqb_spec (k_idx k) (worker_index id)) as [Q|Q]; [rewrite Q in A; congruence|exact A].
        -- intros i. unfold fset. destruct (Z.eqb_spec i (worker_index id)) as [Q|Q]; [discriminate|]. apply h3.
        -- intros i. specialize (U i (Gor ((id, Some op) :: r) (GCreate (worker_index id)))). unfold creating in U at 2 4. cbn [g_pc b2n] in U. rewrite h4 in U. unfold fset.
           destruct (Z.eqb_spec i (worker_index id)) as [Q|Q].
           ++ subst i. rewrite Z.eqb_refl, Eo in U. lia.
           ++ destruct (Z.eqb_spec (worker_index id) i); [congruence|]. lia.
        -- intros x Hx. apply upd_In in Hx. destruct Hx as [->|Hx]; [reflexivity|auto].
        -- intros x i Hx Hp. apply upd_In in Hx. destruct Hx as [->|Hx]; [discriminate|]. specialize (h6 x i Hx Hp). unfold fset. destruct (Z.eqb_spec i (worker_index id)); congruence.
        -- intros i. specialize (U i (Gor ((id, Some op) :: r) (GSend (worker_index id)))). unfold creating in U at 2 4. cbn [g_pc b2n] in U. rewrite <- h4. lia.
        -- intros x Hx. apply upd_In in Hx. destruct Hx as [->|Hx]; [reflexivity|auto].
        -- intros x i Hx Hp. apply upd_In in Hx. destruct Hx as [->|Hx]; [injection Hp as <-; exact Eo|eauto].
      * injection E as <-. constructor; cbn [y_once y_arr y_heap y_gors y_sent y_started y_ended]; auto.
        -- intros i. specialize (U i (Gor r GIdle)). unfold creating in U at 2 4. cbn [g_pc b2n] in U. rewrite <- h4. lia.
        -- intros x Hx. apply upd_In in Hx. destruct Hx as [->|Hx]; [exact I|auto].
        -- intros x i Hx Hp. apply upd_In in Hx. destruct Hx as [->|Hx]; [discriminate|eauto].
    + injection E as <-. assert (Hd := h5 _ Ig). cbn in Hd.
      assert (Bu : on i = Busy).
      { assert (X := gcnt_pos (creating i) _ _ Ig). unfold creating in X at 1. cbn [g_pc] in X. rewrite Z.eqb_refl in X. specialize (X eq_refl). rewrite h4 in X. destruct (on i); [lia|reflexivity|lia]. }
      assert (Ni : ~ In i (map k_idx hp)).
      { intros X. apply in_map_iff in X. destruct X as (k & Ek & X). apply In_nth_error in X. destruct X as (w & X). destruct (h2 w k X) as (A & _). congruence. }
      constructor; cbn [y_once y_arr y_heap y_gors y_sent y_started y_ended]; auto.
      * rewrite map_app. cbn. rewrite <- (rev_involutive (map k_idx hp ++ [i])). apply NoDup_rev. rewrite rev_app_distr. cbn. constructor; [rewrite <- in_rev; exact Ni|now apply NoDup_rev].
      * intros w k Hw. unfold fset. destruct (Nat.lt_ge_cases w (length hp)) as [L|L].
        -- rewrite nth_error_app1 in Hw by exact L. destruct (h2 w k Hw) as (A & B). destruct (Z.eqb_spec (k_idx k) i) as [Q|Q]; [rewrite Q in A; congruence|auto].
        -- rewrite nth_error_app2 in Hw by exact L. destruct (w - length hp)%nat as [|n] eqn:En; [|destruct n; discriminate]. injection Hw as <-. cbn [k_idx]. rewrite Z.eqb_refl. split; [reflexivity|f_equal; lia].
      * intros j. unfold fset. destruct (Z.eqb_spec j i) as [->|Q].
        -- intros _. exists (length hp), (AWorker i [] None). split; [reflexivity|]. split; [rewrite nth_error_app2, Nat.sub_diag by lia; reflexivity|reflexivity].
        -- intros Hj. destruct (h3 j Hj) as (w & k & A & B & C). exists w, k. split; [exact A|]. split; [|exact C]. rewrite nth_error_app1; [exact B|]. apply nth_error_Some. congruence.
      * intros j. specialize (U j (Gor prog (GSend i))). unfold creating in U at 2 4. cbn [g_pc b2n] in U. rewrite h4 in U. unfold fset. destruct (Z.eqb_spec j i) as [->|Q].
        -- rewrite Z.eqb_refl, Bu in U. lia.
        -- destruct (Z.eqb_spec i j); [congruence|]. lia.
      * intros x Hx. apply upd_In in Hx. destruct Hx as [->|Hx]; [exact Hd|auto].
      * intros x j Hx Hp. unfold fset. destruct (Z.eqb_spec j i) as [->|Q]; [reflexivity|]. apply upd_In in Hx. destruct Hx as [->|Hx]; [cbn in Hp; congruence|eauto].
      * intros j. rewrite h7. unfold waiting. cbn [y_heap]. rewrite flat_map_app. cbn. destruct (i =? j); cbn; now rewrite app_nil_r.
      * intros j. rewrite h8. unfold running. cbn [y_heap]. rewrite flat_map_app. cbn. destruct (i =? j); cbn; now rewrite app_nil_r.
    + destruct prog as [|[id [op|]] r]; try discriminate. assert (Hd := h5 _ Ig). cbn in Hd. assert (Mi := h6 _ i Ig eq_refl). destruct (h3 i Mi) as (w & k & A & B & C).
      rewrite A, B in E. destruct k as [ki q run]. cbn [k_idx] in C. subst ki. destruct (Nat.ltb _ _); [|discriminate]. injection E as <-.
      constructor; cbn [y_once y_arr y_heap y_gors y_sent y_started y_ended]; auto.
      * now rewrite (upd_idx w (AWorker i q run)).
      * intros w0 k0 Hw. destruct (Nat.eq_dec w w0) as [<-|Ne].
        -- rewrite (upd_nth w _ (AWorker i q run)) in Hw by exact B. injection Hw as <-. cbn [k_idx]. auto.
        -- rewrite upd_nth_other in Hw by exact Ne. auto.
      * intros j Hj. destruct (h3 j Hj) as (w0 & k0 & A0 & B0 & C0). destruct (Nat.eq_dec w w0) as [<-|Ne].
        -- exists w. eexists. split; [exact A0|]. split; [now apply (upd_nth w _ (AWorker i q run))|]. cbn [k_idx]. rewrite B in B0. injection B0 as <-. exact C0.
        -- exists w0, k0. rewrite upd_nth_other by exact Ne. auto.
      * intros j. specialize (U j (Gor r GIdle)). unfold creating in U at 2 4. cbn [g_pc b2n] in U. rewrite <- h4. lia.
      * intros x Hx. apply upd_In in Hx. destruct Hx as [->|Hx]; [exact I|auto].
      * intros x j Hx Hp. apply upd_In in Hx. destruct Hx as [->|Hx]; [discriminate|eauto].
      * intros j. rewrite at_index_snoc. unfold waiting. cbn [y_heap]. fold (FM k_queue j (upd w (AWorker i (q ++ [Task g id op]) run) hp)). rewrite (fm_upd k_queue j hp w (AWorker i q run)) by (auto; reflexivity). cbn [k_idx k_queue].
        rewrite h7. fold (FM k_queue j hp). destruct (Z.eqb_spec i j) as [<-|Ne]; [|now rewrite app_nil_r]. rewrite (fm_at k_queue hp w (AWorker i q run) h1 B : FM k_queue i hp = q). now rewrite app_assoc.
      * intros j. rewrite h8. f_equal. unfold running. cbn [y_heap].
        fold (FM (fun k => match k_running k with Some t => [t] | None => [] end) j (upd w (AWorker i (q ++ [Task g id op]) run) hp)). fold (FM (fun k => match k_running k with Some t => [t] | None => [] end) j hp).
        rewrite (fm_upd _ j hp w (AWorker i q run)) by (auto; reflexivity). cbn [k_idx k_running]. destruct (Z.eqb_spec i j) as [<-|Ne]; [|reflexivity].
        exact (fm_at (fun k => match k_running k with Some t => [t] | None => [] end) hp w (AWorker i q run) h1 B).
      * intros x Hx. apply in_app_or in Hx. destruct Hx as [Hx|[<-|[]]]; [auto|]. cbn. now symmetry.
      * intros g0 p Hp. destruct (h10 g0 p Hp) as (gr & X & Y). unfold from in *. rewrite map_app, filter_app. cbn [map snd filter t_from]. destruct (Nat.eqb_spec g g0) as [<-|Ne].
        -- exists (Gor r GIdle). split; [now apply (upd_nth g _ (Gor ((id, Some op) :: r) (GSend i)))|]. rewrite Y. rewrite Eg in X. injection X as <-. cbn [g_prog]. rewrite <- app_assoc. reflexivity.
        -- exists gr. split; [rewrite upd_nth_other by exact Ne; exact X|]. rewrite app_nil_r. exact Y.
  - unfold take_step in E. cbn [y_once y_arr y_heap y_gors y_sent y_started y_ended] in E. destruct (nth_error hp w) as [[i [|t q] [run|]]|] eqn:B; try discriminate. injection E as <-.
    destruct H as [h1 h2 h3 h4 h5 h6 h7 h8 h9 h10]. cbn [y_once y_arr y_heap y_gors y_sent y_started y_ended] in *. unfold waiting, running in *. cbn [y_heap] in *.
    constructor; cbn [y_once y_arr y_heap y_gors y_sent y_started y_ended]; auto.
    + now rewrite (upd_idx w (AWorker i (t :: q) None)).
    + intros w0 k0 Hw. destruct (Nat.eq_dec w w0) as [<-|Ne].
      * rewrite (upd_nth w _ (AWorker i (t :: q) None)) in Hw by exact B. injection Hw as <-. cbn [k_idx]. exact (h2 w _ B).
      * rewrite upd_nth_other in Hw by exact Ne. auto.
    + intros j Hj. destruct (h3 j Hj) as (w0 & k0 & A0 & B0 & C0). destruct (Nat.eq_dec w w0) as [<-|Ne].
      * exists w. eexists. split; [exact A0|]. split; [now apply (upd_nth w _ (AWorker i (t :: q) None))|]. cbn [k_idx]. rewrite B in B0. injection B0 as <-. exact C0.
      * exists w0, k0. rewrite upd_nth_other by exact Ne. auto.
    + intros j. rewrite at_index_snoc, h7. unfold waiting. cbn [y_heap]. fold (FM k_queue j (upd w (AWorker i q (Some t)) hp)). fold (FM k_queue j hp). rewrite (fm_upd k_queue j hp w (AWorker i (t :: q) None)) by (auto; reflexivity). cbn [k_idx k_queue].
      destruct (Z.eqb_spec i j) as [<-|Ne]; [|now rewrite app_nil_r]. rewrite (fm_at k_queue hp w (AWorker i (t :: q) None) h1 B : FM k_queue i hp = t :: q). rewrite <- app_assoc. reflexivity.
    + intros j. rewrite at_index_snoc, h8. unfold running. cbn [y_heap].
      fold (FM (fun k => match k_running k with Some t => [t] | None => [] end) j (upd w (AWorker i q (Some t)) hp)). fold (FM (fun k => match k_running k with Some t => [t] | None => [] end) j hp).
      rewrite (fm_upd _ j hp w (AWorker i (t :: q) None)) by (auto; reflexivity). cbn [k_idx k_running]. destruct (Z.eqb_spec i j) as [<-|Ne]; [|now rewrite app_nil_r].
      assert (X := fm_at (fun k => match k_running k with Some t => [t] | None => [] end) hp w (AWorker i (t :: q) None) h1 B). cbn [k_idx k_running] in X. rewrite X. now rewrite app_nil_r.
  - unfold end_step in E. cbn [y_once y_arr y_heap y_gors y_sent y_started y_ended] in E. destruct (nth_error hp w) as [[i q [t|]]|] eqn:B; try discriminate. injection E as <-.
    destruct H as [h1 h2 h3 h4 h5 h6 h7 h8 h9 h10]. cbn [y_once y_arr y_heap y_gors y_sent y_started y_ended] in *. unfold waiting, running in *. cbn [y_heap] in *.
    constructor; cbn [y_once y_arr y_heap y_gors y_sent y_started y_ended]; auto.
    + now rewrite (upd_idx w (AWorker i q (Some t))).
    + intros w0 k0 Hw. destruct (Nat.eq_dec w w0) as [<-|Ne].
      * rewrite (upd_nth w _ (AWorker i q (Some t))) in Hw by exact B. injection Hw as <-. cbn [k_idx]. exact (h2 w _ B).
      * rewrite upd_nth_other in Hw by exact Ne. auto.
    + intros j Hj. destruct (h3 j Hj) as (w0 & k0 & A0 & B0 & C0). destruct (Nat.eq_dec w w0) as [<-|Ne].
      * exists w. eexists. split; [exact A0|]. split; [now apply (upd_nth w _ (AWorker i q (Some t)))|]. cbn [k_idx]. rewrite B in B0. injection B0 as <-. exact C0.
      * exists w0, k0. rewrite upd_nth_other by exact Ne. auto.
    + intros j. rewrite h7. unfold waiting. cbn [y_heap]. fold (FM k_queue j (upd w (AWorker i q None) hp)). fold (FM k_queue j hp). rewrite (fm_upd k_queue j hp w (AWorker i q (Some t))) by (auto; reflexivity). cbn [k_idx k_queue].
      destruct (Z.eqb_spec i j) as [<-|Ne]; [|reflexivity]. now rewrite (fm_at k_queue hp w (AWorker i q (Some t)) h1 B : FM k_queue i hp = q).
    + intros j. rewrite h8. rewrite map_app. cbn [map fst]. rewrite at_index_snoc. unfold running. cbn [y_heap].
      fold (FM (fun k => match k_running k with Some t => [t] | None => [] end) j (upd w (AWorker i q None) hp)). fold (FM (fun k => match k_running k with Some t => [t] | None => [] end) j hp).
      rewrite (fm_upd _ j hp w (AWorker i q (Some t))) by (auto; reflexivity). cbn [k_idx k_running]. destruct (Z.eqb_spec i j) as [<-|Ne]; [|now rewrite app_nil_r].
      assert (X := fm_at (fun k => match k_running k with Some t => [t] | None => [] end) hp w (AWorker i q (Some t)) h1 B). cbn [k_idx k_running] in X. rewrite X. now rewrite app_nil_r.
Qed.

Lemma winv_run progs ls : forall s, WInv progs s -> WInv progs (w_run s ls).
Proof. induction ls as [|l ls IH]; intros s H; [exact H|]. cbn. apply IH. unfold w_step. destruct (w_step1 s l) eqn:E; [exact (winv_step _ _ _ _ H E)|exact H]. Qed.
Lemma winv_reach progs ls : WInv progs (w_run (w_new progs) ls).
Proof. apply winv_run, winv_new. Qed.

Lemma one_running progs s i : WInv progs s -> (length (running i s) <= 1)%nat.
Proof.
  intros H. assert (N := j_nodup _ _ H). unfold running. generalize (y_heap s) N. intros h. clear. induction h as [|k h IH]; intros N; [cbn; lia|]. cbn. inversion N; subst. rewrite app_length.
  destruct (Z.eqb_spec (k_idx k) i) as [E|E]; [|cbn; apply IH; assumption].
  fold (FM (fun k => match k_running k with Some t => [t] | None => [] end) i h). rewrite fm_out by congruence. destruct (k_running k); cbn; lia.
Qed.

Lemma with_id_index id i l : i = worker_index id -> (forall x, In x l -> fst x = worker_index (t_id (snd x))) -> with_id id (at_index i l) = with_id id (map snd l).
Proof.
  intros -> H. unfold with_id, at_index. induction l as [|[k t] l IH]; [reflexivity|]. cbn [filter fst snd map]. specialize (IH (fun x Hx => H x (or_intror Hx))). assert (Hk := H (k, t) (or_introl eq_refl)). cbn in Hk.
  destruct (Z.eqb_spec k (worker_index id)) as [E|E]; cbn [map snd filter]; [now rewrite IH|]. destruct (Z.eqb_spec (t_id t) id) as [Q|Q]; [exfalso; apply E; now rewrite Hk, Q|exact IH].
Qed.
Lemma filter_comm {A} (f g : A -> bool) l : filter f (filter g l) = filter g (filter f l).
Proof. induction l as [|x l IH]; [reflexivity|]. cbn. destruct (f x) eqn:F, (g x) eqn:G; cbn; rewrite ?F, ?G, ?IH; reflexivity. Qed.

(* The operations of one goroutine with one ID start in the order of its program. *)
Lemma started_sub progs s : WInv progs s -> forall x, In x (y_started s) -> In x (y_sent s).
Proof.
  intros H [k t] Hx. assert (A : In t (at_index k (y_started s))) by (unfold at_index; apply in_map_iff; exists (k, t); split; [reflexivity|]; apply filter_In; split; [exact Hx|cbn; lia]).
  assert (B : In t (at_index k (y_sent s))) by (rewrite (j_sent _ _ H k); apply in_or_app; now left).
  unfold at_index in B. apply in_map_iff in B. destruct B as ([k' t'] & E & B). cbn in E. subst t'. apply filter_In in B. destruct B as (B & E). cbn in E. replace k with k' by lia. exact B.
Qed.
Lemma program_order progs ls g p id : nth_error progs g = Some p -> let s := w_run (w_new progs) ls in
  exists rest, with_id id (tasks_of g p) = with_id id (from g (y_started s)) ++ rest.
Proof.
  intros Hp s. assert (H := winv_reach progs ls). fold s in H. destruct (j_prog _ _ H g p Hp) as (gr & _ & E). rewrite E.
  assert (X : with_id id (from g (y_sent s)) = with_id id (from g (y_started s)) ++ filter (fun t => Nat.eqb (t_from t) g) (with_id id (waiting (worker_index id) s))).
  { unfold with_id, from. rewrite (filter_comm _ _ (map snd (y_sent s))), (filter_comm _ _ (map snd (y_started s))). fold (with_id id (map snd (y_sent s))). fold (with_id id (map snd (y_started s))).
    rewrite <- (with_id_index id _ (y_sent s) eq_refl (j_where _ _ H)), <- (with_id_index id _ (y_started s) eq_refl (fun x Hx => j_where _ _ H x (started_sub _ _ H x Hx))).
    rewrite (j_sent _ _ H). unfold with_id. now rewrite !filter_app. }
  unfold with_id at 1. rewrite filter_app. fold (with_id id (from g (y_sent s))). rewrite X, <- app_assoc. eexists. reflexivity.
Qed.

(* Whatever panics, everything sent gets done. *)
Fixpoint drain (w : nat) (panics : list bool) : list wlabel := match panics with [] => [] | b :: r => Take w :: Finish w b :: drain w r end.
Lemma take_finish s w i t q b : nth_error (y_heap s) w = Some (AWorker i (t :: q) None) ->
  let s' := w_step (w_step s (Take w)) (Finish w b) in
  nth_error (y_heap s') w = Some (AWorker i q None) /\ y_ended s' = y_ended s ++ [(i, t, b)] /\ y_sent s' = y_sent s /\ y_started s' = y_started s ++ [(i, t)].
Proof.
  destruct s as [on ar hp gs se st en]. cbn [y_heap y_ended y_sent y_started]. intros E.
  assert (S1 : w_step (WSys on ar hp gs se st en) (Take w) = WSys on ar (upd w (AWorker i q (Some t)) hp) gs se (st ++ [(i, t)]) en) by (unfold w_step; cbn [w_step1]; unfold take_step; cbn [y_heap]; now rewrite E).
  rewrite S1. assert (X : nth_error (upd w (AWorker i q (Some t)) hp) w = Some (AWorker i q (Some t))) by (now apply (upd_nth w _ (AWorker i (t :: q) None))).
  unfold w_step. cbn [w_step1]. unfold end_step. cbn [y_heap].
  rewrite X. cbn [y_heap y_ended y_sent y_started]. split; [now apply (upd_nth w _ (AWorker i q (Some t)))|split; [|split]; reflexivity].
Qed.
Lemma drain_ok w i : forall panics s q, nth_error (y_heap s) w = Some (AWorker i q None) -> length panics = length q ->
  let s' := w_run s (drain w panics) in nth_error (y_heap s') w = Some (AWorker i [] None) /\ y_ended s' = y_ended s ++ map (fun x => (i, fst x, snd x)) (combine q panics) /\ y_sent s' = y_sent s.
Proof.
  induction panics as [|b r IH]; intros s q E L; destruct q as [|t q]; try discriminate; cbn zeta.
  - cbn [drain w_run combine map]. rewrite app_nil_r. auto.
  - change (w_run s (drain w (b :: r))) with (w_run (w_step (w_step s (Take w)) (Finish w b)) (drain w r)).
    destruct (take_finish s w i t q b E) as (A & B & C & _). destruct (IH _ q A ltac:(cbn in L; lia)) as (A' & B' & C'). split; [exact A'|]. split; [|now rewrite C', C]. rewrite B', B. cbn [combine map fst snd]. now rewrite <- app_assoc.
Qed.

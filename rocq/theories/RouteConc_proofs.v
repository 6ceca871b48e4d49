(* C104. *)
From Coq Require Import ZArith List Bool Arith Lia.
From Verif Require Import RouteConc Spec_RouteConc.
Import ListNotations.

Lemma set_at_len {A} (l : list A) : forall i x, length (set_at i x l) = length l.
Proof. induction l as [|y l IH]; intros [|i] x; cbn; auto. Qed.
Lemma nth_set_same {A} (l : list A) : forall i x d, i < length l -> nth i (set_at i x l) d = x.
Proof. induction l as [|y l IH]; intros [|i] x d H; cbn in *; auto; try lia. apply IH; lia. Qed.
Lemma nth_set_other {A} (l : list A) : forall i j x d, i <> j -> nth j (set_at i x l) d = nth j l d.
Proof. induction l as [|y l IH]; intros [|i] [|j] x d H; cbn in *; auto; congruence. Qed.
Lemma set_at_twice {A} (l : list A) : forall i x y, set_at i y (set_at i x l) = set_at i y l.
Proof. induction l as [|z l IH]; intros [|i] x y; cbn; auto. now rewrite IH. Qed.
Lemma set_idle l : forall i, Forall (fun p => p = Idle) l -> set_at i Idle l = l.
Proof. induction l as [|z l IH]; intros [|i] H; cbn; inversion_clear H; subst; auto. now rewrite IH. Qed.
Lemma in_set_at {A} (l : list A) : forall i x y, In y (set_at i x l) -> y = x \/ In y l.
Proof.
  induction l as [|z l IH]; intros [|i] x y H; cbn in *; auto.
  - destruct H; auto.
  - destruct H as [H|H]; auto. destruct (IH _ _ _ H); auto.
Qed.
Lemma run_app s a b : run s (a ++ b) = run (run s a) b.
Proof. apply fold_left_app. Qed.
Lemma quiet_nth s t : quiet s -> nth t (s_pcs s) Idle = Idle.
Proof.
  intros H. destruct (Nat.lt_ge_cases t (length (s_pcs s))) as [L|L]; [|now apply nth_overflow].
  exact (proj1 (Forall_forall _ _) H _ (nth_In _ _ L)).
Qed.
Lemma quiet_busy k s : quiet s -> busy k s = false.
Proof.
  unfold quiet, busy. induction (s_pcs s) as [|p l IH]; intros H; [reflexivity|].
  inversion_clear H; subst. cbn. auto.
Qed.
(* Exactly one goroutine in a call: the list is all idle except at t. *)
Definition only (s : st) (t : nat) (p : pc) : Prop :=
  exists l, Forall (fun q => q = Idle) l /\ t < length l /\ s_pcs s = set_at t p l.
Lemma busy_only k s t p : only s t p -> writes k p = false -> busy k s = false.
Proof.
  intros (l & H & _ & E) W. unfold busy. rewrite E. clear E.
  revert t. induction l as [|q l IH]; intros [|t]; cbn; auto; inversion_clear H; subst; cbn.
  - rewrite W. cbn. clear -H1. induction H1; cbn; subst; auto.
  - auto.
Qed.
Lemma only_nth s t p : only s t p -> nth t (s_pcs s) Idle = p.
Proof. intros (l & _ & L & E). rewrite E. now apply nth_set_same. Qed.
Lemma only_nth_other s t p u : only s t p -> u <> t -> nth u (s_pcs s) Idle = Idle.
Proof.
  intros (l & H & L & E) D. rewrite E, nth_set_other by congruence.
  destruct (Nat.lt_ge_cases u (length l)) as [L'|L']; [|now apply nth_overflow].
  exact (proj1 (Forall_forall _ _) H _ (nth_In _ _ L')).
Qed.
Lemma only_goto s t p q : only s t p -> only (goto s t q) t q.
Proof. intros (l & H & L & E). exists l. repeat split; auto. cbn. rewrite E. apply set_at_twice. Qed.
Lemma only_idle s t p : only s t p -> Forall (fun q => q = Idle) (set_at t Idle (s_pcs s)).
Proof. intros (l & H & L & E). rewrite E, set_at_twice, set_idle; auto. Qed.
Lemma only_not_quiet s t p : only s t p -> p <> Idle -> ~ quiet s.
Proof. intros H D Q. apply D. rewrite <- (only_nth s t p H). now apply quiet_nth. Qed.

(* The book of a state, and what a call that is under way will make of it. *)
Definition book_of (s : st) : book := Book (s_apis s) (s_slices s) (s_handlers s) (s_log s).
Definition after (s : st) (t : nat) (p : pc) (b : book) : Prop :=
  match p with
  | Idle => False
  | Begun c => b = at_once (book_of s) (Call t c)
  | Inserting id h => look id (s_apis s) = None /\ b = at_once (book_of s) (Call t (AddRouter id h))
  | Sizing id hs => look id (s_slices s) = None /\ b = at_once (book_of s) (Call t (AddSlices id hs))
  | Copying id hs n => n = length (s_handlers s) + length hs /\
      look id (s_slices s) = None /\ b = at_once (book_of s) (Call t (AddSlices id hs))
  | Filling id hs m => m = map Some (s_handlers s) ++ repeat None (length hs) /\
      look id (s_slices s) = None /\ b = at_once (book_of s) (Call t (AddSlices id hs))
  | Appending id hs m => m = map Some (s_handlers s ++ hs) /\
      look id (s_slices s) = None /\ b = at_once (book_of s) (Call t (AddSlices id hs))
  | Writing c id v =>
      match c with
      | AddRouter i h => i = id /\ v = [Some h] /\ look id (s_apis s) = None
      | AddSlices i hs => i = id /\ v = map Some (s_handlers s ++ hs) /\ look id (s_slices s) = None
      | Use _ => False
      end /\ b = at_once (book_of s) (Call t c)
  | Storing hs new => new = s_handlers s ++ hs /\ b = at_once (book_of s) (Call t (Use hs))
  end.

Definition sim (s : st) (b : book) : Prop :=
  s_dead s = false /\
  ((quiet s /\ b = book_of s) \/ exists t p, p <> Idle /\ only s t p /\ after s t p b).

Lemma firstn_rep {A} (x : A) : forall k n, k <= n -> firstn k (repeat x n) = repeat x k.
Proof. induction k as [|k IH]; intros [|n] H; cbn; auto; [lia|]. rewrite IH by lia. reflexivity. Qed.
Lemma firstn_pad (a : list (option Z)) n : length a <= n -> firstn n (a ++ repeat None n) = a ++ repeat None (n - length a).
Proof.
  intros H. rewrite firstn_app, firstn_all2 by lia. f_equal.
  rewrite firstn_rep by lia. reflexivity.
Qed.
Lemma fill (a : list Z) (hs : list Z) :
  firstn (length a) (map Some a ++ repeat None (length hs))
  ++ firstn (length (map Some a ++ repeat (@None Z) (length hs)) - length a) (map Some hs)
  ++ skipn (length a + length hs) (map Some a ++ repeat None (length hs)) = map Some (a ++ hs).
Proof.
  rewrite firstn_app, map_length, Nat.sub_diag, firstn_O, app_nil_r, firstn_all2 by (rewrite map_length; lia).
  rewrite app_length, map_length, repeat_length.
  rewrite firstn_all2 by (rewrite map_length; lia).
  rewrite skipn_all2 by (rewrite app_length, map_length, repeat_length; lia).
  now rewrite app_nil_r, map_app.
Qed.

Lemma sim_step s b l : sim s b ->
  match l with Call t _ => t < length (s_pcs s) /\ quiet s | Look _ _ => quiet s | Step _ => True end ->
  sim (step s l) (at_once b l).
Proof.
  intros (Hd & Hs) Hl. unfold step. rewrite Hd. destruct l as [t c|t|k id].
  - destruct Hl as (Ht & Hq). destruct Hs as [(_ & ->)|(u & p & Hp & Ho & _)]; [|now elim (only_not_quiet s u p)].
    rewrite (nth_indep _ _ Idle) by assumption. rewrite quiet_nth by assumption.
    split; [exact Hd|]. right. exists t, (Begun c). split; [discriminate|]. split; [|reflexivity].
    exists (s_pcs s). auto.
  - cbn [at_once]. destruct Hs as [(Hq & ->)|(u & p & Hp & Ho & Ha)].
    { unfold step_of. rewrite quiet_nth by assumption. split; auto. }
    destruct (Nat.eq_dec t u) as [->|D].
    2:{ unfold step_of. rewrite (only_nth_other s u p t) by assumption. split; [auto|]. right. eauto. }
    unfold step_of. rewrite (only_nth s u p Ho).
    destruct p as [|c|id h|id hs|id hs n|id hs m|id hs m|c id v|hs new]; [congruence| | | | | | | |].
    + (* Begun *)
      destruct c as [id h|id hs|hs]; cbn [after] in Ha.
      * unfold touch. rewrite (busy_only Classic s u _ Ho) by reflexivity.
        cbn [at_once book_of b_apis b_slices b_used b_log] in Ha.
        destruct (look id (s_apis s)) eqn:E.
        -- split; [exact Hd|]. left. split; [exact (only_idle s u _ Ho)|]. exact Ha.
        -- split; [exact Hd|]. right. exists u, (Inserting id h). split; [discriminate|].
           split; [exact (only_goto s u _ _ Ho)|]. cbn. rewrite E. auto.
      * unfold touch. rewrite (busy_only Slices s u _ Ho) by reflexivity.
        cbn [at_once book_of b_apis b_slices b_used b_log] in Ha.
        destruct (look id (s_slices s)) eqn:E.
        -- split; [exact Hd|]. left. split; [exact (only_idle s u _ Ho)|]. exact Ha.
        -- split; [exact Hd|]. right. exists u, (Sizing id hs). split; [discriminate|].
           split; [exact (only_goto s u _ _ Ho)|]. cbn. rewrite E. auto.
      * split; [exact Hd|]. right. exists u, (Storing hs (s_handlers s ++ hs)). split; [discriminate|].
        split; [exact (only_goto s u _ _ Ho)|]. cbn. auto.
    + (* Inserting *)
      unfold touch. rewrite (busy_only Classic s u _ Ho) by reflexivity. destruct Ha as (E & Ha).
      split; [exact Hd|]. right. exists u, (Writing (AddRouter id h) id [Some h]). split; [discriminate|].
      split; [exact (only_goto s u _ _ Ho)|]. repeat split; [exact E|exact Ha].
    + (* Sizing *)
      destruct Ha as (E & Ha). split; [exact Hd|]. right. eexists u, (Copying _ _ _). split; [discriminate|].
      split; [exact (only_goto s u _ _ Ho)|]. repeat split; [exact E|exact Ha].
    + (* Copying *)
      destruct Ha as (-> & E & Ha). split; [exact Hd|]. right. eexists u, (Filling _ _ _). split; [discriminate|].
      split; [exact (only_goto s u _ _ Ho)|]. cbn [after]. split; [|split; [exact E|exact Ha]].
      cbn [goto s_handlers]. rewrite firstn_pad by (rewrite map_length; lia). rewrite map_length. f_equal. f_equal. lia.
    + (* Filling *)
      destruct Ha as (-> & E & Ha). rewrite fill.
      replace (length (map Some (s_handlers s) ++ repeat None (length hs)) <? length (s_handlers s)) with false
        by (symmetry; apply Nat.ltb_ge; rewrite app_length, map_length; lia).
      split; [exact Hd|]. right. eexists u, (Appending _ _ _). split; [discriminate|].
      split; [exact (only_goto s u _ _ Ho)|]. cbn [after]. repeat split; [exact E|exact Ha].
    + (* Appending *)
      destruct Ha as (-> & E & Ha). unfold touch. rewrite (busy_only Slices s u _ Ho) by reflexivity. rewrite E.
      split; [exact Hd|]. right. eexists u, (Writing _ _ _). split; [discriminate|].
      split; [exact (only_goto s u _ _ Ho)|]. cbn [after]. repeat split; [exact E|exact Ha].
    + (* Writing *)
      destruct Ha as (Hc & ->). split; [destruct c; exact Hd|]. left.
      split; [destruct c; exact (only_idle s u _ Ho)|].
      destruct c as [i h|i hs|hs]; [| |contradiction]; destruct Hc as (-> & -> & E);
        cbn [at_once book_of b_apis b_slices b_used b_log]; rewrite E; reflexivity.
    + (* Storing *)
      destruct Ha as (-> & ->). split; [exact Hd|]. left. split; [exact (only_idle s u _ Ho)|]. reflexivity.
  - destruct Hs as [(_ & ->)|(u & p & Hp & Ho & _)]; [|now elim (only_not_quiet s u p)].
    unfold touch. rewrite (quiet_busy k s Hl). split; [exact Hd|]. left. split; [exact Hl|]. destruct k; reflexivity.
Qed.

Lemma sim_run ls : forall s b, sim s b -> one_at_a_time s ls -> sim (run s ls) (fold_left at_once ls b).
Proof.
  induction ls as [|l ls IH]; intros s b H O; [exact H|]. destruct O as (O1 & O2). cbn [fold_left run].
  apply IH; [|exact O2]. now apply sim_step.
Qed.
Lemma init_quiet n : quiet (init n).
Proof. unfold quiet. cbn. induction n; cbn; auto. Qed.
Lemma sequential n ls : let s := run (init n) ls in
  one_at_a_time (init n) ls -> s_dead s = false /\ (quiet s -> book_of s = fold_left at_once ls empty_book).
Proof.
  cbv zeta. intros H. destruct (sim_run ls (init n) empty_book) as (D & S); [|exact H|].
  - split; [reflexivity|]. left. split; [apply init_quiet|reflexivity].
  - split; [exact D|]. intros Q. destruct S as [(_ & E)|(t & p & Hp & Ho & _)]; [auto|now elim (only_not_quiet _ t p Ho Hp)].
Qed.

(* --- all schedules --- *)

Lemma busy_at k s : busy k s = true -> exists u c id v, nth u (s_pcs s) Idle = Writing c id v /\ kind_of c = k.
Proof.
  unfold busy. intros H. apply existsb_exists in H as (p & Hin & Hw).
  apply In_nth with (d := Idle) in Hin as (u & _ & E).
  destruct p; try discriminate Hw. exists u, c, id, v. split; [exact E|].
  destruct c, k; try reflexivity; discriminate Hw.
Qed.

Lemma dead_step s l : s_dead s = false -> s_dead (step s l) = true ->
  exists k u c id v, nth u (s_pcs s) Idle = Writing c id v /\ kind_of c = k /\
    match l with
    | Look k' _ => k' = k
    | Step t => t <> u /\
      match nth t (s_pcs s) Idle with
      | Begun c' => c' <> Use (match c' with Use hs => hs | _ => [] end) /\ kind_of c' = k
      | Inserting _ _ => k = Classic
      | Appending _ _ _ => k = Slices
      | _ => False
      end
    | Call _ _ => False
    end.
Proof.
  intros Hd H. unfold step in H. rewrite Hd in H. destruct l as [t c|t|k id].
  - destruct (nth t (s_pcs s) (Begun c)); cbn in H; congruence.
  - unfold step_of in H. destruct (nth t (s_pcs s) Idle) as [|[id h|id hs|hs]|id h|id hs|id hs n|id hs m|id hs m|c id v|hs new] eqn:E;
      cbn in H; try congruence.
    + unfold touch in H. destruct (busy Classic s) eqn:B; [|destruct (look _ _); cbn in H; congruence].
      destruct (busy_at _ _ B) as (u & c & i & v & E' & K). exists Classic, u, c, i, v. repeat split; auto; congruence.
    + unfold touch in H. destruct (busy Slices s) eqn:B; [|destruct (look _ _); cbn in H; congruence].
      destruct (busy_at _ _ B) as (u & c & i & v & E' & K). exists Slices, u, c, i, v. repeat split; auto; congruence.
    + unfold touch in H. destruct (busy Classic s) eqn:B; [|cbn in H; congruence].
      destruct (busy_at _ _ B) as (u & c & i & v & E' & K). exists Classic, u, c, i, v. repeat split; auto; congruence.
    + match type of H with context [if ?b then _ else _] => destruct b end; cbn in H; congruence.
    + unfold touch in H. destruct (busy Slices s) eqn:B; [|cbn in H; congruence].
      destruct (busy_at _ _ B) as (u & c & i & v & E' & K). exists Slices, u, c, i, v. repeat split; auto; congruence.
    + destruct (kind_of c); cbn in H; congruence.
  - unfold touch in H. destruct (busy k s) eqn:B; [|cbn in H; congruence].
    destruct (busy_at _ _ B) as (u & c & i & v & E' & K). exists k, u, c, i, v. auto.
Qed.

(* Nothing is ever unregistered, and a call that returned has registered. *)
Definition kept (s : st) : Prop := forall t c k id, In (Done t c) (s_log s) -> registers c k id -> look id (table_of k s) <> None.
Lemma look_put id i v t : look id (put i v t) = if Z.eqb i id then Some v else look id t.
Proof. reflexivity. Qed.
(* A write in progress is of the ID of its call. *)
Definition aimed (s : st) : Prop := forall t c id v, nth t (s_pcs s) Idle = Writing c id v -> exists k, registers c k id /\ kind_of c = k.
Lemma aimed_set s t p s' : aimed s ->
  (forall c id v, p = Writing c id v -> exists k, registers c k id /\ kind_of c = k) ->
  s_pcs s' = set_at t p (s_pcs s) -> aimed s'.
Proof.
  intros Hl Hp Es u c id v E. rewrite Es in E. destruct (Nat.eq_dec t u) as [->|D].
  - destruct (Nat.lt_ge_cases u (length (s_pcs s))) as [L|L].
    + rewrite nth_set_same in E by assumption. eauto.
    + rewrite nth_overflow in E by (rewrite set_at_len; lia). discriminate.
  - rewrite nth_set_other in E by assumption. eapply Hl. exact E.
Qed.
Lemma kept_emit s e : kept s -> (forall t c, e <> Done t c) -> kept (emit s e).
Proof.
  intros H D t c k id Hin R. cbn [emit s_log] in Hin. apply in_app_or in Hin as [Hin|[Hin|[]]].
  - specialize (H t c k id Hin R). destruct k; exact H.
  - now elim (D t c).
Qed.

Lemma aimed_step s l : aimed s -> aimed (step s l).
Proof.
  intros H. unfold step. destruct (s_dead s); [exact H|]. destruct l as [t c|t|k id].
  - destruct (nth t (s_pcs s) (Begun c)); try exact H.
    eapply aimed_set; [exact H| |reflexivity]. discriminate.
  - unfold step_of, touch. destruct (nth t (s_pcs s) Idle) as [|[id h|id hs|hs]|id h|id hs|id hs n|id hs m|id hs m|c id v|hs new] eqn:E;
      try exact H.
    + destruct (busy Classic s); [exact H|]. destruct (look id (s_apis s)); (eapply aimed_set; [exact H| |reflexivity]; discriminate).
    + destruct (busy Slices s); [exact H|]. destruct (look id (s_slices s)); (eapply aimed_set; [exact H| |reflexivity]; discriminate).
    + eapply aimed_set; [exact H| |reflexivity]; discriminate.
    + destruct (busy Classic s); [exact H|]. eapply aimed_set; [exact H| |reflexivity].
      intros c i v [= <- <- <-]. exists Classic. repeat split.
    + eapply aimed_set; [exact H| |reflexivity]; discriminate.
    + eapply aimed_set; [exact H| |reflexivity]; discriminate.
    + destruct (_ <? _); (eapply aimed_set; [exact H| |reflexivity]; discriminate).
    + destruct (busy Slices s); [exact H|]. eapply aimed_set; [exact H| |reflexivity].
      intros c i v [= <- <- <-]. exists Slices. repeat split.
    + destruct (kind_of c); (eapply aimed_set; [exact H| |reflexivity]; discriminate).
    + eapply aimed_set; [exact H| |reflexivity]; discriminate.
  - unfold touch. destruct (busy k s); exact H.
Qed.

Lemma kept_step s l : aimed s -> kept s -> kept (step s l).
Proof.
  intros A H. unfold step. destruct (s_dead s); [exact H|]. destruct l as [t c|t|k id].
  - destruct (nth t (s_pcs s) (Begun c)); exact H.
  - unfold step_of, touch. destruct (nth t (s_pcs s) Idle) as [|[id h|id hs|hs]|id h|id hs|id hs n|id hs m|id hs m|c id v|hs new] eqn:E;
      try exact H.
    + destruct (busy Classic s); [exact H|]. destruct (look id (s_apis s)); [|exact H].
      apply kept_emit; [exact H|discriminate].
    + destruct (busy Slices s); [exact H|]. destruct (look id (s_slices s)); [|exact H].
      apply kept_emit; [exact H|discriminate].
    + destruct (busy Classic s); exact H.
    + destruct (_ <? _); [apply kept_emit; [exact H|discriminate]|exact H].
    + destruct (busy Slices s); exact H.
    + destruct (A t c id v E) as (k & R & K). intros u c' k' id' Hin R'.
      assert (Hin' : In (Done u c') (s_log s) \/ c' = c).
      { destruct (kind_of c); cbn in Hin; apply in_app_or in Hin as [Hin|[Hin|[]]]; auto; right; congruence. }
      assert (X : look id' (table_of k' s) <> None \/ (k' = k /\ id' = id)).
      { destruct Hin' as [Hin'| ->]; [left; eapply H; eassumption|right].
        destruct c; cbn in R, R'; try contradiction; destruct R, R'; subst; auto. }
      destruct X as [X|(Ek & Ei)].
      * destruct (kind_of c), k'; cbn [table_of emit goto s_apis s_slices] in *; rewrite ?look_put; try exact X;
          (destruct (Z.eqb id id'); [discriminate|exact X]).
      * subst k' id'. rewrite <- K.
        destruct (kind_of c); cbn [table_of emit goto s_apis s_slices]; rewrite look_put, Z.eqb_refl; discriminate.
    + intros u c k id Hin R. cbn [emit goto s_log] in Hin. apply in_app_or in Hin as [Hin|[Hin|[]]].
      * specialize (H u c k id Hin R). destruct k; exact H.
      * injection Hin as <- <-. destruct R.
  - unfold touch. destruct (busy k s); [exact H|]. apply kept_emit; [exact H|discriminate].
Qed.

Definition found_ok (log : list event) : Prop := forall a t c b k id r d,
  log = a ++ Done t c :: b ++ Found k id r :: d -> registers c k id -> r <> None.
Lemma found_ok_snoc log e : found_ok log ->
  (forall t c k id r, e = Found k id r -> In (Done t c) log -> registers c k id -> r <> None) -> found_ok (log ++ [e]).
Proof.
  intros H He a t c b k id r d E R.
  destruct (rev d) as [|x d'] eqn:Ed.
  - apply (f_equal (@rev event)) in Ed. rewrite rev_involutive in Ed. cbn in Ed. subst d.
    replace (a ++ Done t c :: b ++ [Found k id r]) with ((a ++ Done t c :: b) ++ [Found k id r]) in E
      by now rewrite <- app_assoc.
    apply app_inj_tail in E as (-> & ->).
    eapply He; [reflexivity| |exact R]. apply in_or_app. right. now left.
  - apply (f_equal (@rev event)) in Ed. rewrite rev_involutive in Ed. cbn in Ed. subst d.
    replace (a ++ Done t c :: b ++ Found k id r :: rev d' ++ [x])
      with ((a ++ Done t c :: b ++ Found k id r :: rev d') ++ [x]) in E
      by (rewrite <- !app_assoc; cbn; rewrite <- !app_assoc; reflexivity).
    apply app_inj_tail in E as (-> & _). eapply H; [reflexivity|exact R].
Qed.

Lemma log_step s l : s_log (step s l) = s_log s \/ exists e, s_log (step s l) = s_log s ++ [e] /\
  forall k id r, e = Found k id r -> l = Look k id /\ r = look id (table_of k s).
Proof.
  unfold step. destruct (s_dead s); [auto|]. destruct l as [t c|t|k id].
  - destruct (nth t (s_pcs s) (Begun c)); auto.
  - unfold step_of, touch. destruct (nth t (s_pcs s) Idle) as [|[id h|id hs|hs]|id h|id hs|id hs n|id hs m|id hs m|c id v|hs new] eqn:E; auto.
    + destruct (busy Classic s); auto. destruct (look id (s_apis s)); auto. right. eexists. split; [reflexivity|discriminate].
    + destruct (busy Slices s); auto. destruct (look id (s_slices s)); auto. right. eexists. split; [reflexivity|discriminate].
    + destruct (busy Classic s); auto.
    + destruct (_ <? _); auto. right. eexists. split; [reflexivity|discriminate].
    + destruct (busy Slices s); auto.
    + right. exists (Done t c). split; [destruct (kind_of c); reflexivity|discriminate].
    + right. eexists. split; [reflexivity|discriminate].
  - unfold touch. destruct (busy k s); auto. right. eexists. split; [reflexivity|]. intros k' id' r [= -> -> ->]. auto.
Qed.

Lemma found_run n ls : let s := run (init n) ls in aimed s /\ kept s /\ found_ok (s_log s).
Proof.
  cbv zeta. induction ls as [|l ls (A & K & F)] using rev_ind.
  - split; [|split].
    + intros t c id v E. cbn [run fold_left] in E. rewrite quiet_nth in E by apply init_quiet. discriminate.
    + intros t c k id [].
    + intros a t c b k id r d E. destruct a; discriminate.
  - rewrite run_app. cbn [run fold_left]. change (fold_left step ls (init n)) with (run (init n) ls).
    split; [now apply aimed_step|]. split; [now apply kept_step|].
    destruct (log_step (run (init n) ls) l) as [-> | (e & -> & He)]; [exact F|].
    apply found_ok_snoc; [exact F|]. intros t c k id r -> Hin R. destruct (He _ _ _ eq_refl) as (_ & ->).
    eapply K; eassumption.
Qed.

(* --- where a found handler comes from --- *)
Definition own_table (ls : list label) (k : kind) (t : table) : Prop :=
  forall id v h, In (id, v) t -> In (Some h) v -> given ls k id h.
Definition one_router (t : table) : Prop := forall id v, In (id, v) t -> exists h, v = [Some h].
Definition begun (ls : list label) (c : call) : Prop := exists t, In (Call t c) ls.
Definition own_pc (ls : list label) (p : pc) : Prop :=
  match p with
  | Idle => True
  | Begun c => begun ls c
  | Inserting id h => begun ls (AddRouter id h)
  | Sizing id hs | Copying id hs _ => begun ls (AddSlices id hs)
  | Filling id hs m | Appending id hs m => begun ls (AddSlices id hs) /\ forall h, In (Some h) m -> given ls Slices id h
  | Writing c id v => begun ls c /\ (forall h, In (Some h) v -> given ls (kind_of c) id h) /\
      (kind_of c = Classic -> exists h, v = [Some h])
  | Storing hs new => begun ls (Use hs) /\ forall h, In h new -> exists t hs', In h hs' /\ In (Call t (Use hs')) ls
  end.
Definition own_used (ls : list label) (u : list Z) : Prop := forall h, In h u -> exists t hs, In h hs /\ In (Call t (Use hs)) ls.
Record own (ls : list label) (s : st) : Prop := {
  ow_c : own_table ls Classic (s_apis s);
  ow_1 : one_router (s_apis s);
  ow_s : own_table ls Slices (s_slices s);
  ow_u : own_used ls (s_handlers s);
  ow_p : Forall (own_pc ls) (s_pcs s)
}.
Lemma given_used ls u : own_used ls u -> forall id h, In (Some h) (map Some u) -> given ls Slices id h.
Proof.
  intros H id h Hin. apply in_map_iff in Hin as (x & [= ->] & Hin). destruct (H h Hin) as (t & hs & A & B).
  exists t, hs. auto.
Qed.
Lemma begun_given ls id hs : begun ls (AddSlices id hs) -> forall h, In (Some h) (map Some hs) -> given ls Slices id h.
Proof.
  intros (t & B) h Hin. apply in_map_iff in Hin as (x & [= ->] & Hin). exists t, hs. auto.
Qed.
Lemma begun_mono ls l c : begun ls c -> begun (ls ++ [l]) c.
Proof. intros (t & H). exists t. apply in_or_app. auto. Qed.
Lemma given_mono ls l k id h : given ls k id h -> given (ls ++ [l]) k id h.
Proof.
  destruct k; cbn.
  - apply begun_mono.
  - intros (t & hs & A & [B|B]); exists t, hs; split; auto; [left|right]; apply in_or_app; auto.
Qed.
Lemma used_mono ls l u : own_used ls u -> own_used (ls ++ [l]) u.
Proof. intros H h Hin. destruct (H h Hin) as (t & hs & A & B). exists t, hs. split; auto. apply in_or_app; auto. Qed.
Lemma pc_mono ls l p : own_pc ls p -> own_pc (ls ++ [l]) p.
Proof.
  destruct p; cbn [own_pc]; auto using begun_mono.
  - intros (A & B). auto using begun_mono, given_mono.
  - intros (A & B). auto using begun_mono, given_mono.
  - intros (A & B & C). auto using begun_mono, given_mono.
  - intros (A & B). split; [auto using begun_mono|]. exact (used_mono ls l new B).
Qed.
Lemma own_mono ls l s : own ls s -> own (ls ++ [l]) s.
Proof.
  intros [A B C D E]. constructor; auto.
  - intros id v h Hin Hh. apply given_mono. eauto.
  - intros id v h Hin Hh. apply given_mono. eauto.
  - now apply used_mono.
  - eapply Forall_impl; [|exact E]. intros p. apply pc_mono.
Qed.
Lemma Forall_set {A} (P : A -> Prop) l i x : Forall P l -> P x -> Forall P (set_at i x l).
Proof.
  intros H Hx. apply Forall_forall. intros y Hin. destruct (in_set_at _ _ _ _ Hin) as [->|Hy]; [exact Hx|].
  exact (proj1 (Forall_forall _ _) H y Hy).
Qed.
Lemma own_goto ls s t p : own ls s -> own_pc ls p -> own ls (goto s t p).
Proof. intros [A B C D E] Hp. constructor; auto. now apply Forall_set. Qed.
Lemma own_emit ls s e : own ls s -> own ls (emit s e).
Proof. intros [A B C D E]. constructor; auto. Qed.
Lemma own_die ls s : own ls s -> own ls (die s).
Proof. intros [A B C D E]. constructor; auto. Qed.
Lemma look_in id t v : look id t = Some v -> In (id, v) t.
Proof.
  induction t as [|[i w] t IH]; cbn; [discriminate|]. destruct (Z.eqb_spec i id) as [->|]; [|auto].
  intros [= ->]. auto.
Qed.

Lemma own_step ls s l : own ls s -> own (ls ++ [l]) (step s l).
Proof.
  intros H. apply (own_mono _ l) in H. assert (Hc : forall t c, l = Call t c -> begun (ls ++ [l]) c).
  { intros t c ->. exists t. apply in_or_app. right. now left. }
  revert H Hc. generalize (ls ++ [l]). clear ls. intros ls H Hc. unfold step. destruct (s_dead s); [exact H|].
  destruct l as [t c|t|k id].
  - destruct (nth t (s_pcs s) (Begun c)); try exact H. apply own_goto; [exact H|]. eapply Hc. reflexivity.
  - clear Hc. assert (P : own_pc ls (nth t (s_pcs s) Idle)).
    { destruct (Nat.lt_ge_cases t (length (s_pcs s))) as [L|L]; [|rewrite nth_overflow by lia; exact I].
      exact (proj1 (Forall_forall _ _) (ow_p _ _ H) _ (nth_In _ _ L)). }
    unfold step_of, touch. destruct (nth t (s_pcs s) Idle) as [|[id h|id hs|hs]|id h|id hs|id hs n|id hs m|id hs m|c id v|hs new] eqn:E;
      cbn [own_pc] in P; try exact H.
    + destruct (busy Classic s); [now apply own_die|]. destruct (look id (s_apis s)).
      * now apply own_emit, own_goto.
      * now apply own_goto.
    + destruct (busy Slices s); [now apply own_die|]. destruct (look id (s_slices s)).
      * now apply own_emit, own_goto.
      * now apply own_goto.
    + apply own_goto; [exact H|]. split; [exact P|]. intros h Hin. apply in_app_or in Hin as [Hin|Hin].
      * exact (ow_u _ _ H h Hin).
      * destruct P as (u & P). eauto.
    + destruct (busy Classic s); [now apply own_die|]. apply own_goto; [exact H|]. split; [exact P|]. split.
      * intros h' [[= <-]|[]]. exact P.
      * eauto.
    + now apply own_goto.
    + apply own_goto; [exact H|]. split; [exact P|]. intros h Hin.
      assert (Hin' : In (Some h) (map Some (s_handlers s) ++ repeat None n)).
      { rewrite <- (firstn_skipn n (map Some (s_handlers s) ++ repeat None n)). apply in_or_app. auto. }
      apply in_app_or in Hin' as [Hin'|Hin']; [|now apply repeat_spec in Hin'].
      exact (given_used ls _ (ow_u _ _ H) id h Hin').
    + destruct P as (P & Pm). cbv zeta. destruct (_ <? _); [now apply own_emit, own_goto|].
      apply own_goto; [exact H|]. split; [exact P|]. intros h Hin.
      apply in_app_or in Hin as [Hin|Hin]; [|apply in_app_or in Hin as [Hin|Hin]].
      * apply Pm. rewrite <- (firstn_skipn (length (s_handlers s)) m). apply in_or_app. auto.
      * eapply begun_given; [exact P|]. rewrite <- (firstn_skipn (length m - length (s_handlers s)) (map Some hs)).
        apply in_or_app. auto.
      * apply Pm. rewrite <- (firstn_skipn (length (s_handlers s) + length hs) m). apply in_or_app. auto.
    + destruct P as (P & Pm). destruct (busy Slices s); [now apply own_die|]. apply own_goto; [exact H|].
      split; [exact P|]. split; [|discriminate]. intros h Hin. apply in_app_or in Hin as [Hin|Hin]; [|now apply Pm].
      destruct (look id (s_slices s)) eqn:L; [|destruct Hin]. exact (ow_s _ _ H id _ h (look_in _ _ _ L) Hin).
    + destruct P as (P & Pv & P1). destruct H as [A B C D F]. apply own_emit, own_goto; [|exact I].
      destruct (kind_of c) eqn:K; constructor; auto; cbn.
      * intros i w h [[= <- <-]|Hin] Hh; [now apply Pv|eapply A; eassumption].
      * intros i w [[= <- <-]|Hin]; [auto|eapply B; eassumption].
      * intros i w h [[= <- <-]|Hin] Hh; [now apply Pv|eapply C; eassumption].
    + destruct P as (P & Pn). destruct H as [A B C D F]. apply own_emit, own_goto; [|exact I]. constructor; auto.
  - unfold touch. destruct (busy k s); [now apply own_die|now apply own_emit].
Qed.

Lemma own_run n ls : own ls (run (init n) ls).
Proof.
  induction ls as [|l ls IH] using rev_ind.
  - constructor; cbn; try (intros ? ? ? []); try (intros ? ? []); try (intros ? []).
    apply Forall_forall. intros p Hin. now apply repeat_spec in Hin as ->.
  - rewrite run_app. cbn [run fold_left]. change (fold_left step ls (init n)) with (run (init n) ls). now apply own_step.
Qed.

Lemma found_own n ls k id v : In (Found k id (Some v)) (s_log (run (init n) ls)) ->
  (forall h, In (Some h) v -> given ls k id h) /\ (k = Classic -> exists h, v = [Some h]).
Proof.
  induction ls as [|l ls IH] using rev_ind; [intros []|].
  rewrite run_app. cbn [run fold_left]. change (fold_left step ls (init n)) with (run (init n) ls).
  destruct (log_step (run (init n) ls) l) as [-> | (e & -> & He)]; intros Hin.
  - destruct (IH Hin) as (A & B). split; [intros h Hh; now apply given_mono, A|exact B].
  - apply in_app_or in Hin as [Hin|[Hin|[]]].
    + destruct (IH Hin) as (A & B). split; [intros h Hh; now apply given_mono, A|exact B].
    + destruct (He _ _ _ Hin) as (_ & E). symmetry in E. apply look_in in E.
      pose proof (own_run n ls) as O. split.
      * intros h Hh. apply given_mono. destruct k; [eapply ow_c|eapply ow_s]; eassumption.
      * intros ->. eapply ow_1; eassumption.
Qed.

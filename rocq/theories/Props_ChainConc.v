(* C110: interceptors added while messages are processed. *)
From Coq Require Import List Bool Arith Lia.
From Verif Require Import GoSlice Router_proofs Workers_proofs ChainConc Spec_ChainConc.
Import ListNotations.

Definition active (s : kst) : nat := match k_add s 0 with ACap _ p _ _ | APtr _ p _ | ALen _ p _ | AElem _ p _ => p | _ => k_ptr s end.
Definition alen (s : kst) (p : nat) : nat := length (nth p (k_arrs s) []).
Definition at_pc (s : kst) (A : list nat) (D : nat) : Prop :=
  match k_add s 0 with
  | AIdle => length A = D /\ k_len s = D /\ k_cap s = alen s (k_ptr s) /\ D <= alen s (k_ptr s)
  | AGot x p n c => length A = S D /\ nth_error A D = Some x /\ p = k_ptr s /\ n = D /\ k_len s = D /\ c = alen s p /\ D <= c /\ c = k_cap s
  | ACap x p n c => length A = S D /\ nth_error A D = Some x /\ n = S D /\ k_len s = D /\ c = alen s p /\ S D <= alen s p
  | APtr x p n => length A = S D /\ nth_error A D = Some x /\ n = S D /\ k_len s = D /\ k_cap s = alen s p /\ S D <= alen s p
  | ALen x p n => length A = S D /\ nth_error A D = Some x /\ n = S D /\ k_len s = D /\ k_cap s = alen s p /\ S D <= alen s p /\ p = k_ptr s
  | AElem x p n => length A = S D /\ nth_error A D = Some x /\ n = S D /\ k_len s = S D /\ k_cap s = alen s p /\ S D <= alen s p /\ p = k_ptr s
  end.
Definition arrs_ok (arrs : list arr) (A : list nat) (D act : nat) : Prop :=
  act < length arrs /\
  (forall p a, nth_error arrs p = Some a -> p <> act -> length a <= D) /\
  (forall p a i, nth_error arrs p = Some a -> i < length a -> i < D -> exists y, nth_error a i = Some (Some y)) /\
  (forall p a i y, nth_error arrs p = Some a -> nth_error a i = Some (Some y) -> nth_error A i = Some y).
Definition inv (s : kst) (tr : list kev) : Prop :=
  (forall t, t <> 0 -> k_add s t = AIdle) /\ at_pc s (called tr) (returned tr) /\ arrs_ok (k_arrs s) (called tr) (returned tr) (active s).
Lemma inv_len s tr : inv s tr -> returned tr <= k_len s <= length (called tr) /\ length (called tr) <= S (returned tr).
Proof. intros (_ & P & _). unfold at_pc in P. destruct (k_add s 0); lia. Qed.
Lemma firstn_ext n : forall (a : list (option nat)) (A : list nat), n <= length a -> n <= length A -> (forall i, i < n -> exists y, nth_error a i = Some (Some y) /\ nth_error A i = Some y) -> firstn n a = map Some (firstn n A).
Proof.
  induction n as [|n IH]; intros [|c a] [|x A] La LA H; cbn in La, LA; try reflexivity; try lia. destruct (H 0 ltac:(lia)) as (y & E1 & E2). cbn in E1, E2. injection E1 as ->. injection E2 as ->. cbn. f_equal. apply IH; try lia. intros i Li. exact (H (S i) ltac:(lia)).
Qed.
Lemma cells s tr p n : inv s tr -> n <= length (called tr) -> n <= length (nth p (k_arrs s) []) ->
  firstn n (nth p (k_arrs s) []) = map Some (firstn n (called tr)) \/
  n = S (returned tr) /\ firstn n (nth p (k_arrs s) []) = map Some (firstn (returned tr) (called tr)) ++ [None].
Proof.
  intros I LA La. destruct (inv_len s tr I) as (_ & L2). destruct I as (_ & _ & _ & _ & H2 & H3).
  destruct (Nat.lt_ge_cases p (length (k_arrs s))) as [Lp|Lp]; [|rewrite (nth_overflow _ _ Lp) in *; cbn in La; assert (n = 0) by lia; subst n; left; reflexivity].
  assert (E : nth_error (k_arrs s) p = Some (nth p (k_arrs s) [])) by (now apply nth_error_nth'). set (a := nth p (k_arrs s) []) in *.
  assert (K : forall i, i < n -> i < returned tr -> exists y, nth_error a i = Some (Some y) /\ nth_error (called tr) i = Some y).
  { intros i Li Di. destruct (H2 p a i E ltac:(lia) Di) as (y & Ey). exists y. split; [exact Ey|exact (H3 _ _ _ _ E Ey)]. }
  destruct (Nat.le_gt_cases n (returned tr)) as [Ln|Ln]; [left; apply firstn_ext; auto; intros i Li; apply K; lia|]. assert (n = S (returned tr)) by lia. subst n. set (D := returned tr) in *.
  destruct (nth_error a D) as [[y|]|] eqn:Ed.
  - left. apply firstn_ext; auto. intros i Li. destruct (Nat.eq_dec i D) as [->|Ni]; [exists y; split; [exact Ed|exact (H3 _ _ _ _ E Ed)]|apply K; lia].
  - right. split; [reflexivity|]. rewrite <- (firstn_ext D a (called tr)) by (try lia; intros i Li; apply K; lia). apply nth_error_split in Ed. destruct Ed as (u & v & -> & Lu). rewrite <- Lu. rewrite !firstn_app, Nat.sub_diag, firstn_all, (firstn_all2 (n := S (length u)) u) by lia. replace (S (length u) - length u) with 1 by lia. cbn [firstn]. rewrite app_nil_r. reflexivity.
  - apply nth_error_None in Ed. lia.
Qed.

Section P.
Variable grow : nat -> nat.
Variable head tail : option nat.
Hypothesis grows : forall n, n < grow n.
Notation run := (k_run grow head tail).
Notation step := (k_step grow head tail).
Lemma run_app s a b : run s (a ++ b) = (fst (run (fst (run s a)) b), snd (run s a) ++ snd (run (fst (run s a)) b)).
Proof. revert s. induction a as [|l a IH]; intros s; cbn [k_run app]; [cbn [fst snd app]; destruct (run s b); reflexivity|]. destruct (step s l) as [s1 e1]. rewrite IH. destruct (run s1 a) as [s2 e2]. cbn [fst snd]. destruct (run s2 b). cbn. now rewrite app_assoc. Qed.
Lemma snd_snoc s ls l : snd (run s (ls ++ [l])) = snd (run s ls) ++ snd (step (fst (run s ls)) l).
Proof. rewrite run_app. cbn [k_run snd fst]. destruct (step (fst (run s ls)) l). cbn. now rewrite app_nil_r. Qed.
Lemma fst_snoc s ls l : fst (run s (ls ++ [l])) = fst (step (fst (run s ls)) l).
Proof. rewrite run_app. cbn [k_run snd fst]. destruct (step (fst (run s ls)) l). reflexivity. Qed.
Lemma run_cons s l ls s1 e1 : step s l = (s1, e1) -> snd (run s (l :: ls)) = e1 ++ snd (run s1 ls).
Proof. intros E. cbn [k_run]. rewrite E. destruct (run s1 ls). reflexivity. Qed.
Lemma called_app a b : called (a ++ b) = called a ++ called b. Proof. apply flat_map_app. Qed.
Lemma returned_app a b : returned (a ++ b) = returned a + returned b. Proof. unfold returned. now rewrite filter_app, app_length. Qed.
Lemma upd_same {A} (f : nat -> A) t v : upd f t v t = v. Proof. unfold upd. now rewrite Nat.eqb_refl. Qed.
Lemma upd_other {A} (f : nat -> A) t v u : u <> t -> upd f t v u = f u. Proof. intros N. unfold upd. apply Nat.eqb_neq in N. now rewrite N. Qed.

Lemma arrs_call arrs A D act x : arrs_ok arrs A D act -> arrs_ok arrs (A ++ [x]) D act.
Proof. intros (H0 & H1 & H2 & H3). repeat split; auto. intros p a i y E1 E2. pose proof (H3 _ _ _ _ E1 E2) as E. rewrite nth_error_app1; [exact E|apply nth_error_Some; congruence]. Qed.
Lemma inv_eq s s' tr : inv s tr -> k_arrs s' = k_arrs s -> k_ptr s' = k_ptr s -> k_len s' = k_len s -> k_cap s' = k_cap s -> k_add s' = k_add s -> inv s' tr.
Proof. intros I E1 E2 E3 E4 E5. unfold inv, at_pc, active, alen in *. rewrite E1, E2, E3, E4, E5. exact I. Qed.
Lemma inv_step s tr l : inv s tr -> one_adder l -> inv (fst (step s l)) (tr ++ snd (step s l)).
Proof.
  intros I O. destruct l as [t x|t|r m|r b]; cbn [k_step one_adder] in *.
  - subst t. destruct (k_add s 0) eqn:E; cbn [fst snd]; rewrite ?app_nil_r; try exact I.
    destruct I as (Ot & Pc & Ar). split; [|split].
    + intros u Nu. cbn. rewrite upd_other by exact Nu. now apply Ot.
    + unfold at_pc in *. rewrite E in Pc. cbn [k_add set_add]. rewrite upd_same. rewrite called_app, returned_app. cbn [called flat_map app returned filter length k_ptr k_len k_cap]. rewrite app_length, Nat.add_0_r. cbn [length]. destruct Pc as (P1 & P2 & P3 & P4). unfold alen in *. cbn [k_arrs set_add k_ptr k_len k_cap]. split; [lia|]. split; [rewrite nth_error_app2 by lia; rewrite P1, Nat.sub_diag; reflexivity|]. repeat split; lia.
    + unfold active in *. rewrite E in Ar. cbn [k_add set_add]. rewrite upd_same. cbn [k_arrs k_ptr]. rewrite called_app, returned_app. cbn [called flat_map app returned filter length]. rewrite Nat.add_0_r. now apply arrs_call.
  - destruct (Nat.eq_dec t 0) as [->|Nt]; [|destruct I as (Ot & PA); unfold add_step; rewrite (Ot t Nt); cbn [fst snd]; rewrite app_nil_r; split; assumption].
    unfold add_step. destruct (k_add s 0) as [|x p n c|x p n c|x p n|x p n|x p n] eqn:E; [cbn [fst snd]; rewrite app_nil_r; exact I|..]; destruct I as (Ot & Pc & Ar);
    assert (Oth : forall v u, u <> 0 -> upd (k_add s) 0 v u = AIdle) by (intros v u Nu; rewrite upd_other by exact Nu; now apply Ot); unfold at_pc in Pc; unfold active in Ar; rewrite E in Pc, Ar.
    + destruct Pc as (P1 & P2 & -> & -> & P5 & P6 & P7 & P8). destruct (Nat.ltb_spec (returned tr) c) as [L|L]; cbn [fst snd]; rewrite app_nil_r; (split; [intros u Nu; cbn; now apply Oth|]).
      * unfold at_pc, active. cbn [k_add set_add]. rewrite upd_same. unfold alen in *. cbn [set_add k_arrs k_ptr k_len k_cap]. split; [repeat split; auto; lia|exact Ar].
      * assert (Ec : c = returned tr) by lia. assert (P6' : alen s (k_ptr s) = returned tr) by congruence. clear P6 P7 P8 L. subst c. unfold at_pc, active. cbn [k_add]. rewrite upd_same. unfold alen in *. cbn [set_add k_arrs k_ptr k_len k_cap]. destruct Ar as (A0 & A1 & A2 & A3).
        set (old := nth (k_ptr s) (k_arrs s) []) in *. assert (Eo : nth_error (k_arrs s) (k_ptr s) = Some old) by (apply nth_error_nth'; exact A0).
        pose proof (grows (returned tr)) as G. set (D := returned tr) in *. set (a := firstn D old ++ repeat None (grow D - D)).
        assert (Ln : nth (length (k_arrs s)) (k_arrs s ++ [a]) [] = a) by (rewrite app_nth2, Nat.sub_diag by lia; reflexivity).
        assert (Len : length a = grow D) by (subst a; rewrite app_length, repeat_length, firstn_length; lia).
        assert (Fo : firstn D old = old) by (rewrite <- (firstn_all old) at 2; f_equal; lia).
        assert (Split : forall q b, nth_error (k_arrs s ++ [a]) q = Some b -> nth_error (k_arrs s) q = Some b \/ (q = length (k_arrs s) /\ b = a)).
        { intros q b Eq. destruct (Nat.lt_ge_cases q (length (k_arrs s))) as [Lq|Lq]; [left; now rewrite nth_error_app1 in Eq|]. rewrite nth_error_app2 in Eq by exact Lq. destruct (q - length (k_arrs s)) as [|[|k]] eqn:Ek; cbn in Eq; try discriminate. injection Eq as <-. right. split; [lia|reflexivity]. }
        split; [rewrite Ln, Len; repeat split; auto; lia|]. split; [|split; [|split]].
        -- rewrite app_length. cbn. lia.
        -- intros q b Eq Nq. destruct (Split q b Eq) as [Eb|(-> & _)]; [|congruence]. destruct (Nat.eq_dec q (k_ptr s)) as [->|Np]; [rewrite Eo in Eb; injection Eb as <-; lia|exact (A1 q b Eb Np)].
        -- intros q b i Eq Li Di. destruct (Split q b Eq) as [Eb|(-> & ->)]; [exact (A2 q b i Eb Li Di)|]. unfold a. rewrite Fo. rewrite nth_error_app1 by lia. exact (A2 _ _ i Eo ltac:(lia) Di).
        -- intros q b i y Eq Ey. destruct (Split q b Eq) as [Eb|(-> & ->)]; [exact (A3 q b i y Eb Ey)|]. unfold a in Ey. rewrite Fo in Ey. destruct (Nat.lt_ge_cases i (length old)) as [Li|Li]; [rewrite nth_error_app1 in Ey by exact Li; exact (A3 _ _ _ _ Eo Ey)|]. rewrite nth_error_app2 in Ey by exact Li. apply nth_error_In, repeat_spec in Ey. discriminate.
    + destruct Pc as (P1 & P2 & P3 & P4 & P5 & P6). cbn [fst snd]. rewrite app_nil_r. split; [intros u Nu; cbn; now apply Oth|]. unfold at_pc, active. cbn [k_add]. rewrite upd_same. unfold alen in *. cbn [set_add k_arrs k_ptr k_len k_cap]. split; [repeat split; auto|exact Ar].
    + destruct Pc as (P1 & P2 & P3 & P4 & P5 & P6). cbn [fst snd]. rewrite app_nil_r. split; [intros u Nu; cbn; now apply Oth|]. unfold at_pc, active. cbn [k_add]. rewrite upd_same. unfold alen in *. cbn [set_add k_arrs k_ptr k_len k_cap]. split; [repeat split; auto|exact Ar].
    + destruct Pc as (P1 & P2 & P3 & P4 & P5 & P6 & P7). cbn [fst snd]. rewrite app_nil_r. split; [intros u Nu; cbn; now apply Oth|]. unfold at_pc, active. cbn [k_add]. rewrite upd_same. unfold alen in *. cbn [set_add k_arrs k_ptr k_len k_cap]. split; [repeat split; auto|exact Ar].
    + destruct Pc as (P1 & P2 & -> & P4 & P5 & P6 & P7). cbn [fst snd]. split; [intros u Nu; cbn; now apply Oth|]. unfold at_pc, active. cbn [k_add]. rewrite upd_same. unfold alen in *. cbn [set_add k_arrs k_ptr k_len k_cap]. rewrite called_app, returned_app. cbn [called flat_map app returned filter length]. rewrite app_nil_r. set (D := returned tr) in *. destruct Ar as (A0 & A1 & A2 & A3).
      set (old := nth p (k_arrs s) []) in *. assert (Eo : nth_error (k_arrs s) p = Some old) by (apply nth_error_nth'; exact A0). replace (S D - 1) with D by lia. rewrite <- P7.
      assert (En : nth p (set_nth p (set_nth D (Some x) old) (k_arrs s)) [] = set_nth D (Some x) old) by (apply nth_error_nth, nth_error_set_nth_same; exact A0). rewrite En, set_nth_length.
      split; [repeat split; auto; lia|]. split; [|split; [|split]].
      -- rewrite set_nth_length. exact A0.
      -- intros q b Eq Nq. rewrite nth_error_set_nth_other in Eq by congruence. specialize (A1 q b Eq Nq). lia.
      -- intros q b i Eq Li Di. apply nth_error_set_nth in Eq. destruct Eq as [(Eqp & -> & _)|(Nq & Eq)].
         ++ rewrite set_nth_length in Li. destruct (Nat.eq_dec D i) as [<-|Ni]; [exists x; now apply nth_error_set_nth_same|]. rewrite nth_error_set_nth_other by exact Ni. exact (A2 _ _ i Eo Li ltac:(lia)).
         ++ destruct (Nat.eq_dec q p) as [->|Nq']; [congruence|]. specialize (A1 q b Eq Nq'). exact (A2 q b i Eq Li ltac:(lia)).
      -- intros q b i y Eq Ey. apply nth_error_set_nth in Eq. destruct Eq as [(Eqp & -> & _)|(Nq & Eq)]; [|exact (A3 q b i y Eq Ey)]. apply nth_error_set_nth in Ey. destruct Ey as [(<- & Ey & _)|(Ni & Ey)]; [injection Ey as ->; exact P2|exact (A3 _ _ _ _ Eo Ey)].
  - destruct (k_exec s r); cbn [fst snd]; rewrite ?app_nil_r; try exact I. assert (I' : inv s (tr ++ [EExec r m])). { unfold inv. rewrite called_app, returned_app. cbn [called flat_map returned filter length]. now rewrite app_nil_r, Nat.add_0_r. } eapply inv_eq; eauto.
  - assert (X : forall e, (exists m, e = EGarbage r m) \/ (exists m l, e = ETook r m l) -> inv s (tr ++ [e])). { intros e [(m & ->)|(m & l & ->)]; unfold inv; rewrite called_app, returned_app; cbn [called flat_map returned filter length]; now rewrite app_nil_r, Nat.add_0_r. }
    unfold exec_step. destruct (k_exec s r) as [|m|m|m p|m n|m p n]; cbn [fst snd]; rewrite ?app_nil_r; try exact I; try (eapply inv_eq; [exact I|reflexivity..]; fail).
    + destruct (Nat.eqb (k_len s) 0); cbn [fst snd]; rewrite ?app_nil_r; (eapply inv_eq; [|reflexivity..]); [apply X; eauto|exact I].
    + destruct (n <=? _); cbn [fst snd]; (eapply inv_eq; [|reflexivity..]); apply X; eauto.
Qed.
Lemma inv_run ls : Forall one_adder ls -> inv (fst (run k_new ls)) (told grow head tail ls).
Proof.
  unfold told. intros F. induction ls as [|l ls IH] using rev_ind.
  - cbn. repeat split; try reflexivity; try (cbn; lia).
    + intros [|[|p]] a E N; cbn in E; try discriminate. injection E as <-. cbn. lia.
    + intros [|[|p]] a i y E L; cbn in E; try discriminate. injection E as <-. destruct i; discriminate.
  - apply Forall_app in F. destruct F as (F & Fl). apply Forall_inv in Fl. rewrite fst_snoc, snd_snoc. apply inv_step; auto.
Qed.

(* A goroutine in Execute. *)
Definition since (r m : nat) (tr a b : list kev) : Prop := tr = a ++ EExec r m :: b /\ forall m', ~ In (EExec r m') b.
Definition reading (s : kst) (tr : list kev) (r : nat) : Prop :=
  match k_exec s r with
  | RIdle => True
  | RBegun m | RChecked m | RPtr m _ => exists a b, since r m tr a b
  | RLen m n | RBoth m _ n => exists a b, since r m tr a b /\ returned a <= n <= length (called tr)
  end.
Lemma since_app r m tr a b es : since r m tr a b -> (forall m', ~ In (EExec r m') es) -> since r m (tr ++ es) a (b ++ es).
Proof. intros (-> & N) Ne. split; [now rewrite <- app_assoc|]. intros m' I. apply in_app_or in I. destruct I; [eapply N|eapply Ne]; eauto. Qed.
Lemma reading_go s tr es r : reading s tr r -> (forall m', ~ In (EExec r m') es) -> forall s', k_exec s' r = k_exec s r -> reading s' (tr ++ es) r.
Proof.
  intros R Ne s' E. unfold reading in *. rewrite E. destruct (k_exec s r) as [|m|m|m p|m n|m p n]; [exact Logic.I|..]; destruct R as (a & b & R); exists a, (b ++ es); try (now apply since_app); (destruct R as (R & L); split; [now apply since_app|]; rewrite called_app, app_length; lia).
Qed.
Lemma reading_step s tr l r : inv s tr -> (forall r', reading s tr r') -> one_adder l -> reading (fst (step s l)) (tr ++ snd (step s l)) r.
Proof.
  intros I R O. destruct (inv_len s tr I) as (L1 & L2). destruct l as [t x|t|r0 m|r0 b]; cbn [k_step].
  - destruct (k_add s t); cbn [fst snd]; (eapply reading_go; [apply R|intros m' [X|X]; try discriminate; try destruct X|reflexivity]) || (eapply reading_go; [apply R|intros m' X; destruct X|reflexivity]).
  - unfold add_step. destruct (k_add s t) as [|x p n c|x p n c|x p n|x p n|x p n]; [..|cbn [fst snd]; eapply reading_go; [apply R|intros m' [X|X]; [discriminate|destruct X]|reflexivity]]; try destruct (n <? c); cbn [fst snd]; (eapply reading_go; [apply R|intros m' X; destruct X|reflexivity]).
  - destruct (k_exec s r0) eqn:E; cbn [fst snd]; [|eapply reading_go; [apply R|intros m' X; destruct X|reflexivity]..]. destruct (Nat.eq_dec r r0) as [->|N].
    + unfold reading. cbn. rewrite upd_same. exists tr, []. split; [reflexivity|intros m' []].
    + eapply reading_go; [apply R|intros m' [X|[]]; congruence|cbn; now rewrite upd_other].
  - unfold exec_step. destruct (Nat.eq_dec r r0) as [->|N].
    + pose proof (R r0) as R0. unfold reading in R0. assert (Ret : forall a c m, since r0 m tr a c -> returned a <= returned tr) by (intros a c m (-> & _); rewrite returned_app; lia).
      destruct (k_exec s r0) as [|m|m|m p|m n|m p n] eqn:E; cbn [fst snd].
      * unfold reading. rewrite E. exact Logic.I.
      * destruct (Nat.eqb (k_len s) 0); cbn [fst snd]; unfold reading; cbn; rewrite upd_same; [exact Logic.I|]. rewrite app_nil_r. exact R0.
      * unfold reading. cbn. rewrite upd_same, app_nil_r. destruct b; [exact R0|]. destruct R0 as (a & c & R0). exists a, c. split; [exact R0|]. specialize (Ret _ _ _ R0). lia.
      * unfold reading. cbn. rewrite upd_same, app_nil_r. destruct R0 as (a & c & R0). exists a, c. split; [exact R0|]. specialize (Ret _ _ _ R0). lia.
      * unfold reading. cbn. rewrite upd_same, app_nil_r. exact R0.
      * destruct (n <=? _); cbn [fst snd]; unfold reading; cbn; rewrite upd_same; exact Logic.I.
    + assert (Y : forall p, k_exec (set_exec s r0 p) r = k_exec s r) by (intros p; cbn; now rewrite upd_other).
      destruct (k_exec s r0) as [|m|m|m p|m n|m p n] eqn:E; try destruct (Nat.eqb (k_len s) 0); try destruct (n <=? _); cbn [fst snd]; (eapply reading_go; [apply R|intros m' X; cbn in X; intuition discriminate|try reflexivity; apply Y]).
Qed.
Lemma reading_run ls r : Forall one_adder ls -> reading (fst (run k_new ls)) (told grow head tail ls) r.
Proof.
  unfold told. revert r. induction ls as [|l ls IH] using rev_ind; intros r F; [exact Logic.I|]. apply Forall_app in F. destruct F as (F & Fl). apply Forall_inv in Fl. rewrite fst_snoc, snd_snoc. apply reading_step; auto. now apply inv_run.
Qed.
End P.

Lemma chain_empty head tail : opt_cell head ++ opt_cell tail = chain head tail []. Proof. reflexivity. Qed.
Lemma chain_of head tail l : opt_cell head ++ l ++ opt_cell tail = chain head tail l. Proof. reflexivity. Qed.
(* With one goroutine adding interceptors, the chain of a message has, between head and tail, in the order of the calls,
   all interceptors whose AddInterceptor had returned before Execute was called, and then possibly later ones, up to
   those called by the time the list was taken.  Partial: a nil may stand in the place of the one that is just being
   added (and Execute may read beyond the array, EGarbage: below). *)
Theorem C110_all_partial : forall grow head tail ls r m l, (forall n, n < grow n) -> Forall one_adder ls ->
  In (ETook r m l) (told grow head tail ls) ->
  exists a b c, told grow head tail ls = a ++ EExec r m :: b ++ ETook r m l :: c /\ (forall m', ~ In (EExec r m') b) /\
    let adds := called (a ++ b) in exists n, returned a <= n <= length adds /\
    (l = chain head tail (map Some (firstn n adds)) \/ n = returned (a ++ b) /\ n < length adds /\ l = chain head tail (map Some (firstn n adds) ++ [None])).
Proof.
  intros grow head tail ls r m l G F. induction ls as [|lb ls IH] using rev_ind; [intros []|]. apply Forall_app in F. destruct F as (F & Fl). apply Forall_inv in Fl. unfold told. rewrite snd_snoc. fold (told grow head tail ls). intros J. apply in_app_or in J. destruct J as [J|J].
  - destruct (IH F J) as (a & b & c & E & H). exists a, b, (c ++ snd (k_step grow head tail (fst (k_run grow head tail k_new ls)) lb)). split; [|exact H]. rewrite E at 1. rewrite <- app_assoc. cbn. rewrite <- app_assoc. reflexivity.
  - pose proof (inv_run grow head tail G ls F) as I. set (s := fst (k_run grow head tail k_new ls)) in *. set (tr := told grow head tail ls) in *. destruct (inv_len s tr I) as (L1 & L2).
    assert (Fin : forall a b es n, since r m tr a b -> es = [ETook r m l] -> returned a <= n <= length (called tr) -> (l = chain head tail (map Some (firstn n (called tr))) \/ n = returned tr /\ n < length (called tr) /\ l = chain head tail (map Some (firstn n (called tr)) ++ [None])) ->
      exists a b c, tr ++ es = a ++ EExec r m :: b ++ ETook r m l :: c /\ (forall m', ~ In (EExec r m') b) /\ let adds := called (a ++ b) in exists n, returned a <= n <= length adds /\
      (l = chain head tail (map Some (firstn n adds)) \/ n = returned (a ++ b) /\ n < length adds /\ l = chain head tail (map Some (firstn n adds) ++ [None]))).
    { intros a b es n (Et & N) -> Ln H. exists a, b, []. split; [rewrite Et, <- app_assoc; reflexivity|]. split; [exact N|]. assert (Ec : called tr = called (a ++ b)) by (rewrite Et, !called_app; reflexivity). assert (Er : returned tr = returned (a ++ b)) by (rewrite Et, !returned_app; reflexivity). cbv zeta. rewrite <- Ec, <- Er. exists n. split; [exact Ln|exact H]. }
    destruct lb as [t x|t|r0 m0|r0 b0]; cbn [k_step] in *.
    + destruct (k_add s t); cbn in J; intuition discriminate.
    + unfold add_step in J. destruct (k_add s t) as [|x p n c|x p n c|x p n|x p n|x p n]; try destruct (n <? c); cbn in J; try (destruct J; fail). destruct J as [J|J]; [discriminate|destruct J].
    + destruct (k_exec s r0); cbn in J; intuition discriminate.
    + pose proof (reading_run grow head tail G ls r0 F) as R. fold s tr in R. unfold reading in R. unfold exec_step in *. destruct (k_exec s r0) as [|m1|m1|m1 p|m1 n|m1 p n] eqn:E; try (destruct J; fail).
      * destruct (Nat.eqb_spec (k_len s) 0) as [Z|Z]; [|destruct J]. destruct J as [J|[]]. injection J as -> -> Jl. destruct R as (a & b & R). apply (Fin a b _ 0 R); [cbn [snd]; congruence| |left; now rewrite <- Jl].
        assert (returned a <= returned tr) by (destruct R as (-> & _); rewrite returned_app; lia). lia.
      * destruct (Nat.leb_spec n (length (nth p (k_arrs s) []))) as [Ln|Ln]; cbn [snd] in J; destruct J as [J|[]]; [|discriminate]. injection J as -> -> Jl. destruct R as (a & b & R & Lr).
        assert (returned a <= returned tr) by (destruct R as (-> & _); rewrite returned_app; lia).
        destruct (cells s tr p n I (proj2 Lr) Ln) as [Ec|(En & Ec)].
        -- apply (Fin a b _ n R); [cbn [snd]; congruence|exact Lr|left]. rewrite <- Jl, Ec. reflexivity.
        -- apply (Fin a b _ (returned tr) R); [cbn [snd]; congruence|lia|right]. split; [reflexivity|]. split; [lia|]. rewrite <- Jl, Ec. reflexivity.
Qed.
Print Assumptions C110_all_partial.
Example C110_all_used : let ls := [LAdd 0 5; LAddGo 0; LAddGo 0; LAddGo 0; LAddGo 0; LAddGo 0; LExec 1 7; LExecGo 1 true; LAdd 0 6; LAddGo 0; LExecGo 1 true; LAddGo 0; LExecGo 1 true; LAddGo 0; LExecGo 1 true] in
  told doubling (Some 1) (Some 2) ls = [ECalled 0 5; EReturned 0 5; EExec 1 7; ECalled 0 6; ETook 1 7 [Some 1; Some 5; Some 2]].
Proof. reflexivity. Qed.

Lemma fresh_idle grow head tail ls r : (forall m', ~ In (LExec r m') ls) -> k_exec (fst (k_run grow head tail k_new ls)) r = RIdle.
Proof.
  intros Nr. induction ls as [|l ls IH] using rev_ind; [reflexivity|]. rewrite fst_snoc. assert (IH' := IH ltac:(intros m' H; apply (Nr m'), in_or_app; now left)). set (s := fst (k_run grow head tail k_new ls)) in *. destruct l as [t x|t|r0 m0|r0 b]; cbn [k_step].
  - destruct (k_add s t); exact IH'.
  - unfold add_step. destruct (k_add s t) as [|x p n c|x p n c|x p n|x p n|x p n]; try destruct (n <? c); exact IH'.
  - assert (r <> r0) by (intros ->; apply (Nr m0), in_or_app; right; now left). destruct (k_exec s r0); cbn; [rewrite upd_other by assumption|..]; exact IH'.
  - unfold exec_step. destruct (Nat.eq_dec r r0) as [<-|N]; [rewrite IH'; exact IH'|]. destruct (k_exec s r0) as [|m1|m1|m1 p|m1 n|m1 p n]; try destruct (Nat.eqb _ 0); try destruct (n <=? _); cbn; rewrite ?upd_other by exact N; exact IH'.
Qed.
Lemma all_in s tr : inv s tr -> returned tr = length (called tr) ->
  k_len s = length (called tr) /\ k_len s <= length (nth (k_ptr s) (k_arrs s) []) /\ firstn (k_len s) (nth (k_ptr s) (k_arrs s) []) = map Some (called tr) /\ forall t, k_add s t = AIdle.
Proof.
  intros I Q. assert (P : k_len s = length (called tr) /\ k_len s <= length (nth (k_ptr s) (k_arrs s) []) /\ k_add s 0 = AIdle). { destruct I as (_ & Pc & _). unfold at_pc, alen in Pc. destruct (k_add s 0); (split; [lia|]); (split; [lia|]); try reflexivity; exfalso; lia. }
  destruct P as (P1 & P2 & P3). split; [exact P1|]. split; [exact P2|]. split.
  - destruct (cells s tr (k_ptr s) (k_len s) I ltac:(lia) P2) as [E|(E & _)]; [|lia]. rewrite E. f_equal. rewrite P1. apply firstn_all.
  - intros [|t]; [exact P3|]. destruct I as (Ot & _). apply Ot. discriminate.
Qed.
(* While no AddInterceptor is in progress: whatever other goroutines process at the same time, every Execute begun then
   takes exactly the interceptors added so far, in order, and never reads beyond an array. *)
Theorem C110_no_overlap : forall grow head tail a b r, (forall n, n < grow n) -> Forall one_adder a ->
  returned (told grow head tail a) = length (called (told grow head tail a)) -> Forall no_add b -> (forall m', ~ In (LExec r m') a) ->
  exists rest, told grow head tail (a ++ b) = told grow head tail a ++ rest /\ (forall m, ~ In (EGarbage r m) rest) /\
    forall m l, In (ETook r m l) rest -> l = chain head tail (map Some (called (told grow head tail a))).
Proof.
  intros grow head tail a b r G F Q Fb Nr. pose proof (inv_run grow head tail G a F) as I. pose proof (fresh_idle grow head tail a r Nr) as Er. set (s0 := fst (k_run grow head tail k_new a)) in *. set (tr := told grow head tail a) in *.
  destruct (all_in s0 tr I Q) as (P1 & P2 & C & Id). exists (snd (k_run grow head tail s0 b)). split; [unfold told; rewrite run_app; reflexivity|].
  assert (K : let s := fst (k_run grow head tail s0 b) in k_arrs s = k_arrs s0 /\ k_ptr s = k_ptr s0 /\ k_len s = k_len s0 /\ (forall t, k_add s t = AIdle) /\
    match k_exec s r with RPtr _ p => p = k_ptr s0 | RLen _ n => n = k_len s0 | RBoth _ p n => p = k_ptr s0 /\ n = k_len s0 | _ => True end /\
    (forall m, ~ In (EGarbage r m) (snd (k_run grow head tail s0 b))) /\ forall m l, In (ETook r m l) (snd (k_run grow head tail s0 b)) -> l = chain head tail (map Some (called tr))); [|destruct K as (_ & _ & _ & _ & _ & K); exact K].
  clear I F Q. clearbody s0 tr. induction b as [|lb b IH] using rev_ind; [cbn; rewrite Er; repeat split; auto; intros ? ? []|].
  apply Forall_app in Fb. destruct Fb as (Fb & Fl). apply Forall_inv in Fl. destruct (IH Fb) as (K1 & K2 & K3 & K4 & K5 & K6 & K7). rewrite fst_snoc, snd_snoc. set (s := fst (k_run grow head tail s0 b)) in *. set (t0 := snd (k_run grow head tail s0 b)) in *. cbv zeta.
  assert (Fin : forall s1 es, k_arrs s1 = k_arrs s -> k_ptr s1 = k_ptr s -> k_len s1 = k_len s -> k_add s1 = k_add s ->
    match k_exec s1 r with RPtr _ p => p = k_ptr s0 | RLen _ n => n = k_len s0 | RBoth _ p n => p = k_ptr s0 /\ n = k_len s0 | _ => True end ->
    (forall m, ~ In (EGarbage r m) es) -> (forall m l, In (ETook r m l) es -> l = chain head tail (map Some (called tr))) ->
    k_arrs s1 = k_arrs s0 /\ k_ptr s1 = k_ptr s0 /\ k_len s1 = k_len s0 /\ (forall t, k_add s1 t = AIdle) /\
    match k_exec s1 r with RPtr _ p => p = k_ptr s0 | RLen _ n => n = k_len s0 | RBoth _ p n => p = k_ptr s0 /\ n = k_len s0 | _ => True end /\
    (forall m, ~ In (EGarbage r m) (t0 ++ es)) /\ forall m l, In (ETook r m l) (t0 ++ es) -> l = chain head tail (map Some (called tr))).
  { intros s1 es E1 E2 E3 E4 R G1 T1. rewrite E1, E2, E3, E4. repeat split; auto; [intros m J; apply in_app_or in J; destruct J as [J|J]; [exact (K6 m J)|exact (G1 m J)]|intros m l J; apply in_app_or in J; destruct J as [J|J]; eauto]. }
  destruct lb as [t x|t|r0 m0|r0 bb]; [destruct Fl|..]; cbn [k_step].
  - unfold add_step. rewrite K4. apply Fin; auto; intros ? ? [].
  - destruct (Nat.eq_dec r r0) as [<-|N].
    + destruct (k_exec s r) eqn:E; apply Fin; first [reflexivity|cbn; rewrite ?upd_same, ?E; exact K5|cbn; rewrite upd_same; exact Logic.I|cbn; rewrite upd_same; split; assumption|cbn; rewrite upd_same; assumption|intros mm J; cbn in J; intuition congruence|intros mm l J; cbn in J; intuition congruence|idtac].
    + destruct (k_exec s r0) eqn:E; apply Fin; first [reflexivity|cbn; rewrite ?upd_other by exact N; exact K5|intros mm J; cbn in J; intuition congruence|intros mm l J; cbn in J; intuition congruence].
  - unfold exec_step. destruct (Nat.eq_dec r r0) as [<-|N].
    + destruct (k_exec s r) as [|m1|m1|m1 p|m1 n|m1 p n] eqn:E.
      * apply Fin; first [reflexivity|cbn; rewrite ?upd_same, ?E; exact K5|cbn; rewrite upd_same; exact Logic.I|cbn; rewrite upd_same; split; assumption|cbn; rewrite upd_same; assumption|intros mm J; cbn in J; intuition congruence|intros mm l J; cbn in J; intuition congruence|idtac].
      * destruct (Nat.eqb_spec (k_len s) 0) as [Z|Z]; apply Fin; first [reflexivity|cbn; rewrite ?upd_same, ?E; exact K5|cbn; rewrite upd_same; exact Logic.I|cbn; rewrite upd_same; split; assumption|cbn; rewrite upd_same; assumption|intros mm J; cbn in J; intuition congruence|intros mm l J; cbn in J; intuition congruence|idtac].
        intros m l [J|[]]. injection J as _ <-. assert (Ca : called tr = []) by (destruct (called tr); [reflexivity|cbn in P1; lia]). rewrite Ca. reflexivity.
      * destruct bb; apply Fin; first [reflexivity|cbn; rewrite ?upd_same, ?E; exact K5|cbn; rewrite upd_same; exact Logic.I|cbn; rewrite upd_same; split; assumption|cbn; rewrite upd_same; assumption|intros mm J; cbn in J; intuition congruence|intros mm l J; cbn in J; intuition congruence|idtac].
      * apply Fin; first [reflexivity|cbn; rewrite ?upd_same, ?E; exact K5|cbn; rewrite upd_same; exact Logic.I|cbn; rewrite upd_same; split; assumption|cbn; rewrite upd_same; assumption|intros mm J; cbn in J; intuition congruence|intros mm l J; cbn in J; intuition congruence|idtac].
      * apply Fin; first [reflexivity|cbn; rewrite ?upd_same, ?E; exact K5|cbn; rewrite upd_same; exact Logic.I|cbn; rewrite upd_same; split; assumption|cbn; rewrite upd_same; assumption|intros mm J; cbn in J; intuition congruence|intros mm l J; cbn in J; intuition congruence|idtac].
      * destruct K5 as (-> & ->). rewrite K1. destruct (Nat.leb_spec (k_len s0) (length (nth (k_ptr s0) (k_arrs s0) []))); [|lia]. apply Fin; first [reflexivity|cbn; rewrite upd_same; exact Logic.I|cbn; rewrite upd_same; split; assumption|cbn; rewrite upd_same; assumption|intros mm J; cbn in J; intuition congruence|intros mm l J; cbn in J; intuition congruence|idtac].
        intros m l [J|[]]. injection J as _ <-. rewrite C. reflexivity.
    + destruct (k_exec s r0) as [|m1|m1|m1 p|m1 n|m1 p n] eqn:E; try destruct bb; try destruct (Nat.eqb (k_len s) 0); try destruct (n <=? _); apply Fin; first [reflexivity|cbn; rewrite ?upd_other by exact N; exact K5|intros mm J; cbn in J; intuition congruence|intros mm l J; cbn in J; intuition congruence].
Qed.
Print Assumptions C110_no_overlap.
Example C110_no_overlap_used : let a := [LAdd 0 5; LAddGo 0; LAddGo 0; LAddGo 0; LAddGo 0; LAddGo 0] in let b := [LExec 1 7; LExec 2 8; LExecGo 1 true; LExecGo 2 false; LExecGo 2 false; LExecGo 1 true; LExecGo 2 true; LExecGo 1 true; LExecGo 1 true; LExecGo 2 true] in
  told doubling None (Some 2) (a ++ b) = [ECalled 0 5; EReturned 0 5; EExec 1 7; EExec 2 8; ETook 1 7 [Some 5; Some 2]; ETook 2 8 [Some 5; Some 2]].
Proof. reflexivity. Qed.

(* Neither waits for anybody: a call of Execute takes its chain in four turns, a call of AddInterceptor returns in five,
   whatever the others do. *)
Definition exec_of (p : rpc) : option (nat * nat) :=
  match p with RIdle => None | RBegun m => Some (m, 4) | RChecked m => Some (m, 3) | RPtr m _ => Some (m, 2) | RLen m _ => Some (m, 2) | RBoth m _ _ => Some (m, 1) end.
Definition add_of (p : apc) : option (nat * nat) :=
  match p with AIdle => None | AGot x _ _ _ => Some (x, 5) | ACap x _ _ _ => Some (x, 4) | APtr x _ _ => Some (x, 3) | ALen x _ _ => Some (x, 2) | AElem x _ _ => Some (x, 1) end.
Lemma snd_cons grow head tail s l ls : snd (k_run grow head tail s (l :: ls)) = snd (k_step grow head tail s l) ++ snd (k_run grow head tail (fst (k_step grow head tail s l)) ls).
Proof. cbn [k_run]. destruct (k_step grow head tail s l) as [s1 e1]. cbn [fst snd]. destruct (k_run grow head tail s1 ls). reflexivity. Qed.
Lemma exec_goes grow head tail s l r m n : exec_of (k_exec s r) = Some (m, n) -> let x := k_step grow head tail s l in
  (In (EGarbage r m) (snd x) \/ exists c, In (ETook r m c) (snd x)) \/ exists n', exec_of (k_exec (fst x) r) = Some (m, n') /\ n' + exec_turns r [l] <= n.
Proof.
  intros E. unfold exec_turns. destruct l as [t x|t|r0 m0|r0 b]; cbn [k_step filter].
  - right. exists n. destruct (k_add s t); (split; [exact E|cbn; lia]).
  - right. exists n. unfold add_step. destruct (k_add s t) as [|x p k c|x p k c|x p k|x p k|x p k]; try destruct (k <? c); (split; [exact E|cbn; lia]).
  - right. exists n. destruct (Nat.eq_dec r r0) as [<-|N]; [destruct (k_exec s r) eqn:X; try discriminate; cbn [fst]; rewrite X; (split; [exact E|cbn; lia])|]. destruct (k_exec s r0); cbn [fst set_exec k_exec]; rewrite ?upd_other by exact N; (split; [exact E|cbn; lia]).
  - destruct (Nat.eqb_spec r0 r) as [->|N].
    + unfold exec_step. destruct (k_exec s r) as [|m1|m1|m1 p|m1 k|m1 p k]; cbn [exec_of] in E; try discriminate; injection E as <- <-.
      * destruct (Nat.eqb (k_len s) 0); [left; right; eexists; left; reflexivity|]. right. cbn. rewrite upd_same. exists 3. split; [reflexivity|lia].
      * right. cbn. rewrite upd_same. exists 2. split; [destruct b; reflexivity|lia].
      * right. cbn. rewrite upd_same. exists 1. split; [reflexivity|lia].
      * right. cbn. rewrite upd_same. exists 1. split; [reflexivity|lia].
      * left. destruct (k <=? _); [right; eexists; left; reflexivity|left; left; reflexivity].
    + right. exists n. unfold exec_step. assert (Y : forall p, k_exec (set_exec s r0 p) r = k_exec s r) by (intros p; cbn; apply upd_other; congruence).
      destruct (k_exec s r0) as [|m1|m1|m1 p|m1 k|m1 p k]; try destruct (Nat.eqb (k_len s) 0); try destruct (k <=? _); cbn [fst]; rewrite ?Y; (split; [exact E|cbn; lia]).
Qed.
Lemma add_goes grow head tail s l t x n : add_of (k_add s t) = Some (x, n) -> let y := k_step grow head tail s l in
  In (EReturned t x) (snd y) \/ exists n', add_of (k_add (fst y) t) = Some (x, n') /\ n' + add_turns t [l] <= n.
Proof.
  intros E. unfold add_turns. destruct l as [t0 x0|t0|r0 m0|r0 b]; cbn [k_step filter].
  - right. exists n. destruct (Nat.eq_dec t t0) as [<-|N]; [destruct (k_add s t) eqn:X; try discriminate; cbn [fst]; rewrite X; (split; [exact E|cbn; lia])|]. destruct (k_add s t0); cbn [fst set_add k_add]; rewrite ?upd_other by exact N; (split; [exact E|cbn; lia]).
  - unfold add_step. destruct (Nat.eqb_spec t0 t) as [->|N].
    + destruct (k_add s t) as [|x1 p k c|x1 p k c|x1 p k|x1 p k|x1 p k]; cbn [add_of] in E; try discriminate; injection E as <- <-.
      * right. destruct (k <? c); cbn; rewrite upd_same; [exists 2|exists 4]; (split; [reflexivity|lia]).
      * right. cbn. rewrite upd_same. exists 3. split; [reflexivity|lia].
      * right. cbn. rewrite upd_same. exists 2. split; [reflexivity|lia].
      * right. cbn. rewrite upd_same. exists 1. split; [reflexivity|lia].
      * left. left. reflexivity.
    + right. exists n. assert (N' : t <> t0) by congruence. destruct (k_add s t0) as [|x1 p k c|x1 p k c|x1 p k|x1 p k|x1 p k]; try destruct (k <? c); cbn [fst set_add k_add]; rewrite ?upd_other by exact N'; (split; [exact E|cbn; lia]).
  - right. exists n. destruct (k_exec s r0); (split; [exact E|cbn; lia]).
  - right. exists n. unfold exec_step. destruct (k_exec s r0) as [|m1|m1|m1 p|m1 k|m1 p k]; try destruct (Nat.eqb (k_len s) 0); try destruct (k <=? _); (split; [exact E|cbn; lia]).
Qed.
Theorem C110_never_waits : forall grow head tail a b,
  (forall r m, told grow head tail (a ++ [LExec r m]) = told grow head tail a ++ [EExec r m] -> 4 <= exec_turns r b ->
     exists rest, told grow head tail (a ++ LExec r m :: b) = told grow head tail a ++ EExec r m :: rest /\ (In (EGarbage r m) rest \/ exists l, In (ETook r m l) rest)) /\
  (forall t x, told grow head tail (a ++ [LAdd t x]) = told grow head tail a ++ [ECalled t x] -> 5 <= add_turns t b ->
     exists rest, told grow head tail (a ++ LAdd t x :: b) = told grow head tail a ++ ECalled t x :: rest /\ In (EReturned t x) rest).
Proof.
  intros grow head tail a b. split.
  - intros r m E T. unfold told in E. rewrite snd_snoc in E. apply app_inv_head in E. set (s := fst (k_run grow head tail k_new a)) in *.
    assert (B : forall b s n, exec_of (k_exec s r) = Some (m, n) -> n <= exec_turns r b -> In (EGarbage r m) (snd (k_run grow head tail s b)) \/ exists l, In (ETook r m l) (snd (k_run grow head tail s b))).
    { clear. induction b as [|l b IH]; intros s n E T; [exfalso; destruct (k_exec s r); cbn in *; try discriminate; injection E as _ <-; lia|]. rewrite snd_cons. destruct (exec_goes grow head tail s l r m n E) as [[H|(c & H)]|(n' & E' & L)]; [left; apply in_or_app; now left|right; exists c; apply in_or_app; now left|].
      assert (T' : exec_turns r (l :: b) = exec_turns r [l] + exec_turns r b) by (unfold exec_turns; cbn [filter]; destruct l as [| | |u ?]; try reflexivity; destruct (Nat.eqb u r); reflexivity).
      destruct (IH _ n' E' ltac:(lia)) as [H|(c & H)]; [left; apply in_or_app; now right|right; exists c; apply in_or_app; now right]. }
    unfold told. rewrite run_app. cbn [snd]. fold s. rewrite snd_cons, E. cbn [app]. eexists. split; [reflexivity|]. apply (B b _ 4); [|exact T]. cbn [k_step] in *. destruct (k_exec s r) eqn:X; try discriminate. cbn. now rewrite upd_same.
  - intros t x E T. unfold told in E. rewrite snd_snoc in E. apply app_inv_head in E. set (s := fst (k_run grow head tail k_new a)) in *.
    assert (B : forall b s n, add_of (k_add s t) = Some (x, n) -> n <= add_turns t b -> In (EReturned t x) (snd (k_run grow head tail s b))).
    { clear. induction b as [|l b IH]; intros s n E T; [exfalso; destruct (k_add s t); cbn in *; try discriminate; injection E as _ <-; lia|]. rewrite snd_cons. apply in_or_app. destruct (add_goes grow head tail s l t x n E) as [H|(n' & E' & L)]; [now left|right].
      assert (T' : add_turns t (l :: b) = add_turns t [l] + add_turns t b) by (unfold add_turns; cbn [filter]; destruct l as [|u| |]; try reflexivity; destruct (Nat.eqb u t); reflexivity).
      apply (IH _ n' E'). lia. }
    unfold told. rewrite run_app. cbn [snd]. fold s. rewrite snd_cons, E. cbn [app]. eexists. split; [reflexivity|]. apply (B b _ 5); [|exact T]. cbn [k_step] in *. destruct (k_add s t) eqn:X; try discriminate. cbn. now rewrite upd_same.
Qed.
Print Assumptions C110_never_waits.
Example C110_never_waits_used : let b := [LExec 1 7; LAddGo 0; LExecGo 1 true; LAddGo 0; LAddGo 0; LExecGo 1 true; LAddGo 0; LAddGo 0] in add_turns 0 b = 5 /\
  told doubling None (Some 2) [LAdd 0 5] = [ECalled 0 5] /\ told doubling None (Some 2) (LAdd 0 5 :: b) = [ECalled 0 5; EExec 1 7; ETook 1 7 [Some 2]; EReturned 0 5].
Proof. repeat split; reflexivity. Qed.

(* Execute called while no AddInterceptor is in progress, and not overlapped by one: all those added, in order. *)
Theorem C110_quiet : forall grow head tail ls r m b0 b1 b2 b3, (forall n, n < grow n) -> Forall one_adder ls ->
  returned (told grow head tail ls) = length (called (told grow head tail ls)) -> (forall m', ~ In (LExec r m') ls) ->
  told grow head tail (ls ++ [LExec r m; LExecGo r b0; LExecGo r b1; LExecGo r b2; LExecGo r b3]) =
  told grow head tail ls ++ [EExec r m; ETook r m (chain head tail (map Some (called (told grow head tail ls))))].
Proof.
  intros grow head tail ls r m b0 b1 b2 b3 G F Q Nr. pose proof (inv_run grow head tail G ls F) as I.
  pose proof (fresh_idle grow head tail ls r Nr) as Er.
  unfold told at 1. rewrite run_app. cbn [snd]. fold (told grow head tail ls). f_equal. set (s := fst (k_run grow head tail k_new ls)) in *. set (tr := told grow head tail ls) in *.
  destruct (all_in s tr I Q) as (P1 & P2 & C & _).
  set (s1 := set_exec s r (RBegun m)). assert (E1 : k_exec s1 r = RBegun m) by apply upd_same.
  rewrite (run_cons grow head tail s (LExec r m) _ s1 [EExec r m]) by (cbn [k_step]; rewrite Er; reflexivity). cbn [app]. f_equal. destruct (Nat.eqb_spec (k_len s) 0) as [Z|Z].
  - set (s2 := set_exec s1 r RIdle). assert (E2 : k_exec s2 r = RIdle) by apply upd_same. assert (St : forall b, k_step grow head tail s2 (LExecGo r b) = (s2, [])) by (intros b; cbn [k_step]; unfold exec_step; rewrite E2; reflexivity).
    rewrite (run_cons grow head tail s1 (LExecGo r b0) _ s2 [ETook r m (chain head tail [])]) by (cbn [k_step]; unfold exec_step; rewrite E1; cbn [k_len set_exec s1]; rewrite Z; reflexivity).
    do 3 (rewrite (run_cons grow head tail s2 _ _ s2 []) by apply St). assert (Ca : called tr = []) by (destruct (called tr); [reflexivity|cbn in P1; lia]). rewrite Ca. reflexivity.
  - set (s2 := set_exec s1 r (RChecked m)). assert (E2 : k_exec s2 r = RChecked m) by apply upd_same.
    set (s3 := set_exec s2 r (if b1 then RPtr m (k_ptr s) else RLen m (k_len s))). assert (E3 : k_exec s3 r = if b1 then RPtr m (k_ptr s) else RLen m (k_len s)) by apply upd_same.
    set (s4 := set_exec s3 r (RBoth m (k_ptr s) (k_len s))). assert (E4 : k_exec s4 r = RBoth m (k_ptr s) (k_len s)) by apply upd_same.
    rewrite (run_cons grow head tail s1 (LExecGo r b0) _ s2 []) by (cbn [k_step]; unfold exec_step; rewrite E1; change (k_len s1) with (k_len s); destruct (Nat.eqb_spec (k_len s) 0); [lia|reflexivity]).
    rewrite (run_cons grow head tail s2 (LExecGo r b1) _ s3 []) by (cbn [k_step]; unfold exec_step; rewrite E2; reflexivity).
    rewrite (run_cons grow head tail s3 (LExecGo r b2) _ s4 []) by (cbn [k_step]; unfold exec_step; rewrite E3; destruct b1; reflexivity).
    rewrite (run_cons grow head tail s4 (LExecGo r b3) _ (set_exec s4 r RIdle) [ETook r m (chain head tail (map Some (called tr)))]); [reflexivity|]. cbn [k_step]. unfold exec_step. rewrite E4. change (k_arrs s4) with (k_arrs s). destruct (Nat.leb_spec (k_len s) (length (nth (k_ptr s) (k_arrs s) []))); [|lia]. rewrite C. reflexivity.
Qed.
Print Assumptions C110_quiet.

(* An Execute at the same time as an AddInterceptor may run a nil interceptor, which panics, ... *)
Theorem C110_nil_refuted : exists ls, Forall one_adder ls /\ In (ETook 1 7 [Some 1; None; Some 2]) (told doubling (Some 1) (Some 2) ls).
Proof. exists [LAdd 0 5; LAddGo 0; LAddGo 0; LAddGo 0; LAddGo 0; LExec 1 7; LExecGo 1 true; LExecGo 1 true; LExecGo 1 true; LExecGo 1 true]. split; [repeat constructor|]. vm_compute. tauto. Qed.
Print Assumptions C110_nil_refuted.
(* ... or read beyond the end of an array. *)
Theorem C110_garbage_refuted : exists ls, Forall one_adder ls /\ In (EGarbage 1 7) (told doubling (Some 1) (Some 2) ls).
Proof.
  exists ([LAdd 0 5; LAddGo 0; LAddGo 0; LAddGo 0; LAddGo 0; LAddGo 0; LExec 1 7; LExecGo 1 true; LExecGo 1 true] ++ [LAdd 0 6; LAddGo 0; LAddGo 0; LAddGo 0; LAddGo 0; LAddGo 0] ++ [LExecGo 1 true; LExecGo 1 true]).
  split; [repeat constructor|]. vm_compute. tauto.
Qed.
Print Assumptions C110_garbage_refuted.
Definition lost_at (ls : list klabel) : Prop :=
  let s := fst (k_run doubling (Some 1) (Some 2) k_new ls) in k_arrs s = [[]; [Some 5]; [Some 6]] /\ k_ptr s = 2 /\ k_len s = 1 /\ (forall t, k_add s t = AIdle) /\
    (forall r, match k_exec s r with RPtr _ p => p = 2 | RLen _ n => n = 1 | RBoth _ p n => p = 2 /\ n = 1 | _ => True end) /\ forall r m l, In (ETook r m l) (told doubling (Some 1) (Some 2) ls) -> l = [Some 1; Some 6; Some 2].
Lemma lost_stays ls : lost_at ls -> forall more r m l, Forall no_add more -> In (ETook r m l) (told doubling (Some 1) (Some 2) (ls ++ more)) -> l = [Some 1; Some 6; Some 2].
Proof.
  intros B. unfold lost_at in B. intros more r m l F J. assert (K : let s := fst (k_run doubling (Some 1) (Some 2) k_new (ls ++ more)) in k_arrs s = [[]; [Some 5]; [Some 6]] /\ k_ptr s = 2 /\ k_len s = 1 /\ (forall t, k_add s t = AIdle) /\
    (forall r, match k_exec s r with RPtr _ p => p = 2 | RLen _ n => n = 1 | RBoth _ p n => p = 2 /\ n = 1 | _ => True end) /\ forall r m l, In (ETook r m l) (told doubling (Some 1) (Some 2) (ls ++ more)) -> l = [Some 1; Some 6; Some 2]); [|destruct K as (_ & _ & _ & _ & _ & K); eapply K; exact J].
  clear J. induction more as [|lb more IH] using rev_ind.
  - rewrite app_nil_r. exact B.
  - apply Forall_app in F. destruct F as (F & Fl). apply Forall_inv in Fl. destruct (IH F) as (K1 & K2 & K3 & K4 & K5 & K6). rewrite app_assoc. unfold told. rewrite fst_snoc, snd_snoc. fold (told doubling (Some 1) (Some 2) (ls ++ more)). set (s := fst (k_run doubling (Some 1) (Some 2) k_new (ls ++ more))) in *. cbv zeta.
    assert (Idle : forall s1, k_arrs s1 = k_arrs s -> k_ptr s1 = k_ptr s -> k_len s1 = k_len s -> k_add s1 = k_add s -> k_arrs s1 = [[]; [Some 5]; [Some 6]] /\ k_ptr s1 = 2 /\ k_len s1 = 1 /\ (forall t, k_add s1 t = AIdle)) by (intros s1 -> -> -> ->; auto).
    assert (Fin : forall s1 es, k_arrs s1 = k_arrs s -> k_ptr s1 = k_ptr s -> k_len s1 = k_len s -> k_add s1 = k_add s ->
      (forall r, match k_exec s1 r with RPtr _ p => p = 2 | RLen _ n => n = 1 | RBoth _ p n => p = 2 /\ n = 1 | _ => True end) -> (forall r m l, In (ETook r m l) es -> l = [Some 1; Some 6; Some 2]) ->
      k_arrs s1 = [[]; [Some 5]; [Some 6]] /\ k_ptr s1 = 2 /\ k_len s1 = 1 /\ (forall t, k_add s1 t = AIdle) /\ (forall r, match k_exec s1 r with RPtr _ p => p = 2 | RLen _ n => n = 1 | RBoth _ p n => p = 2 /\ n = 1 | _ => True end) /\ forall r m l, In (ETook r m l) (told doubling (Some 1) (Some 2) (ls ++ more) ++ es) -> l = [Some 1; Some 6; Some 2]).
    { intros s1 es E1 E2 E3 E4 R1 R2. destruct (Idle s1 E1 E2 E3 E4) as (? & ? & ? & ?). repeat split; auto. intros r0 m0 l0 J. apply in_app_or in J. destruct J as [J|J]; [eapply K6|eapply R2]; exact J. }
    assert (Up : forall r0 p, match p with RPtr _ q => q = 2 | RLen _ n => n = 1 | RBoth _ q n => q = 2 /\ n = 1 | _ => True end -> forall r, match upd (k_exec s) r0 p r with RPtr _ p => p = 2 | RLen _ n => n = 1 | RBoth _ p n => p = 2 /\ n = 1 | _ => True end).
    { intros r0 p Hp r1. unfold upd. destruct (Nat.eqb r1 r0); [exact Hp|apply K5]. }
    destruct lb as [t x|t|r0 m0|r0 b]; [destruct Fl|..]; cbn [k_step].
    + unfold add_step. rewrite K4. apply Fin; auto. intros ? ? ? [].
    + destruct (k_exec s r0) eqn:E; (apply Fin; auto; first [exact K5|apply Up; exact Logic.I|cbn; intuition discriminate]).
    + unfold exec_step. pose proof (K5 r0) as R0. destruct (k_exec s r0) as [|m1|m1|m1 p|m1 n|m1 p n] eqn:E.
      * apply Fin; auto; intros ? ? ? [].
      * rewrite K3. cbn [Nat.eqb]. apply Fin; auto; first [apply Up; exact Logic.I|intros ? ? ? []].
      * apply Fin; auto; first [apply Up; destruct b; assumption|intros ? ? ? []].
      * apply Fin; auto; first [apply Up; split; assumption|intros ? ? ? []].
      * apply Fin; auto; first [apply Up; split; assumption|intros ? ? ? []].
      * destruct R0 as (-> & ->). rewrite K1. cbn [nth length Nat.leb firstn opt_cell app]. apply Fin; auto; first [apply Up; exact Logic.I|intros ? ? ? [J|[]]; now injection J as _ _ <-].
Qed.
(* Two goroutines add an interceptor each, both calls return, and one of the two never sees a message. *)
Theorem C110_lost_refuted : exists ls, (forall grow head tail, In (EReturned 0 5) (told grow head tail ls) /\ In (EReturned 1 6) (told grow head tail ls)) /\
  forall more r m l, Forall no_add more -> In (ETook r m l) (told doubling (Some 1) (Some 2) (ls ++ more)) -> l = [Some 1; Some 6; Some 2].
Proof.
  exists [LAdd 0 5; LAdd 1 6; LAddGo 0; LAddGo 0; LAddGo 0; LAddGo 0; LAddGo 0; LAddGo 1; LAddGo 1; LAddGo 1; LAddGo 1; LAddGo 1].
  split; [intros grow head tail; vm_compute; tauto|]. apply lost_stays. vm_compute. repeat split; first [intros [|[|t]]; reflexivity|intuition discriminate].
Qed.
Print Assumptions C110_lost_refuted.
Example C110_lost_witness : let ls := [LAdd 0 5; LAdd 1 6; LAddGo 0; LAddGo 0; LAddGo 0; LAddGo 0; LAddGo 0; LAddGo 1; LAddGo 1; LAddGo 1; LAddGo 1; LAddGo 1; LExec 2 9; LExecGo 2 true; LExecGo 2 true; LExecGo 2 true; LExecGo 2 true] in
  told doubling (Some 1) (Some 2) ls = [ECalled 0 5; ECalled 1 6; EReturned 0 5; EReturned 1 6; EExec 2 9; ETook 2 9 [Some 1; Some 6; Some 2]].
Proof. reflexivity. Qed.

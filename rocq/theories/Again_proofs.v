(* Proofs for C107. *)
From Coq Require Import List Bool Arith Lia Permutation.
From Verif Require Import GoSlice Router_proofs Again Spec_Again.
Import ListNotations.

Lemma sn_split {B} (l : list B) i y : nth_error l i = Some y -> exists a b, l = a ++ y :: b /\ length a = i /\ forall x, set_nth i x l = a ++ x :: b.
Proof.
  revert i. induction l as [|z l IH]; intros [|i] E; try discriminate.
  - injection E as ->. exists [], l. repeat split.
  - destruct (IH i E) as (a & b & -> & La & E3). exists (z :: a), b. cbn. rewrite La. repeat split. intros x. now rewrite E3.
Qed.
Lemma nlt {A} (l : list A) i x : nth_error l i = Some x -> i < length l.
Proof. intros H. apply nth_error_Some. congruence. Qed.
Lemma put_split s i e y : get_q s i e = Some y -> exists a b, concat (a_slots s) = a ++ y :: b /\ forall w, concat (put_q s i e w) = a ++ w :: b.
Proof.
  unfold get_q, put_q. destruct (nth_error (a_slots s) i) as [qs|] eqn:E; [|discriminate]. intros E2.
  destruct (sn_split _ _ _ E) as (a & b & -> & _ & H1). destruct (sn_split _ _ _ E2) as (u & v & -> & _ & H2).
  exists (concat a ++ u), (v ++ concat b). split.
  - rewrite concat_app. cbn. now rewrite <- !app_assoc.
  - intros w. rewrite H1, H2, concat_app. cbn. now rewrite <- !app_assoc.
Qed.
Lemma new_split s i qs : nth_error (a_slots s) i = Some qs -> exists a b, concat (a_slots s) = a ++ b /\ concat (set_nth i (qs ++ [Wq [] None]) (a_slots s)) = a ++ Wq [] None :: b.
Proof.
  intros E. destruct (sn_split _ _ _ E) as (a & b & -> & _ & H1). exists (concat a ++ qs), (concat b). rewrite H1, !concat_app. cbn. now rewrite <- !app_assoc.
Qed.
Lemma get_q_eq sl h h' i e : get_q (Ast sl h) i e = get_q (Ast sl h') i e.
Proof. reflexivity. Qed.
Lemma get_put s i e y w h j e' : get_q s i e = Some y -> get_q (Ast (put_q s i e w) h) j e' = if Nat.eqb i j && Nat.eqb e e' then Some w else get_q s j e'.
Proof.
  unfold get_q, put_q. cbn. destruct (nth_error (a_slots s) i) as [qs|] eqn:E; [|discriminate]. intros E2. destruct (Nat.eqb_spec i j) as [<-|N]; cbn.
  - rewrite nth_error_set_nth_same by exact (nlt _ _ _ E). rewrite E. destruct (Nat.eqb_spec e e') as [<-|N]; [now rewrite nth_error_set_nth_same by exact (nlt _ _ _ E2)|now rewrite nth_error_set_nth_other].
  - now rewrite nth_error_set_nth_other.
Qed.
Definition slen (s : ast) (i : nat) : nat := match nth_error (a_slots s) i with Some qs => length qs | None => 0 end.
Lemma slen_put s i e w h j : slen (Ast (put_q s i e w) h) j = slen s j.
Proof.
  unfold slen, put_q. cbn. destruct (nth_error (a_slots s) i) as [qs|] eqn:E; [|reflexivity]. destruct (Nat.eqb_spec i j) as [<-|N].
  - rewrite nth_error_set_nth_same by exact (nlt _ _ _ E). rewrite E. apply set_nth_length.
  - now rewrite nth_error_set_nth_other.
Qed.

Section M.
Variables size cap : nat.
Notation step := (a_step size cap).
Notation run := (a_run size cap).
Notation seen := (seen size cap).
Lemma run_app s a b : run s (a ++ b) = (fst (run (fst (run s a)) b), snd (run s a) ++ snd (run (fst (run s a)) b)).
Proof. revert s. induction a as [|l a IH]; intros s; cbn [a_run app]; [cbn [fst snd app]; destruct (run s b); reflexivity|]. destruct (step s l) as [s1 e1]. rewrite IH. destruct (run s1 a) as [s2 e2]. cbn [fst snd]. destruct (run s2 b). cbn. now rewrite app_assoc. Qed.
Lemma seen_snoc ls l : seen (ls ++ [l]) = seen ls ++ snd (step (fst (run (a_new size) ls)) l).
Proof. unfold Spec_Again.seen. rewrite run_app. cbn [a_run snd fst]. destruct (step (fst (run (a_new size) ls)) l). cbn. now rewrite app_nil_r. Qed.
Lemma state_snoc s ls l : fst (run s (ls ++ [l])) = fst (step (fst (run s ls)) l).
Proof. rewrite run_app. cbn [a_run snd fst]. destruct (step (fst (run s ls)) l). reflexivity. Qed.

(* What can happen, in one lemma. *)
Inductive moved (s : ast) : alabel -> ast -> list aev -> Prop :=
| MNone l : (forall i, l = LNew i -> nth_error (a_slots s) i = None) -> moved s l s []
| MNew i qs : nth_error (a_slots s) i = Some qs -> moved s (LNew i) (Ast (set_nth i (qs ++ [Wq [] None]) (a_slots s)) (a_held s)) []
| MRead c r k : a_held s c = None -> slen s (c mod size) = S k -> moved s (LRead c r) (Ast (a_slots s) (hold s c (Some (k, r)))) [ERead c r]
| MPut c e r w : a_held s c = Some (e, r) -> get_q s (c mod size) e = Some w -> moved s (LPut c) (Ast (put_q s (c mod size) e (Wq (q_items w ++ [(c, r)]) (q_busy w))) (hold s c None)) []
| MTake i e c r items : get_q s i e = Some (Wq ((c, r) :: items) None) -> moved s (LTake i e) (Ast (put_q s i e (Wq items (Some (c, r)))) (a_held s)) [EBegin c r]
| MDone i e c r items : get_q s i e = Some (Wq items (Some (c, r))) -> moved s (LDone i e) (Ast (put_q s i e (Wq items None)) (a_held s)) [EEnd c r].
Lemma step_moved s l : moved s l (fst (step s l)) (snd (step s l)).
Proof.
  destruct l as [i|c r|c|i e|i e]; cbn [a_step].
  - destruct (nth_error (a_slots s) i) eqn:E; [now constructor|constructor; intros j X; injection X as <-; exact E].
  - destruct (a_held s c) eqn:E; [constructor; discriminate|]. destruct (nth_error (a_slots s) (worker_of size c)) as [[|q qs]|] eqn:E2; try (constructor; discriminate). constructor; [exact E|]. unfold slen. unfold worker_of in E2. now rewrite E2.
  - destruct (a_held s c) as [[e r]|] eqn:E; [|constructor; discriminate]. destruct (get_q s (worker_of size c) e) as [w|] eqn:E2; [|constructor; discriminate]. destruct (length (q_items w) <? cap); [|constructor; discriminate]. cbn [fst snd]. now constructor.
  - destruct (get_q s i e) as [[[|[c r] items] [|]]|] eqn:E; try (constructor; discriminate). constructor. exact E.
  - destruct (get_q s i e) as [[items [[c r]|]]|] eqn:E; try (constructor; discriminate). constructor. exact E.
Qed.

Lemma reads_app c a b : reads c (a ++ b) = reads c a ++ reads c b. Proof. apply flat_map_app. Qed.
Lemma begun_app c a b : begun c (a ++ b) = begun c a ++ begun c b. Proof. apply flat_map_app. Qed.
Lemma done_app c a b : done c (a ++ b) = done c a ++ done c b. Proof. apply flat_map_app. Qed.

Definition ofc (c : nat) (l : list (nat * nat)) : list nat := flat_map (fun p => if Nat.eqb (fst p) c then [snd p] else []) l.
Definition bz (w : wq) : list (nat * nat) := match q_busy w with Some p => [p] | None => [] end.
Definition inw (c : nat) (w : wq) : list nat := ofc c (bz w) ++ ofc c (q_items w).
Definition heldl (c : nat) (s : ast) : list nat := match a_held s c with Some (_, r) => [r] | None => [] end.

(* Nothing is lost. *)
Lemma kept ls c : Permutation (reads c (seen ls)) (done c (seen ls) ++ flat_map (inw c) (concat (a_slots (fst (run (a_new size) ls)))) ++ heldl c (fst (run (a_new size) ls))).
Proof.
  induction ls as [|l ls IH] using rev_ind.
  - cbn. replace (concat (repeat [] size)) with (@nil wq); [reflexivity|]. induction size; [reflexivity|exact IHn].
  - rewrite seen_snoc, state_snoc, reads_app, done_app. set (s := fst (run (a_new size) ls)) in *. destruct (step_moved s l) as [l NE|i qs E|d r k E1 E2|d e r w E1 E2|i e d r items E|i e d r items E].
    + cbn [reads done flat_map]. rewrite !app_nil_r. exact IH.
    + cbn [reads done flat_map]. rewrite !app_nil_r. destruct (new_split s i qs E) as (a & b & H1 & H2). cbn [a_slots heldl a_held]. rewrite H2. rewrite H1 in IH. rewrite flat_map_app in *. exact IH.
    + cbn [a_slots]. unfold heldl in *. cbn [a_held]. unfold hold. cbn [reads done flat_map]. rewrite !app_nil_r. destruct (Nat.eqb_spec d c) as [->|N].
      * rewrite E1 in IH. rewrite app_nil_r in IH. rewrite IH. rewrite <- !app_assoc. reflexivity.
      * rewrite app_nil_r. exact IH.
    + cbn [reads done flat_map]. rewrite !app_nil_r. cbn [a_slots]. destruct (put_split _ _ _ _ E2) as (a & b & H1 & H2). rewrite H2. rewrite H1 in IH. rewrite IH. rewrite !flat_map_app. cbn [flat_map]. unfold heldl. cbn [a_held]. unfold hold, inw at 2 5. cbn [q_items bz q_busy]. destruct (Nat.eqb_spec d c) as [->|N].
      * rewrite E1. unfold bz at 2. cbn [q_busy]. rewrite app_nil_r. apply Permutation_app_head. rewrite <- !app_assoc. apply Permutation_app_head. change (ofc c (match q_busy w with Some p => [p] | None => [] end)) with (ofc c (bz w)). apply Permutation_app_head. unfold ofc at 2. rewrite flat_map_app. cbn [flat_map fst snd]. rewrite Nat.eqb_refl. cbn [app]. rewrite <- app_assoc. apply Permutation_app_head. cbn. apply Permutation_sym, Permutation_cons_append.
      * unfold ofc at 4. rewrite flat_map_app. cbn [flat_map fst snd]. destruct (Nat.eqb_spec d c) as [X|_]; [now rewrite X in N|]. rewrite !app_nil_r. reflexivity.
    + cbn [reads done flat_map]. rewrite !app_nil_r. cbn [a_slots]. destruct (put_split _ _ _ _ E) as (a & b & H1 & H2). rewrite H2. rewrite H1 in IH. rewrite IH. rewrite !flat_map_app. cbn [flat_map]. unfold heldl. cbn [a_held].
      apply Permutation_app_head, Permutation_app_tail, Permutation_app_head, Permutation_app_tail. unfold inw, bz, ofc. cbn [q_busy q_items flat_map fst snd app]. rewrite app_nil_r. reflexivity.
    + cbn [reads done flat_map]. rewrite !app_nil_r. cbn [a_slots]. destruct (put_split _ _ _ _ E) as (a & b & H1 & H2). rewrite H2. rewrite H1 in IH. rewrite IH. rewrite !flat_map_app. cbn [flat_map]. unfold heldl. cbn [a_held].
      rewrite <- !app_assoc. apply Permutation_app_head. unfold inw at 2 5, bz, ofc. cbn [q_busy q_items flat_map fst snd app]. rewrite app_nil_r. rewrite <- !app_assoc. rewrite (app_assoc (flat_map (inw c) a)). rewrite (Permutation_app_comm (flat_map (inw c) a)). rewrite <- !app_assoc. reflexivity.
Qed.

(* How many run. *)
Definition bzn (w : wq) : nat := length (bz w).
Definition sum (l : list wq) : nat := fold_right (fun w n => bzn w + n) 0 l.
Lemma sum_app a b : sum (a ++ b) = sum a + sum b.
Proof. unfold sum. induction a; cbn; [reflexivity|]. rewrite IHa. lia. Qed.
Lemma put_q_len s i e w : length (put_q s i e w) = length (a_slots s).
Proof. unfold put_q. destruct (nth_error (a_slots s) i); [apply set_nth_length|reflexivity]. Qed.
Lemma running ls : begins (seen ls) = ends (seen ls) + sum (concat (a_slots (fst (run (a_new size) ls)))) /\
  length (concat (a_slots (fst (run (a_new size) ls)))) = started size ls /\ length (a_slots (fst (run (a_new size) ls))) = size.
Proof.
  induction ls as [|l ls (IH & Lw & Ls)] using rev_ind.
  - cbn. rewrite repeat_length. replace (concat (repeat [] size)) with (@nil wq); [auto|]. induction size; [reflexivity|exact IHn].
  - rewrite seen_snoc, state_snoc. unfold begins, ends, started in *. rewrite !filter_app, !app_length. set (s := fst (run (a_new size) ls)) in *.
    destruct (step_moved s l) as [l NE|i qs E|d r k E1 E2|d e r w E1 E2|i e d r items E|i e d r items E]; cbn [filter length a_slots].
    + rewrite !Nat.add_0_r. split; [exact IH|]. split; [|exact Ls]. rewrite Lw. destruct l; cbn [filter length]; try lia. destruct (Nat.ltb_spec i size) as [L|L]; cbn; [|lia]. specialize (NE i eq_refl). apply nth_error_None in NE. lia.
    + destruct (new_split s i qs E) as (a & b & H1 & H2). rewrite H2, set_nth_length. rewrite H1 in *. rewrite sum_app, app_length in *. cbn [sum fold_right length] in *. fold (sum b). unfold bzn at 1. cbn [bz q_busy length]. split; [lia|]. split; [|lia]. pose proof (nlt _ _ _ E) as L. rewrite Ls in L. apply Nat.ltb_lt in L. rewrite L. cbn [length]. lia.
    + rewrite !Nat.add_0_r. auto.
    + destruct (put_split _ _ _ _ E2) as (a & b & H1 & H2). rewrite H2, put_q_len. rewrite H1 in *. rewrite sum_app, app_length in *. cbn [sum fold_right length] in *. fold (sum b) in *. unfold bzn at 1 in IH. unfold bzn at 1. unfold bz in *. cbn [q_busy] in *. split; [lia|]. split; lia.
    + destruct (put_split _ _ _ _ E) as (a & b & H1 & H2). rewrite H2, put_q_len. rewrite H1 in *. rewrite sum_app, app_length in *. cbn [sum fold_right length] in *. fold (sum b) in *. unfold bzn at 1 in IH. unfold bzn at 1. unfold bz in *. cbn [q_busy length] in *. split; [lia|]. split; lia.
    + destruct (put_split _ _ _ _ E) as (a & b & H1 & H2). rewrite H2, put_q_len. rewrite H1 in *. rewrite sum_app, app_length in *. cbn [sum fold_right length] in *. fold (sum b) in *. unfold bzn at 1 in IH. unfold bzn at 1. unfold bz in *. cbn [q_busy length] in *. split; [lia|]. split; lia.
Qed.
Lemma sum_le l : sum l <= length l.
Proof. induction l as [|w l IH]; unfold sum in *; cbn [fold_right length]; [lia|]. assert (bzn w <= 1) by (unfold bzn, bz; destruct (q_busy w); cbn; lia). lia. Qed.

(* Order: everything of c is in the queue its index has now. *)
Definition lastw (c : nat) (s : ast) : list nat := match get_q s (c mod size) (slen s (c mod size) - 1) with Some w => inw c w | None => [] end.
Definition lastb (c : nat) (s : ast) : list nat := match get_q s (c mod size) (slen s (c mod size) - 1) with Some w => ofc c (bz w) | None => [] end.
Definition ordered (c : nat) (s : ast) (tr : list aev) : Prop :=
  (forall j e w, get_q s j e = Some w -> (j, e) <> (c mod size, slen s (c mod size) - 1) -> inw c w = []) /\
  (forall e r, a_held s c = Some (e, r) -> S e = slen s (c mod size)) /\
  reads c tr = done c tr ++ lastw c s ++ heldl c s /\ begun c tr = done c tr ++ lastb c s.
Lemma reads_labels ls c : (forall r, ~ In (LRead c r) ls) -> reads c (seen ls) = [].
Proof.
  induction ls as [|l ls IH] using rev_ind; [reflexivity|]. intros N. rewrite seen_snoc, reads_app, IH by (intros r I; apply (N r), in_or_app; now left). cbn [app]. set (s := fst (run (a_new size) ls)) in *.
  assert (Nl : forall r, l <> LRead c r) by (intros r ->; apply (N r), in_or_app; right; now left).
  destruct (step_moved s l) as [l NE|i qs E|d r k E1 E2|d e r w E1 E2|i e d r items E|i e d r items E]; try reflexivity. cbn. destruct (Nat.eqb_spec d c) as [->|]; [exfalso; now apply (Nl r)|reflexivity].
Qed.
Lemma not_again_pre c ls l : not_again size c (ls ++ [l]) -> not_again size c ls.
Proof. intros H a b r -> . apply (H a (b ++ [l]) r). now rewrite <- app_assoc. Qed.
Lemma run_ordered c ls : not_again size c ls -> ordered c (fst (run (a_new size) ls)) (seen ls).
Proof.
  induction ls as [|l ls IH] using rev_ind; intros NA.
  - assert (G : forall j e, get_q (a_new size) j e = None).
    { intros j e. unfold get_q. cbn. destruct (nth_error (repeat [] size) j) as [qs|] eqn:E; [|reflexivity]. apply nth_error_In, repeat_spec in E. subst qs. now destruct e. }
    unfold ordered, lastw, lastb, heldl. cbn [a_run fst]. rewrite G. cbn. split; [intros j e w E; rewrite G in E; discriminate|]. split; [discriminate|]. auto.
  - specialize (IH (not_again_pre _ _ _ NA)). rewrite seen_snoc, state_snoc. pose proof (reads_labels ls c) as RL. set (s := fst (run (a_new size) ls)) in *. destruct IH as (O1 & O2 & O3 & O4).
    destruct (step_moved s l) as [l NE|i qs E|d r k E1 E2|d e r w E1 E2|i e d r items E|i e d r items E].
    + rewrite app_nil_r. unfold ordered. auto.
    + rewrite app_nil_r. destruct (Nat.eq_dec i (c mod size)) as [->|Ni].
      * assert (R0 : reads c (seen ls) = []) by (apply RL; intros r; apply (NA ls [] r); reflexivity). rewrite R0 in O3. symmetry in O3. apply app_eq_nil in O3. destruct O3 as (D0 & O3). apply app_eq_nil in O3. destruct O3 as (L0 & H0). rewrite D0 in O4.
        assert (A0 : forall j e w, get_q s j e = Some w -> inw c w = []).
        { intros j e w G. destruct (Nat.eq_dec j (c mod size)) as [->|]; [|apply (O1 j e w G); congruence]. destruct (Nat.eq_dec e (slen s (c mod size) - 1)) as [->|]; [|apply (O1 _ e w G); congruence]. unfold lastw in L0. now rewrite G in L0. }
        assert (B0 : begun c (seen ls) = []). { rewrite O4. cbn. unfold lastb. destruct (get_q s (c mod size) _) eqn:G; [|reflexivity]. pose proof (A0 _ _ _ G) as X. unfold inw in X. now apply app_eq_nil in X. }
        assert (A1 : forall j e w, get_q (Ast (set_nth (c mod size) (qs ++ [Wq [] None]) (a_slots s)) (a_held s)) j e = Some w -> inw c w = []).
        { intros j e w G. unfold get_q in G. cbn in G. destruct (Nat.eq_dec (c mod size) j) as [<-|Nj].
          - rewrite nth_error_set_nth_same in G by exact (nlt _ _ _ E). destruct (Nat.lt_ge_cases e (length qs)) as [L|L].
            + rewrite nth_error_app1 in G by exact L. apply (A0 (c mod size) e w). unfold get_q. now rewrite E.
            + rewrite nth_error_app2 in G by exact L. destruct (e - length qs) as [|[|n]]; cbn in G; try discriminate. now injection G as <-.
          - rewrite nth_error_set_nth_other in G by exact Nj. apply (A0 j e w). exact G. }
        unfold ordered. split; [intros j e w G _; exact (A1 j e w G)|]. split; [|split].
        -- intros e r Hh. unfold heldl in H0. cbn [a_held] in Hh. rewrite Hh in H0. discriminate.
        -- rewrite R0, D0. unfold lastw. destruct (get_q _ _ _) eqn:G; [rewrite (A1 _ _ _ G)|]; cbn [app]; unfold heldl in *; cbn [a_held]; now rewrite H0.
        -- rewrite B0, D0. unfold lastb. destruct (get_q _ _ _) eqn:G; [|reflexivity]. pose proof (A1 _ _ _ G) as X. unfold inw in X. apply app_eq_nil in X. destruct X as (X & _). now rewrite X.
      * assert (Sl : slen (Ast (set_nth i (qs ++ [Wq [] None]) (a_slots s)) (a_held s)) (c mod size) = slen s (c mod size)) by (unfold slen; cbn; now rewrite nth_error_set_nth_other).
        assert (Gs : forall e, get_q (Ast (set_nth i (qs ++ [Wq [] None]) (a_slots s)) (a_held s)) (c mod size) e = get_q s (c mod size) e) by (intros e; unfold get_q; cbn; now rewrite nth_error_set_nth_other).
        unfold ordered, lastw, lastb, heldl. rewrite Sl, Gs. cbn [a_held]. split; [|auto]. intros j e w G Nj. unfold get_q in G. cbn in G. destruct (Nat.eq_dec i j) as [<-|Nij].
        -- rewrite nth_error_set_nth_same in G by exact (nlt _ _ _ E). destruct (Nat.lt_ge_cases e (length qs)) as [L|L].
           ++ rewrite nth_error_app1 in G by exact L. apply (O1 i e w); [|exact Nj]. unfold get_q. now rewrite E.
           ++ rewrite nth_error_app2 in G by exact L. destruct (e - length qs) as [|[|n]]; cbn in G; try discriminate. now injection G as <-.
        -- rewrite nth_error_set_nth_other in G by exact Nij. exact (O1 j e w G Nj).
    + unfold ordered, lastw, lastb, slen, get_q, heldl, hold in *. cbn [a_slots a_held]. split; [exact O1|]. rewrite reads_app, done_app, begun_app. cbn [reads done begun flat_map app]. rewrite !app_nil_r. split; [|split; [|exact O4]].
      * intros e r' Hh. destruct (Nat.eqb_spec d c) as [->|N]; [injection Hh as <- _; now symmetry|now apply (O2 e r')].
      * destruct (Nat.eqb_spec d c) as [->|N]; [|now rewrite app_nil_r]. rewrite O3, E1, app_nil_r, <- app_assoc. reflexivity.
    + rewrite app_nil_r. assert (Sl : forall h, slen (Ast (put_q s (d mod size) e (Wq (q_items w ++ [(d, r)]) (q_busy w))) h) (c mod size) = slen s (c mod size)) by (intros h; apply slen_put).
      unfold ordered, lastw, lastb. rewrite Sl. destruct (Nat.eqb_spec d c) as [->|N].
      * pose proof (O2 e r E1) as Le. assert (Eq : e = slen s (c mod size) - 1) by lia.
        rewrite (get_put _ _ _ _ _ _ _ _ E2), Nat.eqb_refl, <- Eq, Nat.eqb_refl. cbn [andb]. split; [|split; [|split]].
        -- intros j e' w' G Nj. rewrite (get_put _ _ _ _ _ _ _ _ E2) in G. destruct (Nat.eqb_spec (c mod size) j) as [<-|]; [destruct (Nat.eqb_spec e e') as [<-|]; [congruence|]|]; cbn [andb] in G; apply (O1 _ _ _ G); congruence.
        -- cbn [a_held]. unfold hold. rewrite Nat.eqb_refl. discriminate.
        -- rewrite O3. unfold lastw. rewrite <- Eq, E2. unfold heldl, hold. cbn [a_held]. rewrite E1, Nat.eqb_refl, app_nil_r. f_equal. unfold inw. unfold bz at 2. cbn [q_busy q_items]. fold (bz w). unfold ofc at 4. rewrite flat_map_app. cbn [flat_map fst snd]. rewrite Nat.eqb_refl. cbn [app]. rewrite <- app_assoc. reflexivity.
        -- rewrite O4. unfold lastb. rewrite <- Eq, E2. reflexivity.
      * assert (IW : inw c (Wq (q_items w ++ [(d, r)]) (q_busy w)) = inw c w /\ ofc c (bz (Wq (q_items w ++ [(d, r)]) (q_busy w))) = ofc c (bz w)).
        { unfold inw. unfold bz at 1 3. cbn [q_busy q_items]. fold (bz w). unfold ofc at 2. rewrite flat_map_app. cbn [flat_map fst snd]. destruct (Nat.eqb_spec d c) as [X|_]; [congruence|]. rewrite !app_nil_r. split; reflexivity. }
        destruct IW as (IW & IB). rewrite (get_put _ _ _ _ _ _ _ _ E2). split; [|split; [|split]].
        -- intros j e' w' G Nj. rewrite (get_put _ _ _ _ _ _ _ _ E2) in G. destruct (Nat.eqb_spec (d mod size) j) as [Ej|]; [destruct (Nat.eqb_spec e e') as [Ee|]|]; cbn [andb] in G; try exact (O1 _ _ _ G Nj). injection G as <-. rewrite IW. subst j e'. exact (O1 _ _ _ E2 Nj).
        -- intros e' r' Hh. cbn [a_held] in Hh. unfold hold in Hh. destruct (Nat.eqb_spec d c) as [X|_]; [congruence|]. exact (O2 e' r' Hh).
        -- rewrite O3. unfold lastw, heldl, hold. cbn [a_held]. destruct (Nat.eqb_spec d c) as [X|_]; [congruence|]. destruct (Nat.eqb_spec (d mod size) (c mod size)) as [Ej|]; [destruct (Nat.eqb_spec e (slen s (c mod size) - 1)) as [Ee|]|]; cbn [andb]; try reflexivity. rewrite IW. rewrite <- Ej, <- Ee at 1. rewrite E2. reflexivity.
        -- rewrite O4. unfold lastb. destruct (Nat.eqb_spec (d mod size) (c mod size)) as [Ej|]; [destruct (Nat.eqb_spec e (slen s (c mod size) - 1)) as [Ee|]|]; cbn [andb]; try reflexivity. rewrite IB. rewrite <- Ej, <- Ee at 1. rewrite E2. reflexivity.
    + assert (Sl : slen (Ast (put_q s i e (Wq items (Some (d, r)))) (a_held s)) (c mod size) = slen s (c mod size)) by apply slen_put.
      assert (IW : inw c (Wq items (Some (d, r))) = inw c (Wq ((d, r) :: items) None)) by (unfold inw, bz, ofc; cbn [q_busy q_items flat_map app fst snd]; now rewrite app_nil_r).
      unfold ordered, lastw, lastb, heldl. rewrite Sl, !(get_put _ _ _ _ _ _ _ _ E), reads_app, done_app, begun_app. cbn [reads done begun flat_map app a_held]. rewrite !app_nil_r. split; [|split; [exact O2|]].
      * intros j e' w' G Nj. rewrite (get_put _ _ _ _ _ _ _ _ E) in G. destruct (Nat.eqb_spec i j) as [Ej|]; [destruct (Nat.eqb_spec e e') as [Ee|]|]; cbn [andb] in G; try exact (O1 _ _ _ G Nj). injection G as <-. rewrite IW. subst j e'. exact (O1 _ _ _ E Nj).
      * destruct (Nat.eqb_spec i (c mod size)) as [->|Nj]; [destruct (Nat.eqb_spec e (slen s (c mod size) - 1)) as [Ee|Ne]|]; cbn [andb].
        -- unfold lastw in O3. rewrite <- Ee, E in O3. unfold lastb in O4. rewrite <- Ee, E in O4. rewrite IW. split; [exact O3|]. rewrite O4. unfold bz. cbn [q_busy ofc flat_map fst snd]. now rewrite !app_nil_r.
        -- split; [exact O3|]. pose proof (O1 _ _ _ E ltac:(congruence)) as X. unfold inw, bz, ofc in X. cbn [q_busy q_items flat_map app fst snd] in X. apply app_eq_nil in X. destruct X as (X & _). rewrite X, app_nil_r. exact O4.
        -- split; [exact O3|]. pose proof (O1 _ _ _ E ltac:(congruence)) as X. unfold inw, bz, ofc in X. cbn [q_busy q_items flat_map app fst snd] in X. apply app_eq_nil in X. destruct X as (X & _). rewrite X, app_nil_r. exact O4.
    + assert (Sl : slen (Ast (put_q s i e (Wq items None)) (a_held s)) (c mod size) = slen s (c mod size)) by apply slen_put.
      assert (IW : inw c (Wq items (Some (d, r))) = (if Nat.eqb d c then [r] else []) ++ inw c (Wq items None)) by (unfold inw, bz, ofc; cbn [q_busy q_items flat_map app fst snd]; now rewrite app_nil_r).
      unfold ordered, lastw, lastb, heldl. rewrite Sl, !(get_put _ _ _ _ _ _ _ _ E), reads_app, done_app, begun_app. cbn [reads done begun flat_map app a_held]. rewrite !app_nil_r. split; [|split; [exact O2|]].
      * intros j e' w' G Nj. rewrite (get_put _ _ _ _ _ _ _ _ E) in G. destruct (Nat.eqb_spec i j) as [Ej|]; [destruct (Nat.eqb_spec e e') as [Ee|]|]; cbn [andb] in G; try exact (O1 _ _ _ G Nj). injection G as <-. subst j e'. pose proof (O1 _ _ _ E Nj) as X. rewrite IW in X. now apply app_eq_nil in X.
      * destruct (Nat.eqb_spec i (c mod size)) as [->|Nj]; [destruct (Nat.eqb_spec e (slen s (c mod size) - 1)) as [Ee|Ne]|]; cbn [andb].
        -- unfold lastw in O3. rewrite <- Ee, E, IW in O3. unfold lastb in O4. rewrite <- Ee, E in O4. split; [rewrite O3, <- !app_assoc; reflexivity|]. rewrite O4. unfold bz. cbn [q_busy ofc flat_map fst snd]. now rewrite !app_nil_r.
        -- pose proof (O1 _ _ _ E ltac:(congruence)) as X. rewrite IW in X. apply app_eq_nil in X. destruct X as (X & _). rewrite X, !app_nil_r. auto.
        -- pose proof (O1 _ _ _ E ltac:(congruence)) as X. rewrite IW in X. apply app_eq_nil in X. destruct X as (X & _). rewrite X, !app_nil_r. auto.
Qed.

(* Draining. *)
Definition load (w : wq) : nat := 2 * length (q_items w) + length (bz w).
Definition mu (s : ast) : nat := list_sum (map load (concat (a_slots s))).
Lemma mu_put s i e y w h : get_q s i e = Some y -> mu (Ast (put_q s i e w) h) + load y = mu s + load w.
Proof. intros E. destruct (put_split _ _ _ _ E) as (a & b & H1 & H2). unfold mu. cbn [a_slots]. rewrite H1, H2, !map_app, !list_sum_app. cbn [map list_sum fold_right]. unfold list_sum. lia. Qed.
Lemma get_of s w : In w (concat (a_slots s)) -> exists i e, get_q s i e = Some w.
Proof. intros I. apply in_concat in I. destruct I as (qs & I1 & I2). apply In_nth_error in I1. apply In_nth_error in I2. destruct I1 as (i & I1), I2 as (e & I2). exists i, e. unfold get_q. now rewrite I1. Qed.
Lemma mu_pos s : 0 < mu s -> exists w, In w (concat (a_slots s)) /\ 0 < load w.
Proof. unfold mu. unfold list_sum. induction (concat (a_slots s)) as [|w l IH]; cbn [map fold_right In]; [lia|]. intros H. destruct (load w) eqn:E; [destruct IH as (w' & I & L); [exact H|eauto]|exists w; split; [now left|lia]]. Qed.
Definition same_held (s s' : ast) : Prop := forall c, a_held s' c = a_held s c.
Lemma drain n : forall s, mu s <= n -> exists more, Forall quiet more /\ mu (fst (run s more)) = 0 /\ same_held s (fst (run s more)) /\ (forall i, slen (fst (run s more)) i = slen s i).
Proof.
  induction n as [|n IH]; intros s L; [exists []; cbn; repeat split; [constructor|lia]|]. destruct (mu s) as [|m] eqn:Em; [exists []; cbn; repeat split; [constructor|exact Em]|].
  destruct (mu_pos s) as (w & I & Lw); [lia|]. destruct (get_of s w I) as (i & e & G).
  assert (S1 : exists l, quiet l /\ mu (fst (step s l)) < mu s /\ same_held s (fst (step s l)) /\ (forall j, slen (fst (step s l)) j = slen s j)).
  { destruct w as [items [[d r]|]].
    - exists (LDone i e). cbn [a_step quiet]. rewrite G. cbn [fst]. split; [exact Logic.I|]. split; [|split; [intros c; reflexivity|intros j; apply slen_put]]. pose proof (mu_put s i e _ (Wq items None) (a_held s) G) as X. unfold load, bz in X. cbn [q_items q_busy length] in X. lia.
    - destruct items as [|[d r] items]; [unfold load in Lw; cbn in Lw; lia|]. exists (LTake i e). cbn [a_step quiet]. rewrite G. cbn [fst]. split; [exact Logic.I|]. split; [|split; [intros c; reflexivity|intros j; apply slen_put]]. pose proof (mu_put s i e _ (Wq items (Some (d, r))) (a_held s) G) as X. unfold load, bz in X. cbn [q_items q_busy length] in X. lia. }
  destruct S1 as (l & Q & D & H & Sl). destruct (IH (fst (step s l))) as (more & Qm & Z & Hm & Slm); [lia|]. exists (l :: more). cbn [a_run]. destruct (step s l) as [s1 e1]. cbn [fst] in *. destruct (run s1 more) as [s2 e2]. cbn [fst] in *. repeat split; auto. - intros c. now rewrite Hm. - intros j. now rewrite Slm.
Qed.
Definition wfh (s : ast) : Prop := forall c e r, a_held s c = Some (e, r) -> e < slen s (c mod size).
Lemma wfh_run ls : wfh (fst (run (a_new size) ls)).
Proof.
  induction ls as [|l ls IH] using rev_ind; [discriminate|]. rewrite state_snoc. set (s := fst (run (a_new size) ls)) in *.
  destruct (step_moved s l) as [l NE|i qs E|d r k E1 E2|d e r w E1 E2|i e d r items E|i e d r items E].
  - exact IH.
  - intros c e r H. cbn [a_held] in H. specialize (IH c e r H). unfold slen in *. cbn [a_slots]. destruct (Nat.eq_dec i (c mod size)) as [->|N]; [rewrite nth_error_set_nth_same by exact (nlt _ _ _ E); rewrite E in IH; rewrite app_length; lia|now rewrite nth_error_set_nth_other].
  - intros c e r' H. cbn [a_held] in H. unfold hold in H. destruct (Nat.eqb_spec d c) as [->|N]; [injection H as <- _; unfold slen in *; cbn [a_slots]; rewrite E2; lia|exact (IH c e r' H)].
  - intros c e' r' H. rewrite slen_put. cbn [a_held] in H. unfold hold in H. destruct (Nat.eqb_spec d c) as [->|N]; [discriminate|exact (IH c e' r' H)].
  - intros c e' r' H. rewrite slen_put. exact (IH c e' r' H).
  - intros c e' r' H. rewrite slen_put. exact (IH c e' r' H).
Qed.
Lemma slen_get s i e : e < slen s i -> exists w, get_q s i e = Some w.
Proof. unfold slen, get_q. destruct (nth_error (a_slots s) i) as [qs|]; [|lia]. intros L. destruct (nth_error qs e) eqn:E; [eauto|]. apply nth_error_None in E. lia. Qed.
Lemma run_nil_end s a b : fst (run s (a ++ b)) = fst (run (fst (run s a)) b).
Proof. now rewrite run_app. Qed.
Lemma finish (Hc : 0 < cap) cs : forall ls, exists more, Forall quiet more /\ let s := fst (run (a_new size) (ls ++ more)) in mu s = 0 /\ (forall c, In c cs -> a_held s c = None) /\
  (forall c, a_held (fst (run (a_new size) ls)) c = None -> a_held s c = None).
Proof.
  induction cs as [|c cs IH]; intros ls.
  - destruct (drain _ (fst (run (a_new size) ls)) (le_n _)) as (more & Q & Z & H & _). exists more. split; [exact Q|]. cbn zeta. rewrite run_nil_end. split; [exact Z|]. split; [intros c []|]. intros c Hn. now rewrite H.
  - destruct (IH ls) as (m1 & Q1 & Z1 & H1 & K1). cbn zeta in *. set (s1 := fst (run (a_new size) (ls ++ m1))) in *.
    destruct (a_held s1 c) as [[e r]|] eqn:Eh.
    + assert (Le : e < slen s1 (c mod size)) by exact (wfh_run (ls ++ m1) c e r Eh). destruct (slen_get _ _ _ Le) as (w & G).
      assert (Q0 : q_items w = []). { assert (Lw : load w = 0). { destruct (put_split _ _ _ _ G) as (a & b & E & _). unfold mu in Z1. rewrite E, map_app, list_sum_app in Z1. cbn [map list_sum fold_right] in Z1. lia. } unfold load in Lw. destruct (q_items w); [reflexivity|cbn in Lw; lia]. }
      assert (St : fst (step s1 (LPut c)) = Ast (put_q s1 (c mod size) e (Wq [(c, r)] (q_busy w))) (hold s1 c None)). { cbn [a_step]. rewrite Eh. unfold worker_of. rewrite G, Q0. cbn [length]. replace (0 <? cap) with true by (symmetry; now apply Nat.ltb_lt). reflexivity. }
      set (s2 := fst (step s1 (LPut c))) in *. destruct (drain _ s2 (le_n _)) as (m2 & Q2 & Z2 & H2 & _). exists (m1 ++ LPut c :: m2).
      split; [apply Forall_app; split; [exact Q1|constructor; [exact Logic.I|exact Q2]]|].
      assert (Es : fst (run (a_new size) (ls ++ m1 ++ LPut c :: m2)) = fst (run s2 m2)). { rewrite app_assoc, run_nil_end. fold s1. cbn [a_run]. unfold s2. destruct (step s1 (LPut c)) as [s3 e3]. cbn [fst]. destruct (run s3 m2). reflexivity. }
      rewrite Es. split; [exact Z2|]. assert (HH : forall d, a_held s1 d = None \/ d = c -> a_held (fst (run s2 m2)) d = None).
      { intros d Hd. rewrite H2, St. cbn [a_held]. unfold hold. destruct (Nat.eqb_spec c d) as [->|N]; [reflexivity|]. destruct Hd as [Hd| ->]; [exact Hd|congruence]. }
      split; [intros d [->|I]; apply HH; [now right|left; now apply H1]|]. intros d Hd. apply HH. left. now apply K1.
    + exists m1. split; [exact Q1|]. fold s1. split; [exact Z1|]. split; [intros d [->|I]; [exact Eh|now apply H1]|exact K1].
Qed.
Lemma reads_quiet ls more c : Forall quiet more -> reads c (seen (ls ++ more)) = reads c (seen ls).
Proof.
  induction more as [|l more IH] using rev_ind; intros F; [now rewrite app_nil_r|]. apply Forall_app in F. destruct F as (F & Fl). apply Forall_inv in Fl. rewrite app_assoc, seen_snoc, reads_app, (IH F). set (s := fst (run (a_new size) (ls ++ more))).
  destruct (step_moved s l) as [l NE|i qs E|d r k E1 E2|d e r w E1 E2|i e d r items E|i e d r items E]; cbn; try apply app_nil_r; destruct Fl.
Qed.
Definition readers (ls : list alabel) : list nat := flat_map (fun l => match l with LRead c _ => [c] | _ => [] end) ls.
Lemma held_readers ls c : ~ In c (readers ls) -> a_held (fst (run (a_new size) ls)) c = None.
Proof.
  induction ls as [|l ls IH] using rev_ind; [reflexivity|]. unfold readers. rewrite flat_map_app, state_snoc. fold (readers ls). intros N. specialize (IH (fun I => N (in_or_app _ _ _ (or_introl I)))). set (s := fst (run (a_new size) ls)) in *.
  assert (Nl : forall r, l <> LRead c r) by (intros r ->; apply N, in_or_app; right; now left).
  destruct (step_moved s l) as [l NE|i qs E|d r k E1 E2|d e r w E1 E2|i e d r items E|i e d r items E]; cbn [a_held]; auto.
  - unfold hold. destruct (Nat.eqb_spec d c) as [->|]; [exfalso; now apply (Nl r)|exact IH].
  - unfold hold. destruct (Nat.eqb_spec d c) as [->|]; [reflexivity|exact IH].
Qed.
Lemma mu0_in s c : mu s = 0 -> flat_map (inw c) (concat (a_slots s)) = [].
Proof.
  unfold mu. induction (concat (a_slots s)) as [|w l IH]; [reflexivity|]. cbn [map list_sum fold_right flat_map]. intros H. assert (load w = 0) by lia. rewrite IH by (unfold list_sum; lia). unfold load in *. unfold inw. destruct (q_items w); [|cbn in *; lia]. destruct (bz w); [reflexivity|cbn in *; lia].
Qed.
End M.

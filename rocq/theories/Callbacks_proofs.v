From Coq Require Import ZArith List Bool Arith Lia.
From Verif Require Import GoSlice ShardMap_proofs Callbacks Spec_Callbacks.
Import ListNotations.

(* The chain of pointers from p visits exactly the addresses as. *)
Fixpoint linked (h : list cbnode) (p : option nat) (ads : list nat) : Prop :=
  match ads with
  | [] => p = None
  | a :: rest => p = Some a /\ exists n, nth_error h a = Some n /\ linked h (nd_next n) rest
  end.
Definition entry_of (n : cbnode) : entry := ((nd_handler n, nd_key n), nd_call n).
Definition entries (h : list cbnode) (ads : list nat) : list entry :=
  flat_map (fun a => match nth_error h a with Some n => [entry_of n] | None => [] end) ads.
Fixpoint last_opt (l : list nat) : option nat :=
  match l with [] => None | [a] => Some a | _ :: l' => last_opt l' end.

Lemma last_opt_snoc l a : last_opt (l ++ [a]) = Some a.
Proof. induction l as [|b l IH]; [reflexivity|]. cbn. destruct l; [reflexivity|exact IH]. Qed.

Lemma linked_lt h p ads : linked h p ads -> forall a, In a ads -> a < length h.
Proof.
  revert p; induction ads as [|b ads IH]; cbn; intros p H a Ha; [destruct Ha|].
  destruct H as (_ & n & E & L). destruct Ha as [->|Ha]; [apply nth_error_Some; congruence|eauto].
Qed.
Lemma linked_ext h h' p ads : (forall a, In a ads -> nth_error h' a = nth_error h a) -> linked h p ads -> linked h' p ads.
Proof.
  revert p; induction ads as [|b ads IH]; cbn; intros p He H; [exact H|].
  destruct H as (-> & n & E & L). split; [reflexivity|]. exists n. split; [now rewrite He by now left|].
  apply IH; auto.
Qed.
Lemma entries_ext h h' ads : (forall a, In a ads -> nth_error h' a = nth_error h a) -> entries h' ads = entries h ads.
Proof.
  induction ads as [|b ads IH]; cbn; intros He; [reflexivity|]. fold (entries h' ads) (entries h ads). rewrite He by now left. f_equal. apply IH; auto.
Qed.
Lemma entries_app h a b : entries h (a ++ b) = entries h a ++ entries h b.
Proof. apply flat_map_app. Qed.
Lemma entries_len h p ads : linked h p ads -> length (entries h ads) = length ads.
Proof.
  revert p; induction ads as [|b ads IH]; cbn; intros p H; [reflexivity|].
  destruct H as (_ & n & E & L). rewrite E. cbn. f_equal. eauto.
Qed.
Record cbinv (t : callbacks) (ads : list nat) : Prop := {
  k_link : linked (cb_heap t) (cb_first t) ads;
  k_nodup : NoDup ads;
  k_last : cb_last t = last_opt ads
}.
Definition rep (t : callbacks) (l : list entry) : Prop := exists ads, cbinv t ads /\ entries (cb_heap t) ads = l.

Lemma set_next_other h i p a : a <> i -> nth_error (set_next h i p) a = nth_error h a.
Proof.
  intros N. unfold set_next. destruct (nth_error h i); [|reflexivity].
  revert i a N. clear. intros i a. revert i a. induction h as [|x h IH]; intros [|i] [|a] N; cbn; try reflexivity; try congruence.
  apply IH. congruence.
Qed.
Lemma set_nth_hit {B} (l : list B) i x : i < length l -> nth_error (set_nth i x l) i = Some x.
Proof. revert i; induction l; destruct i; cbn; intros; try lia; auto. apply IHl. lia. Qed.
Lemma set_next_same h i p n : nth_error h i = Some n ->
  nth_error (set_next h i p) i = Some {| nd_handler := nd_handler n; nd_key := nd_key n; nd_call := nd_call n; nd_next := p |}.
Proof.
  intros E. unfold set_next. rewrite E. apply set_nth_hit. apply nth_error_Some. congruence.
Qed.
Lemma set_next_entries h i p ads : entries (set_next h i p) ads = entries h ads.
Proof.
  induction ads as [|a ads IH]; [reflexivity|]. cbn [entries flat_map]. fold (entries (set_next h i p) ads) (entries h ads). rewrite IH. f_equal.
  destruct (Nat.eq_dec a i) as [->|N]; [|now rewrite set_next_other].
  destruct (nth_error h i) as [n|] eqn:E; [now rewrite (set_next_same _ _ _ _ E)|].
  unfold set_next. now rewrite E, E.
Qed.

(* Replacing the tail behind address b. *)
Lemma linked_relink h pre : forall p b post post' q,
  linked h p (pre ++ b :: post) -> ~ In b pre -> ~ In b post' ->
  linked h q post' -> linked (set_next h b q) p (pre ++ b :: post').
Proof.
  induction pre as [|a pre IH]; cbn; intros p b post post' q H Hn Hn' L'.
  - destruct H as (-> & n & E & L). split; [reflexivity|].
    eexists. split; [apply (set_next_same _ _ _ _ E)|]. cbn.
    apply linked_ext with (h := h); [|exact L']. intros a Ha. apply set_next_other. congruence.
  - destruct H as (-> & n & E & L). split; [reflexivity|]. exists n. split.
    + rewrite set_next_other by tauto. exact E.
    + apply (IH _ _ post); tauto.
Qed.

Lemma add_rep t l h k f t1 r : rep t l -> cb_add t h k f = (t1, r) ->
  r = CbUnit /\ rep t1 (match f with Some f => l ++ [((h, k), f)] | None => l end).
Proof.
  intros (ads & I & El) E. destruct f as [f|]; cbn in E; [|injection E as <- <-; split; [reflexivity|exists ads; auto]].
  destruct I as [L N La].
  set (new := length (cb_heap t)) in *.
  set (h' := cb_heap t ++ [{| nd_handler := h; nd_key := k; nd_call := f; nd_next := None |}]) in *.
  assert (Hold : forall a, In a ads -> nth_error h' a = nth_error (cb_heap t) a).
  { intros a Ha. unfold h'. rewrite nth_error_app1; [reflexivity|]. eapply linked_lt; eauto. }
  assert (Hnew : nth_error h' new = Some {| nd_handler := h; nd_key := k; nd_call := f; nd_next := None |}).
  { unfold h', new. rewrite nth_error_app2, Nat.sub_diag by lia. reflexivity. }
  assert (Hni : ~ In new ads) by (intros Hi; apply (linked_lt _ _ _ L) in Hi; unfold new in Hi; lia).
  assert (L1 : linked h' (cb_first t) ads) by (eapply linked_ext; eauto).
  assert (Lnew : linked h' (Some new) [new]) by (cbn; split; [reflexivity|]; eexists; split; [exact Hnew|reflexivity]).
  assert (Ee : entries h' (ads ++ [new]) = l ++ [((h, k), f)]).
  { rewrite entries_app. f_equal; [rewrite <- El; now apply entries_ext|]. cbn. now rewrite Hnew. }
  destruct ads as [|a0 ads0] eqn:Ea.
  - cbn in L. rewrite L in E. injection E as <- <-. split; [reflexivity|]. exists [new]. split; [|exact Ee].
    split; cbn; [exact Lnew| |reflexivity]. constructor; [intros []|constructor].
  - cbn in L. destruct L as (Ef & _). rewrite Ef in E. cbn [cb_last] in La.
    destruct (exists_last (l := ads) ltac:(subst; discriminate)) as (pre & b & Eb).
    rewrite <- Ea in *. rewrite Eb, last_opt_snoc in La. rewrite La in E. injection E as <- <-.
    split; [reflexivity|]. exists (ads ++ [new]). split.
    + split; cbn [cb_heap cb_first cb_last].
      * rewrite Eb in L1, N, Hni |- *. rewrite <- app_assoc. cbn [app].
        rewrite <- Ef. apply (linked_relink h' pre (cb_first t) b [] [new] (Some new)); [exact L1| | |exact Lnew].
        -- intros Hi. apply NoDup_remove_2 in N. apply N. now rewrite app_nil_r.
        -- intros [->|[]]. apply Hni. apply in_or_app. right. now left.
      * rewrite Eb in N, Hni |- *. apply nodup_app; [exact N|constructor; [intros []|constructor]|].
        intros x Hx [->|[]]. contradiction.
      * now rewrite last_opt_snoc.
    + cbn [cb_heap]. now rewrite set_next_entries.
Qed.

Lemma last_opt_mid pre b post : last_opt (pre ++ b :: post) = match post with [] => Some b | _ => last_opt post end.
Proof.
  induction pre as [|a pre IH]; cbn.
  - destruct post; reflexivity.
  - destruct (pre ++ b :: post) eqn:E; [destruct pre; discriminate|]. exact IH.
Qed.

Lemma linked_mid h pre : forall p b post, linked h p (pre ++ b :: post) -> linked h (Some b) (b :: post).
Proof.
  induction pre as [|a pre IH]; cbn; intros p b post H.
  - destruct H as (-> & H). auto.
  - destruct H as (_ & n & _ & L). exact (IH _ _ _ L).
Qed.

Definition prev_of (pre : list nat) : option nat := last_opt pre.

Lemma drop_first_app p a b : (forall e, In e a -> p e = false) -> drop_first p (a ++ b) = a ++ drop_first p b.
Proof.
  induction a as [|e a IH]; cbn; intros H; [reflexivity|]. rewrite H by now left. f_equal. apply IH. auto.
Qed.

Lemma last_opt_in l a : last_opt l = Some a -> In a l.
Proof.
  induction l as [|x l IH]; cbn; [discriminate|]. destruct l; [intros [= ->]; now left|]. intros H. right. auto.
Qed.

Lemma remove_loop_rep t h k : forall post pre fuel cur, 
  linked (cb_heap t) (cb_first t) (pre ++ post) -> NoDup (pre ++ post) -> cb_last t = last_opt (pre ++ post) ->
  length post <= fuel -> linked (cb_heap t) cur post ->
  (forall e, In e (entries (cb_heap t) pre) -> is_for h k e = false) ->
  snd (cb_remove_loop fuel t h k (last_opt pre) cur) = CbUnit /\
  rep (fst (cb_remove_loop fuel t h k (last_opt pre) cur)) (drop_first (is_for h k) (entries (cb_heap t) (pre ++ post))).
Proof.
  induction post as [|c post IH]; intros pre fuel cur L N La Hf Lc Hp.
  - cbn in Lc. subst cur. assert (E : cb_remove_loop fuel t h k (last_opt pre) None = (t, CbUnit)) by (destruct fuel; reflexivity).
    rewrite E. split; [reflexivity|]. cbn [fst]. exists (pre ++ []). split; [split; assumption|].
    rewrite entries_app, drop_first_app by exact Hp. reflexivity.
  - cbn in Lc. destruct Lc as (-> & n & En & Ln). destruct fuel as [|fuel]; [cbn in Hf; lia|].
    cbn [cb_remove_loop]. rewrite En.
    assert (Hnc : ~ In c pre /\ ~ In c post).
    { apply NoDup_remove_2 in N. rewrite in_app_iff in N. tauto. }
    rewrite entries_app, drop_first_app by exact Hp. cbn [entries flat_map]. rewrite En. cbn [app drop_first].
    fold (entries (cb_heap t) post).
    change (is_for h k (entry_of n)) with (Z.eqb (nd_handler n) h && Z.eqb (nd_key n) k).
    destruct (Z.eqb (nd_handler n) h && Z.eqb (nd_key n) k) eqn:Em.
    + cbn [snd fst]. split; [reflexivity|].
      destruct pre as [|p0 pre0] eqn:Epre.
      * (* the first entry *)
        cbn [app] in *. pose proof L as L0. cbn in L0. destruct L0 as (Ef & _).
        rewrite Ef. cbn [ptr_eqb]. rewrite Nat.eqb_refl. cbn [cb_last cb_heap cb_first last_opt].
        rewrite La. exists post. assert (NoDup post) by (inversion N; assumption). split.
        -- destruct post as [|d post].
           ++ cbn [last_opt ptr_eqb]. rewrite Nat.eqb_refl. split; cbn; auto.
           ++ change (last_opt (c :: d :: post)) with (last_opt (d :: post)).
              assert (Hx : ptr_eqb (last_opt (d :: post)) (Some c) = false).
              { destruct (last_opt (d :: post)) as [z|] eqn:Ez; [|reflexivity]. cbn. apply Nat.eqb_neq. intros ->.
                apply last_opt_in in Ez. tauto. }
              rewrite Hx. split; cbn [cb_heap cb_first cb_last]; auto.
        -- destruct (ptr_eqb _ _); reflexivity.
      * (* a later entry *)
        rewrite <- Epre in *. assert (Hne : pre <> []) by (subst; discriminate).
        destruct (exists_last Hne) as (pre1 & b & Eb).
        assert (Hfirst : ptr_eqb (cb_first t) (Some c) = false).
        { rewrite Epre in L. cbn in L. destruct L as (-> & _). cbn. apply Nat.eqb_neq. intros ->. destruct Hnc as [Hnc _].
          apply Hnc. rewrite Epre. now left. }
        rewrite Hfirst, Eb, last_opt_snoc. cbn [cb_last cb_heap cb_first].
        rewrite La. exists (pre ++ post). split.
        -- assert (Lk : linked (set_next (cb_heap t) b (nd_next n)) (cb_first t) (pre ++ post)).
           { rewrite Eb, <- app_assoc in L |- *. cbn [app] in L |- *.
             assert (Nb : ~ In b pre1 /\ ~ In b (c :: post)).
             { rewrite Eb, <- app_assoc in N. cbn [app] in N. apply NoDup_remove_2 in N. rewrite in_app_iff in N. tauto. }
             apply (linked_relink (cb_heap t) pre1 (cb_first t) b (c :: post) post (nd_next n)); auto; [tauto|].
             destruct Nb as [_ Nb]. intros H. apply Nb. now right. }
           assert (Nd : NoDup (pre ++ post)) by (apply NoDup_remove_1 in N; exact N).
           rewrite last_opt_mid. destruct post as [|d post].
           ++ cbn [ptr_eqb]. rewrite Nat.eqb_refl. split; cbn [cb_heap cb_first cb_last]; auto.
              rewrite app_nil_r, Eb, last_opt_snoc. reflexivity.
           ++ assert (Hx : ptr_eqb (last_opt (d :: post)) (Some c) = false).
              { destruct (last_opt (d :: post)) as [z|] eqn:Ez; [|reflexivity]. cbn. apply Nat.eqb_neq. intros ->.
                apply last_opt_in in Ez. tauto. }
              rewrite Hx. split; cbn [cb_heap cb_first cb_last]; auto.
              rewrite last_opt_mid. destruct post; reflexivity.
        -- assert (Hh : forall x : callbacks, cb_heap (if ptr_eqb (last_opt (pre ++ c :: post)) (Some c)
              then {| cb_heap := set_next (cb_heap t) b (nd_next n); cb_first := cb_first t; cb_last := Some b |}
              else {| cb_heap := set_next (cb_heap t) b (nd_next n); cb_first := cb_first t; cb_last := last_opt (pre ++ c :: post) |})
              = set_next (cb_heap t) b (nd_next n)) by (intros _; destruct (ptr_eqb (last_opt (pre ++ c :: post)) (Some c)); reflexivity).
           rewrite <- Eb. rewrite Hh by exact t. rewrite set_next_entries. apply entries_app.
    + specialize (IH (pre ++ [c]) fuel (nd_next n)). rewrite <- app_assoc in IH. cbn [app] in IH.
      rewrite last_opt_snoc in IH. destruct IH as [I1 I2]; auto.
      * cbn in Hf. lia.
      * intros e He. rewrite entries_app in He. apply in_app_or in He as [He|He]; [auto|].
        cbn in He. rewrite En in He. destruct He as [<-|[]]. exact Em.
      * split; [exact I1|]. rewrite entries_app, drop_first_app in I2 by exact Hp.
        cbn [entries flat_map] in I2. rewrite En in I2. cbn [app drop_first] in I2.
        fold (entries (cb_heap t) post) in I2. change (is_for h k (entry_of n)) with (Z.eqb (nd_handler n) h && Z.eqb (nd_key n) k) in I2.
        rewrite Em in I2. exact I2.
Qed.

Lemma linked_len h p ads : linked h p ads -> NoDup ads -> length ads <= length h.
Proof.
  intros L N. rewrite <- (seq_length (length h) 0). apply NoDup_incl_length; [exact N|].
  intros a Ha. apply in_seq. split; [lia|]. cbn. eapply linked_lt; eauto.
Qed.

Lemma remove_rep t l h k : rep t l -> snd (cb_remove t h k) = CbUnit /\ rep (fst (cb_remove t h k)) (drop_first (is_for h k) l).
Proof.
  intros (ads & [L N La] & <-). unfold cb_remove.
  apply (remove_loop_rep t h k ads [] (length (cb_heap t)) (cb_first t)); auto.
  - eapply linked_len; eauto.
  - intros e [].
Qed.

Lemma invoke_loop_rep h : forall ads fuel p acc, linked h p ads -> length ads <= fuel ->
  cb_invoke_loop fuel h p acc = CbCalled (acc ++ fst (called (entries h ads))) (snd (called (entries h ads))).
Proof.
  induction ads as [|a ads IH]; intros fuel p acc L Hf; cbn in L.
  - subst p. cbn. rewrite app_nil_r. now destruct fuel.
  - destruct L as (-> & n & E & L). destruct fuel as [|fuel]; [cbn in Hf; lia|]. cbn. rewrite E. cbn.
    destruct (cf_panics (nd_call n)); [reflexivity|]. rewrite (IH fuel _ _ L) by (cbn in Hf; lia).
    fold (entries h ads). destruct (called (entries h ads)) as [ids b]. cbn. now rewrite <- app_assoc.
Qed.
Lemma count_loop_rep h : forall ads fuel p n, linked h p ads -> length ads <= fuel ->
  cb_count_loop fuel h p n = CbNum (n + length ads).
Proof.
  induction ads as [|a ads IH]; intros fuel p m L Hf; cbn in L.
  - subst p. cbn. rewrite Nat.add_0_r. now destruct fuel.
  - destruct L as (-> & n & E & L). destruct fuel as [|fuel]; [cbn in Hf; lia|]. cbn. rewrite E.
    rewrite (IH fuel _ _ L) by (cbn in Hf; lia). f_equal. lia.
Qed.

Lemma step_rep t l o : rep t l -> snd (cb_step t o) = snd (list_step l o) /\ rep (fst (cb_step t o)) (fst (list_step l o)).
Proof.
  intros R. destruct o as [h k f|h k| |]; cbn [cb_step list_step].
  - destruct (cb_add t h k f) as [t1 r] eqn:E. destruct (add_rep t l h k f t1 r R E) as [-> R1].
    destruct f; split; auto.
  - exact (remove_rep t l h k R).
  - split; [|exact R]. destruct R as (ads & [L N La] & <-). cbn [snd]. unfold cb_invoke.
    rewrite (invoke_loop_rep _ ads) by (auto; eapply linked_len; eauto). reflexivity.
  - split; [|exact R]. destruct R as (ads & [L N La] & <-). cbn [snd]. unfold cb_count.
    rewrite (count_loop_rep _ ads) by (auto; eapply linked_len; eauto). rewrite (entries_len _ _ _ L). reflexivity.
Qed.

Lemma run_rep os : forall t l, rep t l -> snd (cb_run t os) = snd (list_run l os).
Proof.
  induction os as [|o os IH]; intros t l R; cbn [cb_run list_run]; [reflexivity|].
  destruct (step_rep t l o R) as [E R1]. destruct (cb_step t o) as [t1 r], (list_step l o) as [l1 r']. cbn [fst snd] in *.
  specialize (IH _ _ R1). destruct (cb_run t1 os), (list_run l1 os). cbn [snd] in *. congruence.
Qed.

Lemma new_rep : rep cb_new [].
Proof. exists []. split; [|reflexivity]. split; cbn; [reflexivity|constructor|reflexivity]. Qed.

From Coq Require Import ZArith List Bool Arith Lia Permutation.
From Verif Require Import Bytes GoSlice ShardMap Spec_Map ShardMap_proofs ShardIter Spec_ShardIter.
Import ListNotations.

Section P.
Context {V : Type}.

(* The map under other callers. *)
Lemma setnx_inv (m : smap V) k v : minv m -> minv (fst (sm_setnx m k v)).
Proof. intros I. unfold sm_setnx. destruct (gm_get k (get_shard m k)); cbn; [exact I|]. now apply (set_inv m k v). Qed.
Lemma after_inv (m : smap V) o : minv m -> minv (after m o).
Proof.
  intros I. destruct o; cbn; try exact I.
  - now apply set_inv.
  - now apply setnx_inv.
  - now apply remove_inv.
  - destruct (_ && _); [now apply (remove_inv m k)|exact I].
  - now apply (remove_inv m k).
Qed.
Lemma after_hash (m : smap V) o : sm_hash (after m o) = sm_hash m.
Proof.
  destruct o; cbn; try reflexivity.
  - unfold sm_setnx. destruct (gm_get k (get_shard m k)); reflexivity.
  - destruct (_ && _); reflexivity.
Qed.
Lemma set_nth_other {B} n (x d : B) l i : i <> n -> nth i (set_nth n x l) d = nth i l d.
Proof. revert n i; induction l as [|a l IH]; destruct n, i; cbn; intros; try lia; auto. Qed.
Lemma put_shard_other (m : smap V) k g i : shard_of (sm_hash m) k <> i -> shard (put_shard m k g) i = shard m i.
Proof. intros N. unfold shard, put_shard; cbn. apply set_nth_other. auto. Qed.
Lemma after_shard (m : smap V) o h i : may m h o = true -> h i = true -> shard (after m o) i = shard m i.
Proof.
  unfold may. intros Hm Hh.
  assert (G : forall k, negb (h (shard_of (sm_hash m) k)) = true -> shard_of (sm_hash m) k <> i).
  { intros k Hk E. rewrite E, Hh in Hk. discriminate. }
  destruct o; cbn in *; try reflexivity; apply G in Hm.
  - now apply put_shard_other.
  - unfold sm_setnx. destruct (gm_get k (get_shard m k)); [reflexivity|]. now apply put_shard_other.
  - now apply put_shard_other.
  - destruct (_ && _); [now apply put_shard_other|reflexivity].
  - now apply put_shard_other.
Qed.
Lemma shard_nodup (m : smap V) i : minv m -> NoDup (map fst (shard m i)).
Proof.
  intros [L N _]. unfold shard. destruct (nth_error (sm_shards m) i) eqn:E.
  - rewrite (nth_error_nth _ _ _ E). eauto.
  - rewrite nth_overflow; [constructor|]. now apply nth_error_None.
Qed.
Lemma shard_home (m : smap V) i e : minv m -> In e (shard m i) -> shard_of (sm_hash m) (fst e) = i.
Proof.
  intros [L _ H] Hin. unfold shard in Hin. destruct (nth_error (sm_shards m) i) as [g|] eqn:E.
  - rewrite (nth_error_nth _ _ _ E) in Hin. eapply H; [exact E|]. now apply in_map.
  - rewrite nth_overflow in Hin; [destruct Hin|]. now apply nth_error_None.
Qed.
Lemma shard_get (m : smap V) k v : minv m -> In (k, v) (shard m (shard_of (sm_hash m) k)) <-> sm_get m k = Some v.
Proof. intros I. unfold sm_get, get_shard. apply gm_in_get. now apply shard_nodup. Qed.

(* Ranging over one shard. *)
Lemma rest_nil (g : gomap V) : rest g [] = g.
Proof. unfold rest. induction g as [|e g IH]; cbn in *; [reflexivity|now rewrite IH]. Qed.
Lemma rest_cons (g : gomap V) k seen : rest g (k :: seen) = filter (fun e => negb (key_eqb (fst e) k)) (rest g seen).
Proof.
  unfold rest. induction g as [|e g IH]; cbn in *; [reflexivity|]. rewrite IH.
  destruct (key_eqb (fst e) k) eqn:E; cbn; destruct (existsb (key_eqb (fst e)) seen); cbn; try rewrite E; cbn; try reflexivity.
Qed.
Lemma filter_nodup {A B} (f : A -> B) p l : NoDup (map f l) -> NoDup (map f (filter p l)).
Proof.
  induction l as [|x l IH]; cbn; intros H; [constructor|]. inversion H as [|? ? H1 H2]; subst.
  destruct (p x); cbn; [|auto]. constructor; [|auto]. intros Hin. apply H1.
  apply in_map_iff in Hin as [y [Hy Hin]]. apply filter_In in Hin as [Hin _]. rewrite <- Hy. now apply in_map.
Qed.
Lemma filter_all {A} (p : A -> bool) l : (forall x, In x l -> p x = true) -> filter p l = l.
Proof.
  induction l as [|x l IH]; cbn; intros H; [reflexivity|]. rewrite (H x) by now left. f_equal. apply IH. intros; apply H; now right.
Qed.
Lemma take_perm (l : gomap V) n e : NoDup (map fst l) -> nth_error l n = Some e ->
  Permutation l (e :: filter (fun x => negb (key_eqb (fst x) (fst e))) l).
Proof.
  revert n; induction l as [|x l IH]; intros [|n]; cbn; intros N E; try discriminate; inversion N as [|? ? N1 N2]; subst.
  - injection E as ->. rewrite key_eqb_refl. cbn. apply perm_skip. rewrite filter_all; [reflexivity|].
    intros y Hy. apply negb_true_iff, key_eqb_neq. intros Q. apply N1. rewrite <- Q. now apply in_map.
  - assert (Hx : key_eqb (fst x) (fst e) = false).
    { apply key_eqb_neq. intros Q. apply N1. rewrite Q. apply in_map. eapply nth_error_In; eauto. }
    rewrite Hx. cbn. rewrite (IH n N2 E) at 1. apply perm_swap.
Qed.
Lemma rest_take (g : gomap V) seen n e : NoDup (map fst g) -> nth_error (rest g seen) n = Some e ->
  Permutation (rest g seen) (e :: rest g (fst e :: seen)).
Proof. intros N E. rewrite rest_cons. apply (take_perm _ n); [|exact E]. now apply filter_nodup. Qed.

(* The entries of one shard in a list. *)
Definition mine {A} (f : A -> key) (h : key -> Z) (i : nat) (l : list A) : list A := filter (fun e => shard_of h (f e) =? i) l.
Lemma mine_app {A} (f : A -> key) h i a b : mine f h i (a ++ b) = mine f h i a ++ mine f h i b.
Proof. apply filter_app. Qed.
Lemma mine_nodup {A} (f : A -> key) h l : (forall i, NoDup (map f (mine f h i l))) -> NoDup (map f l).
Proof.
  induction l as [|x l IH]; cbn; intros H; [constructor|]. constructor.
  - intros Hin. specialize (H (shard_of h (f x))). rewrite Nat.eqb_refl in H. cbn in H. inversion H as [|? ? H1 _]; subst.
    apply H1. apply in_map_iff in Hin as [y [Hy Hin]]. rewrite <- Hy. apply in_map. apply filter_In. split; [exact Hin|].
    rewrite Hy. apply Nat.eqb_refl.
  - apply IH. intros i. specialize (H i). destruct (shard_of h (f x) =? i); cbn in H; [now inversion H|exact H].
Qed.
Lemma mine_one {A} (f : A -> key) h i (e : A) : mine f h i [e] = if shard_of h (f e) =? i then [e] else [].
Proof. reflexivity. Qed.
Lemma nth_error_set {B} n (x : B) l i : n < length l ->
  nth_error (set_nth n x l) i = if i =? n then Some x else nth_error l i.
Proof. revert n i; induction l as [|a l IH]; destruct n, i; cbn; intros; try lia; auto. apply IH; lia. Qed.
Lemma nth_lt {B} (l : list B) n x : nth_error l n = Some x -> n < length l.
Proof. intros E. apply nth_error_Some. congruence. Qed.

(* IterBuffered. *)
Definition fanl (n : npc V) : gomap V := match n with NHas e => [e] | _ => [] end.
Definition seen_of (s : iter V) (i : nat) : gomap V := mine fst (sm_hash (ir_map s)) i (ir_out s ++ ir_got s).
Arguments seen_of : simpl never.
Arguments mine : simpl never.
Arguments rest : simpl never.
Arguments shard : simpl never.
Definition lane_ok (past : list (smap V)) (s : iter V) (i : nat) (l : lane V) : Prop :=
  match ln_pc l with
  | FStart => ln_cap l = 0 /\ ln_ch l = [] /\ ln_fan l = NReady /\ seen_of s i = []
  | FFill seen => ln_cap l = length (shard (ir_map s) i) /\ ln_fan l <> NEnd /\
      Permutation (rest (shard (ir_map s) i) seen ++ ln_ch l ++ fanl (ln_fan l) ++ seen_of s i) (shard (ir_map s) i)
  | FEnd => (ln_fan l = NEnd -> ln_ch l = []) /\ exists m, In m past /\ ln_cap l = length (shard m i) /\
      Permutation (ln_ch l ++ fanl (ln_fan l) ++ seen_of s i) (shard m i)
  end.
Record iinv (h : key -> Z) (past : list (smap V)) (s : iter V) : Prop := {
  ii_now : In (ir_map s) past;
  ii_past : forall m, In m past -> minv m /\ sm_hash m = h;
  ii_len : length (ir_lanes s) = shard_count;
  ii_lane : forall i l, nth_error (ir_lanes s) i = Some l -> lane_ok past s i l;
  ii_none : ir_total s = None -> ir_out s = [] /\ ir_got s = [] /\ ir_closed s = false /\ forall i l, nth_error (ir_lanes s) i = Some l -> ln_fan l = NReady;
  ii_some : forall t, ir_total s = Some t -> t = list_sum (map ln_cap (ir_lanes s)) /\ forall i l, nth_error (ir_lanes s) i = Some l -> is_start l = false;
  ii_closed : ir_closed s = true -> forall i l, nth_error (ir_lanes s) i = Some l -> fan_done l = true;
  ii_end : ir_end s = true -> ir_closed s = true /\ ir_out s = []
}.

Lemma lane_ok_more past p s i l : lane_ok past s i l -> lane_ok (past ++ p) s i l.
Proof.
  unfold lane_ok. destruct (ln_pc l); auto. intros [H [m [H1 H2]]]. split; [exact H|]. exists m. split; [apply in_or_app; auto|exact H2].
Qed.
Lemma sum_set n (x : lane V) l y : nth_error l n = Some y -> ln_cap x = ln_cap y ->
  list_sum (map ln_cap (set_nth n x l)) = list_sum (map ln_cap l).
Proof.
  revert n; induction l as [|a l IH]; destruct n; cbn; intros E C; try discriminate.
  - injection E as ->. now rewrite C.
  - f_equal. eauto.
Qed.

(* A step that changes one lane and keeps the map. *)
Lemma lane_step h past (s s' : iter V) i l l' :
  iinv h past s -> nth_error (ir_lanes s) i = Some l -> ir_lanes s' = set_nth i l' (ir_lanes s) ->
  ir_map s' = ir_map s -> ir_total s' = ir_total s -> ir_closed s' = ir_closed s -> ir_end s' = ir_end s ->
  ir_got s' = ir_got s ->
  (forall j, j <> i -> seen_of s' j = seen_of s j) ->
  (is_start l = false -> ln_cap l' = ln_cap l) -> (is_start l = false -> is_start l' = false) ->
  (ir_total s = None -> ln_fan l' = NReady /\ ir_out s' = []) ->
  fan_done l = false -> (ir_out s' = ir_out s \/ ir_end s = false) ->
  lane_ok past s' i l' ->
  iinv h (past ++ [ir_map s']) s'.
Proof.
  intros I E El Em Et Ec Ee Eg Ho Hcap Hst Hn Hfd Hout Hl. pose proof (nth_lt _ _ _ E) as Hlt. destruct I as [I1 I2 I3 I4 I5 I6 I7 I8].
  assert (Gl : forall j k, nth_error (ir_lanes s') j = Some k -> (j = i /\ k = l') \/ (j <> i /\ nth_error (ir_lanes s) j = Some k)).
  { intros j k. rewrite El, nth_error_set by exact Hlt. destruct (Nat.eqb_spec j i) as [->|N]; intros Q; [left; split; congruence|right; auto]. }
  split.
  - apply in_or_app; right; now left.
  - intros m Hin. apply in_app_or in Hin as [Hin|[<-|[]]]; [auto|]. rewrite Em. auto.
  - rewrite El, set_nth_len. exact I3.
  - intros j k Hj. apply lane_ok_more. destruct (Gl _ _ Hj) as [[-> ->]|[N Hk]]; [exact Hl|].
    specialize (I4 _ _ Hk). unfold lane_ok in *. rewrite Em, (Ho _ N). exact I4.
  - rewrite Et, Ec, Eg. intros T. destruct (I5 T) as [Q1 [Q2 [Q3 Q4]]]. destruct (Hn T) as [Q5 Q6]. split; [exact Q6|]. split; [exact Q2|]. split; [exact Q3|].
    intros j k Hj. destruct (Gl _ _ Hj) as [[-> ->]|[N Hk]]; [exact Q5|eauto].
  - rewrite Et. intros t T. destruct (I6 _ T) as [Q1 Q2]. split.
    + rewrite Q1, El. symmetry. apply (sum_set _ _ _ l); [exact E|]. apply Hcap. eauto.
    + intros j k Hj. destruct (Gl _ _ Hj) as [[-> ->]|[N Hk]]; [apply Hst; eauto|eauto].
  - rewrite Ec. intros T. specialize (I7 T _ _ E). congruence.
  - rewrite Ee, Ec. intros T. destruct (I8 T) as [Q1 Q2]. split; [exact Q1|]. destruct Hout; congruence.
Qed.
Lemma same_seen (s s' : iter V) j : ir_map s' = ir_map s -> ir_out s' = ir_out s -> ir_got s' = ir_got s -> seen_of s' j = seen_of s j.
Proof. intros A B C. unfold seen_of. now rewrite A, B, C. Qed.
Lemma iinv_same h past s : iinv h past s -> iinv h (past ++ [ir_map s]) s.
Proof.
  intros [I1 I2 I3 I4 I5 I6 I7 I8]. split; auto.
  - apply in_or_app; now left.
  - intros m Hin. apply in_app_or in Hin as [Hin|[<-|[]]]; auto.
  - intros i l H. apply lane_ok_more; auto.
Qed.

Lemma mine_home (h : key -> Z) i (l : gomap V) : (forall e, In e l -> shard_of h (fst e) = i) -> mine fst h i l = l.
Proof. intros H. apply filter_all. intros e He. apply Nat.eqb_eq. auto. Qed.
Lemma lane_home h past s i l e : iinv h past s -> nth_error (ir_lanes s) i = Some l ->
  In e (ln_ch l ++ fanl (ln_fan l)) -> shard_of h (fst e) = i.
Proof.
  intros I E Hin. pose proof (ii_lane _ _ _ I _ _ E) as H. unfold lane_ok in H.
  assert (G : forall m, In m past -> forall x y, Permutation (x ++ ln_ch l ++ fanl (ln_fan l) ++ y) (shard m i) -> shard_of h (fst e) = i).
  { intros m Hm x y P. destruct (ii_past _ _ _ I _ Hm) as [Im <-]. apply shard_home; [exact Im|]. apply (Permutation_in e P).
    apply in_or_app; right. rewrite app_assoc. apply in_or_app; now left. }
  destruct (ln_pc l).
  - destruct H as [_ [Q1 [Q2 _]]]. rewrite Q1, Q2 in Hin. destruct Hin.
  - destruct H as [_ [_ P]]. apply (G _ (ii_now _ _ _ I) _ _ P).
  - destruct H as [_ [m [Hm [_ P]]]]. apply (G _ Hm [] _ P).
Qed.

Lemma iter_step_inv h past s lb : iinv h past s -> iinv h (past ++ [ir_map (iter_step s lb)]) (iter_step s lb).
Proof.
  intros I. pose proof (iinv_same _ _ _ I) as Same. pose proof (ii_past _ _ _ I _ (ii_now _ _ _ I)) as [Im Eh].
  destruct lb as [o|i|i n|i| |i|i|i| |]; cbn [iter_step].
  - destruct (may _ _ o) eqn:Hm; [|exact Same]. destruct I as [I1 I2 I3 I4 I5 I6 I7 I8].
    split; cbn [iw_map ir_map ir_lanes ir_total ir_out ir_closed ir_got ir_end]; auto.
    + apply in_or_app; right; now left.
    + intros m Hin. apply in_app_or in Hin as [Hin|[<-|[]]]; [auto|]. rewrite after_hash. split; [now apply after_inv|exact Eh].
    + intros i l E. specialize (I4 _ _ E). unfold lane_ok, seen_of in *. cbn [iw_map ir_map ir_out ir_got]. rewrite after_hash.
      destruct (ln_pc l) eqn:P; [exact I4| |].
      * rewrite (after_shard _ _ _ _ Hm); [exact I4|]. unfold held. rewrite E. destruct l; cbn in P; now rewrite P.
      * destruct I4 as [Q [m [Q1 Q2]]]. split; [exact Q|]. exists m. split; [apply in_or_app; auto|exact Q2].
  - destruct (nth_error (ir_lanes s) i) as [[[|seen|] cap ch f]|] eqn:E; try exact Same.
    pose proof (ii_lane _ _ _ I _ _ E) as H. cbn in H. destruct H as [H1 [H2 [H3 H4]]]. subst.
    eapply (lane_step _ _ _ _ i _ _ I E); try reflexivity; cbn; try discriminate; try tauto.
    + intros T. split; [reflexivity|]. apply (ii_none _ _ _ I T).
    + unfold lane_ok. cbn [ln_pc ln_cap ln_ch ln_fan fanl iw_lane ir_map]. split; [reflexivity|]. split; [discriminate|]. rewrite rest_nil.
      match goal with |- context [seen_of ?x i] => change (seen_of x i) with (seen_of s i) end. cbn [app]. rewrite H4, app_nil_r. reflexivity.
  - destruct (nth_error (ir_lanes s) i) as [[[|seen|] cap ch f]|] eqn:E; try exact Same.
    destruct (nth_error (rest _ _) n) as [e|] eqn:En; try exact Same.
    destruct (length ch <? cap) eqn:Hc; try exact Same.
    pose proof (ii_lane _ _ _ I _ _ E) as H. cbn in H. destruct H as [H1 [H2 H3]].
    eapply (lane_step _ _ _ _ i _ _ I E); try reflexivity; cbn; try discriminate; try tauto.
    + intros T. split; [|apply (ii_none _ _ _ I T)]. destruct (ii_none _ _ _ I T) as [_ [_ [_ Q]]]. apply (Q _ _ E).
    + unfold fan_done; cbn. destruct f; congruence || reflexivity.
    + unfold lane_ok. cbn [ln_pc ln_cap ln_ch ln_fan fanl iw_lane ir_map]. split; [exact H1|]. split; [exact H2|].
      match goal with |- context [seen_of ?x i] => change (seen_of x i) with (seen_of s i) end.
      rewrite <- H3 at 2. rewrite (rest_take _ _ _ _ (shard_nodup _ i Im) En). cbn.
      rewrite (Permutation_app_comm ch [e]). cbn. symmetry. rewrite <- Permutation_middle. reflexivity.
  - destruct (nth_error (ir_lanes s) i) as [[[|seen|] cap ch f]|] eqn:E; try exact Same.
    destruct (rest _ _) eqn:Er; try exact Same.
    pose proof (ii_lane _ _ _ I _ _ E) as H. cbn in H. destruct H as [H1 [H2 H3]].
    eapply (lane_step _ _ _ _ i _ _ I E); try reflexivity; cbn; try discriminate; try tauto.
    + intros T. split; [|apply (ii_none _ _ _ I T)]. destruct (ii_none _ _ _ I T) as [_ [_ [_ Q]]]. apply (Q _ _ E).
    + unfold fan_done; cbn. destruct f; congruence || reflexivity.
    + unfold lane_ok. cbn. split; [intros Q; congruence|]. exists (ir_map s). split; [apply (ii_now _ _ _ I)|]. split; [exact H1|].
      rewrite Er in H3. exact H3.
  - destruct (ir_total s) as [t|] eqn:T; [exact Same|]. destruct (forallb _ (ir_lanes s)) eqn:F; [|exact Same].
    destruct I as [I1 I2 I3 I4 I5 I6 I7 I8]. split; cbn [ir_map ir_lanes ir_total ir_out ir_closed ir_got ir_end]; auto; try discriminate.
    + apply in_or_app; now left.
    + intros m Hin. apply in_app_or in Hin as [Hin|[<-|[]]]; auto.
    + intros i l E. apply lane_ok_more. exact (I4 _ _ E).
    + intros t Q. injection Q as <-. split; [reflexivity|]. intros i l E. apply nth_error_In in E.
      rewrite forallb_forall in F. specialize (F _ E). now apply negb_true_iff in F.
  - destruct (ir_total s) as [t|] eqn:T; [|exact Same].
    destruct (nth_error (ir_lanes s) i) as [[p cap [|e ch] [| |]]|] eqn:E; try exact Same.
    pose proof (ii_lane _ _ _ I _ _ E) as H.
    eapply (lane_step _ _ _ _ i _ _ I E); try reflexivity; cbn; try discriminate; try tauto; try congruence.
    unfold lane_ok in *. cbn [ln_pc ln_cap ln_ch ln_fan fanl iw_lane ir_map app] in *.
    match goal with |- context [seen_of ?x i] => change (seen_of x i) with (seen_of s i) end. destruct p as [|seen|].
    + destruct H as [_ [Q _]]; discriminate.
    + destruct H as [H1 [H2 H3]]. split; [exact H1|]. split; [discriminate|]. etransitivity; [|exact H3].
      apply Permutation_app_head. symmetry. apply Permutation_middle.
    + destruct H as [H1 [m [H2 [H3 H4]]]]. split; [discriminate|]. exists m. split; [exact H2|]. split; [exact H3|]. rewrite <- H4.
      symmetry. apply Permutation_middle.
  - destruct (ir_total s) as [t|] eqn:T; [|exact Same].
    destruct (nth_error (ir_lanes s) i) as [[p cap ch [|e|]]|] eqn:E; try exact Same.
    destruct (length (ir_out s) <? t) eqn:Hlt; [|exact Same].
    pose proof (ii_lane _ _ _ I _ _ E) as H.
    assert (He : shard_of (sm_hash (ir_map s)) (fst e) = i).
    { rewrite Eh. eapply (lane_home _ _ _ _ _ e I E). cbn. apply in_or_app; right; now left. }
    eapply (lane_step _ _ _ _ i _ _ I E); try reflexivity; cbn; try discriminate; try tauto; try congruence.
    + intros j Hj. unfold seen_of. cbn. rewrite !mine_app, mine_one, He.
      destruct (Nat.eqb_spec i j); [congruence|]. now rewrite app_nil_r.
    + right. destruct (ir_end s) eqn:Ee; [|reflexivity]. destruct (ii_end _ _ _ I Ee) as [Q _].
      specialize (ii_closed _ _ _ I Q _ _ E). discriminate.
    + assert (Hs : Permutation (seen_of (iw_out (iw_lane s i (Lane p cap ch NReady)) (ir_out s ++ [e])) i) (e :: seen_of s i)).
      { unfold seen_of. cbn. rewrite !mine_app, mine_one, He, Nat.eqb_refl. rewrite <- app_assoc. cbn. symmetry. apply Permutation_middle. }
      unfold lane_ok in *. cbn [ln_pc ln_cap ln_ch ln_fan fanl iw_out iw_lane ir_map app] in *. destruct p as [|seen|].
      * destruct H as [_ [_ [Q _]]]; discriminate.
      * destruct H as [H1 [H2 H3]]. split; [exact H1|]. split; [discriminate|]. etransitivity; [|exact H3].
        do 2 apply Permutation_app_head. exact Hs.
      * destruct H as [H1 [m [H2 [H3 H4]]]]. split; [discriminate|]. exists m. split; [exact H2|]. split; [exact H3|]. rewrite <- H4.
        apply Permutation_app_head. exact Hs.
  - destruct (ir_total s) as [t|] eqn:T; [|exact Same].
    destruct (nth_error (ir_lanes s) i) as [[[|seen|] cap [|e ch] [|e'|]]|] eqn:E; try exact Same.
    pose proof (ii_lane _ _ _ I _ _ E) as H.
    eapply (lane_step _ _ _ _ i _ _ I E); try reflexivity; cbn; try discriminate; try tauto; try congruence.
    unfold lane_ok in *. cbn [ln_pc ln_cap ln_ch ln_fan fanl iw_lane ir_map app] in *.
    match goal with |- context [seen_of ?x i] => change (seen_of x i) with (seen_of s i) end. destruct H as [_ H]. split; [reflexivity|exact H].
  - destruct (ir_total s) as [t|] eqn:T; [|exact Same]. destruct (forallb _ (ir_lanes s)) eqn:F; [|exact Same].
    destruct I as [I1 I2 I3 I4 I5 I6 I7 I8]. split; cbn [ir_map ir_lanes ir_total ir_out ir_closed ir_got ir_end]; auto; try discriminate.
    + apply in_or_app; now left.
    + intros m Hin. apply in_app_or in Hin as [Hin|[<-|[]]]; auto.
    + intros i l E. apply lane_ok_more. exact (I4 _ _ E).
    + intros t' Q. rewrite <- T in Q. now apply I6.
    + intros _ i l E. apply nth_error_In in E. rewrite forallb_forall in F. exact (F _ E).
    + intros Q. split; [reflexivity|]. now apply I8.
  - destruct (ir_total s) as [t|] eqn:T; [|exact Same]. destruct (ir_out s) as [|e o] eqn:Eo.
    + destruct (ir_closed s) eqn:Ec; [|exact Same].
      destruct I as [I1 I2 I3 I4 I5 I6 I7 I8]. split; cbn [ir_map ir_lanes ir_total ir_out ir_closed ir_got ir_end]; auto; try discriminate.
      * apply in_or_app; now left.
      * intros m Hin. apply in_app_or in Hin as [Hin|[<-|[]]]; auto.
      * intros i l E. apply lane_ok_more. specialize (I4 _ _ E). unfold lane_ok, seen_of in *. cbn. rewrite Eo in I4. exact I4.
      * intros t' Q. rewrite <- T in Q. now apply I6.
      * intros _. exact (I7 Ec).
    + destruct I as [I1 I2 I3 I4 I5 I6 I7 I8]. split; cbn [ir_map ir_lanes ir_total ir_out ir_closed ir_got ir_end]; auto; try discriminate.
      * apply in_or_app; now left.
      * intros m Hin. apply in_app_or in Hin as [Hin|[<-|[]]]; auto.
      * intros i l E. apply lane_ok_more. specialize (I4 _ _ E).
        assert (Hs : Permutation (seen_of (Iter (ir_map s) (ir_lanes s) (ir_total s) o (ir_closed s) (ir_got s ++ [e]) (ir_end s)) i) (seen_of s i)).
        { unfold seen_of. cbn. rewrite Eo, !mine_app. cbn [mine filter]. rewrite app_assoc, Permutation_app_comm, app_assoc.
          unfold mine. cbn. destruct (shard_of _ (fst e) =? i); cbn; [|reflexivity]. reflexivity. }
        rewrite <- T. unfold lane_ok in *. cbn [ir_map] in *. destruct (ln_pc l).
        -- destruct I4 as [Q1 [Q2 [Q3 Q4]]]. rewrite Q4 in Hs. apply Permutation_sym, Permutation_nil in Hs. rewrite Hs. auto.
        -- destruct I4 as [Q1 [Q2 Q3]]. split; [exact Q1|]. split; [exact Q2|]. rewrite Hs. exact Q3.
        -- destruct I4 as [Q1 [m [Q2 [Q3 Q4]]]]. split; [exact Q1|]. exists m. split; [exact Q2|]. split; [exact Q3|]. rewrite Hs. exact Q4.
      * intros t' Q. rewrite <- T in Q. now apply I6.
      * intros Q. destruct (I8 Q) as [_ Q2]. congruence.
Qed.
End P.

From Coq Require Import String ZArith List Bool Lia ZifyBool Permutation.
From Verif Require Import Bytes LogCore Spec_LogCore.
Import ListNotations.
Local Open Scope list_scope.
Local Open Scope Z_scope.

(* ---- itoa ---- *)
Lemma value_app l d : value (l ++ [d]) = 10 * value l + (b2z d - 48).
Proof. unfold value. now rewrite fold_left_app. Qed.

Lemma digit_of_b u : b2z (digit_of u) = u mod 10 + 48.
Proof. unfold digit_of. rewrite b2z_z2b, Z.mod_small; [reflexivity|]. pose proof (Z.mod_pos_bound u 10). lia. Qed.

Definition loose (n wid : Z) (l : list byte) : Prop :=
  Forall is_digit l /\ value l = n /\ wid <= Z.of_nat (length l) /\
  (forall d l', l = d :: l' -> wid < Z.of_nat (length l) -> b2z d <> 48).

Lemma itoa_loop_ok : forall bp u wid b, 0 <= u < 10 ^ Z.of_nat bp -> wid <= Z.of_nat bp ->
  exists l, itoa_loop bp u wid b = Some (l ++ b) /\ loose u wid l.
Proof.
  induction bp as [|bp IH]; intros u wid b Hu Hw.
  - change (10 ^ Z.of_nat 0) with 1 in Hu. cbn [itoa_loop].
    replace ((0 <? u) || (0 <? wid)) with false by lia.
    exists []. split; [reflexivity|]. unfold loose, value. cbn [fold_left length]. repeat split; try lia; [constructor|discriminate].
  - cbn [itoa_loop]. destruct ((0 <? u) || (0 <? wid)) eqn:E.
    2:{ exists []. split; [reflexivity|]. unfold loose, value. cbn [fold_left length]. repeat split; try lia; [constructor|discriminate]. }
    destruct (IH (u / 10) (wid - 1) (digit_of u :: b)) as (l & R & F & V & L & N).
    { rewrite Nat2Z.inj_succ, Z.pow_succ_r in Hu by lia. split; [apply Z.div_pos; lia|apply Z.div_lt_upper_bound; lia]. }
    { lia. }
    exists (l ++ [digit_of u]). rewrite <- app_assoc. split; [exact R|].
    pose proof (digit_of_b u) as D. pose proof (Z.mod_pos_bound u 10 ltac:(lia)) as M. pose proof (Z.div_mod u 10 ltac:(lia)) as Q.
    unfold loose. rewrite value_app, app_length, V. cbn [length]. repeat split; try lia.
    + apply Forall_app. split; [exact F|]. constructor; [unfold is_digit; lia|constructor].
    + intros d l' Ed Ln. destruct l as [|d0 l0].
      * cbn [app] in Ed. injection Ed as <- <-. cbn [length] in *. change (value []) with 0 in V. lia.
      * cbn [app] in Ed. injection Ed as <- _. eapply N; [reflexivity|]. lia.
Qed.

Lemma value_0 l : Forall is_digit l -> 0 <= value l.
Proof.
  induction l as [|d l IH] using rev_ind; [now cbn|]. intros F. apply Forall_app in F. destruct F as [F G].
  rewrite value_app. inversion G; subst. specialize (IH F). unfold is_digit in *. lia.
Qed.

Lemma itoa_u i wid : wid <= 32 -> exists l, itoa i wid = Some l /\ padded (u64 i) wid l.
Proof.
  intros W. pose proof (u64_range i) as R. unfold itoa. destruct ((u64 i =? 0) && (wid <=? 1)) eqn:E.
  - exists [z2b 48]. split; [reflexivity|]. unfold padded, value. cbn [fold_left length].
    change (b2z (z2b 48)) with 48. repeat split; try lia. constructor; [unfold is_digit; change (b2z (z2b 48)) with 48; lia|constructor].
  - destruct (itoa_loop_ok 32 (u64 i) wid []) as (l & P & F & V & L & N).
    { change (10 ^ Z.of_nat 32) with (10^32). lia. } { lia. }
    rewrite app_nil_r in P. exists l. split; [exact P|].
    assert (l <> []) as NE. { intros ->. change (value []) with 0 in V. cbn [length] in L. lia. }
    destruct l as [|d l']; [congruence|]. unfold padded. split; [exact F|]. split; [exact V|]. split; [cbn [length] in *; lia|].
    destruct (Z.eq_dec (Z.of_nat (length (d :: l'))) (Z.max wid 1)) as [e|ne]; [now left|]. right. exists d, l'. split; [reflexivity|].
    apply (N d l' eq_refl). cbn [length] in *. lia.
Qed.

Lemma itoa_ok i wid : nat63 i -> wid <= 32 -> exists l, itoa i wid = Some l /\ padded i wid l.
Proof.
  intros H W. destruct (itoa_u i wid W) as (l & E & P). rewrite u64_small in P by (unfold nat63 in H; lia). eauto.
Qed.

Lemma value_bound l : Forall is_digit l -> value l < 10 ^ Z.of_nat (length l).
Proof.
  induction l as [|d l IH] using rev_ind; [now cbn|]. intros F. apply Forall_app in F. destruct F as [F G].
  inversion G; subst. specialize (IH F). rewrite value_app, app_length. cbn [length].
  replace (Z.of_nat (length l + 1)) with (Z.succ (Z.of_nat (length l))) by lia. rewrite Z.pow_succ_r by lia. unfold is_digit in *. lia.
Qed.

Lemma value_lead d l : Forall is_digit (d :: l) -> b2z d <> 48 -> 10 ^ Z.of_nat (length l) <= value (d :: l).
Proof.
  intros F N. induction l as [|e l IH] using rev_ind.
  - inversion F; subst. unfold value, is_digit in *. cbn [fold_left length]. change (10 ^ Z.of_nat 0) with 1. lia.
  - change (d :: l ++ [e]) with ((d :: l) ++ [e]) in *. apply Forall_app in F. destruct F as [F G]. inversion G; subst.
    specialize (IH F). rewrite value_app, app_length. cbn [length].
    replace (Z.of_nat (length l + 1)) with (Z.succ (Z.of_nat (length l))) by lia. rewrite Z.pow_succ_r by lia. unfold is_digit in *. lia.
Qed.

Lemma value_inj : forall l l', length l = length l' -> Forall is_digit l -> Forall is_digit l' -> value l = value l' -> l = l'.
Proof.
  induction l as [|d l IH] using rev_ind; intros l' L F F' V.
  - destruct l'; [reflexivity|discriminate].
  - destruct l' as [|e l'] using rev_ind; [rewrite app_length in L; cbn [length] in L; lia|]. clear IHl'.
    rewrite !app_length in L. cbn [length] in L. apply Forall_app in F, F'. destruct F as [F G], F' as [F' G']. inversion G; inversion G'; subst.
    rewrite !value_app in V. unfold is_digit in *. assert (value l = value l') as E by lia.
    rewrite (IH l') by (assumption || lia). f_equal. f_equal. apply b2z_inj. lia.
Qed.

Lemma padded_unique n wid l l' : padded n wid l -> padded n wid l' -> l = l'.
Proof.
  intros (F & V & L & H) (F' & V' & L' & H').
  assert (forall a b, Forall is_digit a -> Forall is_digit b -> value a = value b ->
    (exists d b', b = d :: b' /\ b2z d <> 48) -> (length a < length b)%nat -> False) as X.
  { intros a b Fa Fb E (d & b' & -> & N) Hl. pose proof (value_lead d b' Fb N). pose proof (value_bound a Fa).
    pose proof (Z.pow_le_mono_r 10 (Z.of_nat (length a)) (Z.of_nat (length b'))) as P. cbn [length] in Hl. lia. }
  apply value_inj; try assumption; [|lia].
  destruct (Nat.lt_trichotomy (length l) (length l')) as [lt|[e|gt]]; [exfalso|exact e|exfalso].
  - destruct H' as [H'|H']; [lia|]. eapply X; [exact F|exact F'|lia|exact H'|exact lt].
  - destruct H as [H|H]; [lia|]. eapply X; [exact F'|exact F|lia|exact H|exact gt].
Qed.

(* ---- header ---- *)
Lemma has_on flag k : 0 <= k -> has flag (2^k) = on flag k.
Proof.
  intros K. unfold has, on. destruct (Z.testbit flag k) eqn:E.
  - apply negb_true_iff. apply Z.eqb_neq. intros H. apply (f_equal (fun z => Z.testbit z k)) in H.
    rewrite Z.land_spec, E, Z.pow2_bits_true, Z.bits_0 in H by lia. discriminate.
  - apply negb_false_iff. apply Z.eqb_eq. apply Z.bits_inj'. intros n Hn. rewrite Z.land_spec, Z.bits_0.
    rewrite Z.pow2_bits_eqb by lia. destruct (Z.eqb_spec k n) as [<-|ne]; [now rewrite E|now rewrite andb_false_r].
Qed.
Lemma has_lor flag a b : has flag (Z.lor a b) = has flag a || has flag b.
Proof.
  unfold has. rewrite Z.land_lor_distr_r. destruct (Z.eqb_spec (Z.land flag a) 0) as [Ea|Na]; destruct (Z.eqb_spec (Z.land flag b) 0) as [Eb|Nb]; cbn [negb orb].
  - rewrite Ea, Eb. reflexivity.
  - rewrite Ea. rewrite Z.lor_0_l. now destruct (Z.eqb_spec (Z.land flag b) 0).
  - rewrite Eb. rewrite Z.lor_0_r. now destruct (Z.eqb_spec (Z.land flag a) 0).
  - apply negb_true_iff, Z.eqb_neq. intros H. apply Z.lor_eq_0_iff in H. tauto.
Qed.
Lemma has_timed flag : has flag (BitDate + BitTime + BitMicroSeconds) = timed flag.
Proof. change (BitDate + BitTime + BitMicroSeconds) with (Z.lor (Z.lor (2^0) (2^1)) (2^2)). rewrite !has_lor, !has_on by lia. reflexivity. Qed.
Lemma has_clock flag : has flag (BitTime + BitMicroSeconds) = on flag 1 || on flag 2.
Proof. change (BitTime + BitMicroSeconds) with (Z.lor (2^1) (2^2)). now rewrite has_lor, !has_on by lia. Qed.
Lemma has_file flag : has flag (BitShortFile + BitLongFile) = wants_file flag.
Proof. change (BitShortFile + BitLongFile) with (Z.lor (2^3) (2^4)). now rewrite has_lor, !has_on by lia. Qed.
Lemma has_date flag : has flag BitDate = on flag 0. Proof. apply (has_on flag 0). lia. Qed.
Lemma has_micro flag : has flag BitMicroSeconds = on flag 2. Proof. apply (has_on flag 2). lia. Qed.
Lemma has_short flag : has flag BitShortFile = on flag 4. Proof. apply (has_on flag 4). lia. Qed.
Lemma has_level flag : has flag BitLevel = on flag 5. Proof. apply (has_on flag 5). lia. Qed.

Lemma level_text_ok level : 0 <= level <= 5 -> (if level <? 0 then None else nth_error levels (Z.to_nat level)) = Some (level_text level).
Proof.
  intros H. replace (level <? 0) with false by lia.
  assert (level = 0 \/ level = 1 \/ level = 2 \/ level = 3 \/ level = 4 \/ level = 5) as [->|[->|[->|[->|[->| ->]]]]] by lia; reflexivity.
Qed.

Lemma skipn_split (l : list byte) i : (i < length l)%nat -> l = firstn i l ++ nth i l "000"%byte :: skipn (S i) l.
Proof.
  revert i. induction l as [|a l IH]; intros i H; [cbn [length] in H; lia|]. destruct i as [|i]; [reflexivity|].
  cbn [firstn nth skipn app]. f_equal. apply IH. cbn [length] in H. lia.
Qed.

Lemma after_slash_ok file : forall i, (i < length file)%nat -> ~ In "/"%byte (skipn (S i) file) -> base_name file (after_slash file i).
Proof.
  induction i as [|i IH]; intros L N; cbn [after_slash].
  - right. split; [reflexivity|]. intros dir rest E. destruct dir as [|a dir]; [reflexivity|exfalso].
    apply N. rewrite E. cbn [app skipn]. apply in_or_app. right. now left.
  - destruct (Byte.eqb (nth (S i) file "000"%byte) "/") eqn:E.
    + apply Byte.byte_dec_bl in E. left. exists (firstn (S i) file). split; [|split; [|exact N]].
      * destruct file; [cbn [length] in L; lia|discriminate].
      * change (str "/") with ["/"%byte]. rewrite <- E. cbn [app]. now apply skipn_split.
    + apply IH; [lia|]. intros In0. apply N.
      destruct (Nat.lt_ge_cases (S i) (length file)) as [lt|ge]; [|lia].
      pose proof (skipn_split (skipn (S i) file) 0) as S0. rewrite skipn_length in S0. specialize (S0 ltac:(lia)).
      cbn [firstn app] in S0. rewrite S0 in In0.
      assert (nth 0 (skipn (S i) file) "000"%byte = nth (S i) file "000"%byte) as E1.
      { clear. revert i. induction file as [|a file IHf]; intros i; [now destruct i|]. cbn [skipn nth].
        destruct i as [|i]; [now destruct file|]. exact (IHf i). }
      assert (skipn 1 (skipn (S i) file) = skipn (S (S i)) file) as E2.
      { clear. revert i. induction file as [|a file IHf]; intros i; [reflexivity|]. cbn [skipn]. destruct i as [|i]; [reflexivity|]. exact (IHf i). }
      rewrite E1, E2 in In0. destruct In0 as [In0|In0]; [|exact In0].
      rewrite In0 in E. discriminate.
Qed.
Lemma short_name_ok file : base_name file (short_name file).
Proof.
  unfold short_name. destruct file as [|a file].
  - right. split; [reflexivity|]. intros [|] rest E; [reflexivity|discriminate].
  - apply after_slash_ok; [cbn [length]; lia|]. rewrite skipn_all2 by (cbn [length]; lia). intros [].
Qed.

Lemma cat_some x y : Some x +++ Some y = Some (x ++ y). Proof. reflexivity. Qed.

Lemma date_ok t : time_ok t -> exists x, itoa (t_year t) 4 +++ Some (str "/") +++ itoa (t_month t) 2 +++ Some (str "/") +++ itoa (t_day t) 2 +++ Some (str " ") = Some x /\ date_text t x.
Proof.
  intros (Y & M & D & _). destruct (itoa_ok _ 4 Y ltac:(lia)) as (y & -> & Py). destruct (itoa_ok _ 2 M ltac:(lia)) as (m & -> & Pm).
  destruct (itoa_ok _ 2 D ltac:(lia)) as (d & -> & Pd). rewrite !cat_some. eexists. split; [reflexivity|]. exists y, m, d. auto.
Qed.
Lemma clock_ok t (b : bool) : time_ok t -> exists x, itoa (t_hour t) 2 +++ Some (str ":") +++ itoa (t_min t) 2 +++ Some (str ":") +++ itoa (t_sec t) 2 +++
           (if b then Some (str ".") +++ itoa (Z.quot (t_nano t) 1000) 6 else Some []) +++ Some (str " ") = Some x /\ clock_text b t x.
Proof.
  intros (_ & _ & _ & H & M & S & N). destruct (itoa_ok _ 2 H ltac:(lia)) as (h & -> & Ph). destruct (itoa_ok _ 2 M ltac:(lia)) as (m & -> & Pm).
  destruct (itoa_ok _ 2 S ltac:(lia)) as (s & -> & Ps).
  assert (exists u, (if b then Some (str ".") +++ itoa (Z.quot (t_nano t) 1000) 6 else Some []) = Some u /\
    (if b then exists u', padded (t_nano t / 1000) 6 u' /\ u = str "." ++ u' else u = [])) as (u & -> & Pu).
  { destruct b; [|now exists []]. unfold nat63 in N. rewrite Z.quot_div_nonneg by lia.
    destruct (itoa_ok (t_nano t / 1000) 6) as (u' & -> & P); [unfold nat63; split; [apply Z.div_pos; lia|apply Z.div_lt_upper_bound; lia]|lia|].
    rewrite cat_some. eexists. split; [reflexivity|]. eauto. }
  rewrite !cat_some. eexists. split; [reflexivity|]. exists h, m, s, u. auto.
Qed.
Lemma place_ok (b : bool) file line : nat63 line -> exists x, Some (if b then short_name file else file) +++ Some (str ":") +++ itoa line (-1) +++ Some (str ": ") = Some x /\ place_text b file line x.
Proof.
  intros L. destruct (itoa_ok line (-1) L ltac:(lia)) as (n & -> & P). rewrite !cat_some. eexists. split; [reflexivity|].
  eexists. exists n. split; [|split; [exact P|reflexivity]]. destruct b; [apply short_name_ok|reflexivity].
Qed.

Lemma header_ok prefix flag t file line level : time_ok t -> 0 <= level <= 5 -> nat63 line -> timed flag = true ->
  exists h, format_header prefix flag t file line level = Some h /\ header_is prefix flag t file line level h.
Proof.
  intros T L N F. unfold format_header. rewrite has_timed, has_date, has_clock, has_micro, has_level, has_file, has_short, F.
  destruct (date_ok t T) as (d & Ed & Pd). destruct (clock_ok t (on flag 2) T) as (c & Ec & Pc). destruct (place_ok (on flag 4) file line N) as (w & Ew & Pw).
  rewrite Ed, Ec, Ew, level_text_ok by assumption.
  exists (prefix_text prefix ++ (if on flag 0 then d else []) ++ (if on flag 1 || on flag 2 then c else []) ++ (if on flag 5 then level_text level else []) ++ (if wants_file flag then w else [])).
  split.
  - destruct (on flag 0), (on flag 1 || on flag 2), (on flag 5), (wants_file flag); rewrite !cat_some; reflexivity.
  - exists (if on flag 0 then d else []), (if on flag 1 || on flag 2 then c else []), (if wants_file flag then w else []).
    destruct (on flag 0), (on flag 1 || on flag 2), (wants_file flag); auto.
Qed.

Lemma untimed_header prefix flag t file line level : timed flag = false -> format_header prefix flag t file line level = Some (prefix_text prefix).
Proof. intros F. unfold format_header. rewrite has_timed, F. rewrite cat_some. now rewrite app_nil_r. Qed.

Lemma header_total prefix flag t file line level : 0 <= level <= 5 -> exists h, format_header prefix flag t file line level = Some h.
Proof.
  intros L. unfold format_header. rewrite level_text_ok by exact L.
  repeat match goal with |- context [itoa ?i ?w] => let l := fresh in let P := fresh in destruct (itoa_u i w) as (l & -> & P); [lia|clear P] end.
  repeat match goal with |- context [has ?f ?b] => destruct (has f b) end; rewrite ?cat_some; eexists; reflexivity.
Qed.

(* ---- framing ---- *)
Lemma content_framed m : m <> [] -> forall h, framed h m (h ++ content m).
Proof.
  intros NE h. unfold content. destruct m as [|c m] using rev_ind; [congruence|]. clear IHm. rewrite rev_app_distr. cbn [rev app].
  split; intros H.
  - destruct H as (m' & E). apply app_inj_tail in E. destruct E as [_ ->]. change (Byte.eqb nl nl) with true. cbn iota. now rewrite app_nil_r.
  - destruct (Byte.eqb c nl) eqn:E; [|reflexivity]. exfalso. apply H. apply Byte.byte_dec_bl in E. subst. now exists m.
Qed.

(* ---- isolation ---- *)
Lemma filter_app_one {A} (f : A -> bool) l x : filter f (l ++ [x]) = filter f l ++ (if f x then [x] else []).
Proof. rewrite filter_app. cbn [filter]. reflexivity. Qed.

Lemma drop_perm {A} : forall (l : list A) i x, nth_error l i = Some x -> Permutation l (x :: drop_nth i l).
Proof.
  induction l as [|a l IH]; intros [|i] x H; cbn [nth_error] in H; try discriminate; cbn [drop_nth].
  - injection H as ->. reflexivity.
  - specialize (IH _ _ H). rewrite IH at 1. apply perm_swap.
Qed.
Lemma filter_perm {A} (f : A -> bool) l l' : Permutation l l' -> Permutation (filter f l) (filter f l').
Proof.
  induction 1 as [|x l l' P IH|x y l|l l' l'' P IH P' IH']; cbn [filter].
  - constructor.
  - destruct (f x); [now constructor|assumption].
  - destruct (f x), (f y); try reflexivity. apply perm_swap.
  - now rewrite IH.
Qed.
Lemma set_map {A B} (g : A -> B) (f : A -> bool) : forall l i x y, nth_error l i = Some x -> g y = g x -> f y = f x -> map g (filter f (set_nth i y l)) = map g (filter f l).
Proof.
  induction l as [|a l IH]; intros [|i] x y H E F; cbn [nth_error] in H; try discriminate; cbn [set_nth filter].
  - injection H as ->. rewrite F. destruct (f x); cbn [map]; now rewrite ?E.
  - destruct (f a); cbn [map]; now rewrite (IH _ _ _ H E F).
Qed.

Definition pend_ok (q : pend) : Prop := q_by q = Method -> 0 <= q_level q <= 5.

Lemma in_drop {A} : forall (l : list A) i x, In x (drop_nth i l) -> In x l.
Proof. induction l as [|a l IH]; intros [|i] x H; cbn [drop_nth] in H; [destruct H|destruct H|now right|destruct H as [->|H]; [now left|right; eauto]]. Qed.
Lemma in_set {A} : forall (l : list A) i x y, In x (set_nth i y l) -> x = y \/ In x l.
Proof. induction l as [|a l IH]; intros [|i] x y H; cbn [set_nth] in H; [destruct H|destruct H| |]; destruct H as [->|H]; cbn [In]; auto. destruct (IH _ _ _ H); auto. Qed.

Lemma dead_stays ls : forall s, g_dead s = true -> l_run s ls = s.
Proof. induction ls as [|l ls IH]; intros s D; [reflexivity|]. change (l_run s (l :: ls)) with (l_run (l_step s l) ls). unfold l_step. rewrite D. now apply IH. Qed.

Lemma step_due s l r : g_dead (l_step s l) = false -> (forall q, In q (g_pend s) -> pend_ok q) -> (forall level m, l = LStart Method level m -> 0 <= level <= 5) ->
  (forall q, In q (g_pend (l_step s l)) -> pend_ok q) /\
  exists d, due (g_iso s) (l :: r) = d ++ due (g_iso (l_step s l)) r /\ Permutation (written s ++ under_way s ++ d) (written (l_step s l) ++ under_way (l_step s l)).
Proof.
  intros D P L. unfold l_step in *. destruct (g_dead s) eqn:D0; [congruence|].
  destruct l as [o level m|i t caller|i| |v|f|f|p].
  - destruct o.
    + rewrite Z.gtb_ltb in *. cbn [due]. destruct (level <? g_iso s) eqn:E.
      * split; [exact P|]. exists []. replace (g_iso s <=? level) with false by lia. split; [reflexivity|]. now rewrite app_nil_r.
      * replace (g_iso s <=? level) with true by lia. cbn [g_pend g_iso]. split.
        { intros q Hq. apply in_app_or in Hq. destruct Hq as [Hq|[<-|[]]]; [auto|]. intros _. eapply L. reflexivity. }
        exists [(level, m)]. split; [reflexivity|]. unfold written, under_way. cbn [g_out g_pend]. rewrite filter_app_one, map_app. reflexivity.
    + cbn [due g_pend g_iso]. split; [intros q Hq; apply in_app_or in Hq; destruct Hq as [Hq|[<-|[]]]; [auto|discriminate]|].
      exists []. split; [reflexivity|]. unfold written, under_way. cbn [g_out g_pend]. rewrite filter_app_one, map_app. reflexivity.
    + cbn [due g_pend g_iso]. split; [intros q Hq; apply in_app_or in Hq; destruct Hq as [Hq|[<-|[]]]; [auto|discriminate]|].
      exists []. split; [reflexivity|]. unfold written, under_way. cbn [g_out g_pend]. rewrite filter_app_one, map_app. reflexivity.
  - cbn [due]. destruct (nth_error (g_pend s) i) as [[o level m [w|]]|] eqn:E.
    + split; [exact P|]. exists []. rewrite app_nil_r. now split.
    + destruct (look (g_flag s) caller) as [file line]. cbn [g_pend g_iso]. split.
      * intros q Hq. apply in_set in Hq. destruct Hq as [->|Hq]; [|auto]. exact (P _ (nth_error_In _ _ E)).
      * exists []. split; [reflexivity|]. unfold written, under_way. cbn [g_out g_pend]. rewrite app_nil_r.
        erewrite (set_map (fun q => (q_level q, q_msg q)) (fun q => by_method (q_by q))); [reflexivity|exact E|reflexivity|reflexivity].
    + split; [exact P|]. exists []. rewrite app_nil_r. now split.
  - cbn [due]. destruct (nth_error (g_pend s) i) as [[o level m [[[t file] line]|]]|] eqn:E.
    + assert (forall q, In q (drop_nth i (g_pend s)) -> pend_ok q) as P' by (intros q Hq; apply P; eapply in_drop; exact Hq).
      pose proof (filter_perm (fun q => by_method (q_by q)) _ _ (drop_perm _ _ _ E)) as U.
      apply (Permutation_map (fun q => (q_level q, q_msg q))) in U. cbn [filter q_by] in U.
      destruct (format_header (g_prefix s) (g_flag s) t file line level) as [h|] eqn:H; cbn [g_pend g_iso].
      * split; [exact P'|]. exists []. split; [reflexivity|]. unfold written, under_way. cbn [g_out g_pend]. rewrite app_nil_r, filter_app_one, map_app. cbn [e_by].
        rewrite <- app_assoc. apply Permutation_app_head. rewrite U. destruct (by_method o); cbn [map app]; reflexivity.
      * split; [exact P'|]. destruct o.
        { destruct (header_total (g_prefix s) (g_flag s) t file line level) as (h & H'); [|congruence].
          exact (P _ (nth_error_In _ _ E) eq_refl). }
        { exists []. split; [reflexivity|]. unfold written, under_way. cbn [g_out g_pend]. rewrite app_nil_r. now apply Permutation_app_head. }
        { exists []. split; [reflexivity|]. unfold written, under_way. cbn [g_out g_pend]. rewrite app_nil_r. now apply Permutation_app_head. }
    + split; [exact P|]. exists []. rewrite app_nil_r. now split.
    + split; [exact P|]. exists []. rewrite app_nil_r. now split.
  - destruct (g_exit s); [discriminate D|]. split; [exact P|]. exists []. rewrite app_nil_r. now split.
  - split; [exact P|]. exists []. rewrite app_nil_r. now split.
  - split; [exact P|]. exists []. rewrite app_nil_r. now split.
  - split; [exact P|]. exists []. rewrite app_nil_r. now split.
  - split; [exact P|]. exists []. rewrite app_nil_r. now split.
Qed.

Lemma run_due ls : forall s, g_dead (l_run s ls) = false -> (forall q, In q (g_pend s) -> pend_ok q) -> levels_ok ls ->
  Permutation (written s ++ under_way s ++ due (g_iso s) ls) (written (l_run s ls) ++ under_way (l_run s ls)).
Proof.
  induction ls as [|l ls IH]; intros s D P L.
  - cbn [due]. rewrite app_nil_r. reflexivity.
  - change (l_run s (l :: ls)) with (l_run (l_step s l) ls) in *.
    assert (g_dead (l_step s l) = false) as D1.
    { destruct (g_dead (l_step s l)) eqn:E; [|reflexivity]. rewrite dead_stays in D by exact E. congruence. }
    destruct (step_due s l ls D1 P) as (P1 & d & E & Q). { intros level m ->. apply (L level m). now left. }
    rewrite <- (IH _ D P1) by (intros level m I; apply (L level m); now right).
    rewrite E, !app_assoc. rewrite !app_assoc in Q. now apply Permutation_app_tail.
Qed.

(* ---- one goroutine ---- *)
Definition solo1 (a : llabel * time * option (list byte * Z)) : list llabel :=
  match a with
  | (LStart o level m, t, c) => [LStart o level m; LLook 0 t c; LEmit 0]
  | (LLook _ _ _, _, _) | (LEmit _, _, _) => []
  | (l, _, _) => [l]
  end.
Definition solo (p : list (llabel * time * option (list byte * Z))) : list llabel := flat_map solo1 p.

Lemma solo_due p : forall s, g_pend s = [] -> g_dead (l_run s (solo p)) = false -> levels_ok (solo p) ->
  g_pend (l_run s (solo p)) = [] /\ written (l_run s (solo p)) = written s ++ due (g_iso s) (solo p).
Proof.
  induction p as [|[[l t] c] p IH]; intros s E D L.
  - split; [exact E|]. cbn [solo flat_map due]. now rewrite app_nil_r.
  - cbn [solo flat_map] in *. fold (solo p) in *.
    assert (levels_ok (solo p)) as Lp by (intros level m I; apply (L level m); apply in_or_app; now right).
    assert (forall a s0, l_run s0 (a ++ solo p) = l_run (l_run s0 a) (solo p)) as R by (intros; apply fold_left_app).
    rewrite R in *.
    assert (g_dead (l_run s (solo1 (l, t, c))) = false) as D1.
    { destruct (g_dead (l_run s (solo1 (l, t, c)))) eqn:F; [|reflexivity]. rewrite dead_stays in D by exact F. congruence. }
    assert (g_dead s = false) as D0.
    { destruct (g_dead s) eqn:F; [|reflexivity]. rewrite dead_stays in D1 by exact F. congruence. }
    destruct l as [o level m|i t' c'|i| |v|f|f|q]; cbn [solo1 app] in *.
    + destruct (match o with Method => g_iso s >? level | _ => false end) eqn:Z.
      * assert (l_run s [LStart o level m; LLook 0 t c; LEmit 0] = s) as X.
        { unfold l_run. cbn [fold_left]. unfold l_step at 3. rewrite D0, Z. unfold l_step at 2. rewrite D0, E. cbn [nth_error]. unfold l_step. now rewrite D0, E. }
        rewrite X in *. destruct (IH s E D Lp) as [I1 I2]. split; [exact I1|]. rewrite I2. destruct o; try discriminate Z.
        cbn [due]. replace (g_iso s <=? level) with false by lia. reflexivity.
      * remember (l_run s [LStart o level m; LLook 0 t c; LEmit 0]) as s1 eqn:X.
        unfold l_run in X. cbn [fold_left] in X. unfold l_step at 3 in X. rewrite D0, Z, E in X. cbn [app] in X.
        unfold l_step at 2 in X. cbn [g_dead g_pend nth_error g_flag] in X.
        destruct (look (g_flag s) c) as [file line]. cbn [set_nth] in X. unfold l_step in X. cbn [g_dead g_pend nth_error g_prefix g_flag g_iso drop_nth g_out g_exit] in X.
        assert (g_pend s1 = [] /\ g_iso s1 = g_iso s /\ written s1 = written s ++ (if by_method o then [(level, m)] else [])) as (E1 & I1 & W1).
        { destruct (format_header (g_prefix s) (g_flag s) t file line level) as [h|] eqn:H; subst s1; cbn [g_pend g_iso].
          - split; [reflexivity|]. split; [reflexivity|]. unfold written. cbn [g_out]. rewrite filter_app_one, map_app. cbn [e_by]. destruct (by_method o); reflexivity.
          - split; [reflexivity|]. split; [reflexivity|]. destruct o; [|cbn [by_method]; now rewrite app_nil_r|cbn [by_method]; now rewrite app_nil_r].
            destruct (header_total (g_prefix s) (g_flag s) t file line level) as (h & H'); [|congruence]. apply (L level m). now left. }
        destruct (IH s1 E1 D Lp) as [J1 J2]. split; [exact J1|]. rewrite J2, W1, I1, <- app_assoc. f_equal.
        destruct o; cbn [due by_method app]; [|reflexivity|reflexivity]. replace (g_iso s <=? level) with true by lia. reflexivity.
    + exact (IH s E D Lp).
    + exact (IH s E D Lp).
    + assert (l_run s [LExit] = s) as X.
      { cbn [l_run fold_left]. unfold l_run, l_step in D1 |- *. cbn [fold_left] in *. rewrite D0 in *. destruct (g_exit s); [discriminate D1|reflexivity]. }
      rewrite X in *. exact (IH s E D Lp).
    + remember (l_run s [LSetLevel v]) as s1 eqn:X. unfold l_run, l_step in X. cbn [fold_left] in X. rewrite D0 in X. 
      destruct (IH s1) as [J1 J2]; [now subst s1|exact D|exact Lp|]. split; [exact J1|]. rewrite J2. now subst s1.
    + remember (l_run s [LResetFlags f]) as s1 eqn:X. unfold l_run, l_step in X. cbn [fold_left] in X. rewrite D0 in X. 
      destruct (IH s1) as [J1 J2]; [now subst s1|exact D|exact Lp|]. split; [exact J1|]. rewrite J2. now subst s1.
    + remember (l_run s [LAddFlag f]) as s1 eqn:X. unfold l_run, l_step in X. cbn [fold_left] in X. rewrite D0 in X. 
      destruct (IH s1) as [J1 J2]; [now subst s1|exact D|exact Lp|]. split; [exact J1|]. rewrite J2. now subst s1.
    + remember (l_run s [LSetPrefix q]) as s1 eqn:X. unfold l_run, l_step in X. cbn [fold_left] in X. rewrite D0 in X. 
      destruct (IH s1) as [J1 J2]; [now subst s1|exact D|exact Lp|]. split; [exact J1|]. rewrite J2. now subst s1.
Qed.

(* Where the calls under way come from, and the settings in force. *)
Lemma l_run_app s a b : l_run s (a ++ b) = l_run (l_run s a) b.
Proof. apply fold_left_app. Qed.
Lemma now_ok prefix flag ls : let s := l_run (new_lg prefix flag) ls in g_dead s = false ->
  g_prefix s = prefix_now prefix ls /\ g_flag s = flags_now flag ls.
Proof.
  induction ls as [|l ls IH] using rev_ind; [now split|]. cbv zeta in *. rewrite l_run_app. cbn [l_run fold_left]. unfold prefix_now, flags_now in *. rewrite !fold_left_app. cbn [fold_left].
  fold (l_run (new_lg prefix flag) ls). set (s := l_run (new_lg prefix flag) ls) in *. unfold l_step. destruct (g_dead s) eqn:D; [congruence|]. intros X. destruct (IH eq_refl) as (<- & <-).
  destruct l; try (now split).
  - destruct (match by_ with Method => g_iso s >? level | _ => false end); now split.
  - destruct (nth_error (g_pend s) i) as [[o level m [w|]]|]; try (now split). destruct (look (g_flag s) caller). now split.
  - destruct (nth_error (g_pend s) i) as [[o level m [[[t file] line]|]]|]; try (now split). destruct (format_header _ _ _ _ _ _); now split.
  - destruct (g_exit s); now split.
Qed.
Definition comes_from (flag : Z) (ls : list llabel) (q : pend) : Prop :=
  In (LStart (q_by q) (q_level q) (q_msg q)) ls /\
  forall t file line, q_where q = Some (t, file, line) -> exists before i caller after,
    ls = before ++ LLook i t caller :: after /\ (file, line) = place_seen (flags_now flag before) caller.
Lemma comes_more flag ls l q : comes_from flag ls q -> comes_from flag (ls ++ [l]) q.
Proof.
  intros (A & B). split; [apply in_or_app; now left|]. intros t file line E. destruct (B t file line E) as (b & i & c & a & -> & F).
  exists b, i, c, (a ++ [l]). split; [now rewrite <- app_assoc|exact F].
Qed.
Lemma pend_from prefix flag ls : let s := l_run (new_lg prefix flag) ls in forall q, In q (g_pend s) -> comes_from flag ls q.
Proof.
  induction ls as [|l ls IH] using rev_ind; [intros s q []|]. cbv zeta in *. rewrite l_run_app. cbn [l_run fold_left]. fold (l_run (new_lg prefix flag) ls).
  pose proof (now_ok prefix flag ls) as N. cbv zeta in N. set (s := l_run (new_lg prefix flag) ls) in *. unfold l_step. destruct (g_dead s) eqn:D; [intros q Hq; apply comes_more; auto|]. destruct (N eq_refl) as (_ & Ef).
  intros q. destruct l; cbn [g_pend]; try (intros Hq; apply comes_more; now auto).
  - destruct (match by_ with Method => g_iso s >? level | _ => false end); [intros Hq; apply comes_more; auto|]. cbn [g_pend]. rewrite in_app_iff. intros [Hq|[<-|[]]]; [apply comes_more; auto|].
    split; [apply in_or_app; right; now left|discriminate].
  - destruct (nth_error (g_pend s) i) as [[o level m [w|]]|] eqn:E; try (intros Hq; apply comes_more; now auto). destruct (look (g_flag s) caller) as [file line] eqn:L. cbn [g_pend].
    intros Hq. destruct (in_set _ _ _ _ Hq) as [->|X]; [|apply comes_more; auto]. destruct (IH _ (nth_error_In _ _ E)) as (A & _). split; [apply in_or_app; now left|].
    cbn [q_where]. intros t0 file0 line0 [= <- <- <-]. exists ls, i, caller, []. split; [reflexivity|]. rewrite <- L. unfold look, place_seen. rewrite has_file, Ef. reflexivity.
  - destruct (nth_error (g_pend s) i) as [[o level m [[[t file] line]|]]|]; try (intros Hq; apply comes_more; now auto).
    destruct (format_header _ _ _ _ _ _); cbn [g_pend]; intros Hq; apply in_drop in Hq; apply comes_more; auto.
  - destruct (g_exit s); cbn [g_pend]; intros Hq; apply comes_more; auto.
Qed.

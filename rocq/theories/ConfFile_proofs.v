From Coq Require Import String ZArith List Bool Lia ZifyBool.
From Verif Require Import Bytes Conf Spec_Conf ConfFile Spec_ConfFile.
Import ListNotations.
Local Open Scope Z_scope.

Lemma letter_iff x y : lower x = lower y <-> same_letter x y.
Proof.
  unfold lower, same_letter. pose proof (b2z_range x). pose proof (b2z_range y). cbv zeta. split.
  - intros E. destruct (Z.eq_dec (b2z x) (b2z y)) as [D|D]; [left; now apply b2z_inj|right].
    destruct ((65 <=? b2z x) && (b2z x <=? 90)) eqn:A, ((65 <=? b2z y) && (b2z y <=? 90)) eqn:B; try lia; [exists (b2z x - 65)|exists (b2z y - 65)]; lia.
  - intros [->|(i & I & [(A & B)|(A & B)])]; [reflexivity|rewrite A, B..]; destruct ((65 <=? 65 + i) && (65 + i <=? 90)) eqn:C1, ((65 <=? 97 + i) && (97 + i <=? 90)) eqn:C2; lia.
Qed.
Lemma same_name_lower a : forall b, same_name a b = true <-> Forall2 (fun x y => lower x = lower y) a b.
Proof.
  induction a as [|x a IH]; intros [|y b]; cbn; split; intros H; try discriminate; try (now inversion H); auto.
  - apply andb_true_iff in H as (H1 & H2). constructor; [now apply Z.eqb_eq|now apply IH].
  - inversion H; subst. apply andb_true_iff. split; [now apply Z.eqb_eq|now apply IH].
Qed.

Lemma same_name_iff a b : same_name a b = true <-> Forall2 same_letter a b.
Proof. rewrite same_name_lower. split; intros H; induction H; constructor; auto; now apply letter_iff. Qed.

Lemma names_apart : forallb (fun f => forallb (fun g => negb (same_name (fname f) (fname g)) || (Nat.eqb (match f with FS _ => 0 | FI _ => 1 | FB _ => 2 end)%nat (match g with FS _ => 0 | FI _ => 1 | FB _ => 2 end)%nat &&
    match f, g with FS a, FS b => sfield_beq a b | FI a, FI b => ifield_beq a b | FB a, FB b => bfield_beq a b | _, _ => false end)) fields) fields = true.
Proof. vm_compute. reflexivity. Qed.

Lemma all_fields f : In f fields.
Proof. destruct f as [f|f|f]; destruct f; vm_compute; tauto. Qed.

Lemma sn_sym a b : same_name a b = true -> same_name b a = true.
Proof. rewrite !same_name_lower. induction 1; constructor; auto. Qed.
Lemma sn_trans a : forall b c, same_name a b = true -> same_name b c = true -> same_name a c = true.
Proof.
  induction a as [|x a IH]; intros [|y b] [|z c] H1 H2; cbn in *; try discriminate; auto.
  apply andb_true_iff in H1 as (H1 & H1'), H2 as (H2 & H2'). apply Z.eqb_eq in H1, H2. apply andb_true_iff. split; [apply Z.eqb_eq; congruence|eauto].
Qed.

Lemma names_inj f g : same_name (fname f) (fname g) = true -> f = g.
Proof.
  intros H. pose proof names_apart as N. rewrite forallb_forall in N. specialize (N f (all_fields f)). rewrite forallb_forall in N. specialize (N g (all_fields g)).
  rewrite H in N. cbn [negb orb] in N. apply andb_true_iff in N as (_ & N).
  destruct f as [a|a|a], g as [b|b|b]; try discriminate; f_equal; [now apply internal_sfield_dec_bl|now apply internal_ifield_dec_bl|now apply internal_bfield_dec_bl].
Qed.

Lemma known_as_fname f : fname f = known_as f.
Proof. destruct f as [[]|[]|[]]; reflexivity. Qed.
Lemma field_of_some k f : field_of k = Some f <-> means k f.
Proof.
  unfold means. rewrite <- known_as_fname, <- same_name_iff. unfold field_of. split.
  - intros H. now apply find_some in H as (_ & H).
  - intros H. destruct (find _ fields) as [g|] eqn:E.
    + apply find_some in E as (_ & E). f_equal. apply names_inj. apply sn_trans with k; [now apply sn_sym|exact H].
    + exfalso. pose proof (find_none _ _ E f (all_fields f)) as N. cbn in N. congruence.
Qed.
Lemma field_of_none k : field_of k = None <-> forall f, ~ means k f.
Proof.
  split.
  - intros H f M. apply field_of_some in M. congruence.
  - intros H. destruct (field_of k) as [f|] eqn:E; [|reflexivity]. apply field_of_some in E. now apply H in E.
Qed.

Lemma means_fun k f g : means k f -> means k g -> f = g.
Proof. intros A B. apply field_of_some in A, B. congruence. Qed.

Definition holds_b (f : field) (v : jval) : bool :=
  match f, v with FS _, JStr _ => true | FI f, JInt n => in_range f n | FB _, JBool _ => true | _, _ => false end.
Lemma holds_iff f v : holds_b f v = true <-> holds f v.
Proof.
  destruct f as [f|f|f]; [|destruct f|]; destruct v; cbn [holds holds_b]; try (split; [discriminate|tauto]); try tauto; unfold in_range; cbn [unsigned];
    change (2 ^ 32) with 4294967296; change (2 ^ 63) with 9223372036854775808; split; intros; lia.
Qed.

(* put, for any field *)
Definition put (g : config) (f : field) (v : jval) : config :=
  match f, v with FS f, JStr s => put_s g f s | FI f, JInt n => put_i g f n | FB f, JBool b => put_b g f b | _, _ => g end.

Lemma has_put_same g f v : holds f v -> has (put g f v) f = v.
Proof.
  rewrite <- holds_iff. intros H. destruct f, v; try discriminate H; clear H; cbn; f_equal.
  - now rewrite (internal_sfield_dec_lb f f eq_refl).
  - now rewrite (internal_ifield_dec_lb f f eq_refl).
  - now rewrite (internal_bfield_dec_lb f f eq_refl).
Qed.
Lemma has_put_other g f f' v : f <> f' -> has (put g f v) f' = has g f'.
Proof.
  intros N. destruct f as [a|a|a], v, f' as [c|c|c]; cbn; try reflexivity; f_equal.
  - destruct (sfield_beq c a) eqn:E; [|reflexivity]. apply internal_sfield_dec_bl in E. congruence.
  - destruct (ifield_beq c a) eqn:E; [|reflexivity]. apply internal_ifield_dec_bl in E. congruence.
  - destruct (bfield_beq c a) eqn:E; [|reflexivity]. apply internal_bfield_dec_bl in E. congruence.
Qed.

Lemma store_eq g bad k v : store (g, bad) (k, v) =
  match field_of k with
  | None => (g, bad)
  | Some f => match v with JNull => (g, bad) | _ => if holds_b f v then (put g f v, bad) else (g, true) end
  end.
Proof.
  unfold store. cbn [fst snd]. destruct (field_of k) as [f|]; [|reflexivity].
  destruct f, v; cbn [holds_b put]; try reflexivity.
Qed.

Lemma gives_dec m f : gives m f \/ ~ gives m f.
Proof.
  unfold gives. destruct m as [k v]. cbn [fst snd].
  destruct (field_of k) as [f0|] eqn:E.
  - apply field_of_some in E. destruct v; try (right; intros (_ & H); congruence).
    all: assert (D : {f0 = f} + {f0 <> f}) by (repeat decide equality); destruct D as [->|D]; [left; split; [exact E|discriminate]|right; intros (M & _); apply D; eapply means_fun; eauto].
  - right. intros (M & _). apply (proj1 (field_of_none k) E f M).
Qed.

(* once an error is met it stays *)
Lemma bad_stays ms : forall g, snd (fold_left store ms (g, true)) = true.
Proof.
  induction ms as [|[k v] ms IH]; intros g; [reflexivity|]. cbn [fold_left]. rewrite store_eq.
  destruct (field_of k); [|apply IH]. destruct v; try apply IH; destruct (holds_b _ _); apply IH.
Qed.

Lemma unmarshal_bad_gen ms : forall g, snd (fold_left store ms (g, false)) = false <-> fits ms.
Proof.
  induction ms as [|[k v] ms IH]; intros g; cbn [fold_left].
  - cbn. split; [intros _ m f []|reflexivity].
  - rewrite store_eq. assert (Tl : fits ((k, v) :: ms) <-> (forall f, gives (k, v) f -> holds f v) /\ fits ms).
    { unfold fits. split.
      - intros H. split; [intros f G; apply (H (k, v) f); [now left|exact G]|intros m f I G; apply H; [now right|exact G]].
      - intros (H1 & H2) m f [<-|I] G; [now apply H1|now apply H2]. }
    rewrite Tl. destruct (field_of k) as [f|] eqn:E.
    + assert (Dv : v = JNull \/ v <> JNull) by (destruct v; (left; reflexivity) || (right; discriminate)).
      destruct Dv as [->|Nv].
      { rewrite IH. split; [|tauto]. intros H. split; [|exact H]. intros f' (_ & N). cbn in N. congruence. }
      replace (match v with JNull => (g, false) | _ => if holds_b f v then (put g f v, false) else (g, true) end) with (if holds_b f v then (put g f v, false) else (g, true)) by (destruct v; congruence || reflexivity).
      destruct (holds_b f v) eqn:Hb.
      * rewrite IH. split; [|tauto]. intros H. split; [|exact H]. intros f' (M & _). apply field_of_some in M. cbn [fst] in M. assert (f' = f) by congruence. subst. now apply holds_iff.
      * rewrite bad_stays. split; [discriminate|]. intros (H & _). assert (G : gives (k, v) f) by (split; [now apply field_of_some|exact Nv]).
        apply H in G. apply holds_iff in G. congruence.
    + rewrite IH. split; [|tauto]. intros H. split; [|exact H]. intros f' (M & _). apply field_of_some in M. cbn [fst] in M. congruence.
Qed.

(* The value after reading, also where an error was met. *)
Lemma unmarshal_has ms f : forall g b,
  (forall v, given ms f v -> holds f v -> has (fst (fold_left store ms (g, b))) f = v) /\
  (silent ms f -> has (fst (fold_left store ms (g, b))) f = has g f).
Proof.
  induction ms as [|m ms IH] using rev_ind; intros g b.
  - split; [|reflexivity]. intros v (ms1 & k & ms2 & E & _). destruct ms1; discriminate.
  - rewrite fold_left_app. cbn [fold_left]. destruct (IH g b) as (I1 & I2).
    destruct (fold_left store ms (g, b)) as [g1 b1] eqn:Eg. destruct m as [k v]. rewrite store_eq. cbn [fst] in *.
    split.
    + intros v0 (ms1 & k0 & ms2 & E & G & L) Hh.
      destruct ms2 as [|m2 ms2 _] using rev_ind.
      * apply app_inj_tail in E as (E1 & E2). injection E2 as -> ->. destruct G as (M & N). cbn [fst snd] in *. apply field_of_some in M. rewrite M.
        apply holds_iff in Hh as Hb. rewrite Hb. destruct v0; try congruence; cbn [fst]; now apply has_put_same.
      * replace (ms1 ++ (k0, v0) :: ms2 ++ [m2]) with ((ms1 ++ (k0, v0) :: ms2) ++ [m2]) in E by now rewrite <- app_assoc.
        apply app_inj_tail in E as (E1 & <-).
        assert (NG : ~ gives (k, v) f) by (apply L, in_or_app; right; now left).
        assert (E0 : has g1 f = v0).
        { apply I1; [|exact Hh]. exists ms1, k0, ms2. split; [exact E1|]. split; [exact G|]. intros m I. apply L, in_or_app. now left. }
        destruct (field_of k) as [f0|] eqn:Ef; [|exact E0]. apply field_of_some in Ef.
        destruct v; try exact E0.
        all: destruct (holds_b f0 _); [|exact E0]; cbn [fst]; rewrite has_put_other; [exact E0|]; intros ->; apply NG; split; [exact Ef|discriminate].
    + intros Si. assert (E0 : has g1 f = has g f) by (apply I2; intros m I; apply Si, in_or_app; now left).
      assert (NG : ~ gives (k, v) f) by (apply Si, in_or_app; right; now left).
      destruct (field_of k) as [f0|] eqn:Ef; [|exact E0]. apply field_of_some in Ef.
      destruct v; try exact E0.
      all: destruct (holds_b f0 _); [|exact E0]; cbn [fst]; rewrite has_put_other; [exact E0|]; intros ->; apply NG; split; [exact Ef|discriminate].
Qed.

Lemma given_or_silent ms f : (exists v, given ms f v) \/ silent ms f.
Proof.
  induction ms as [|m ms IH] using rev_ind; [right; intros m []|].
  destruct (gives_dec m f) as [G|N].
  - left. destruct m as [k v]. exists v, ms, k, []. split; [reflexivity|]. split; [exact G|intros m []].
  - destruct IH as [(v & ms1 & k & ms2 & E & G & L)|S].
    + left. exists v, ms1, k, (ms2 ++ [m]). rewrite E, <- app_assoc. split; [reflexivity|]. split; [exact G|]. intros m' I. apply in_app_or in I as [I|[<-|[]]]; [now apply L|exact N].
    + right. intros m' I. apply in_app_or in I as [I|[<-|[]]]; [now apply S|exact N].
Qed.

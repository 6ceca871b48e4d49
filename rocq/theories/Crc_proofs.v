From Coq Require Import ZArith List Bool Lia.
From Coq Require Import ZifyBool ZifyNat ZifyN.
From Verif Require Import Bytes Crc Spec_Crc.
Import ListNotations.
Local Open Scope Z_scope.
Ltac Zify.zify_post_hook ::= Z.div_mod_to_equations.

Lemma crc_bit_lxor a b : crc_bit (Z.lxor a b) = Z.lxor (crc_bit a) (crc_bit b).
Proof.
  unfold crc_bit. rewrite <- !Z.bit0_odd, Z.lxor_spec, Z.shiftr_lxor.
  destruct (Z.testbit a 0), (Z.testbit b 0); cbn [xorb];
    apply Z.bits_inj'; intros n Hn; rewrite !Z.lxor_spec;
    destruct (Z.testbit (Z.shiftr a 1) n), (Z.testbit (Z.shiftr b 1) n), (Z.testbit poly n); reflexivity.
Qed.

Lemma iter_crc_lxor n a b :
  Nat.iter n crc_bit (Z.lxor a b) = Z.lxor (Nat.iter n crc_bit a) (Nat.iter n crc_bit b).
Proof.
  induction n as [|n IH]; [reflexivity|]. cbn [Nat.iter nat_rect].
  change (nat_rect (fun _ => Z) ?x (fun _ => crc_bit) n) with (Nat.iter n crc_bit x).
  rewrite IH. apply crc_bit_lxor.
Qed.

Lemma iter_S_out {A} n (f : A -> A) x : Nat.iter (S n) f x = f (Nat.iter n f x).
Proof. reflexivity. Qed.
Lemma iter_S_in {A} n (f : A -> A) x : Nat.iter (S n) f x = Nat.iter n f (f x).
Proof. induction n as [|n IH]; [reflexivity|]. rewrite iter_S_out, IH. reflexivity. Qed.
Lemma iter_add {A} n m (f : A -> A) x : Nat.iter (n + m) f x = Nat.iter n f (Nat.iter m f x).
Proof. induction n as [|n IH]; [reflexivity|]. cbn [plus]. rewrite !iter_S_out, IH. reflexivity. Qed.

Lemma crc_bit_even x : crc_bit (2 * x) = x.
Proof.
  unfold crc_bit. replace (Z.odd (2 * x)) with false.
  - rewrite Z.shiftr_div_pow2 by lia. change (2^1) with 2. lia.
  - rewrite Z.odd_mul. reflexivity.
Qed.

Lemma iter_crc_shift n x : Nat.iter n crc_bit (x * 2 ^ Z.of_nat n) = x.
Proof.
  revert x; induction n as [|n IH]; intros x.
  - cbn. lia.
  - rewrite iter_S_in. rewrite Nat2Z.inj_succ, Z.pow_succ_r by lia.
    replace (x * (2 * 2 ^ Z.of_nat n)) with (2 * (x * 2 ^ Z.of_nat n)) by lia.
    rewrite crc_bit_even. apply IH.
Qed.

Lemma lxor_disjoint_add a b k :
  0 <= k -> 0 <= a < 2^k -> Z.lxor a (b * 2^k) = a + b * 2^k.
Proof.
  intros Hk Ha. symmetry. apply Z.add_nocarry_lxor.
  apply Z.bits_inj'. intros n Hn. rewrite Z.land_spec, Z.bits_0.
  destruct (Z_lt_le_dec n k) as [H|H].
  - rewrite Z.mul_pow2_bits_low by lia. apply andb_false_r.
  - rewrite <- (Z.mod_small a (2^k)) by lia. rewrite Z.mod_pow2_bits_high by lia. reflexivity.
Qed.

(* A byte-wise CRC is iterated crc_bit on the whole string as one number. *)
Lemma crc_fold_bits l c :
  0 <= c ->
  fold_left crc_byte l c = Nat.iter (8 * length l) crc_bit (Z.lxor c (bits l)).
Proof.
  revert c. induction l as [|b l IH]; intros c Hc.
  - cbn. now rewrite Z.lxor_0_r.
  - cbn [fold_left length]. rewrite IH.
    2:{ unfold crc_byte. 
        assert (Hnn : forall n x, 0 <= x -> 0 <= Nat.iter n crc_bit x).
        { clear. intros n x Hx. induction n as [|n IH]; [exact Hx|].
          rewrite iter_S_out. unfold crc_bit at 1. destruct (Z.odd _).
          - apply Z.lxor_nonneg. split; intros _; [unfold poly; lia|]. now apply Z.shiftr_nonneg.
          - now apply Z.shiftr_nonneg. }
        apply Hnn. apply Z.lxor_nonneg. pose proof (b2z_range b). lia. }
    unfold crc_byte.
    replace (8 * S (length l))%nat with (8 * length l + 8)%nat by lia.
    rewrite iter_add. f_equal.
    change (bits (b :: l)) with (b2z b + 256 * bits l).
    replace (b2z b + 256 * bits l) with (Z.lxor (b2z b) (bits l * 2^8)).
    2:{ rewrite lxor_disjoint_add; [|lia|]; [change (2^8) with 256; lia|].
        pose proof (b2z_range b). change (2^8) with 256. lia. }
    rewrite <- Z.lxor_assoc, (iter_crc_lxor 8 (Z.lxor c (b2z b))). f_equal.
    symmetry. apply (iter_crc_shift 8).
Qed.

Lemma crc16_bits l : crc16 l = Nat.iter (8 * length l) crc_bit (Z.lxor 65535 (bits l)).
Proof. apply crc_fold_bits. lia. Qed.

(* ------------------------------------------------------------------ *)
(* Table = bit-serial *)

Lemma table_ok x :
  0 <= x < 256 ->
  Nat.iter 8 crc_bit x = nth (Z.to_nat x) crc16_l 0 * 256 + nth (Z.to_nat x) crc16_h 0
  /\ 0 <= nth (Z.to_nat x) crc16_l 0 < 256 /\ 0 <= nth (Z.to_nat x) crc16_h 0 < 256.
Proof.
  intros Hx.
  assert (H : forallb (fun x =>
     (Nat.iter 8 crc_bit x =? nth (Z.to_nat x) crc16_l 0 * 256 + nth (Z.to_nat x) crc16_h 0)
     && (0 <=? nth (Z.to_nat x) crc16_l 0) && (nth (Z.to_nat x) crc16_l 0 <? 256)
     && (0 <=? nth (Z.to_nat x) crc16_h 0) && (nth (Z.to_nat x) crc16_h 0 <? 256))
     all_bytes_Z = true) by (vm_compute; reflexivity).
  rewrite forallb_forall in H. specialize (H x (in_all_bytes x Hx)). cbv beta in H. lia.
Qed.

Lemma lxor_byte_range a b : 0 <= a < 256 -> 0 <= b < 256 -> 0 <= Z.lxor a b < 256.
Proof.
  intros Ha Hb. split; [apply Z.lxor_nonneg; lia|].
  destruct (Z.eq_dec (Z.lxor a b) 0) as [->|Hne]; [lia|].
  assert (H0 : 0 <= Z.lxor a b) by (apply Z.lxor_nonneg; lia).
  change 256 with (2^8). apply Z.log2_lt_pow2; [lia|].
  eapply Z.le_lt_trans; [apply Z.log2_lxor; lia|].
  apply Z.max_lub_lt.
  - destruct (Z.eq_dec a 0) as [->|]; [cbn; lia|apply Z.log2_lt_pow2; [lia|change (2^8) with 256; lia]].
  - destruct (Z.eq_dec b 0) as [->|]; [cbn; lia|apply Z.log2_lt_pow2; [lia|change (2^8) with 256; lia]].
Qed.

Lemma land_255 z : 0 <= z < 256 -> Z.land z 255 = z.
Proof.
  intros H. change 255 with (Z.ones 8). rewrite Z.land_ones by lia.
  apply Z.mod_small. change (2^8) with 256. lia.
Qed.

Lemma crc_step_ok hi low b :
  0 <= hi < 256 -> 0 <= low < 256 ->
  let '(hi', low') := crc_step (hi, low) b in
  0 <= hi' < 256 /\ 0 <= low' < 256 /\
  crc_byte (low + hi * 256) b = low' + hi' * 256.
Proof.
  intros Hh Hl. unfold crc_step.
  pose proof (b2z_range b) as Hb.
  pose proof (lxor_byte_range low (b2z b) Hl Hb) as Hx.
  rewrite (land_255 _ Hx).
  destruct (table_ok _ Hx) as (Ht & Hr1 & Hr2).
  split; [exact Hr1|]. split; [now apply lxor_byte_range|].
  unfold crc_byte.
  change 256 with (2^8) at 1.
  rewrite <- (lxor_disjoint_add low hi 8) by (change (2^8) with 256; lia).
  rewrite (Z.lxor_comm low), Z.lxor_assoc, iter_crc_lxor.
  rewrite (iter_crc_shift 8). rewrite Ht.
  set (h := nth _ crc16_h 0) in *. set (l := nth _ crc16_l 0) in *.
  replace (l * 256 + h) with (Z.lxor h (l * 2^8)).
  2:{ rewrite lxor_disjoint_add by (change (2^8) with 256; lia). change (2^8) with 256. lia. }
  rewrite <- Z.lxor_assoc.
  rewrite lxor_disjoint_add; [reflexivity|lia|].
  change (2^8) with 256. now apply lxor_byte_range.
Qed.

Lemma crc_fold_ok l : forall hi low,
  0 <= hi < 256 -> 0 <= low < 256 ->
  let '(hi', low') := fold_left crc_step l (hi, low) in
  0 <= hi' < 256 /\ 0 <= low' < 256 /\
  fold_left crc_byte l (low + hi * 256) = low' + hi' * 256.
Proof.
  induction l as [|b l IH]; intros hi low Hh Hl.
  - cbn. auto.
  - cbn [fold_left]. pose proof (crc_step_ok hi low b Hh Hl) as Hs.
    destruct (crc_step (hi, low) b) as [hi1 low1]. destruct Hs as (H1 & H2 & H3).
    rewrite H3. apply IH; assumption.
Qed.

Lemma get_crc_spec l : get_crc l = crc16_bytes l.
Proof.
  unfold get_crc, crc16_bytes, crc16.
  pose proof (crc_fold_ok l 255 255 ltac:(lia) ltac:(lia)) as H.
  change (255 + 255 * 256) with 65535 in H.
  destruct (fold_left crc_step l (255, 255)) as [hi low]. destruct H as (Hh & Hl & ->).
  rewrite (land_255 hi), (land_255 low) by assumption.
  replace (Z.land low 65535) with low.
  2:{ change 65535 with (Z.ones 16). rewrite Z.land_ones by lia.
      symmetry; apply Z.mod_small. change (2^16) with 65536. lia. }
  rewrite Z.shiftl_mul_pow2 by lia.
  assert (Hor : Z.lor (hi * 2^8) low = low + hi * 256).
  { rewrite Z.lor_comm, <- Z.lxor_lor.
    - rewrite lxor_disjoint_add by (change (2^8) with 256; lia). reflexivity.
    - apply Z.bits_inj'. intros n Hn. rewrite Z.land_spec, Z.bits_0.
      destruct (Z_lt_le_dec n 8) as [H|H].
      + rewrite Z.mul_pow2_bits_low by lia. apply andb_false_r.
      + rewrite <- (Z.mod_small low (2^8)) by (change (2^8) with 256; lia).
        rewrite Z.mod_pow2_bits_high by lia. reflexivity. }
  rewrite Hor. f_equal; [|f_equal].
  - unfold z2b. do 2 f_equal. change 255 with (Z.ones 8). rewrite Z.land_ones by lia.
    change (2^8) with 256. rewrite Z.mod_mod by lia. reflexivity.
  - unfold z2b. do 2 f_equal. change 255 with (Z.ones 8). rewrite Z.land_ones by lia.
    rewrite Z.shiftr_div_pow2 by lia.
    change (2^8) with 256. rewrite Z.mod_mod by lia. reflexivity.
Qed.

Lemma crc16_range l : 0 <= crc16 l < 2^16.
Proof.
  pose proof (crc_fold_ok l 255 255 ltac:(lia) ltac:(lia)) as H.
  change (255 + 255 * 256) with 65535 in H. unfold crc16.
  destruct (fold_left crc_step l (255, 255)) as [hi low]. destruct H as (Hh & Hl & ->).
  change (2^16) with 65536. lia.
Qed.

Lemma byte_eqb_iff a b : Byte.eqb a b = true <-> a = b.
Proof. split; [apply Byte.byte_dec_bl|apply Byte.byte_dec_lb]. Qed.

Lemma check_crc_iff l c : check_crc l c = true <-> c = crc16_bytes l.
Proof.
  unfold check_crc, is_complete. rewrite get_crc_spec. unfold crc16_bytes.
  destruct c as [|c0 [|c1 [|c2 c]]]; try (split; [discriminate|intros H; discriminate H]).
  rewrite andb_true_iff, !byte_eqb_iff. split.
  - intros [-> ->]. reflexivity.
  - intros H; inversion H; auto.
Qed.

(* ------------------------------------------------------------------ *)
(* Error detection *)

Lemma bits_app l m : bits (l ++ m) = bits l + bits m * 2 ^ (8 * zlen l).
Proof.
  unfold bits. induction l as [|b l IH]; cbn [app le_val].
  - change (zlen (@nil byte)) with 0. change (2 ^ (8 * 0)) with 1. lia.
  - rewrite IH, zlen_cons.
    replace (8 * (1 + zlen l)) with (8 + 8 * zlen l) by lia.
    rewrite Z.pow_add_r by (pose proof (zlen_nonneg l); lia).
    change (2^8) with 256. lia.
Qed.

Lemma bits_crc_bytes l : bits (crc16_bytes l) = crc16 l.
Proof.
  unfold bits, crc16_bytes. cbn [le_val]. rewrite !b2z_z2b.
  pose proof (crc16_range l). change (2^16) with 65536 in *. lia.
Qed.

Lemma crc_iter_pos n x : 0 < x < 2^16 -> 0 < Nat.iter n crc_bit x < 2^16.
Proof.
  revert x. induction n as [|n IH]; intros x Hx; [exact Hx|].
  rewrite iter_S_in. apply IH. clear IH n.
  unfold crc_bit. rewrite Z.shiftr_div_pow2 by lia. change (2^1) with 2.
  destruct (Z.odd x) eqn:Ho.
  - assert (Hlt : 0 <= x / 2 < 2^15) by (change (2^16) with 65536 in Hx; change (2^15) with 32768; lia).
    assert (Hp : poly = Z.lxor (8193) (1 * 2^15)) by reflexivity.
    rewrite Hp, <- Z.lxor_assoc.
    assert (Hy : 0 <= Z.lxor (x/2) 8193 < 2^15).
    { split; [apply Z.lxor_nonneg; lia|].
      destruct (Z.eq_dec (Z.lxor (x/2) 8193) 0) as [->|Hne]; [lia|].
      assert (0 <= Z.lxor (x/2) 8193) by (apply Z.lxor_nonneg; lia).
      apply Z.log2_lt_pow2; [lia|].
      eapply Z.le_lt_trans; [apply Z.log2_lxor; lia|].
      apply Z.max_lub_lt; [|cbn; lia].
      destruct (Z.eq_dec (x/2) 0) as [->|]; [cbn; lia|apply Z.log2_lt_pow2; lia]. }
    rewrite lxor_disjoint_add by lia.
    change (2^16) with 65536; change (2^15) with 32768 in *. lia.
  - assert (Hn1 : x <> 1) by (intros ->; discriminate).
    change (2^16) with 65536 in *.
    assert (He : Z.even x = true) by (rewrite <- Z.negb_odd, Ho; reflexivity).
    apply Z.even_spec in He as [y Hy]. lia.
Qed.

(* The CRC of data followed by its checksum is zero. *)
Lemma crc_residue l c : length c = 2%nat -> (crc16 (l ++ c) = 0 <-> c = crc16_bytes l).
Proof.
  intros Hc. unfold crc16. rewrite fold_left_app.
  change (fold_left crc_byte l 65535) with (crc16 l).
  rewrite crc_fold_bits by apply crc16_range. rewrite Hc.
  change (8 * 2)%nat with 16%nat.
  assert (Hb : 0 <= bits c < 2^16).
  { unfold bits. pose proof (le_val_range c) as H. unfold zlen in H. rewrite Hc in H.
    change (256 ^ Z.of_nat 2) with (2^16) in H. exact H. }
  assert (Hx : 0 <= Z.lxor (crc16 l) (bits c) < 2^16).
  { pose proof (crc16_range l) as Hl. split; [apply Z.lxor_nonneg; lia|].
    destruct (Z.eq_dec (Z.lxor (crc16 l) (bits c)) 0) as [->|Hne]; [lia|].
    assert (H0 : 0 <= Z.lxor (crc16 l) (bits c)) by (apply Z.lxor_nonneg; lia).
    apply Z.log2_lt_pow2; [lia|].
    eapply Z.le_lt_trans; [apply Z.log2_lxor; lia|].
    apply Z.max_lub_lt.
    - destruct (Z.eq_dec (crc16 l) 0) as [->|]; [cbn; lia|apply Z.log2_lt_pow2; lia].
    - destruct (Z.eq_dec (bits c) 0) as [->|]; [cbn; lia|apply Z.log2_lt_pow2; lia]. }
  split.
  - intros H.
    assert (Hz : Z.lxor (crc16 l) (bits c) = 0).
    { clear - H Hx. revert H Hx. generalize (Z.lxor (crc16 l) (bits c)). intros x H Hx.
      destruct (Z.eq_dec x 0); [assumption|]. pose proof (crc_iter_pos 16 x ltac:(lia)). lia. }
    apply Z.lxor_eq in Hz.
    unfold bits in Hz.
    rewrite <- (le_bytes_val c), <- (le_bytes_val (crc16_bytes l)).
    rewrite Hc. cbn [length crc16_bytes].
    fold (bits (crc16_bytes l)). rewrite bits_crc_bytes, Hz. reflexivity.
  - intros ->. rewrite bits_crc_bytes, Z.lxor_nilpotent. reflexivity.
Qed.

(* The checksum verdict on a corrupted frame is the CRC register of the error. *)
Lemma crc_corrupted l l' e :
  corrupted l l' e -> crc16 l' = Z.lxor (crc16 l) (Nat.iter (8 * length l) crc_bit e).
Proof.
  intros [Hl Hb]. rewrite !crc16_bits, Hl, Hb.
  rewrite <- Z.lxor_assoc. apply iter_crc_lxor.
Qed.

Lemma burst_detected l l' e :
  burst16 e -> e < 2 ^ (8 * zlen l) -> corrupted l l' e -> crc16 l = 0 -> crc16 l' <> 0.
Proof.
  intros (p & k & Hp & Hk & He) Hlt Hc H0 H0'.
  rewrite (crc_corrupted _ _ _ Hc), H0, Z.lxor_0_l in H0'.
  assert (Hk8 : k < 8 * zlen l).
  { apply (Z.pow_lt_mono_r_iff 2); [lia|pose proof (zlen_nonneg l); lia|].
    eapply Z.le_lt_trans; [|exact Hlt]. subst e. pose proof (Z.pow_pos_nonneg 2 k). nia. }
  replace (8 * length l)%nat with ((8 * length l - Z.to_nat k) + Z.to_nat k)%nat in H0'
    by (unfold zlen in Hk8; lia).
  rewrite iter_add in H0'.
  assert (He' : e = p * 2 ^ Z.of_nat (Z.to_nat k)) by (rewrite Z2Nat.id by lia; exact He).
  rewrite He', iter_crc_shift in H0'.
  pose proof (crc_iter_pos (8 * length l - Z.to_nat k) p Hp). lia.
Qed.

(* Two wrong bits. *)
Fixpoint not_one (n : nat) (x : Z) : bool :=
  match n with O => true | S n' => negb (x =? 1) && not_one n' (crc_bit x) end.

Lemma not_one_sound n : forall x k, not_one n x = true -> (k < n)%nat -> Nat.iter k crc_bit x <> 1.
Proof.
  induction n as [|n IH]; intros x k H Hk; [lia|].
  cbn [not_one] in H. apply andb_true_iff in H as [H1 H2].
  destruct k as [|k].
  - cbn. apply negb_true_iff, Z.eqb_neq in H1. exact H1.
  - rewrite iter_S_in. apply IH; [assumption|lia].
Qed.

(* 32767 is the order of the polynomial; below it no two single-bit syndromes agree. *)
Lemma order_sweep : not_one (Z.to_nat 32766) (crc_bit 1) = true.
Proof. vm_compute. reflexivity. Qed.

Lemma iter_one_ne d : 0 < d < 32767 -> Nat.iter (Z.to_nat d) crc_bit 1 <> 1.
Proof.
  intros Hd. replace (Z.to_nat d) with (S (Z.to_nat (d - 1))) by lia.
  rewrite iter_S_in. eapply not_one_sound; [exact order_sweep|]. lia.
Qed.

Lemma two_bits_detected l l' e :
  8 * zlen l < 32768 -> two_bits (8 * zlen l) e ->
  corrupted l l' e -> crc16 l = 0 -> crc16 l' <> 0.
Proof.
  intros Hn (i & j & Hi & Hj & He) Hc H0 H0'.
  rewrite (crc_corrupted _ _ _ Hc), H0, Z.lxor_0_l in H0'.
  set (d := j - i).
  assert (He' : e = Z.lxor (1 * 2 ^ Z.of_nat (Z.to_nat i)) (1 * 2 ^ Z.of_nat (Z.to_nat j))).
  { rewrite !Z2Nat.id by lia. rewrite (Z.mul_1_l (2^i)).
    rewrite lxor_disjoint_add; [lia|lia|].
    split; [apply Z.pow_nonneg; lia|apply Z.pow_lt_mono_r; lia]. }
  assert (Hlen : (8 * length l = (8 * length l - Z.to_nat j) + (Z.to_nat d + Z.to_nat i))%nat)
    by (unfold zlen in *; lia).
  rewrite Hlen in H0'. clear Hlen.
  rewrite iter_add in H0'.
  assert (Hs : Nat.iter (Z.to_nat d + Z.to_nat i) crc_bit e
               = Z.lxor (Nat.iter (Z.to_nat d) crc_bit 1) 1).
  { rewrite He', iter_crc_lxor. f_equal.
    - rewrite iter_add, iter_crc_shift. reflexivity.
    - replace (Z.to_nat d + Z.to_nat i)%nat with (Z.to_nat j) by lia.
      apply iter_crc_shift. }
  rewrite Hs in H0'.
  pose proof (iter_one_ne d ltac:(lia)) as Hne.
  pose proof (crc_iter_pos (Z.to_nat d) 1 ltac:(lia)) as Hr.
  set (s := Nat.iter (Z.to_nat d) crc_bit 1) in *.
  assert (Hx : 0 < Z.lxor s 1 < 2^16).
  { assert (H : 0 <= Z.lxor s 1) by (apply Z.lxor_nonneg; lia).
    assert (Z.lxor s 1 <> 0) by (intros E; apply Z.lxor_eq in E; contradiction).
    split; [lia|]. apply Z.log2_lt_pow2; [lia|].
    eapply Z.le_lt_trans; [apply Z.log2_lxor; lia|].
    apply Z.max_lub_lt; [apply Z.log2_lt_pow2; lia|cbn; lia]. }
  pose proof (crc_iter_pos (8 * length l - Z.to_nat j) _ Hx). lia.
Qed.

(* Odd numbers of wrong bits: the polynomial has the factor x+1. *)
Definition par (x : Z) : bool :=
  fold_right (fun n b => xorb (Z.testbit x n) b) false
    [0;1;2;3;4;5;6;7;8;9;10;11;12;13;14;15].

Lemma par_lxor x y : par (Z.lxor x y) = xorb (par x) (par y).
Proof.
  unfold par. generalize [0;1;2;3;4;5;6;7;8;9;10;11;12;13;14;15]. intros ns.
  induction ns as [|n ns IH]; [reflexivity|]. cbn [fold_right].
  rewrite Z.lxor_spec, IH.
  generalize (fold_right (fun n b => xorb (Z.testbit x n) b) false ns)
             (fold_right (fun n b => xorb (Z.testbit y n) b) false ns).
  destruct (Z.testbit x n), (Z.testbit y n); intros [] []; reflexivity.
Qed.

Lemma par_crc_bit x : 0 <= x < 2^16 -> par (crc_bit x) = par x.
Proof.
  intros Hx.
  assert (H16 : Z.testbit x 16 = false).
  { rewrite <- (Z.mod_small x (2^16)) by lia. apply Z.mod_pow2_bits_high. lia. }
  assert (Hsh : par (Z.shiftr x 1) = xorb (par x) (Z.testbit x 0)).
  { unfold par. cbn [fold_right]. rewrite !Z.shiftr_spec by lia.
    change (15 + 1) with 16. rewrite H16.
    change (0+1) with 1. change (1+1) with 2. change (2+1) with 3. change (3+1) with 4.
    change (4+1) with 5. change (5+1) with 6. change (6+1) with 7. change (7+1) with 8.
    change (8+1) with 9. change (9+1) with 10. change (10+1) with 11. change (11+1) with 12.
    change (12+1) with 13. change (13+1) with 14. change (14+1) with 15.
    rewrite !xorb_false_r.
    destruct (Z.testbit x 0).
    - rewrite xorb_true_l, xorb_true_r, negb_involutive. reflexivity.
    - rewrite xorb_false_l, xorb_false_r. reflexivity. }
  unfold crc_bit. rewrite <- Z.bit0_odd. destruct (Z.testbit x 0) eqn:E.
  - rewrite par_lxor, Hsh. change (par poly) with true.
    destruct (par x); reflexivity.
  - rewrite Hsh. destruct (par x); reflexivity.
Qed.

Lemma par_iter n x : 0 < x < 2^16 -> par (Nat.iter n crc_bit x) = par x.
Proof.
  intros Hx. induction n as [|n IH]; [reflexivity|]. rewrite iter_S_out.
  pose proof (crc_iter_pos n x Hx).
  rewrite par_crc_bit by lia. exact IH.
Qed.

Lemma par_flips N ps :
  Forall (fun p => 0 <= p < Z.of_nat N) ps ->
  par (Nat.iter N crc_bit (flips ps)) = Nat.odd (length ps).
Proof.
  induction 1 as [|p ps Hp _ IH].
  - cbn [flips fold_right length].
    assert (H : forall n, Nat.iter n crc_bit 0 = 0).
    { induction n as [|n IHn]; [reflexivity|]. rewrite iter_S_out, IHn. reflexivity. }
    rewrite H. reflexivity.
  - change (flips (p :: ps)) with (Z.lxor (2^p) (flips ps)).
    rewrite iter_crc_lxor, par_lxor, IH.
    assert (H1 : par (Nat.iter N crc_bit (2^p)) = true).
    { assert (HN : (N = (N - Z.to_nat p) + Z.to_nat p)%nat) by lia.
      rewrite HN, iter_add.
      replace (2^p) with (1 * 2 ^ Z.of_nat (Z.to_nat p)) by (rewrite Z2Nat.id by lia; lia).
      rewrite iter_crc_shift, par_iter by lia. reflexivity. }
    rewrite H1.
    cbn [length]. rewrite Nat.odd_succ, <- Nat.negb_odd.
    destruct (Nat.odd _); reflexivity.
Qed.

Lemma odd_flips_detected l l' e :
  odd_flips (8 * zlen l) e -> corrupted l l' e -> crc16 l = 0 -> crc16 l' <> 0.
Proof.
  intros (ps & Hodd & Hps & ->) Hc H0 H0'.
  rewrite (crc_corrupted _ _ _ Hc), H0, Z.lxor_0_l in H0'.
  assert (H : par (Nat.iter (8 * length l) crc_bit (flips ps)) = Nat.odd (length ps)).
  { apply par_flips. eapply Forall_impl; [|exact Hps]. unfold zlen. cbv beta. intros; lia. }
  rewrite H0' in H. apply Nat.odd_spec in Hodd. rewrite Hodd in H. discriminate.
Qed.

(* Verdict of the frame check on a whole frame (covered bytes followed by two
   check bytes), in terms of the residue. *)
Lemma check_residue l c : length c = 2%nat -> (check_crc l c = true <-> crc16 (l ++ c) = 0).
Proof. intros H. rewrite check_crc_iff. symmetry. now apply crc_residue. Qed.

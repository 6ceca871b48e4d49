(* Byte strings and Go machine-integer conversions shared by all models.
   These definitions model the Go language and its standard library
   (encoding/binary, slices, integer conversions), not zinx code. *)
From Coq Require Import ZArith NArith List Lia Bool.
From Coq Require Export Strings.Byte.
From Coq Require Import ZifyBool ZifyNat ZifyN.
Import ListNotations.
Local Open Scope Z_scope.
Ltac Zify.zify_post_hook ::= Z.div_mod_to_equations.

(* Go: byte -> int conversion. *)
Definition b2z (b : byte) : Z := Z.of_N (Byte.to_N b).

(* Go: byte(x), the low eight bits of an integer. *)
Definition z2b (z : Z) : byte :=
  match Byte.of_N (Z.to_N (z mod 256)) with
  | Some b => b
  | None => x00
  end.

(* Go: len(s) as an integer. *)
Definition zlen {A} (l : list A) : Z := Z.of_nat (length l).
(* Go: s[:n] for 0 <= n <= len s. *)
Definition ztake {A} (n : Z) (l : list A) : list A := firstn (Z.to_nat n) l.
(* Go: s[n:] for 0 <= n <= len s. *)
Definition zdrop {A} (n : Z) (l : list A) : list A := skipn (Z.to_nat n) l.

(* Go: encoding/binary byte orders. *)
Inductive order := BigEndian | LittleEndian.

(* Little-endian digits of an unsigned integer, least significant first. *)
Fixpoint le_bytes (w : nat) (n : Z) : list byte :=
  match w with
  | O => []
  | S w' => z2b n :: le_bytes w' (n / 256)
  end.

(* Value of little-endian digits. *)
Fixpoint le_val (l : list byte) : Z :=
  match l with
  | [] => 0
  | b :: l' => b2z b + 256 * le_val l'
  end.

Definition be_bytes (w : nat) (n : Z) : list byte := rev (le_bytes w n).
Definition be_val (l : list byte) : Z := le_val (rev l).

(* Go: binary.Write / binary.ByteOrder.PutUintN of a w-byte unsigned value. *)
Definition put_uint (o : order) (w : nat) (n : Z) : list byte :=
  match o with BigEndian => be_bytes w n | LittleEndian => le_bytes w n end.
(* Go: binary.Read / binary.ByteOrder.UintN of all given bytes. *)
Definition get_uint (o : order) (l : list byte) : Z :=
  match o with BigEndian => be_val l | LittleEndian => le_val l end.

(* Go: uint32(x), uint64(x), int64(x), int8(x) wrap-around conversions. *)
Definition u32 (z : Z) : Z := z mod 2^32.
Definition u64 (z : Z) : Z := z mod 2^64.
Definition s64 (z : Z) : Z := (z + 2^63) mod 2^64 - 2^63.
Definition s8 (z : Z) : Z := (z + 128) mod 256 - 128.

(* ------------------------------------------------------------------ *)

Lemma b2z_range b : 0 <= b2z b < 256.
Proof. destruct b; vm_compute; split; congruence. Qed.

Lemma z2b_b2z b : z2b (b2z b) = b.
Proof. destruct b; reflexivity. Qed.

Lemma b2z_inj a b : b2z a = b2z b -> a = b.
Proof.
  intros H. rewrite <- (z2b_b2z a), <- (z2b_b2z b). now rewrite H.
Qed.

Definition all_bytes_Z : list Z := map Z.of_nat (seq 0 256).

Lemma in_all_bytes z : 0 <= z < 256 -> In z all_bytes_Z.
Proof.
  intros H. unfold all_bytes_Z. apply in_map_iff. exists (Z.to_nat z).
  split; [lia|]. apply in_seq. lia.
Qed.

Lemma b2z_z2b z : b2z (z2b z) = z mod 256.
Proof.
  assert (H : forallb (fun k => b2z (z2b k) =? k) all_bytes_Z = true)
    by (vm_compute; reflexivity).
  rewrite forallb_forall in H.
  assert (Hr : 0 <= z mod 256 < 256) by (apply Z.mod_pos_bound; lia).
  specialize (H _ (in_all_bytes _ Hr)). apply Z.eqb_eq in H.
  transitivity (b2z (z2b (z mod 256))); [|exact H].
  f_equal. unfold z2b. rewrite Z.mod_mod by lia. reflexivity.
Qed.

Lemma zlen_nonneg {A} (l : list A) : 0 <= zlen l.
Proof. unfold zlen; lia. Qed.

Lemma zlen_app {A} (l m : list A) : zlen (l ++ m) = zlen l + zlen m.
Proof. unfold zlen; rewrite app_length; lia. Qed.

Lemma zlen_nil {A} : zlen (@nil A) = 0.
Proof. reflexivity. Qed.

Lemma zlen_cons {A} (x : A) l : zlen (x :: l) = 1 + zlen l.
Proof. unfold zlen; cbn [length]; lia. Qed.

Lemma zlen_zdrop {A} n (l : list A) : 0 <= n <= zlen l -> zlen (zdrop n l) = zlen l - n.
Proof. unfold zlen, zdrop; intros; rewrite skipn_length; lia. Qed.

Lemma zlen_ztake {A} n (l : list A) : 0 <= n <= zlen l -> zlen (ztake n l) = n.
Proof. unfold zlen, ztake; intros; rewrite firstn_length; lia. Qed.

Lemma ztake_zdrop {A} n (l : list A) : ztake n l ++ zdrop n l = l.
Proof. apply firstn_skipn. Qed.

Lemma ztake_app {A} n (l m : list A) : n = zlen l -> ztake n (l ++ m) = l.
Proof.
  intros ->. unfold ztake, zlen. rewrite Nat2Z.id, firstn_app, Nat.sub_diag.
  rewrite firstn_all. cbn. apply app_nil_r.
Qed.

Lemma zdrop_app {A} n (l m : list A) : n = zlen l -> zdrop n (l ++ m) = m.
Proof.
  intros ->. unfold zdrop, zlen. rewrite Nat2Z.id, skipn_app, Nat.sub_diag.
  rewrite skipn_all. reflexivity.
Qed.

Lemma ztake_app_le {A} n (l m : list A) : n <= zlen l -> ztake n (l ++ m) = ztake n l.
Proof.
  unfold ztake, zlen; intros H. rewrite firstn_app.
  replace (Z.to_nat n - length l)%nat with 0%nat by lia.
  cbn. apply app_nil_r.
Qed.

Lemma zdrop_app_le {A} n (l m : list A) : n <= zlen l -> zdrop n (l ++ m) = zdrop n l ++ m.
Proof.
  unfold zdrop, zlen; intros H. rewrite skipn_app.
  replace (Z.to_nat n - length l)%nat with 0%nat by lia. reflexivity.
Qed.

Lemma zdrop_0 {A} (l : list A) : zdrop 0 l = l.
Proof. reflexivity. Qed.

Lemma ztake_all {A} (l : list A) : ztake (zlen l) l = l.
Proof. unfold ztake, zlen. rewrite Nat2Z.id. apply firstn_all. Qed.

Lemma le_bytes_length w n : length (le_bytes w n) = w.
Proof. revert n; induction w as [|w IH]; intros n; cbn [le_bytes length]; auto. Qed.

Lemma be_bytes_length w n : length (be_bytes w n) = w.
Proof. unfold be_bytes. rewrite rev_length. apply le_bytes_length. Qed.

Lemma put_uint_length o w n : length (put_uint o w n) = w.
Proof. destruct o; [apply be_bytes_length | apply le_bytes_length]. Qed.

Lemma zlen_put_uint o w n : zlen (put_uint o w n) = Z.of_nat w.
Proof. unfold zlen. now rewrite put_uint_length. Qed.

Lemma le_val_range l : 0 <= le_val l < 256 ^ zlen l.
Proof.
  induction l as [|b l IH]; cbn [le_val].
  - cbn. lia.
  - rewrite zlen_cons, Z.pow_add_r by (try apply zlen_nonneg; lia).
    pose proof (b2z_range b). change (256 ^ 1) with 256. lia.
Qed.

Lemma get_uint_range o l : 0 <= get_uint o l < 256 ^ zlen l.
Proof.
  destruct o; cbn [get_uint]; unfold be_val.
  - pose proof (le_val_range (rev l)) as H. unfold zlen in *.
    rewrite rev_length in H. exact H.
  - apply le_val_range.
Qed.

Lemma le_val_bytes w n : 0 <= n < 256 ^ Z.of_nat w -> le_val (le_bytes w n) = n.
Proof.
  revert n; induction w as [|w IH]; intros n Hn; cbn [le_bytes le_val].
  - change (256 ^ Z.of_nat 0) with 1 in Hn. lia.
  - rewrite IH.
    + rewrite b2z_z2b. pose proof (Z.div_mod n 256). lia.
    + rewrite Nat2Z.inj_succ, Z.pow_succ_r in Hn by lia.
      split; [apply Z.div_pos; lia|]. apply Z.div_lt_upper_bound; lia.
Qed.

Lemma le_bytes_val l : le_bytes (length l) (le_val l) = l.
Proof.
  induction l as [|b l IH]; cbn [length le_bytes le_val]; [reflexivity|].
  pose proof (b2z_range b) as Hb.
  f_equal.
  - apply b2z_inj. rewrite b2z_z2b.
    rewrite (Z.mul_comm 256), Z.mod_add by lia. apply Z.mod_small; lia.
  - rewrite (Z.mul_comm 256), Z.div_add by lia.
    rewrite Z.div_small by lia. exact IH.
Qed.

Lemma get_put_uint o w n : 0 <= n < 256 ^ Z.of_nat w -> get_uint o (put_uint o w n) = n.
Proof.
  intros H. destruct o; cbn [get_uint put_uint].
  - unfold be_val, be_bytes. rewrite rev_involutive. now apply le_val_bytes.
  - now apply le_val_bytes.
Qed.

Lemma put_get_uint o l : put_uint o (length l) (get_uint o l) = l.
Proof.
  destruct o; cbn [get_uint put_uint].
  - unfold be_val, be_bytes. rewrite <- rev_length, le_bytes_val. apply rev_involutive.
  - apply le_bytes_val.
Qed.

Lemma u32_small z : 0 <= z < 2^32 -> u32 z = z.
Proof. intros; unfold u32; now apply Z.mod_small. Qed.
Lemma u64_small z : 0 <= z < 2^64 -> u64 z = z.
Proof. intros; unfold u64; now apply Z.mod_small. Qed.
Lemma s64_small z : -2^63 <= z < 2^63 -> s64 z = z.
Proof. intros; unfold s64; rewrite Z.mod_small; lia. Qed.
Lemma s8_small z : -128 <= z < 128 -> s8 z = z.
Proof. intros; unfold s8; rewrite Z.mod_small; lia. Qed.
Lemma s64_range z : -2^63 <= s64 z < 2^63.
Proof. unfold s64. pose proof (Z.mod_pos_bound (z + 2^63) (2^64)). lia. Qed.
Lemma u64_range z : 0 <= u64 z < 2^64.
Proof. unfold u64. apply Z.mod_pos_bound. lia. Qed.
Lemma u32_range z : 0 <= u32 z < 2^32.
Proof. unfold u32. apply Z.mod_pos_bound. lia. Qed.

(* CRC-16/MODBUS from its bit-serial definition: reflected polynomial 0xA001,
   initial value 0xFFFF, no final xor; transmitted low byte first. *)
From Coq Require Import ZArith List.
From Verif Require Import Bytes.
Import ListNotations.
Local Open Scope Z_scope.

Definition poly : Z := 40961. (* 0xA001 *)

(* One shift of the register. *)
Definition crc_bit (c : Z) : Z :=
  if Z.odd c then Z.lxor (Z.shiftr c 1) poly else Z.shiftr c 1.

Definition crc_byte (c : Z) (b : byte) : Z :=
  Nat.iter 8 crc_bit (Z.lxor c (b2z b)).

Definition crc16 (l : list byte) : Z := fold_left crc_byte l 65535.

(* The two bytes appended to a frame. *)
Definition crc16_bytes (l : list byte) : list byte :=
  [z2b (crc16 l); z2b (crc16 l / 256)].

(* Bit i of byte j is bit 8*j+i of the string read as one little-endian number:
   the order in which a CRC consumes the bits. *)
Definition bits (l : list byte) : Z := le_val l.

(* l' is l with the error pattern e applied (xor), of the same length. *)
Definition corrupted (l l' : list byte) (e : Z) : Prop :=
  length l' = length l /\ bits l' = Z.lxor (bits l) e.

(* A burst: a non-zero pattern confined to 16 consecutive bits. *)
Definition burst16 (e : Z) : Prop := exists p k, 0 < p < 2^16 /\ 0 <= k /\ e = p * 2^k.

(* Exactly two wrong bits, at different positions below n. *)
Definition two_bits (n : Z) (e : Z) : Prop :=
  exists i j, 0 <= i < j /\ j < n /\ e = 2^i + 2^j.

(* An odd number of wrong bits: the pattern flips the bits at the listed
   positions. *)
Definition flips (ps : list Z) : Z := fold_right (fun p e => Z.lxor (2^p) e) 0 ps.
Definition odd_flips (n : Z) (e : Z) : Prop :=
  exists ps, Nat.Odd (length ps) /\ Forall (fun p => 0 <= p < n) ps /\ e = flips ps.

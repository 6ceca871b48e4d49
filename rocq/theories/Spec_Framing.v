(* Specification vocabulary for length-field framing, independent of the decoder.
   A frame is a byte string whose own length field announces its length. *)
From Coq Require Import ZArith List.
From Verif Require Import Bytes FrameDecoder.
Import ListNotations.
Local Open Scope Z_scope.

Definition order_of (lf : length_field) : order :=
  match lf_order lf with None => BigEndian | Some o => o end.

(* First byte after the length field. *)
Definition header_end (lf : length_field) : Z := lf_off lf + lf_len lf.

(* The unsigned number stored in the length field at the front of s. *)
Definition field_value (lf : length_field) (s : list byte) : Z :=
  get_uint (order_of lf) (ztake (lf_len lf) (zdrop (lf_off lf) s)).

(* Total size announced by the length field at the front of s (documented formula:
   bytes after the length field = field value + adjustment). *)
Definition announced (lf : length_field) (s : list byte) : Z :=
  header_end lf + field_value lf s + lf_adj lf.

(* Configurations the decoder documents: non-negative offset and strip count,
   width 1, 2, 3, 4 or 8, values that fit their Go types. *)
Definition supported (lf : length_field) : Prop :=
  0 <= lf_off lf /\ header_end lf < 2^63 /\
  In (lf_len lf) [1; 2; 3; 4; 8] /\
  -2^63 <= lf_adj lf < 2^63 /\
  0 <= lf_strip lf /\ 0 <= lf_max lf < 2^64.

(* s is exactly one frame, of acceptable size. *)
Definition good_frame (lf : length_field) (s : list byte) : Prop :=
  header_end lf <= zlen s /\
  field_value lf s < 2^63 /\
  zlen s = announced lf s /\
  0 < zlen s /\ zlen s <= lf_max lf /\ zlen s < 2^63 /\
  lf_strip lf <= zlen s.

(* s is a beginning of an acceptable frame, not all of it: either the length field
   itself is not complete or fewer bytes than announced are present. *)
Definition incomplete (lf : length_field) (s : list byte) : Prop :=
  zlen s < header_end lf \/
  (header_end lf <= zlen s /\ field_value lf s < 2^63 /\
   zlen s < announced lf s /\ announced lf s <= lf_max lf /\ announced lf s < 2^63).

(* What the user receives for a frame: the frame without its first strip bytes. *)
Definition stripped (lf : length_field) (s : list byte) : list byte := zdrop (lf_strip lf) s.

(* s is exactly one frame that is longer than the maximum. *)
Definition overlong_frame (lf : length_field) (s : list byte) : Prop :=
  header_end lf <= zlen s /\ field_value lf s < 2^63 /\
  zlen s = announced lf s /\ lf_max lf < zlen s /\ zlen s < 2^63.

(* Configurations for which every possible length-field value announces an
   acceptable frame. *)
Definition tame (lf : length_field) : Prop :=
  supported lf /\ lf_len lf <> 8 /\ 0 <= lf_adj lf /\
  lf_strip lf <= header_end lf + lf_adj lf /\
  header_end lf + (256 ^ lf_len lf - 1) + lf_adj lf <= lf_max lf /\ lf_max lf < 2^63.

(* The HTLV+CRC frame format, from its description in zdecoder/htlvcrcdecoder.go
   9-50: head, function code, one length byte, body, CRC-16/MODBUS of all of it. *)
From Coq Require Import ZArith List.
From Verif Require Import Bytes Spec_Crc.
Import ListNotations.
Local Open Scope Z_scope.

Record htlv := Htlv { hf_head : byte; hf_code : byte; hf_body : list byte }.

Definition htlv_covered (x : htlv) : list byte :=
  hf_head x :: hf_code x :: z2b (zlen (hf_body x)) :: hf_body x.
Definition htlv_frame (x : htlv) : list byte :=
  htlv_covered x ++ crc16_bytes (htlv_covered x).
Definition htlv_wire (xs : list htlv) : list byte := concat (map htlv_frame xs).

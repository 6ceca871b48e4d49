(* What C108 says. *)
From Coq Require Import ZArith List.
From Verif Require Import Bytes Pack Endpoint Format.
Import ListNotations.

(* The packer asked for: the last one, TLV by default. *)
Definition asked_packer (os : list fop) : packer := fold_left (fun p o => match o with FPacket q => q | _ => p end) os pack_tlv.
(* The calls that are about decoding and interceptors. *)
Definition end_ops (os : list fop) : list eop := flat_map (fun o => match o with FEnd e => [e] | _ => [] end) os.
(* Packer and decoder are of the same format. *)
Inductive same_format : packer -> option decoder -> Prop :=
| SameTlv : same_format pack_tlv (Some tlv_decoder)
| SameLtv : same_format pack_ltv (Some ltv_decoder).

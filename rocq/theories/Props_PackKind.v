(* C01, C02, C07 for a packer chosen by name, zpack.Factory().NewPack(kind): the
   old kind is the little-endian one, and every other name, known or not, gives the
   packer the server's default decoder reads. *)
From Coq Require Import ZArith List Bool Lia.
From Verif Require Import Bytes Pack FrameDecoder Chain Decoders Reader Spec_Framing Spec_Codec Props_Codec.
Import ListNotations.
Local Open Scope Z_scope.

Theorem C01_kinds : forall k msgs chunks, k <> ZinxDataPackOld ->
  Forall msg_ok msgs -> concat chunks = wire (fst (new_pack k)) msgs ->
  exists qs r, run_reader tlv_reader chunks = (qs, Running, r) /\ map seen qs = map Some msgs.
Proof.
  intros k msgs chunks Hk Hm Hc.
  assert (E : fst (new_pack k) = pack_tlv) by (destruct k; [reflexivity|congruence|reflexivity]).
  rewrite E in Hc. destruct (C01_tlv_stream_roundtrip msgs chunks Hm Hc) as (qs & r & H1 & H2 & _). eauto.
Qed.
Print Assumptions C01_kinds.
Example C01_kinds_case : OtherPack <> ZinxDataPackOld /\ Forall msg_ok [(7, [z2b 1; z2b 2]); (4294967295, [])] /\
  exists c, concat c = wire (fst (new_pack OtherPack)) [(7, [z2b 1; z2b 2]); (4294967295, [])] /\ length c = 2%nat.
Proof.
  split; [discriminate|]. split; [repeat constructor; cbn; lia|].
  exists [wire (fst (new_pack OtherPack)) [(7, [z2b 1; z2b 2]); (4294967295, [])]; []]. split; reflexivity.
Qed.

Theorem C02_kinds : forall msgs chunks,
  Forall msg_ok msgs -> concat chunks = wire (fst (new_pack ZinxDataPackOld)) msgs ->
  exists qs r, run_reader ltv_reader chunks = (qs, Running, r) /\ map seen qs = map Some msgs.
Proof.
  intros msgs chunks Hm Hc. destruct (C02_ltv_stream_roundtrip msgs chunks Hm Hc) as (qs & r & H1 & H2 & _). eauto.
Qed.
Print Assumptions C02_kinds.

(* Whatever the name, Unpack reads back what Pack wrote. *)
Theorem C07_kinds : forall k max id data, 0 <= id < 2^32 -> zlen data < 2^32 ->
  snd (new_pack k) max (fst (new_pack k) (new_msg_package id data))
  = if (0 <? max) && (max <? zlen data) then UnpackTooLarge
    else UnpackOk {| m_id := id; m_len := zlen data; m_data := []; m_raw := [] |}.
Proof.
  intros [] max id data Hi Hd; [apply C07_unpack_pack_tlv|apply C07_unpack_pack_ltv|apply C07_unpack_pack_tlv]; assumption.
Qed.
Print Assumptions C07_kinds.

(* C81: the data of a request stays what was read for it. *)
From Coq Require Import ZArith List Bool Lia.
From Verif Require Import Bytes Pack FrameDecoder Chain Decoders Reader GoSlice Payload Spec_Payload Payload_proofs.
Import ListNotations.
Local Open Scope nat_scope.

(* C81 wherever a frame decoder is set, and on KCP and websocket connections without one:
   however reads, looks at the data of any message delivered so far and stores into such
   data are interleaved, whatever append allocates, everyone sees what they would see if
   every message were a value of its own: the data decoded for it, with the stores made into
   that very message. *)
Theorem C81_own_data_partial : forall grow k d size ls, k <> Tcp \/ d <> DNone ->
  snd (p_run grow k d size (p_new k d size) ls) = snd (v_run k size (v_new d) ls).
Proof. intros grow k d size ls H. exact (run_sim k size d grow H ls _ _ (inv_new k size d)). Qed.
Print Assumptions C81_own_data_partial.
(* Three messages arrive in three pieces; the first is looked at twice, written to, and
   looked at again; the buffer has been used again meanwhile. *)
Definition some_reads (p : message -> list byte) : list plabel :=
  let w := wire p [(7, [x01; x02; x03]); (8, []); (9, [x04; x05])]%Z in
  [PRead (firstn 13 w); PLook 0; PRead (firstn 10 (skipn 13 w)); PLook 0; PLook 1; PWrite 0 1 x09; PRead (skipn 23 w); PLook 0; PLook 2; PLook 3].
Example C81_case : snd (v_run Tcp 16 (v_new DTlv) (some_reads pack_tlv)) = [Saw 0 7 [x01; x02; x03]; Saw 0 7 [x01; x02; x03]; Saw 1 8 []; Saw 0 7 [x01; x09; x03]; Saw 2 9 [x04; x05]] /\
  snd (p_run (fun c n => c + n) Tcp DTlv 16 (p_new Tcp DTlv 16) (some_reads pack_tlv)) = snd (v_run Tcp 16 (v_new DTlv) (some_reads pack_tlv)).
Proof. split; vm_compute; reflexivity. Qed.
Example C81_case_ltv : snd (p_run (fun c n => c + n) Kcp DLtv 16 (p_new Kcp DLtv 16) (some_reads pack_ltv)) = snd (v_run Tcp 16 (v_new DTlv) (some_reads pack_tlv)).
Proof. vm_compute; reflexivity. Qed.

(* In particular, while nobody writes, every look at message i at any time shows what the
   reader of the codec properties (C01, C02, C10) delivers as its i-th message. *)
Theorem C81_reader_partial : forall grow k d size ls i id data, k <> Tcp \/ d <> DNone ->
  nobody_writes ls -> Forall (fun c => fits k size c = true) (reads ls) ->
  In (Saw i id data) (snd (p_run grow k d size (p_new k d size) ls)) ->
  nth_error (of_requests (fst (fst (run_reader (reader_with d) (reads ls))))) i = Some (id, data).
Proof.
  intros grow k d size ls i id data H N F I0. rewrite (C81_own_data_partial grow k d size ls H) in I0. exact (v_run_reader k size ls (reader_with d) [] N F i id data I0).
Qed.
Print Assumptions C81_reader_partial.
Example C81_reader_case : let ls := [PRead (firstn 13 (wire pack_tlv [(7, [x01; x02; x03]); (8, [])]%Z)); PRead (skipn 13 (wire pack_tlv [(7, [x01; x02; x03]); (8, [])]%Z)); PLook 1; PLook 0] in
  nobody_writes ls /\ Forall (fun c => fits Tcp 16 c = true) (reads ls) /\ snd (p_run (fun c n => c + n) Tcp DTlv 16 (p_new Tcp DTlv 16) ls) = [Saw 1 8 []; Saw 0 7 [x01; x02; x03]].
Proof. cbv zeta. split; [intros i o b H; vm_compute in H; intuition discriminate|]. split; [repeat constructor|vm_compute; reflexivity]. Qed.

(* On TCP without a decoder: the data is right until the next read. *)
Theorem C81_raw_partial : forall grow size ls c, Forall (fun c => fits Tcp size c = true) (reads ls) -> length c <= size ->
  snd (p_run grow Tcp DNone size (p_new Tcp DNone size) (ls ++ [PRead c; PLook (length (reads ls))])) = snd (p_run grow Tcp DNone size (p_new Tcp DNone size) ls) ++ [Saw (length (reads ls)) 0 c].
Proof. exact raw_last. Qed.
Print Assumptions C81_raw_partial.
Example C81_raw_case : let ls := [PRead [x01; x02]; PLook 0; PWrite 0 0 x07; PRead [x03]] in
  Forall (fun c => fits Tcp 4 c = true) (reads ls) /\ snd (p_run (fun _ _ => 0) Tcp DNone 4 (p_new Tcp DNone 4) (ls ++ [PRead [x08; x09]; PLook 2])) = [Saw 0 0 [x01; x02]; Saw 2 0 [x08; x09]].
Proof. split; [repeat constructor|vm_compute; reflexivity]. Qed.
(* C81 is false there afterwards: the next read goes into the same buffer.  A request
   waiting in its queue shows the later bytes; or a mixture that was never sent. *)
Theorem C81_raw_refuted : (forall grow size c1 c2, length c1 = length c2 -> length c1 <= size ->
    snd (p_run grow Tcp DNone size (p_new Tcp DNone size) [PRead c1; PLook 0; PRead c2; PLook 0]) = [Saw 0 0 c1; Saw 0 0 c2]) /\
  exists ls, nobody_writes ls /\ reads ls = [[x01; x02; x03]; [x04]] /\
    snd (p_run (fun _ _ => 0) Tcp DNone 1024 (p_new Tcp DNone 1024) ls) = [Saw 0 0 [x04; x02; x03]].
Proof.
  split; [exact raw_overwritten|]. exists [PRead [x01; x02; x03]; PRead [x04]; PLook 0]. split; [intros i o b H; cbn in H; intuition discriminate|]. split; [reflexivity|vm_compute; reflexivity].
Qed.
Print Assumptions C81_raw_refuted.

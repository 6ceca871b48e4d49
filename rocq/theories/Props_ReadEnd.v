(* C06: what the connection sees of a decoder that panics or never returns. *)
From Coq Require Import ZArith List.
From Verif Require Import Bytes FrameDecoder Chain Decoders Reader Spec_Codec Spec_Framing Props_Codec.
Import ListNotations.
Local Open Scope Z_scope.

(* For every decoder's interceptor, all further interceptors and all further data: with one
   documented configuration two zero bytes end the connection (the read loop's panic is
   recovered and the connection stopped), with another the read loop never comes back from
   them; in both cases nothing is handed on, then or later. *)
Theorem C06_connection_refuted :
  (exists lf bytes, supported lf /\ forall dec body more, exists r, run_reader (server_reader lf dec body) (bytes :: more) = ([], StoppedByPanic, r)) /\
  (exists lf bytes, supported lf /\ (forall fuel, decode_fuel fuel (new_frame_decoder lf) bytes = DecOutOfFuel) /\
     forall dec body more, exists r, run_reader (server_reader lf dec body) (bytes :: more) = ([], Hung, r)).
Proof.
  split.
  - destruct C06_panic_refuted as (lf & b & S & P). exists lf, b. split; [exact S|]. intros. eexists. cbn [run_reader]. unfold read_chunk, server_reader at 1. cbn [rd_fd]. rewrite P. reflexivity.
  - destruct C06_loop_forever_refuted as (lf & b & S & P). exists lf, b. split; [exact S|]. split; [exact P|]. intros. eexists. cbn [run_reader]. unfold read_chunk, server_reader at 1. cbn [rd_fd]. unfold decode. rewrite P. reflexivity.
Qed.
Print Assumptions C06_connection_refuted.

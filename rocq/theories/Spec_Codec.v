(* Messages that the packers can represent. *)
From Coq Require Import ZArith List.
From Verif Require Import Bytes Pack FrameDecoder Chain.
Local Open Scope Z_scope.

(* (ID, payload): the ID is a uint32; the payload is short enough that header plus
   payload is below 2^32 bytes. *)
Definition msg_ok (p : Z * list byte) : Prop := 0 <= fst p < 2^32 /\ zlen (snd p) < 2^32 - 8.

(* The frames handed out by a decoder run that ended normally. *)
Definition frames_of (r : dec_result) : option (list (list byte)) :=
  match r with DecOk fs _ => Some fs | _ => None end.

(* What request.GetMsg().GetDataLen() gives (zpack/message.go 37-40). *)
Definition seen_len (q : req) : option Z := match rq_msg q with Some m => Some (m_len m) | None => None end.

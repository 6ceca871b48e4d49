(* What the set-up calls of a server or client ask for. *)
From Coq Require Import List.
From Verif Require Import Bytes Pack Chain Decoders Reader Endpoint.
Import ListNotations.

(* The interceptors added, in order. *)
Definition added (os : list eop) : list interceptor := flat_map (fun o => match o with EAdd i => [i] | _ => [] end) os.
(* The decoder asked for: the last one set, TLV by default. *)
Definition asked (os : list eop) : option decoder := fold_left (fun d o => match o with ESetDecoder d' => d' | _ => d end) os (Some tlv_decoder).
Definition is_start_op (o : eop) : bool := match o with EStart => true | _ => false end.
Definition no_set (o : eop) : Prop := match o with ESetDecoder _ => False | _ => True end.
(* The decoder is not changed after the first Start. *)
Definition set_first (os : list eop) : Prop :=
  exists before after, os = before ++ EStart :: after /\ Forall (fun o => is_start_op o = false) before /\ Forall no_set after.
(* A frame read, as it enters the chain; the request after a decoder got the message out of it. *)
Definition raw (f : list byte) : icreq := IcRequest {| rq_msg := Some (new_message (u32 (zlen f)) f); rq_resp := None |}.

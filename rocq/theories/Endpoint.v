(* Model of how a server or client comes by the decoder its connections use: SetDecoder,
   AddInterceptor, Start and Restart in any order (znet/server.go 148, 424-430, 588-601;
   znet/client.go 60-70, 118-193, 198-207, 301-314; znet/msghandler.go 102, 282-295). *)
From Coq Require Import ZArith List Bool.
From Verif Require Import Bytes Pack FrameDecoder Chain Decoders Reader.
Import ListNotations.

(* ziface/idecoder.go 7-10: an interceptor with a length field. *)
Record decoder := Decoder { dc_field : length_field; dc_icpt : interceptor }.
(* zdecoder.NewTLVDecoder, NewLTV_Little_Decoder, NewHTLVCRCDecoder *)
Definition tlv_decoder : decoder := Decoder tlv_length_field tlv_intercept.
Definition ltv_decoder : decoder := Decoder ltv_length_field ltv_intercept.
Definition htlv_decoder : decoder := Decoder htlv_length_field htlv_intercept.

Record endpoint := Endpoint { ep_dec : option decoder; ep_chain : builder }.
(* server.go 148, client.go 65-67; msghandler.go 102: the message handler is the tail. *)
Definition new_endpoint : endpoint := Endpoint (Some tlv_decoder) (set_tail new_builder msg_handle_intercept).

Inductive eop :=
| EAdd (i : interceptor)           (* AddInterceptor: server.go 599-601, client.go 301-303 *)
| ESetDecoder (d : option decoder) (* SetDecoder: server.go 588-590, client.go 305-307 *)
| EStart                           (* Start: server.go 424-430, client.go 198-207 *)
| ERestart.                        (* Restart, clients only: client.go 118 *)

Definition server_op (s : endpoint) (o : eop) : endpoint :=
  match o with
  | EAdd i => Endpoint (ep_dec s) (add_interceptor (ep_chain s) i)
  | ESetDecoder d => Endpoint d (ep_chain s)
  | EStart => match ep_dec s with Some d => Endpoint (ep_dec s) (set_head (ep_chain s) (dc_icpt d)) | None => s end
  | ERestart => s
  end.
Definition client_op (s : endpoint) (o : eop) : endpoint :=
  match o with
  | EAdd i => Endpoint (ep_dec s) (add_interceptor (ep_chain s) i)
  | ESetDecoder d => Endpoint d (ep_chain s)
  | EStart => match ep_dec s with Some d => Endpoint (ep_dec s) (add_interceptor (ep_chain s) (dc_icpt d)) | None => s end
  | ERestart => s
  end.
Definition server_ops (os : list eop) : endpoint := fold_left server_op os new_endpoint.
Definition client_ops (os : list eop) : endpoint := fold_left client_op os new_endpoint.

(* A connection made now: its frame decoder comes from GetLengthField (server.go 592-597,
   client.go 308-313; connection.go 139-142, 177-180), the chain is the endpoint's. *)
Definition reader_of (s : endpoint) : reader :=
  Reader (option_map (fun d => new_frame_decoder (dc_field d)) (ep_dec s)) (ep_chain s).

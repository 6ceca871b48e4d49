(* Model of examples/zinx_decoder/bili: the server of an HTLV+CRC device. *)
From Coq Require Import ZArith List Bool.
From Verif Require Import Bytes Pack FrameDecoder Chain Crc Decoders Reader.
Import ListNotations.
Local Open Scope Z_scope.

(* What one call of a router's Handle does to the connection: Send once, return
   without sending, or panic (which znet/msghandler.go doMsgHandler recovers). *)
Inductive handled := Sent (bytes : list byte) | Silent | HandlerPanic.

(* Go: body[:n] of a decoded frame.  A slice expression may extend a slice up to
   its capacity: body is data[3:len(data)-2] (zdecoder/htlvcrcdecoder.go 103) and
   the frame was made with exactly len(data) bytes (zinterceptor/framedecoder.go
   572), so the two CRC bytes behind the body are still within it. *)
Definition body_prefix (n : Z) (body crc : list byte) : option (list byte) := go_slice 0 n (body ++ crc).

(* The tail of every pack function: append zdecoder.GetCrC of what was written. *)
Definition seal (buffer : list byte) : list byte := buffer ++ get_crc buffer.

(* router/bili0x10router.go 36-68: pack10. *)
Definition pack10 (fcode : byte) (body crc : list byte) : option (list byte) :=
  match body_prefix 7 body crc with
  | None => None
  | Some code =>
    Some (seal ([z2b 161; fcode; z2b 30] ++ code
      ++ map z2b [10; 11; 12; 13; 14] ++ map z2b [15; 16; 17; 18] ++ [z2b 2]
      ++ map z2b [20; 21; 22; 23; 24; 25; 26; 27] ++ [z2b 1] ++ map z2b [29; 30; 31; 32]))
  end.

(* router/bili0x13router.go 34-62: pack13. *)
Definition pack13 (fcode : byte) (body crc : list byte) : option (list byte) :=
  match body_prefix 4 body crc with
  | None => None
  | Some card =>
    Some (seal ([z2b 161; fcode; z2b 14] ++ card ++ [z2b 1] ++ map z2b [8; 9] ++ map z2b [10; 11]
      ++ map z2b [12; 13; 14; 15; 16]))
  end.

(* router/bili0x14router.go 34-41: pack14, and router/bili0x16router.go 36-43:
   pack16, which has the same text.  The bytes are rewritten in place, in the
   slice the message holds as well; only the bytes sent are modelled. *)
Definition pack14 (data : list byte) : option (list byte) :=
  match data with
  | [] => None
  | _ :: rest =>
    match go_slice 0 (zlen data - 2) (z2b 161 :: rest) with
    | None => None
    | Some covered => Some (seal covered)
    end
  end.

(* router/bili0x15router.go 34-216: pack15. *)
Definition pack15 (fcode : byte) (body crc : list byte) : option (list byte) :=
  match body_prefix 7 body crc with
  | None => None
  | Some code =>
    Some (seal ([z2b 161; fcode; z2b 38] ++ code
      ++ [z2b 168; z2b 1; z2b 1; z2b 1; z2b 1; z2b 26; z2b 39; z2b 1; z2b 0; z2b 0; z2b 0; z2b 1; z2b 1; z2b 48]
      ++ map z2b [23; 24] ++ map z2b [25; 26] ++ map z2b [27; 28] ++ [z2b 0]
      ++ map z2b [30; 31; 32; 33] ++ [z2b 48] ++ map z2b [0; 0]))
  end.

Definition answered (o : option (list byte)) : handled :=
  match o with Some b => Sent b | None => HandlerPanic end.

(* main.go 34-38 with the routers' Handle (bili0x10router.go 15-28 and the four
   like it): a function code without a router is only logged, and a request
   without a decoded HTLV structure is not answered. *)
Definition bili_handle (q : req) : handled :=
  match rq_msg q, rq_resp q with
  | Some m, Some (DecodedHTLV _ fcode _ body crc data) =>
    if m_id m =? 16 then answered (pack10 fcode body crc)
    else if m_id m =? 19 then answered (pack13 fcode body crc)
    else if m_id m =? 20 then answered (pack14 data)
    else if m_id m =? 21 then answered (pack15 fcode body crc)
    else if m_id m =? 22 then answered (pack14 data)
    else Silent
  | _, _ => Silent
  end.

Definition sent_of (h : handled) : list byte := match h with Sent b => b | _ => [] end.

(* The bytes the server writes for the requests it dispatched, in this order
   (one worker, or requests of one connection with a pool: C16). *)
Definition bili_output (qs : list req) : list byte := concat (map (fun q => sent_of (bili_handle q)) qs).

(* main.go 18-40 as written: AddInterceptor puts the HTLV decoder behind the
   decoder of the server, and that one is the default of NewServer, TLV
   (znet/server.go 148, 426-429). *)
Definition bili_reader : reader := server_reader tlv_length_field tlv_intercept [htlv_intercept].

(* Model of the receive path of a TCP connection: znet/connection.go StartReader. *)
From Coq Require Import ZArith List Bool.
From Verif Require Import Bytes Pack FrameDecoder Chain Decoders.
Import ListNotations.
Local Open Scope Z_scope.

(* The state a reader goroutine owns: its frame decoder (nil when the server has
   no decoder, znet/connection.go 139-142) and the message handler's chain. *)
Record reader := Reader {
  rd_fd : option fdec;
  rd_chain : builder
}.

(* Why the reader goroutine ended, if it did. *)
Inductive status := Running | StoppedByPanic | Hung.

Definition delivered_of (es : list event) : list req :=
  flat_map (fun e => match e with Deliver q => [q] | Enter _ _ => [] end) es.

(* znet/connection.go 271-278 (and 280-284): one request per byte slice, executed
   on the chain.  A panic leaves the loop (recovered at 231-235, then c.Stop; the
   websocket reader does not recover and the process ends, see ConnMsg.v). *)
Fixpoint dispatch_frames (b : builder) (frames : list (list byte)) : list req * status :=
  match frames with
  | [] => ([], Running)
  | f :: fs =>
    let m := new_message (u32 (zlen f)) f in
    let '(es, o) := execute b (IcRequest {| rq_msg := Some m; rq_resp := None |}) in
    match o with
    | Panicked => (delivered_of es, StoppedByPanic)
    | Returned _ =>
      let '(ds, s) := dispatch_frames b fs in (delivered_of es ++ ds, s)
    end
  end.

(* znet/connection.go 249-285: handling of one successful Read of [chunk]. *)
Definition read_chunk (r : reader) (chunk : list byte) : list req * status * reader :=
  match rd_fd r with
  | Some fd =>
    match decode fd chunk with
    | DecPanic => ([], StoppedByPanic, r)
    | DecOutOfFuel => ([], Hung, r)
    | DecOk frames fd' =>
      let '(ds, s) := dispatch_frames (rd_chain r) frames in
      (ds, s, {| rd_fd := Some fd'; rd_chain := rd_chain r |})
    end
  | None =>
    let '(ds, s) := dispatch_frames (rd_chain r) [chunk] in (ds, s, r)
  end.

(* znet/connection.go 241-287: the read loop over the successive reads. *)
Fixpoint run_reader (r : reader) (chunks : list (list byte)) : list req * status * reader :=
  match chunks with
  | [] => ([], Running, r)
  | c :: cs =>
    let '(ds, s, r') := read_chunk r c in
    match s with
    | Running => let '(ds', s', r'') := run_reader r' cs in (ds ++ ds', s', r'')
    | _ => (ds, s, r')
    end
  end.

(* A server with the given decoder and extra interceptors: znet/server.go Start
   makes the decoder's interceptor the head of the chain, newMsgHandle
   (znet/msghandler.go 102) makes MsgHandle the tail. *)
Definition server_reader (lf : length_field) (dec : interceptor) (body : list interceptor) : reader :=
  {| rd_fd := Some (new_frame_decoder lf);
     rd_chain := {| bd_head := Some dec; bd_body := body; bd_tail := Some msg_handle_intercept |} |}.

(* Server without extra interceptors and the default (TLV) decoder:
   znet/server.go newServerWithConfig sets zdecoder.NewTLVDecoder(). *)
Definition tlv_reader : reader := server_reader tlv_length_field tlv_intercept [].
Definition ltv_reader : reader := server_reader ltv_length_field ltv_intercept [].
Definition htlv_reader : reader := server_reader htlv_length_field htlv_intercept [].

(* What a message handler sees through request.GetMsgID and request.GetData
   (znet/request.go 162-168). *)
Definition seen (q : req) : option (Z * list byte) :=
  match rq_msg q with Some m => Some (m_id m, m_data m) | None => None end.

(* znet/connection.go SendMsg: pack and write; the bytes one side puts on the
   wire for a list of (id, payload) pairs. *)
Definition wire (pack : message -> list byte) (msgs : list (Z * list byte)) : list byte :=
  concat (map (fun p => pack (new_msg_package (fst p) (snd p))) msgs).

(* Model of zdecoder: the TLV, LTV and HTLV+CRC decoder interceptors. *)
From Coq Require Import ZArith List Bool.
From Verif Require Import Bytes Pack FrameDecoder Chain Crc.
Import ListNotations.
Local Open Scope Z_scope.

(* zdecoder/tlvdecoder.go 72-95: TLVDecoder.GetLengthField. *)
Definition tlv_length_field : length_field :=
  {| lf_order := None; lf_max := 2^32 - 1 + 4 + 4; lf_off := 4; lf_len := 4;
     lf_adj := 0; lf_strip := 0 |}.

(* zdecoder/ltvdecoder_little.go 71-96: LTV_Little_Decoder.GetLengthField. *)
Definition ltv_length_field : length_field :=
  {| lf_order := Some LittleEndian; lf_max := 2^32 - 1 + 4 + 4; lf_off := 0; lf_len := 4;
     lf_adj := 4; lf_strip := 0 |}.

(* zdecoder/htlvcrcdecoder.go 68-90: HtlvCrcDecoder.GetLengthField. *)
Definition htlv_length_field : length_field :=
  {| lf_order := None; lf_max := 255 + 4; lf_off := 2; lf_len := 1;
     lf_adj := 2; lf_strip := 0 |}.

(* Go: data[lo:hi]; None is a run-time panic.  cap(data) is taken to be len(data). *)
Definition go_slice (lo hi : Z) (data : list byte) : option (list byte) :=
  if (lo <? 0) || (hi <? lo) || (zlen data <? hi) then None
  else Some (ztake (hi - lo) (zdrop lo data)).

(* zdecoder/tlvdecoder.go 97-111: decode; 8+Length is computed in uint32. *)
Definition tlv_decode (data : list byte) : option (Z * Z * list byte) :=
  match go_slice 0 4 data, go_slice 4 8 data with
  | Some t, Some l =>
    let tag := get_uint BigEndian t in
    let len := get_uint BigEndian l in
    match go_slice 8 (u32 (8 + len)) data with
    | Some v => Some (tag, len, v)
    | None => None
    end
  | _, _ => None
  end.

(* zdecoder/ltvdecoder_little.go 98-112: decode. *)
Definition ltv_decode (data : list byte) : option (Z * Z * list byte) :=
  match go_slice 0 4 data, go_slice 4 8 data with
  | Some l, Some t =>
    let len := get_uint LittleEndian l in
    let tag := get_uint LittleEndian t in
    match go_slice 8 (u32 (8 + len)) data with
    | Some v => Some (len, tag, v)
    | None => None
    end
  | _, _ => None
  end.

Definition pass (v : icreq) : act := Return v.

(* zdecoder/tlvdecoder.go 113-144: TLVDecoder.Intercept. *)
Definition tlv_intercept : interceptor := fun cur =>
  match get_imessage cur with
  | None => proceed_with_imessage cur None None pass
  | Some m =>
    if zlen (m_data m) <? 8 then proceed_with_imessage cur (Some m) None pass
    else
      match tlv_decode (m_data m) with
      | None => PanicAct
      | Some (tag, len, v) =>
        let m' := set_data_len (set_data (set_msg_id m tag) v) len in
        proceed_with_imessage cur (Some m') (Some (DecodedTLV tag len v)) pass
      end
  end.

(* zdecoder/ltvdecoder_little.go 114-144: LTV_Little_Decoder.Intercept. *)
Definition ltv_intercept : interceptor := fun cur =>
  match get_imessage cur with
  | None => proceed_with_imessage cur None None pass
  | Some m =>
    if zlen (m_data m) <? 8 then proceed_with_imessage cur (Some m) None pass
    else
      match ltv_decode (m_data m) with
      | None => PanicAct
      | Some (len, tag, v) =>
        let m' := set_data (set_msg_id (set_data_len m len) tag) v in
        proceed_with_imessage cur (Some m') (Some (DecodedLTV len tag v)) pass
      end
  end.

Inductive htlv_result := HtlvPanic | HtlvNil | HtlvOk (head fcode len : byte) (body crc : list byte).

(* zdecoder/htlvcrcdecoder.go 92-116: decode.  HtlvNil is the nil pointer
   returned on a checksum mismatch. *)
Definition htlv_decode (data : list byte) : htlv_result :=
  let n := zlen data in
  match data with
  | h :: f :: l :: _ =>
    match go_slice 3 (n - 2) data, go_slice (n - 2) n data, go_slice 0 (n - 2) data with
    | Some body, Some crc, Some covered =>
      if check_crc covered crc then HtlvOk h f l body crc else HtlvNil
    | _, _, _ => HtlvPanic
    end
  | _ => HtlvPanic
  end.

(* zdecoder/htlvcrcdecoder.go 118-146: Intercept.  htlvData.Funcode on a nil
   htlvData (line 141) is a nil dereference, i.e. a panic. *)
Definition htlv_intercept : interceptor := fun cur =>
  match get_imessage cur with
  | None => proceed_with_imessage cur None None pass
  | Some m =>
    if zlen (m_data m) <? 5 then proceed_with_imessage cur (Some m) None pass
    else
      match htlv_decode (m_data m) with
      | HtlvPanic => PanicAct
      | HtlvNil => PanicAct
      | HtlvOk h f l body crc =>
        let m' := set_msg_id m (b2z f) in
        proceed_with_imessage cur (Some m')
          (Some (DecodedHTLV h f l body crc (m_data m))) pass
      end
  end.

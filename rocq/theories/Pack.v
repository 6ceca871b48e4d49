(* Model of zpack: messages and the two data packers. *)
From Coq Require Import ZArith List Bool.
From Verif Require Import Bytes.
Import ListNotations.
Local Open Scope Z_scope.

(* zpack/message.go 4-9: type Message. *)
Record message := Msg {
  m_len : Z;              (* DataLen uint32 *)
  m_id : Z;               (* ID uint32 *)
  m_data : list byte;     (* Data; nil and empty are not distinguished *)
  m_raw : list byte       (* rawData *)
}.

(* zpack/message.go 11-18: NewMsgPackage; uint32(len(data)) wraps. *)
Definition new_msg_package (id : Z) (data : list byte) : message :=
  {| m_id := id; m_len := u32 (zlen data); m_data := data; m_raw := data |}.

(* zpack/message.go 20-26: NewMessage. *)
Definition new_message (len : Z) (data : list byte) : message :=
  {| m_id := 0; m_len := len; m_data := data; m_raw := data |}.

(* zpack/message.go 28-35: NewMessageByMsgId. *)
Definition new_message_by_id (id len : Z) (data : list byte) : message :=
  {| m_id := id; m_len := len; m_data := data; m_raw := data |}.

(* zpack/message.go 60-70: the three setters. *)
Definition set_data_len (m : message) (n : Z) : message :=
  {| m_id := m_id m; m_len := n; m_data := m_data m; m_raw := m_raw m |}.
Definition set_msg_id (m : message) (n : Z) : message :=
  {| m_id := n; m_len := m_len m; m_data := m_data m; m_raw := m_raw m |}.
Definition set_data (m : message) (d : list byte) : message :=
  {| m_id := m_id m; m_len := m_len m; m_data := d; m_raw := m_raw m |}.

(* zpack/datapack_tlv_bigendian.go 12: defaultHeaderLen. *)
Definition default_header_len : Z := 8.

(* zpack/datapack_tlv_bigendian.go 31-52: DataPack.Pack.  binary.Write into a
   bytes.Buffer cannot fail for these operand types, so the error is dropped. *)
Definition pack_tlv (m : message) : list byte :=
  put_uint BigEndian 4 (m_id m) ++ put_uint BigEndian 4 (m_len m) ++ m_data m.

(* zpack/datapack_ltv_littleendian.go 32-53: DataPackLtv.Pack. *)
Definition pack_ltv (m : message) : list byte :=
  put_uint LittleEndian 4 (m_len m) ++ put_uint LittleEndian 4 (m_id m) ++ m_data m.

(* encoding/binary.Read of one uint32 from a bytes.Reader: io.EOF or
   io.ErrUnexpectedEOF when fewer than four bytes remain. *)
Definition read_u32 (o : order) (l : list byte) : option (Z * list byte) :=
  if zlen l <? 4 then None else Some (get_uint o (ztake 4 l), zdrop 4 l).

Inductive unpack_result := UnpackOk (m : message) | UnpackShort | UnpackTooLarge.

(* The size check shared by both Unpack methods:
   zpack/datapack_tlv_bigendian.go 76-78, zpack/datapack_ltv_littleendian.go 77-79. *)
Definition check_size (max_packet_size : Z) (m : message) : unpack_result :=
  if (0 <? max_packet_size) && (max_packet_size <? m_len m)
  then UnpackTooLarge else UnpackOk m.

(* zpack/datapack_tlv_bigendian.go 56-83: DataPack.Unpack; max_packet_size is
   zconf.GlobalObject.MaxPacketSize. *)
Definition unpack_tlv (max_packet_size : Z) (l : list byte) : unpack_result :=
  match read_u32 BigEndian l with
  | None => UnpackShort
  | Some (id, l1) =>
    match read_u32 BigEndian l1 with
    | None => UnpackShort
    | Some (len, _) =>
      check_size max_packet_size {| m_id := id; m_len := len; m_data := []; m_raw := [] |}
    end
  end.

(* zpack/datapack_ltv_littleendian.go 57-84: DataPackLtv.Unpack. *)
Definition unpack_ltv (max_packet_size : Z) (l : list byte) : unpack_result :=
  match read_u32 LittleEndian l with
  | None => UnpackShort
  | Some (len, l1) =>
    match read_u32 LittleEndian l1 with
    | None => UnpackShort
    | Some (id, _) =>
      check_size max_packet_size {| m_id := id; m_len := len; m_data := []; m_raw := [] |}
    end
  end.

(* ziface/idatapack.go 15-26 and zpack/packfactory.go 30-47: the packer kinds. *)
Inductive pack_kind := ZinxDataPack | ZinxDataPackOld | OtherPack.
Definition new_pack (k : pack_kind) : (message -> list byte) * (Z -> list byte -> unpack_result) :=
  match k with
  | ZinxDataPack => (pack_tlv, unpack_tlv)
  | ZinxDataPackOld => (pack_ltv, unpack_ltv)
  | OtherPack => (pack_tlv, unpack_tlv)
  end.

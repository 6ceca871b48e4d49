(* Model of zinterceptor/framedecoder.go: the length-field frame decoder. *)
From Coq Require Import ZArith List Bool.
From Verif Require Import Bytes.
Import ListNotations.
Local Open Scope Z_scope.

(* ziface/ilengthfield.go 11-27: LengthField.  The order is given explicitly;
   NewFrameDecoder (framedecoder.go 322-326) maps nil to BigEndian. *)
Record length_field := LF {
  lf_order : option order;
  lf_max : Z;      (* MaxFrameLength uint64 *)
  lf_off : Z;      (* LengthFieldOffset int *)
  lf_len : Z;      (* LengthFieldLength int *)
  lf_adj : Z;      (* LengthAdjustment int *)
  lf_strip : Z     (* InitialBytesToStrip int *)
}.

(* zinterceptor/framedecoder.go 307-316: FrameDecoder (failFast is never set, so
   it is false, and fail() 351-360 has an empty body). *)
Record fdec := FD {
  fd_order : order;
  fd_max : Z;
  fd_off : Z;
  fd_flen : Z;
  fd_adj : Z;
  fd_strip : Z;
  fd_endoff : Z;
  fd_discarding : bool;
  fd_toolong : Z;
  fd_todiscard : Z;
  fd_in : list byte
}.

(* zinterceptor/framedecoder.go 318-338: NewFrameDecoder. *)
Definition new_frame_decoder (lf : length_field) : fdec :=
  {| fd_order := match lf_order lf with None => BigEndian | Some o => o end;
     fd_max := lf_max lf;
     fd_off := lf_off lf;
     fd_flen := lf_len lf;
     fd_adj := lf_adj lf;
     fd_strip := lf_strip lf;
     fd_endoff := s64 (lf_off lf + lf_len lf);
     fd_discarding := false;
     fd_toolong := 0;
     fd_todiscard := 0;
     fd_in := [] |}.

Definition set_in (d : fdec) (l : list byte) : fdec :=
  {| fd_order := fd_order d; fd_max := fd_max d; fd_off := fd_off d;
     fd_flen := fd_flen d; fd_adj := fd_adj d; fd_strip := fd_strip d;
     fd_endoff := fd_endoff d; fd_discarding := fd_discarding d;
     fd_toolong := fd_toolong d; fd_todiscard := fd_todiscard d; fd_in := l |}.

Definition set_discard (d : fdec) (b : bool) (toolong todiscard : Z) : fdec :=
  {| fd_order := fd_order d; fd_max := fd_max d; fd_off := fd_off d;
     fd_flen := fd_flen d; fd_adj := fd_adj d; fd_strip := fd_strip d;
     fd_endoff := fd_endoff d; fd_discarding := b;
     fd_toolong := toolong; fd_todiscard := todiscard; fd_in := fd_in d |}.

(* Go: bytes.Buffer.Next(n) on the unread portion; a negative n panics (slice
   bounds), a large n is clipped. *)
Definition buf_next (n : Z) (l : list byte) : option (list byte) :=
  if n <? 0 then None else Some (zdrop (Z.min n (zlen l)) l).

(* zinterceptor/framedecoder.go 432-455: failIfNecessary.  fail() does nothing. *)
Definition fail_if_necessary (d : fdec) : fdec :=
  if fd_todiscard d =? 0 then set_discard d false 0 (fd_todiscard d) else d.

(* zinterceptor/framedecoder.go 362-381: discardingTooLongFrameFunc.  The
   float64 detour of math.Min is exact: buffer lengths are below 2^53, and a
   larger bytesToDiscard still compares greater after rounding.  Returns the new
   state and the rest of the local buffer. *)
Definition discarding_too_long (d : fdec) (buf : list byte) : option (fdec * list byte) :=
  let local := Z.min (fd_todiscard d) (zlen buf) in
  match buf_next local buf with
  | None => None
  | Some rest =>
    Some (fail_if_necessary
            (set_discard d (fd_discarding d) (fd_toolong d) (fd_todiscard d - local)), rest)
  end.

(* zinterceptor/framedecoder.go 383-425: getUnadjustedFrameLength.  None is a
   panic: bad slice bounds or an unsupported width.  The 8-byte value is read
   into an int64. *)
Definition unadjusted_frame_length (buf : list byte) (off len : Z) (o : order) : option Z :=
  if (off <? 0) || (len <? 0) || (zlen buf <? off + len) then None
  else
    let arr := ztake len (zdrop off buf) in
    if len =? 1 then Some (get_uint o arr)
    else if len =? 2 then Some (get_uint o arr)
    else if len =? 3 then Some (get_uint o arr)
    else if len =? 4 then Some (get_uint o arr)
    else if len =? 8 then Some (s64 (get_uint o arr))
    else None.

(* zinterceptor/framedecoder.go 459-487: exceededFrameLength.  Only the state is
   returned: the buffer is local to decode, which returns nil right after. *)
Definition exceeded_frame_length (d : fdec) (buf : list byte) (frame_len : Z) : option fdec :=
  let discard := s64 (frame_len - zlen buf) in
  if discard <? 0 then
    match buf_next frame_len buf with
    | None => None
    | Some _ => Some (fail_if_necessary (set_discard d (fd_discarding d) frame_len (fd_todiscard d)))
    end
  else
    Some (fail_if_necessary (set_discard d true frame_len discard)).

Inductive dec1 := D1Panic | D1None (d : fdec) | D1Frame (d : fdec) (f : list byte).

(* zinterceptor/framedecoder.go 494-576: decode(buf). *)
Definition decode1 (d0 : fdec) (buf0 : list byte) : dec1 :=
  match (if fd_discarding d0 then discarding_too_long d0 buf0 else Some (d0, buf0)) with
  | None => D1Panic
  | Some (d, buf) =>
    if zlen buf <? fd_endoff d then D1None d
    else
      match unadjusted_frame_length buf (fd_off d) (fd_flen d) (fd_order d) with
      | None => D1Panic
      | Some raw =>
        if raw <? 0 then D1Panic
        else
          let frame_len := s64 (raw + s64 (fd_adj d + fd_endoff d)) in
          if fd_max d <? u64 frame_len then
            match exceeded_frame_length d buf frame_len with
            | None => D1Panic
            | Some d' => D1None d'
            end
          else if zlen buf <? frame_len then D1None d
          else if frame_len <? fd_strip d then D1Panic
          else
            match buf_next (fd_strip d) buf with
            | None => D1Panic
            | Some rest => D1Frame d (ztake (frame_len - fd_strip d) rest)
            end
      end
  end.

Inductive dec_result :=
| DecOk (frames : list (list byte)) (d : fdec)
| DecPanic
| DecOutOfFuel.

Definition dec_cons (f : list byte) (r : dec_result) : dec_result :=
  match r with
  | DecOk fs d => DecOk (f :: fs) d
  | DecPanic => DecPanic
  | DecOutOfFuel => DecOutOfFuel
  end.

(* zinterceptor/framedecoder.go 583-597: the loop of Decode, on fuel. *)
Fixpoint decode_loop (fuel : nat) (d : fdec) : dec_result :=
  match fuel with
  | O => DecOutOfFuel
  | S fuel' =>
    match decode1 d (fd_in d) with
    | D1Panic => DecPanic
    | D1None d' => DecOk [] d'
    | D1Frame d' f =>
      let size := zlen f + fd_strip d' in
      let d'' := if 0 <? size then set_in d' (zdrop size (fd_in d')) else d' in
      dec_cons f (decode_loop fuel' d'')
    end
  end.

(* zinterceptor/framedecoder.go 578-598: Decode(buff). *)
Definition decode_fuel (fuel : nat) (d : fdec) (buff : list byte) : dec_result :=
  decode_loop fuel (set_in d (fd_in d ++ buff)).

(* Decode with enough fuel for every terminating run: with this fuel OutOfFuel
   means that the Go loop never ends (FrameDecoder_proofs: decode_fuel_enough). *)
Definition decode (d : fdec) (buff : list byte) : dec_result :=
  decode_fuel (S (S (length (fd_in d ++ buff)))) d buff.

(* The reader calls Decode once per Read (znet/connection.go 249-278); all frames
   handed out for a sequence of reads, in order. *)
Fixpoint feed (d : fdec) (chunks : list (list byte)) : dec_result :=
  match chunks with
  | [] => DecOk [] d
  | c :: cs =>
    match decode d c with
    | DecOk fs d' =>
      match feed d' cs with
      | DecOk fs' d'' => DecOk (fs ++ fs') d''
      | r => r
      end
    | r => r
    end
  end.

(* Model of the buffer a logger writes its records in: zlog/logger_core.go 67 (log.buf, one
   bytes.Buffer per logger) and 194-239 (OutPut).  The buffer is only ever reset and written
   to, so its data starts at offset 0 and a write is an append. *)
From Coq Require Import List Arith.
From Verif Require Import Bytes GoSlice.
Import ListNotations.

Record lbuf := LBuf { lb_heap : heap (A := byte); lb_buf : slice }.
(* a zero bytes.Buffer *)
Definition new_lbuf : lbuf := LBuf [] nil_slice.

Section WithGrow.
Variable grow : nat -> nat -> nat.      (* how much more bytes.Buffer allocates *)

(* bytes.Buffer.Reset *)
Definition lb_reset (b : lbuf) : lbuf :=
  let s := lb_buf b in LBuf (lb_heap b) (Slice (sl_arr s) (sl_off s) 0 (sl_cap s)).
(* bytes.Buffer.WriteByte, WriteString, Write *)
Definition lb_write (b : lbuf) (xs : list byte) : lbuf :=
  let '(h, s) := sl_append Byte.x00 grow (lb_heap b) (lb_buf b) xs in LBuf h s.

(* logger_core.go 215-239: the record is written piece by piece; [log.buf.Bytes()] then goes to
   the file or standard error and to the hook. *)
Definition lb_record (b : lbuf) (pieces : list (list byte)) : lbuf * slice :=
  let b' := fold_left lb_write pieces (lb_reset b) in (b', lb_buf b').
End WithGrow.

(* Model of sending on a TCP connection: znet/connection.go 193-223 (StartWriter),
   366-464 (Flush, Send, SendBuf, SendToQueue, SendMsg, SendBuffMsg), 577-583, and
   the bufio.Writer (Go standard library) in between.  Messages are the packed
   bytes; Pack itself is in Pack.v.  Goroutines are interleaved by an arbitrary
   list of labels; a label that is not enabled does nothing. *)
From Coq Require Import List Bool Arith.
From Verif Require Import Bytes.
Import ListNotations.

Definition msg := list byte.

Record qcfg := Qcfg {
  qc_cap : nat;      (* zconf.GlobalObject.MaxMsgChanLen; 0 is treated as 1 *)
  qc_buf : nat       (* size of the bufio.Writer: 16*1024, connection.go 128 *)
}.

(* Where a sending goroutine is. *)
Inductive spc :=
| SIdle
| SChk (m : msg)                  (* 399: c.msgBuffChan == nil ? *)
| SCas (m : msg)                  (* 399: && c.setStartWriterFlag() *)
| SMake (m : msg)                 (* 400 *)
| SGo (m : msg)                   (* 405: go c.StartWriter() *)
| SClosed (m : msg)               (* 411: isClosed ? *)
| SEnter (m : msg)                (* 421: evaluating the select's channels *)
| SSel (m : msg) (nonnil : bool)  (* 421-430: in the select; which channel it saw *)
| DChk (m : msg)                  (* Send, 374: isClosed ? *)
| DWrite (m : msg).               (* Send, 377: c.conn.Write *)

(* Where the writer goroutine is. *)
Inductive wpc :=
| WNone
| WBegin                          (* created, has not run yet *)
| WSelect
| WHave (m : msg)                 (* received; SendBuf, 386: isClosed ? *)
| WPut (rest : list byte)         (* in bufWriter.Write, rest still to go *)
| WTick                           (* Flush, 367: isClosed ? *)
| WFlush                          (* in bufWriter.Flush *)
| WDefer                          (* deferred c.Flush(), 199 *)
| WLast                           (* in the bufWriter.Flush of the deferred call *)
| WGone.

Record qst := Qst {
  q_ctx : bool;                   (* Start has set ctx and cancel *)
  q_cancelled : bool;
  q_flag : bool;                  (* startWriterFlag *)
  q_chan : option (list (nat * msg) * bool);   (* msgBuffChan: contents, closed *)
  q_writer : wpc;
  q_buf : list byte;              (* held by the bufio.Writer *)
  q_err : bool;                   (* the bufio.Writer's sticky error *)
  q_wire : list byte;             (* bytes given to the network *)
  q_broken : bool;                (* the socket accepts no more *)
  q_send : nat -> spc;
  q_crashed : bool                (* a panic in the writer goroutine *)
}.
Definition q_new : qst := Qst false false false None WNone [] false [] false (fun _ => SIdle) false.

Inductive qev :=
| QBegin (t : nat) (m : msg)      (* goroutine t called a send *)
| QOk (t : nat) (m : msg)         (* a send returned nil *)
| QErr (t : nat) (m : msg)        (* a send returned an error *)
| QPanic (t : nat)                (* a send panicked *)
| QCrash.                         (* the writer goroutine panicked *)

Inductive choice := ChDone | ChTimer | ChChan.   (* which ready case a select takes *)
(* What the network does with one write: takes all, or takes n bytes and fails for good. *)
Inductive outcome := NetOk | NetFail (n : nat).

Inductive qlabel :=
| QStart                                  (* Connection.Start sets ctx, cancel *)
| QStop                                   (* cancel *)
| QSockClose                              (* finalizer: conn.Close *)
| QCall (t : nat) (direct : bool) (m : msg)   (* goroutine t calls SendMsg / SendBuffMsg *)
| QSend (t : nat) (ch : choice) (o : outcome) (* goroutine t goes on *)
| QWriter (ch : choice) (o : outcome).        (* the writer goroutine goes on *)

(* connection.go 577-579 *)
Definition q_is_closed (s : qst) : bool := negb (q_ctx s) || q_cancelled s.

Definition upd (f : nat -> spc) (t : nat) (p : spc) : nat -> spc := fun u => if u =? t then p else f u.
Definition set_send (s : qst) (t : nat) (p : spc) : qst :=
  Qst (q_ctx s) (q_cancelled s) (q_flag s) (q_chan s) (q_writer s) (q_buf s) (q_err s) (q_wire s) (q_broken s) (upd (q_send s) t p) (q_crashed s).
Definition set_chan (s : qst) (fl : bool) (c : option (list (nat * msg) * bool)) : qst :=
  Qst (q_ctx s) (q_cancelled s) fl c (q_writer s) (q_buf s) (q_err s) (q_wire s) (q_broken s) (q_send s) (q_crashed s).
Definition set_writer (s : qst) (w : wpc) : qst :=
  Qst (q_ctx s) (q_cancelled s) (q_flag s) (q_chan s) w (q_buf s) (q_err s) (q_wire s) (q_broken s) (q_send s) (q_crashed s).
Definition set_buf (s : qst) (b : list byte) (e : bool) : qst :=
  Qst (q_ctx s) (q_cancelled s) (q_flag s) (q_chan s) (q_writer s) b e (q_wire s) (q_broken s) (q_send s) (q_crashed s).

(* net.Conn.Write: one write is not interleaved with another.  Result: state,
   how many bytes went, success. *)
Definition net_write (s : qst) (p : list byte) (o : outcome) : qst * nat * bool :=
  let put n br := Qst (q_ctx s) (q_cancelled s) (q_flag s) (q_chan s) (q_writer s) (q_buf s) (q_err s)
                      (q_wire s ++ firstn n p) br (q_send s) (q_crashed s) in
  if q_broken s then (s, 0, false) else
  match o with
  | NetOk => (put (length p) false, length p, true)
  | NetFail n => (put (min n (length p)) true, min n (length p), false)
  end.

(* bufio.Writer.Flush *)
Definition buf_flush (s : qst) (o : outcome) : qst * bool :=
  if q_err s then (s, false) else
  match q_buf s with
  | [] => (s, true)
  | b => let '(s1, n, ok) := net_write s b o in
         if ok then (set_buf s1 [] false, true) else (set_buf s1 (skipn n b) true, false)
  end.
(* One round of the loop of bufio.Writer.Write with p still to go:
   Some rest: the loop goes on; None: returned, with success or not. *)
Definition buf_write (c : qcfg) (s : qst) (p : list byte) (o : outcome) : qst * (list byte + bool) :=
  if q_err s then (s, inr false) else
  let avail := qc_buf c - length (q_buf s) in
  if length p <=? avail then (set_buf s (q_buf s ++ p) false, inr true) else
  match q_buf s with
  | [] => let '(s1, n, ok) := net_write s p o in (set_buf s1 (q_buf s1) (negb ok), inl (skipn n p))
  | _ => let '(s1, _) := buf_flush (set_buf s (q_buf s ++ firstn avail p) false) o in (s1, inl (skipn avail p))
  end.

(* One statement of a sending goroutine. *)
Definition send_step (c : qcfg) (s : qst) (t : nat) (ch : choice) (o : outcome) : qst * list qev :=
  let go p := (set_send s t p, []) in
  let ret e := (set_send s t SIdle, [e]) in
  match q_send s t with
  | SIdle => (s, [])
  | SChk m => match q_chan s with None => go (SCas m) | Some _ => go (SClosed m) end
  | SCas m => if q_flag s then go (SClosed m) else (set_send (set_chan s true (q_chan s)) t (SMake m), [])
  | SMake m => (set_send (set_chan s (q_flag s) (Some ([], false))) t (SGo m), [])
  | SGo m => (set_send (set_writer s WBegin) t (SClosed m), [])
  | SClosed m => if q_is_closed s then ret (QErr t m) else go (SEnter m)
  | SEnter m => go (SSel m (match q_chan s with None => false | Some _ => true end))
  | SSel m nonnil =>
    match ch with
    | ChDone =>
      if q_cancelled s then
        match q_chan s with
        | None => ret (QPanic t)                          (* close of nil channel *)
        | Some (_, true) => ret (QPanic t)                (* close of closed channel *)
        | Some (l, false) => (set_send (set_chan s (q_flag s) (Some (l, true))) t SIdle, [QErr t m])
        end
      else (s, [])
    | ChTimer => ret (QErr t m)
    | ChChan =>
      if nonnil then
        match q_chan s with
        | Some (_, true) => ret (QPanic t)                (* send on closed channel *)
        | Some (l, false) =>
          if length l <? max 1 (qc_cap c)
          then (set_send (set_chan s (q_flag s) (Some (l ++ [(t, m)], false))) t SIdle, [QOk t m])
          else (s, [])
        | None => (s, [])
        end
      else (s, [])
    end
  | DChk m => if q_is_closed s then ret (QErr t m) else go (DWrite m)
  | DWrite m => let '(s1, _, ok) := net_write s m o in
                (set_send s1 t SIdle, [if ok then QOk t m else QErr t m])
  end.

(* One statement of the writer goroutine. *)
Definition writer_step (c : qcfg) (s : qst) (ch : choice) (o : outcome) : qst * list qev :=
  match q_writer s with
  | WNone | WGone => (s, [])
  | WBegin => if q_ctx s then (set_writer s WSelect, [])
      else (* c.ctx.Done() on a nil interface; nothing recovers *)
        (Qst (q_ctx s) (q_cancelled s) (q_flag s) (q_chan s) WGone (q_buf s) (q_err s) (q_wire s) (q_broken s) (q_send s) true, [QCrash])
  | WSelect =>
    match ch with
    | ChTimer => (set_writer s WTick, [])
    | ChChan =>
      match q_chan s with
      | Some ((t, m) :: l, cl) => (set_writer (set_chan s (q_flag s) (Some (l, cl))) (WHave m), [])
      | Some ([], true) => (set_writer s WDefer, [])
      | _ => (s, [])
      end
    | ChDone => if q_cancelled s then (set_writer s WDefer, []) else (s, [])
    end
  | WHave m => if q_is_closed s then (set_writer s WDefer, []) else (set_writer s (WPut m), [])
  | WPut p =>
    let '(s1, r) := buf_write c s p o in
    (set_writer s1 (match r with inl p' => WPut p' | inr true => WSelect | inr false => WDefer end), [])
  | WTick => if q_is_closed s then (set_writer s WDefer, []) else (set_writer s WFlush, [])
  | WFlush => let '(s1, ok) := buf_flush s o in (set_writer s1 (if ok then WSelect else WDefer), [])
  | WDefer => if q_is_closed s then (set_writer s WGone, []) else (set_writer s WLast, [])
  | WLast => (set_writer (fst (buf_flush s o)) WGone, [])
  end.

Definition q_step (c : qcfg) (s : qst) (l : qlabel) : qst * list qev :=
  if q_crashed s then (s, []) else
  match l with
  | QStart => (Qst true (q_cancelled s) (q_flag s) (q_chan s) (q_writer s) (q_buf s) (q_err s) (q_wire s) (q_broken s) (q_send s) (q_crashed s), [])
  | QStop => if q_ctx s
      then (Qst true true (q_flag s) (q_chan s) (q_writer s) (q_buf s) (q_err s) (q_wire s) (q_broken s) (q_send s) (q_crashed s), [])
      else (s, [])                    (* nil cancel: ConnLife.v *)
  | QSockClose => if q_cancelled s
      then (Qst (q_ctx s) true (q_flag s) (q_chan s) (q_writer s) (q_buf s) (q_err s) (q_wire s) true (q_send s) (q_crashed s), [])
      else (s, [])
  | QCall t direct m =>
    match q_send s t with
    | SIdle => if direct
        then (if q_is_closed s then (s, [QBegin t m; QErr t m]) else (set_send s t (DChk m), [QBegin t m]))   (* SendMsg 437; Send 374 *)
        else (set_send s t (SChk m), [QBegin t m])
    | _ => (s, [])
    end
  | QSend t ch o => send_step c s t ch o
  | QWriter ch o => writer_step c s ch o
  end.
Fixpoint q_run (c : qcfg) (s : qst) (ls : list qlabel) : qst * list qev :=
  match ls with
  | [] => (s, [])
  | l :: ls' => let '(s1, e) := q_step c s l in let '(s2, es) := q_run c s1 ls' in (s2, e ++ es)
  end.

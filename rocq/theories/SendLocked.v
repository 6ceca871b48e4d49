(* Model of sending on websocket and KCP connections: znet/ws_connection.go 185-206
   (StartWriter), 349-461 (Send, SendToQueue, SendMsg, SendBuffMsg), 497-547
   (finalizer); znet/kcp_connection.go 189-210, 351-452, 486-533, 583-589.
   One write of a message is one WriteMessage (websocket) or one UDPSession.Write
   (KCP), which are not interleaved with each other; a failed write is not recorded
   and the connection then accepts no more.  Channels can be made more than once
   (KCP), so they are numbered. *)
From Coq Require Import List Bool Arith.
From Verif Require Import Bytes GoSlice SendQueue.
Import ListNotations.

Inductive flavour := Ws | Kcp.

(* Who can hold msgLock. *)
Inductive owner := OSend (t : nat) | OWriter (i : nat) | OFinal.
Definition owner_eqb (a b : owner) : bool :=
  match a, b with
  | OSend t, OSend u => t =? u
  | OWriter i, OWriter j => i =? j
  | OFinal, OFinal => true
  | _, _ => false
  end.

(* Where a sending goroutine is; lk says whether it holds msgLock
   (SendBuffMsg of KCP does not take it). *)
Inductive lpc :=
| LIdle
| LAcq (m : msg)                              (* SendToQueue / SendBuffMsg: c.msgLock.Lock() / RLock() *)
| LChk (lk : bool) (m : msg)                  (* c.msgBuffChan == nil ? *)
| LMake (lk : bool) (m : msg)
| LGo (lk : bool) (m : msg)
| LClosed (lk : bool) (m : msg)               (* isClosed ? *)
| LEnter (lk : bool) (m : msg)                (* evaluating the select's channel *)
| LSel (lk : bool) (m : msg) (i : option nat)
| LDAcq (m : msg)                             (* Send / SendMsg: lock *)
| LDClosed (m : msg)
| LDWrite (m : msg).

(* A writer goroutine. *)
Inductive vpc :=
| VSelect                                     (* evaluating the select's channels *)
| VWait (i : option nat)                      (* in the select *)
| VAcq (t : nat) (m : msg)                    (* Send: lock *)
| VClosed (t : nat) (m : msg)
| VWrite (t : nat) (m : msg)
| VGone.

(* The finalizer, from the point where the hook has returned. *)
Inductive fpc := FIdle | FSet | FLock | FClose | FFlag | FUnlock | FDone.

Record lst := Lst {
  l_ctx : bool;
  l_cancelled : bool;
  l_closed : bool;                            (* isClosed (websocket), closed (KCP) *)
  l_excl : option owner;                      (* msgLock held for writing *)
  l_shared : list owner;                      (* msgLock held for reading *)
  l_chans : list (list (nat * msg) * bool);   (* every channel made: contents, closed *)
  l_field : option nat;                       (* c.msgBuffChan *)
  l_writers : list vpc;
  l_final : fpc;
  l_wire : list (bool * nat * msg);           (* messages written: through the buffer?, goroutine, bytes *)
  l_broken : bool;
  l_send : nat -> lpc;
  l_crashed : bool
}.
Definition l_new : lst := Lst false false false None [] [] None [] FIdle [] false (fun _ => LIdle) false.

Inductive lev :=
| MBegin (t : nat) (buffered : bool) (m : msg)
| MOk (t : nat) (buffered : bool) (m : msg)
| MErr (t : nat) (m : msg)
| MPanic (t : nat)
| MCrash.

(* Which API function is called. *)
Inductive api := ASendMsg | ASendToQueue | ASendBuffMsg.

Inductive llabel :=
| MStart | MStop
| MCall (t : nat) (a : api) (m : msg)
| MSend (t : nat) (ch : choice) (o : outcome)
| MWriter (i : nat) (ch : choice) (o : outcome)
| MFinal.

(* Setters. *)
Definition w_send s t p := Lst (l_ctx s) (l_cancelled s) (l_closed s) (l_excl s) (l_shared s) (l_chans s) (l_field s) (l_writers s) (l_final s) (l_wire s) (l_broken s)
  (fun u => if u =? t then p else l_send s u) (l_crashed s).
Definition w_lock s e sh := Lst (l_ctx s) (l_cancelled s) (l_closed s) e sh (l_chans s) (l_field s) (l_writers s) (l_final s) (l_wire s) (l_broken s) (l_send s) (l_crashed s).
Definition w_chans s cs f := Lst (l_ctx s) (l_cancelled s) (l_closed s) (l_excl s) (l_shared s) cs f (l_writers s) (l_final s) (l_wire s) (l_broken s) (l_send s) (l_crashed s).
Definition w_writers s ws := Lst (l_ctx s) (l_cancelled s) (l_closed s) (l_excl s) (l_shared s) (l_chans s) (l_field s) ws (l_final s) (l_wire s) (l_broken s) (l_send s) (l_crashed s).
Definition w_final s cl f := Lst (l_ctx s) (l_cancelled s) cl (l_excl s) (l_shared s) (l_chans s) (l_field s) (l_writers s) f (l_wire s) (l_broken s) (l_send s) (l_crashed s).
Definition w_wire s w br := Lst (l_ctx s) (l_cancelled s) (l_closed s) (l_excl s) (l_shared s) (l_chans s) (l_field s) (l_writers s) (l_final s) w br (l_send s) (l_crashed s).

(* msgLock.Lock / RLock: None when it must wait.  sync.Mutex and sync.RWMutex. *)
Definition take_excl (s : lst) (x : owner) : option lst :=
  match l_excl s, l_shared s with None, [] => Some (w_lock s (Some x) []) | _, _ => None end.
Definition take_shared (s : lst) (x : owner) : option lst :=
  match l_excl s with None => Some (w_lock s None (x :: l_shared s)) | Some _ => None end.
(* Senders and writers: Lock (websocket), RLock (KCP). *)
Definition take (fl : flavour) (s : lst) (x : owner) : option lst :=
  match fl with Ws => take_excl s x | Kcp => take_shared s x end.
Definition release (s : lst) (x : owner) : lst :=
  match l_excl s with
  | Some _ => w_lock s None (l_shared s)
  | None => w_lock s None (filter (fun y => negb (owner_eqb x y)) (l_shared s))
  end.
Definition release_if (lk : bool) (s : lst) (x : owner) : lst := if lk then release s x else s.

Definition chan_at (s : lst) (i : nat) : option (list (nat * msg) * bool) := nth_error (l_chans s) i.

Definition lsend_step (c : nat) (fl : flavour) (s : lst) (t : nat) (ch : choice) (o : outcome) : lst * list lev :=
  let go p := (w_send s t p, []) in
  let ret lk e := (w_send (release_if lk s (OSend t)) t LIdle, [e]) in
  match l_send s t with
  | LIdle => (s, [])
  | LAcq m => match take fl s (OSend t) with Some s1 => (w_send s1 t (LChk true m), []) | None => (s, []) end
  | LChk lk m => match l_field s with
                 | None => go (LMake lk m)
                 | Some _ => go (if lk then LClosed lk m else LEnter lk m)
                 end
  | LMake lk m => (w_send (w_chans s (l_chans s ++ [([], false)]) (Some (length (l_chans s)))) t (LGo lk m), [])
  | LGo lk m => (w_send (w_writers s (l_writers s ++ [VSelect])) t (if lk then LClosed lk m else LEnter lk m), [])
  | LClosed lk m => if l_closed s then ret lk (MErr t m) else go (if lk then LEnter lk m else LChk lk m)
  | LEnter lk m => go (LSel lk m (l_field s))
  | LSel lk m i =>
    match ch with
    | ChTimer => ret lk (MErr t m)
    | ChDone => (s, [])
    | ChChan =>
      match i with
      | None => (s, [])
      | Some k =>
        match chan_at s k with
        | None => (s, [])
        | Some (_, true) => ret lk (MPanic t)                 (* send on closed channel *)
        | Some (q, false) =>
          if length q <? max 1 c
          then (w_send (release_if lk (w_chans s (set_nth k (q ++ [(t, m)], false) (l_chans s)) (l_field s)) (OSend t)) t LIdle, [MOk t true m])
          else (s, [])
        end
      end
    end
  | LDAcq m => match take fl s (OSend t) with Some s1 => (w_send s1 t (LDClosed m), []) | None => (s, []) end
  | LDClosed m => if l_closed s then ret true (MErr t m) else go (LDWrite m)
  | LDWrite m =>
    if l_broken s then ret true (MErr t m) else
    match o with
    | NetOk => (w_send (release (w_wire s (l_wire s ++ [(false, t, m)]) false) (OSend t)) t LIdle, [MOk t false m])
    | NetFail _ => (w_send (release (w_wire s (l_wire s) true) (OSend t)) t LIdle, [MErr t m])
    end
  end.

Definition lwriter_step (fl : flavour) (s : lst) (i : nat) (ch : choice) (o : outcome) : lst * list lev :=
  let at_ s v := w_writers s (set_nth i v (l_writers s)) in
  match nth_error (l_writers s) i with
  | None | Some VGone => (s, [])
  | Some VSelect =>
    if l_ctx s then (at_ s (VWait (l_field s)), [])
    else (Lst (l_ctx s) (l_cancelled s) (l_closed s) (l_excl s) (l_shared s) (l_chans s) (l_field s) (set_nth i VGone (l_writers s))
              (l_final s) (l_wire s) (l_broken s) (l_send s) true, [MCrash])
  | Some (VWait k) =>
    match ch with
    | ChDone => if l_cancelled s then (at_ s VGone, []) else (s, [])
    | ChTimer => (s, [])
    | ChChan =>
      match k with
      | None => (s, [])
      | Some j =>
        match chan_at s j with
        | Some ((t, m) :: q, cl) => (at_ (w_chans s (set_nth j (q, cl) (l_chans s)) (l_field s)) (VAcq t m), [])
        | Some ([], true) => (at_ s VSelect, [])           (* "break" leaves the select only *)
        | _ => (s, [])
        end
      end
    end
  | Some (VAcq t m) => match take fl s (OWriter i) with Some s1 => (at_ s1 (VClosed t m), []) | None => (s, []) end
  | Some (VClosed t m) => if l_closed s then (at_ (release s (OWriter i)) VSelect, []) else (at_ s (VWrite t m), [])
  | Some (VWrite t m) =>
    if l_broken s then (at_ (release s (OWriter i)) VSelect, []) else
    match o with
    | NetOk => (at_ (release (w_wire s (l_wire s ++ [(true, t, m)]) false) (OWriter i)) VSelect, [])
    | NetFail _ => (at_ (release (w_wire s (l_wire s) true) (OWriter i)) VSelect, [])
    end
  end.

Definition lfinal_step (fl : flavour) (s : lst) : lst * list lev :=
  match l_final s with
  | FIdle => if l_cancelled s then (w_final s (l_closed s) (match fl with Ws => FLock | Kcp => FSet end), []) else (s, [])
  | FSet => (w_final s true FLock, [])                          (* kcp 493: setClose *)
  | FLock => match take_excl s OFinal with Some s1 => (w_final s1 (l_closed s) FClose, []) | None => (s, []) end
  | FClose =>                                                   (* conn.Close; close(msgBuffChan) *)
    let s1 := w_wire s (l_wire s) true in
    let s2 := match l_field s with
              | None => s1
              | Some k => match chan_at s k with
                          | Some (q, _) => w_chans s1 (set_nth k (q, true) (l_chans s)) (l_field s)
                          | None => s1
                          end
              end in
    (w_final s2 (l_closed s) FFlag, [])
  | FFlag => (w_final s true FUnlock, [])                       (* ws 534: c.isClosed = true *)
  | FUnlock => (w_final (release s OFinal) (l_closed s) FDone, [])
  | FDone => (s, [])
  end.

Definition l_step (c : nat) (fl : flavour) (s : lst) (l : llabel) : lst * list lev :=
  if l_crashed s then (s, []) else
  match l with
  | MStart => (Lst true (l_cancelled s) (l_closed s) (l_excl s) (l_shared s) (l_chans s) (l_field s) (l_writers s) (l_final s) (l_wire s) (l_broken s) (l_send s) (l_crashed s), [])
  | MStop => if l_ctx s then (Lst true true (l_closed s) (l_excl s) (l_shared s) (l_chans s) (l_field s) (l_writers s) (l_final s) (l_wire s) (l_broken s) (l_send s) (l_crashed s), [])
             else (s, [])
  | MCall t a m =>
    match l_send s t with
    | LIdle =>
      match a with
      | ASendMsg => (w_send s t (LDAcq m), [MBegin t false m])    (* KCP's earlier isClosed test is repeated under the lock *)
      | ASendToQueue => (w_send s t (LAcq m), [MBegin t true m])
      | ASendBuffMsg => (w_send s t (match fl with Ws => LAcq m | Kcp => LClosed false m end), [MBegin t true m])
      end
    | _ => (s, [])
    end
  | MSend t ch o => lsend_step c fl s t ch o
  | MWriter i ch o => lwriter_step fl s i ch o
  | MFinal => lfinal_step fl s
  end.
Fixpoint l_run (c : nat) (fl : flavour) (s : lst) (ls : list llabel) : lst * list lev :=
  match ls with
  | [] => (s, [])
  | l :: ls' => let '(s1, e) := l_step c fl s l in let '(s2, es) := l_run c fl s1 ls' in (s2, e ++ es)
  end.

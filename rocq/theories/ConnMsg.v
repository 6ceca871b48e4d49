(* Model of how a connection's life (ConnLife.v) and its messages meet: the reader
   goroutine znet/connection.go 228-291 (ws_connection.go 210-274, kcp_connection.go
   214-275) and the requests it hands over.
   A read yields some whole messages (Reader.v says which).  Which worker takes a
   request, and in which order, is Workers.v: here any waiting request may begin next.
   Interceptors hand every message on or panic. *)
From Coq Require Import List Bool Arith.
From Verif Require Import GoSlice ConnLife.
Import ListNotations.

Section Msg.
Context {M : Type}.

Inductive rpc :=
| RNone                    (* not started *)
| RTop                     (* at the select *)
| RRead                    (* in conn.Read *)
| RFrames (ms : list M)    (* handing over what was read *)
| RGone.                   (* returned *)

Record cm := Cm { cm_life : life; cm_rd : rpc; cm_wait : list M; cm_busy : list M }.
Definition cm_new (c : lcfg) : cm := Cm (life_new c) RNone [] [].

Inductive mlabel :=
| MLife (l : llabel)       (* the other goroutines of the connection *)
| MTop                     (* the reader's select: <-c.ctx.Done, or default *)
| MRead (r : option (list M))  (* Read returns: an error, or data that completes these messages *)
| MExec (panics : bool)    (* msgHandler.Execute on the next message, or back to the select; or a
                              panic in Decode (when there is no message) or in Execute *)
| MBegin (n : nat)         (* a worker begins with the n-th waiting request *)
| MEnd (n : nat).          (* it is done *)

Inductive mev :=
| MvLife (e : lev)
| MvStop                   (* Stop has been called and has cancelled the context *)
| MvRead (ms : list M)     (* a read has returned data *)
| MvBegin (m : M)
| MvEnd (m : M)
| MvLost (ms : list M)     (* messages read and given up because of a panic *)
| MvCrash.                 (* the process has ended *)

Definition cm_rw (s : cm) (r : rpc) : cm := Cm (cm_life s) r (cm_wait s) (cm_busy s).
Definition kill (s : life) : life :=
  Life (lf_todo s) (lf_ctx s) (lf_cancelled s) (lf_closed s) (lf_lock s) (lf_hb s) (lf_reader s) true.
(* The reader returns: deferred Stop. *)
Definition reader_end (c : lcfg) (s : cm) : cm :=
  Cm (fst (life_step c (cm_life s) LReaderEnd)) RGone (cm_wait s) (cm_busy s).
(* connection.go 303, 321: the main goroutine's "go c.StartReader()" *)
Definition starts_reader (s : life) : bool := match lf_todo s with IGoReader :: _ => true | _ => false end.
Definition del (n : nat) (l : list M) : list M := firstn n l ++ skipn (S n) l.

Definition cm_step (c : lcfg) (s : cm) (l : mlabel) : cm * list mev :=
  if lf_dead (cm_life s) then (s, []) else
  match l with
  | MLife LReaderEnd => (s, [])
  | MLife x =>
    let (lf, e) := life_step c (cm_life s) x in
    let r := match x with LMain => if starts_reader (cm_life s) then RTop else cm_rd s | _ => cm_rd s end in
    let stop := match x with LStop => lf_ctx (cm_life s) | _ => false end in
    (Cm lf r (cm_wait s) (cm_busy s), map MvLife e ++ (if stop then [MvStop] else []))
  | MTop =>
    match cm_rd s with
    | RTop => if lf_cancelled (cm_life s) then (reader_end c s, []) else (cm_rw s RRead, [])
    | _ => (s, [])
    end
  | MRead r =>
    match cm_rd s, r with
    | RRead, None => (reader_end c s, [])
    | RRead, Some ms => (cm_rw s (RFrames ms), [MvRead ms])
    | _, _ => (s, [])
    end
  | MExec panics =>
    match cm_rd s with
    | RFrames ms =>
      if panics
      then match lc_kind c with
           | KWs => (Cm (kill (cm_life s)) RGone (cm_wait s) (cm_busy s), [MvCrash]) (* no recover in ws_connection.go 210-274 *)
           | _ => (reader_end c s, [MvLost ms]) (* recovered: connection.go 232-236, kcp_connection.go 218-222 *)
           end
      else match ms with
           | [] => (cm_rw s RTop, [])
           | m :: ms' => (Cm (cm_life s) (RFrames ms') (cm_wait s ++ [m]) (cm_busy s), [])
           end
    | _ => (s, [])
    end
  | MBegin n =>
    match nth_error (cm_wait s) n with
    | Some m => (Cm (cm_life s) (cm_rd s) (del n (cm_wait s)) (m :: cm_busy s), [MvBegin m])
    | None => (s, [])
    end
  | MEnd n =>
    match nth_error (cm_busy s) n with
    | Some m => (Cm (cm_life s) (cm_rd s) (cm_wait s) (del n (cm_busy s)), [MvEnd m])
    | None => (s, [])
    end
  end.
Fixpoint cm_run (c : lcfg) (s : cm) (ls : list mlabel) : cm * list mev :=
  match ls with
  | [] => (s, [])
  | l :: rest => let (s1, e1) := cm_step c s l in let (s2, e2) := cm_run c s1 rest in (s2, e1 ++ e2)
  end.
End Msg.
Arguments cm : clear implicits.
Arguments mlabel : clear implicits.
Arguments mev : clear implicits.
Arguments rpc : clear implicits.

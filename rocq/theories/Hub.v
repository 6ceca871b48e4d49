(* Model of a server with any number of connections: the readers of Reader.v
   (znet/connection.go 228-291, kcp_connection.go 214-275, ws_connection.go 210-274), each
   with a frame decoder of its own (connection.go 139-142), one decoder and one worker pool
   (Workers.v) for all of them.  Goroutines are interleaved by an arbitrary list of labels;
   a label that is not enabled changes nothing.  Requests queued by user code are left out,
   and so are the panics of DynamicBind mode's queues (Workers.v has both). *)
From Coq Require Import ZArith List Bool Arith.
From Verif Require Import Bytes Pack FrameDecoder Chain Decoders Reader GoSlice Request Dispatch Workers Payload.
Import ListNotations.

(* The reader of a connection with the server's decoder (connection.go 139-142; the chain is
   built in server.go and msghandler.go 102). *)
Definition new_reader (d : dec) : reader :=
  {| rd_fd := option_map new_frame_decoder (field_of d);
     rd_chain := {| bd_head := match d with DNone => None | DTlv => Some tlv_intercept | DLtv => Some ltv_intercept | DHtlv => Some htlv_intercept end;
                    bd_body := []; bd_tail := Some msg_handle_intercept |} |}.

(* One connection's reader goroutine: its state, the requests made of the last read that it
   has still to queue, what happens then, and whether it has returned. *)
Record hconn := Hconn { hc_link : link; hc_reader : reader; hc_next : list job; hc_then : status; hc_gone : bool }.
Record hub := Hub { hb_conns : list hconn; hb_pool : wst; hb_dead : bool }.

Inductive hlabel :=
| HAccept (k : link)                     (* a connection of this kind is accepted *)
| HRead (c : nat) (chunk : list byte)    (* connection c's Read returns these bytes *)
| HPass (c : nat)                        (* its reader queues the next request *)
| HEnd (c : nat)                         (* its reader's panic gets to the top *)
| HPool (l : wlabel).                    (* anything else: start, end, workers *)
Inductive bev := BRead (c : nat) (chunk : list byte) | BPool (e : wev) | BDown (c : nat) | BCrash (c : nat).

(* The message a request carries (always there with these decoders: Hub_proofs.v). *)
Definition jobs_of (qs : list req) : list job := flat_map (fun q => match rq_msg q with Some m => [JMsg m] | None => [] end) qs.

Definition h_step (cf : wcfg) (d : dec) (s : hub) (l : hlabel) : hub * list bev :=
  if hb_dead s then (s, []) else
  let put c x := set_nth c x (hb_conns s) in
  match l with
  | HAccept k =>
    let (p, e) := wstep cf (hb_pool s) LAccept in
    if length (ws_conns (hb_pool s)) <? length (ws_conns p)
    then (Hub (hb_conns s ++ [Hconn k (new_reader d) [] Running false]) p false, map BPool e)
    else (s, [])
  | HRead c chunk =>
    match nth_error (hb_conns s) c, nth_error (ws_conns (hb_pool s)) c with
    | Some (Hconn k r [] Running false), Some x =>
      match co_worker x with
      | Some _ =>
        let '(qs, st, r') := read_chunk r chunk in
        (Hub (put c (Hconn k r' (jobs_of qs) st false)) (hb_pool s) false, [BRead c chunk])
      | None => (s, [])
      end
    | _, _ => (s, [])
    end
  | HPass c =>
    match nth_error (hb_conns s) c with
    | Some (Hconn k r (j :: js) st false) =>
      let (p, e) := wstep cf (hb_pool s) (LSend c j) in
      (Hub (put c (Hconn k r js st false)) p false, map BPool e)
    | _ => (s, [])
    end
  | HEnd c =>
    match nth_error (hb_conns s) c with
    | Some (Hconn k r [] StoppedByPanic false) =>
      match k with
      | Ws => (Hub (hb_conns s) (hb_pool s) true, [BCrash c])   (* no recover: ws_connection.go 210-274 *)
      | _ => (Hub (put c (Hconn k r [] StoppedByPanic true)) (hb_pool s) false, [BDown c])
      end
    | _ => (s, [])
    end
  | HPool LAccept | HPool (LSend _ _) => (s, [])
  | HPool l => let (p, e) := wstep cf (hb_pool s) l in (Hub (hb_conns s) p false, map BPool e)
  end.
Fixpoint h_run (cf : wcfg) (d : dec) (s : hub) (ls : list hlabel) : hub * list bev :=
  match ls with
  | [] => (s, [])
  | l :: ls' => let (s1, e1) := h_step cf d s l in let (s2, e2) := h_run cf d s1 ls' in (s2, e1 ++ e2)
  end.
(* None: StartWorkerPool panics. *)
Definition hub_run (cf : wcfg) (d : dec) (ls : list hlabel) : option (hub * list bev) :=
  option_map (fun p => h_run cf d (Hub [] p false) ls) (start_pool cf).

(* Model of zinterceptor/chain.go and znet/chainbuilder.go: the chain of
   responsibility. *)
From Coq Require Import ZArith List Bool.
From Verif Require Import Bytes Pack.
Import ListNotations.
Local Open Scope Z_scope.

(* The decoded structures that decoders attach to a request:
   zdecoder/tlvdecoder.go 62-66, zdecoder/ltvdecoder_little.go 61-65,
   zdecoder/htlvcrcdecoder.go 55-62. *)
Inductive decoded :=
| DecodedTLV (tag len : Z) (value : list byte)
| DecodedLTV (len tag : Z) (value : list byte)
| DecodedHTLV (head fcode len : byte) (body crc data : list byte)
| DecodedOther (v : Z).

(* znet/request.go 29-41, the part the chain uses: message and icResp. *)
Record req := Req { rq_msg : option message; rq_resp : option decoded }.

(* ziface.IcReq / IcResp are interface{}: nil, an IRequest, or something else. *)
Inductive icreq := IcNil | IcRequest (r : req) | IcOther (v : Z).

Inductive event :=
| Enter (pos : nat) (r : icreq)     (* interceptor number pos starts *)
| Deliver (r : req).                (* the request reached message dispatch *)

(* User code of an interceptor: any finite sequence of effects, calls of
   chain.Proceed (depending on earlier responses), ending in a return or panic. *)
Inductive act :=
| Return (r : icreq)
| PanicAct
| Proceed (r : icreq) (k : icreq -> act)
| Dispatch (q : req) (a : act).      (* hand q to message dispatch *)

(* Intercept(chain) starts from chain.Request(). *)
Definition interceptor := icreq -> act.

Inductive outcome := Returned (r : icreq) | Panicked.

(* One interceptor's run; [next] is what chain.Proceed does. *)
Fixpoint run_act (next : icreq -> list event * outcome) (a : act) : list event * outcome :=
  match a with
  | Return r => ([], Returned r)
  | PanicAct => ([], Panicked)
  | Dispatch q a' => let '(es, o) := run_act next a' in (Deliver q :: es, o)
  | Proceed r k =>
    let '(es, o) := next r in
    match o with
    | Panicked => (es, Panicked)
    | Returned v => let '(es', o') := run_act next (k v) in (es ++ es', o')
    end
  end.

(* zinterceptor/chain.go 28-36: Chain.Proceed at position pos of the list;
   [rest] is interceptors[pos:], so position < len(interceptors) iff it is
   non-empty, and the new chain at position+1 has rest's tail. *)
Fixpoint proceed (rest : list interceptor) (pos : nat) (r : icreq) : list event * outcome :=
  match rest with
  | [] => ([], Returned r)
  | ic :: rest' =>
    let '(es, o) := run_act (proceed rest' (S pos)) (ic r) in
    (Enter pos r :: es, o)
  end.

(* zinterceptor/chain.go 39-52: GetIMessage. *)
Definition get_imessage (r : icreq) : option message :=
  match r with
  | IcRequest q => rq_msg q
  | _ => None
  end.

(* zinterceptor/chain.go 56-76: ProceedWithIMessage.  [cur] is chain.Request();
   the message was mutated in place by the caller, which is modelled by passing
   the updated message in [msg]. *)
Definition proceed_with_imessage (cur : icreq) (msg : option message) (response : option decoded)
  (k : icreq -> act) : act :=
  match msg, response with
  | Some m, Some resp =>
    match cur with
    | IcRequest q => Proceed (IcRequest {| rq_msg := Some m; rq_resp := Some resp |}) k
    | _ => Proceed cur k
    end
  | _, _ => Proceed cur k
  end.

(* znet/chainbuilder.go 16-41: chainBuilder. *)
Record builder := Builder {
  bd_head : option interceptor;
  bd_body : list interceptor;
  bd_tail : option interceptor
}.
Definition new_builder : builder := {| bd_head := None; bd_body := []; bd_tail := None |}.
Definition set_head (b : builder) (i : interceptor) : builder :=
  {| bd_head := Some i; bd_body := bd_body b; bd_tail := bd_tail b |}.
Definition set_tail (b : builder) (i : interceptor) : builder :=
  {| bd_head := bd_head b; bd_body := bd_body b; bd_tail := Some i |}.
Definition add_interceptor (b : builder) (i : interceptor) : builder :=
  {| bd_head := bd_head b; bd_body := bd_body b ++ [i]; bd_tail := bd_tail b |}.

Definition opt_list {A} (o : option A) : list A :=
  match o with Some x => [x] | None => [] end.

(* znet/chainbuilder.go 46-56. *)
Definition interceptors_of (b : builder) : list interceptor :=
  opt_list (bd_head b) ++ bd_body b ++ opt_list (bd_tail b).

(* znet/chainbuilder.go 44-63: Execute. *)
Definition execute (b : builder) (r : icreq) : list event * outcome :=
  proceed (interceptors_of b) 0 r.

(* znet/msghandler.go 255-280: MsgHandle.Intercept, the tail interceptor.  What
   dispatch does with the request (queue or goroutine) is modelled in Workers.v;
   here it is the Deliver event. *)
Definition msg_handle_intercept : interceptor := fun r =>
  match r with
  | IcRequest q => Dispatch q (Proceed r (fun v => Return v))
  | _ => Proceed r (fun v => Return v)
  end.

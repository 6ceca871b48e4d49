(* Model of znet/request.go: how one request runs its router or its handler
   slice.  Object identity, pooling and copies are in RequestHeap.v. *)
From Coq Require Import ZArith List Bool.
From Verif Require Import Bytes Pack.
Import ListNotations.
Local Open Scope Z_scope.

(* User code of a router phase or slice handler, as the sequence of IRequest
   calls it makes (ziface/irequest.go 17-62); later calls may depend on values
   read.  A handler calling Call, BindRouter or BindRouterSlices on its own
   request, or using the request from another goroutine, is not modelled.
   Context keys and values and response objects are opaque integers. *)
Inductive hact :=
| HRet                                        (* the handler returns *)
| HPanic                                      (* the handler panics *)
| HAbort (k : hact)                           (* request.Abort() *)
| HGoto (s : Z) (k : hact)                    (* request.Goto(s) *)
| HNext (k : hact)                            (* request.RouterSlicesNext() *)
| HSet (key v : Z) (k : hact)                 (* request.Set(key, v) *)
| HGet (key : Z) (k : option Z -> hact)       (* request.Get(key) *)
| HSetResp (v : Z) (k : hact)                 (* request.SetResponse(v) *)
| HGetResp (k : option Z -> hact)             (* request.GetResponse() *)
| HMsg (k : message -> hact).                 (* request.GetMessage() *)

(* ziface/irouter.go 25: a handler function; the name identifies it in traces. *)
Record handler := Handler { h_name : Z; h_body : hact }.

(* ziface/irouter.go 13-17: the three phases of a router. *)
Record router := Router { r_pre : hact; r_handle : hact; r_post : hact }.

Inductive hev :=
| HvStart (n : Z)          (* handler n, or phase n, starts *)
| HvEnd (n : Z)            (* it returns *)
| HvNext                   (* RouterSlicesNext called by user code *)
| HvAbort                  (* Abort called *)
| HvGoto (s : Z)           (* Goto called *)
| HvPanic                  (* user code panics *)
| HvSet (key v : Z)                   (* Set called *)
| HvGot (key : Z) (v : option Z)      (* what Get gave *)
| HvSetResp (v : Z)                   (* SetResponse called *)
| HvGotResp (v : option Z)            (* what GetResponse gave *)
| HvMsg (m : message).                (* what GetMessage gave *)

(* znet/request.go 29-41: the fields a run uses. *)
Record rst := Rst {
  rs_msg : message;
  rs_steps : Z;                    (* HandleStep is int *)
  rs_need : bool;                  (* needNext *)
  rs_index : Z;                    (* int8 *)
  rs_nhandlers : Z;                (* len(handlers) *)
  rs_keys : list (Z * Z);
  rs_resp : option Z
}.

(* znet/request.go 51-60: NewRequest (also Reset 90-98 of a new object). *)
Definition fresh_request (m : message) : rst :=
  {| rs_msg := m; rs_steps := 0; rs_need := true; rs_index := -1;
     rs_nhandlers := 0; rs_keys := []; rs_resp := None |}.

Definition set_steps (s : rst) (n : Z) : rst :=
  {| rs_msg := rs_msg s; rs_steps := n; rs_need := rs_need s; rs_index := rs_index s;
     rs_nhandlers := rs_nhandlers s; rs_keys := rs_keys s; rs_resp := rs_resp s |}.
Definition set_need (s : rst) (b : bool) : rst :=
  {| rs_msg := rs_msg s; rs_steps := rs_steps s; rs_need := b; rs_index := rs_index s;
     rs_nhandlers := rs_nhandlers s; rs_keys := rs_keys s; rs_resp := rs_resp s |}.
Definition set_index (s : rst) (i : Z) : rst :=
  {| rs_msg := rs_msg s; rs_steps := rs_steps s; rs_need := rs_need s; rs_index := i;
     rs_nhandlers := rs_nhandlers s; rs_keys := rs_keys s; rs_resp := rs_resp s |}.
Definition set_nhandlers (s : rst) (n : Z) : rst :=
  {| rs_msg := rs_msg s; rs_steps := rs_steps s; rs_need := rs_need s; rs_index := rs_index s;
     rs_nhandlers := n; rs_keys := rs_keys s; rs_resp := rs_resp s |}.
Definition set_keys (s : rst) (l : list (Z * Z)) : rst :=
  {| rs_msg := rs_msg s; rs_steps := rs_steps s; rs_need := rs_need s; rs_index := rs_index s;
     rs_nhandlers := rs_nhandlers s; rs_keys := l; rs_resp := rs_resp s |}.
Definition set_rresp (s : rst) (v : option Z) : rst :=
  {| rs_msg := rs_msg s; rs_steps := rs_steps s; rs_need := rs_need s; rs_index := rs_index s;
     rs_nhandlers := rs_nhandlers s; rs_keys := rs_keys s; rs_resp := v |}.

(* Go: maps with comparable keys; put replaces, get is the last put. *)
Fixpoint kv_put (key v : Z) (l : list (Z * Z)) : list (Z * Z) :=
  match l with
  | [] => [(key, v)]
  | (k, w) :: l' => if k =? key then (key, v) :: l' else (k, w) :: kv_put key v l'
  end.
Fixpoint kv_get (key : Z) (l : list (Z * Z)) : option Z :=
  match l with
  | [] => None
  | (k, w) :: l' => if k =? key then Some w else kv_get key l'
  end.

Inductive hout :=
| HDone (s : rst)
| HPanicked
| HFuel.                       (* the run needs more fuel *)

(* znet/request.go 214-222: Abort; the mode is zconf.GlobalObject.RouterSlicesMode. *)
Definition abort (slices_mode : bool) (s : rst) : rst :=
  if slices_mode then set_index s (s8 (rs_nhandlers s)) else set_steps s 3.

(* znet/request.go 185-190: Goto. *)
Definition goto (n : Z) (s : rst) : rst := set_need (set_steps s n) false.

(* Running user code; [next] is what RouterSlicesNext does. *)
Fixpoint run_hact (mode : bool) (next : rst -> list hev * hout) (a : hact) (s : rst)
  : list hev * hout :=
  match a with
  | HRet => ([], HDone s)
  | HPanic => ([HvPanic], HPanicked)
  | HAbort k => let '(es, o) := run_hact mode next k (abort mode s) in (HvAbort :: es, o)
  | HGoto n k => let '(es, o) := run_hact mode next k (goto n s) in (HvGoto n :: es, o)
  | HNext k =>
    let '(es, o) := next s in
    match o with
    | HDone s' => let '(es', o') := run_hact mode next k s' in (HvNext :: es ++ es', o')
    | _ => (HvNext :: es, o)
    end
  | HSet key v k =>
    let '(es, o) := run_hact mode next k (set_keys s (kv_put key v (rs_keys s))) in
    (HvSet key v :: es, o)
  | HGet key k =>
    let v := kv_get key (rs_keys s) in
    let '(es, o) := run_hact mode next (k v) s in (HvGot key v :: es, o)
  | HSetResp v k =>
    let '(es, o) := run_hact mode next k (set_rresp s (Some v)) in (HvSetResp v :: es, o)
  | HGetResp k =>
    let '(es, o) := run_hact mode next (k (rs_resp s)) s in (HvGotResp (rs_resp s) :: es, o)
  | HMsg k =>
    let '(es, o) := run_hact mode next (k (rs_msg s)) s in (HvMsg (rs_msg s) :: es, o)
  end.

(* znet/request.go 174-183: next. *)
Definition next_step (s : rst) : rst :=
  if rs_need s then set_steps s (rs_steps s + 1) else set_need s true.

(* RouterSlicesNext on a request without slice handlers (three phase mode):
   229-235 with len(handlers) = 0; a wrapped index panics. *)
Definition next_without_handlers (s : rst) : list hev * hout :=
  let i := s8 (rs_index s + 1) in
  if i <? 0 then ([], HPanicked) else ([], HDone (set_index s i)).

(* znet/request.go 192-212: one phase of Call. *)
Definition phase_body (r : router) (step : Z) : option hact :=
  if step =? 0 then Some (r_pre r)
  else if step =? 1 then Some (r_handle r)
  else if step =? 2 then Some (r_post r)
  else None.

Fixpoint call_loop (fuel : nat) (r : router) (s : rst) : list hev * hout :=
  match fuel with
  | O => ([], HFuel)
  | S fuel' =>
    if rs_steps s <? 3 then
      match phase_body r (rs_steps s) with
      | None => call_loop fuel' r (next_step s)
      | Some body =>
        let n := rs_steps s in
        let '(es, o) := run_hact false next_without_handlers body s in
        match o with
        | HDone s' =>
          let '(es', o') := call_loop fuel' r (next_step s') in
          (HvStart n :: es ++ HvEnd n :: es', o')
        | _ => (HvStart n :: es, o)
        end
      end
    else ([], HDone (set_steps s 0))
  end.

(* znet/request.go 192-212: Call; a nil router runs nothing. *)
Definition call (fuel : nat) (r : option router) (s : rst) : list hev * hout :=
  match r with
  | None => ([], HDone s)
  | Some r => call_loop fuel r s
  end.

(* znet/request.go 229-235: the loop of RouterSlicesNext after its index++.
   The index is int8 and so is the converted length; handlers[index] with a
   negative index panics. *)
Fixpoint slices_loop (fuel : nat) (hs : list handler) (s : rst) : list hev * hout :=
  match fuel with
  | O => ([], HFuel)
  | S fuel' =>
    if rs_index s <? s8 (zlen hs) then
      if rs_index s <? 0 then ([], HPanicked)
      else
        match nth_error hs (Z.to_nat (rs_index s)) with
        | None => ([], HPanicked)
        | Some h =>
          let next s1 := slices_loop fuel' hs (set_index s1 (s8 (rs_index s1 + 1))) in
          let '(es, o) := run_hact true next (h_body h) s in
          match o with
          | HDone s' =>
            let '(es', o') := next s' in
            (HvStart (h_name h) :: es ++ HvEnd (h_name h) :: es', o')
          | _ => (HvStart (h_name h) :: es, o)
          end
        end
    else ([], HDone s)
  end.

(* Enough fuel for every run: a running loop's index is below the list length
   and each deeper loop has a larger one (Request_proofs: slices_fuel_enough). *)
Definition slices_fuel (hs : list handler) : nat := S (length hs).

Definition slices_next (hs : list handler) (s : rst) : list hev * hout :=
  slices_loop (slices_fuel hs) hs (set_index s (s8 (rs_index s + 1))).

(* znet/request.go 225-227, 229-235: BindRouterSlices then RouterSlicesNext, as
   doMsgHandlerSlices does (znet/msghandler.go 397-398). *)
Definition run_slices (hs : list handler) (s : rst) : list hev * hout :=
  slices_next hs (set_nhandlers s (zlen hs)).

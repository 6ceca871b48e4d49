(* Model of znet/msghandler.go 308-344, 383-401: what a worker does with one
   request. *)
From Coq Require Import ZArith List Bool.
From Verif Require Import Bytes Pack Request Router.
Import ListNotations.
Local Open Scope Z_scope.

(* What goes through a task queue: a client message, or a function request
   (znet/request_func.go 5-26).  A function is identified by a number; it may
   panic. *)
Inductive job :=
| JMsg (m : message)
| JFunc (n : Z) (panics : bool).

(* The route tables (frozen: routes are registered before Start) and
   zconf.GlobalObject.RouterSlicesMode. *)
Record routes := Routes {
  ro_slices_mode : bool;
  ro_apis : list (Z * router);               (* MsgHandle.Apis *)
  ro_slices : list (Z * list handler)        (* RouterSlices.Apis *)
}.

(* How a Go call comes back. *)
Inductive gores := GoRet | GoPanic | GoHang.

Definition of_hout (o : hout) : gores :=
  match o with HDone _ => GoRet | HPanicked => GoPanic | HFuel => GoHang end.

(* Go: defer func() { if err := recover(); err != nil {log} }(). *)
Definition deferred_recover (r : gores) : gores :=
  match r with GoPanic => GoRet | r => r end.

(* znet/msghandler.go 308-316: doFuncHandler. *)
Definition do_func_handler (n : Z) (panics : bool) : list hev * gores :=
  if panics then ([HvStart n; HvPanic], deferred_recover GoPanic)
  else ([HvStart n; HvEnd n], deferred_recover GoRet).

(* znet/msghandler.go 320-344: doMsgHandler.  The request is taken to be fresh
   (RequestHeap.v for the pool). *)
Definition do_msg_handler (fuel : nat) (ro : routes) (m : message) : list hev * gores :=
  match find_router (ro_apis ro) (m_id m) with
  | None => ([], deferred_recover GoRet)
  | Some r =>
    let '(es, o) := call fuel (Some r) (fresh_request m) in (es, deferred_recover (of_hout o))
  end.

(* znet/msghandler.go 383-401: doMsgHandlerSlices. *)
Definition do_msg_handler_slices (ro : routes) (m : message) : list hev * gores :=
  match find_router (ro_slices ro) (m_id m) with
  | None => ([], deferred_recover GoRet)
  | Some hs =>
    let '(es, o) := run_slices hs (fresh_request m) in (es, deferred_recover (of_hout o))
  end.

(* znet/msghandler.go 427-441: the type switch of StartOneWorker. *)
Definition handle (fuel : nat) (ro : routes) (j : job) : list hev * gores :=
  match j with
  | JFunc n p => do_func_handler n p
  | JMsg m =>
    if ro_slices_mode ro then do_msg_handler_slices ro m else do_msg_handler fuel ro m
  end.

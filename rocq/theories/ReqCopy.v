(* Model of what user code can do with a copied request (znet/request.go 103-133: Copy), run by
   a goroutine of its own; Request.v's [rst] with the fields Copy fills in. *)
From Coq Require Import ZArith List Bool.
From Verif Require Import Bytes Pack Request.
Import ListNotations.
Local Open Scope Z_scope.

(* znet/request.go 106-132: no connection, router or handlers; math.MaxInt8 *)
Definition copy_rst (s : rst) : rst :=
  {| rs_msg := new_message_by_id (m_id (rs_msg s)) (m_len (rs_msg s)) (m_raw (rs_msg s));
     rs_steps := rs_steps s; rs_need := false; rs_index := 127;
     rs_nhandlers := 0; rs_keys := rs_keys s; rs_resp := None |}.

(* User code on the copy; [mode] is GlobalObject.RouterSlicesMode, which Abort reads
   (214-222); RouterSlicesNext has no handlers to run (229-235). *)
Definition use_copy (mode : bool) (a : hact) (s : rst) : list hev * hout := run_hact mode next_without_handlers a (copy_rst s).
(* request.go 192-196: Call on the copy; its router is nil *)
Definition call_copy (fuel : nat) (s : rst) : list hev * hout := call fuel None (copy_rst s).
(* request.go 170-172, 192-212: BindRouter, then Call *)
Definition bind_copy (fuel : nat) (r : router) (s : rst) : list hev * hout := call fuel (Some r) (copy_rst s).

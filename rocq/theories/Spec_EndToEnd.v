(* Vocabulary of the end-to-end property: sender, wire, reader, worker pool. *)
From Coq Require Import ZArith List Bool.
From Verif Require Import Bytes Pack Chain Request Dispatch Workers Spec_Workers Reader.
Import ListNotations.

(* What a handler sees of a request: its message ID and its data. *)
Definition content (j : job) : option (Z * list byte) :=
  match j with JMsg m => Some (m_id m, m_data m) | JFunc _ _ => None end.
(* The requests of connection c whose handling has begun, in that order. *)
Definition begun (c : nat) (tr : list wev) : list (option (Z * list byte)) :=
  flat_map (fun e => match e with EvBegin d j => if Nat.eqb d c then [content j] else [] | _ => [] end) tr.
(* The bytes of one message: ID and payload through a packer. *)
Definition bytes_of (pack : message -> list byte) (p : Z * list byte) : list byte := pack (new_msg_package (fst p) (snd p)).
(* What connection c's reader, having read the chunks, has passed to the pool: the requests
   it made, in order, of which the last may be still on their way. *)
Definition passed_on (r : reader) (chunks : list (list byte)) (c : nat) (tr : list wev) : Prop :=
  exists rest, map seen (fst (fst (run_reader r chunks))) = map content (sent c tr) ++ rest.
(* The two stream formats. *)
Inductive format := Tlv | Ltv.
Definition packer (f : format) : message -> list byte := match f with Tlv => pack_tlv | Ltv => pack_ltv end.
Definition reader_of (f : format) : reader := match f with Tlv => tlv_reader | Ltv => ltv_reader end.

(* Steps of workers: taking a request, finishing one; steps of workers and of connection c's
   reader handing requests over. *)
Definition workers_only (l : wlabel) : Prop := match l with LTake _ | LFinish _ _ => True | _ => False end.
Definition workers_and (c : nat) (l : wlabel) : Prop := match l with LSend d _ => d = c | _ => workers_only l end.
(* The requests of connection c whose handling is over, in that order. *)
Definition done (c : nat) (tr : list wev) : list (option (Z * list byte)) :=
  flat_map (fun e => match e with EvEnd d j _ => if Nat.eqb d c then [content j] else [] | _ => [] end) tr.

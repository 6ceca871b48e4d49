(* Reading the events of a connection and its messages. *)
From Coq Require Import List Bool.
From Verif Require Import ConnLife ConnMsg.
Import ListNotations.

Section Spec.
Context {M : Type}.
(* Messages taken from the network, handed to handlers, given up. *)
Definition read_of (tr : list (mev M)) : list M := flat_map (fun e => match e with MvRead ms => ms | _ => [] end) tr.
Definition begun (tr : list (mev M)) : list M := flat_map (fun e => match e with MvBegin m => [m] | _ => [] end) tr.
Definition lost (tr : list (mev M)) : list M := flat_map (fun e => match e with MvLost ms => ms | _ => [] end) tr.
(* Reads that returned data. *)
Definition reads (tr : list (mev M)) : nat := length (filter (fun e => match e with MvRead _ => true | _ => false end) tr).
(* No call of a decoder or interceptor panics. *)
Definition no_panic (ls : list (mlabel M)) : Prop := Forall (fun l => l <> MExec true) ls.
(* Nothing is left between the network and the handlers. *)
Definition drained (s : cm M) : Prop := cm_wait s = [] /\ match cm_rd s with RFrames (_ :: _) => False | _ => True end.
(* Steps of the reader handing over what it has, and of the workers. *)
Definition handing_over (l : mlabel M) : Prop := match l with MExec false | MBegin _ | MEnd _ => True | _ => False end.
End Spec.

(* Vocabulary for the heartbeat of a client that reconnects. *)
From Coq Require Import List.
From Verif Require Import ClientHb.
Import ListNotations.

(* Any schedule of the goroutines of a client that has been given a heartbeat. *)
Definition seen (ls : list hlabel) : list hev := snd (h_run hs_new ls).
(* The connection the client made last. *)
Definition newest (tr : list hev) : option nat := fold_left (fun a e => match e with VBind i => Some i | _ => a end) tr None.
(* The connection's heartbeat has been started and the connection's closing has not stopped it. *)
Definition beating (tr : list hev) (i : nat) : Prop := In (VGo i) tr /\ ~ In (VQuit i) tr.
(* The heartbeat does something about connection i. *)
Definition about (i : nat) (e : hev) : Prop := (exists g a, e = VCheck g i a) \/ e = VBeat i \/ e = VStop i.
(* The client is restarted only when the connections it had have been closed as far as stopping the heartbeat. *)
Definition one_at_a_time (tr : list hev) : Prop :=
  forall before i after, tr = before ++ VBind i :: after -> forall j, In (VBind j) before -> In (VQuit j) before.
(* A step of a heartbeat goroutine. *)
Definition of_heartbeat (l : hlabel) : Prop := (exists g b, l = HTick g b) \/ (exists g, l = HReact g).

(* What C112 says. *)
From Coq Require Import List Bool Ascii String.
From Verif Require Import Dial.
Import ListNotations.

(* What is assumed of the network: an IP that is written is read back, and is no empty text and not in brackets;
   "<nil>" is no IP and no name of a machine. *)
Definition sane (parse_ip : text -> option nat) (render : nat -> text) (dns : text -> option nat) : Prop :=
  (forall ip, parse_ip (render ip) = Some ip /\ forall t, render ip <> [] /\ render ip <> "["%char :: t) /\
  (forall h ip, parse_ip h = Some ip -> h <> [] /\ forall t, h <> "["%char :: t) /\
  parse_ip (list_ascii_of_string "<nil>") = None /\ dns (list_ascii_of_string "<nil>") = None.
(* A host name: not empty, no IP, no colon or bracket. *)
Definition a_host_name (parse_ip : text -> option nat) (h : text) : Prop := h <> [] /\ parse_ip h = None /\ ~ In colon h /\ ~ In "["%char h.
(* The URL the options leave: that of the last WithUrl. *)
Fixpoint last_url (opts : list copt) : option url :=
  match opts with
  | [] => None
  | OUrl u :: r => if existsb (fun o => match o with OUrl _ => true | _ => false end) r then last_url r else u
  | _ :: r => last_url r
  end.
Definition is_tls (k : kind) : bool := match k with Tls => true | _ => false end.

(* What C105 says. *)
From Coq Require Import ZArith List.
From Verif Require Import Settings.
Import ListNotations.

(* How many connections were accepted: the next one has this number. *)
Definition accepted (os : list op) : nat := length (filter (fun o => match o with Accept => true | _ => false end) os).

(* What was set last, or what the server had before. *)
Definition last_start (os : list op) : option nat := fold_left (fun v o => match o with SetOnConnStart h => h | _ => v end) os None.
Definition last_stop (os : list op) : option nat := fold_left (fun v o => match o with SetOnConnStop h => h | _ => v end) os None.
Definition last_packet (p : nat) (os : list op) : nat := fold_left (fun v o => match o with SetPacket q => q | _ => v end) os p.
Definition last_decoder (d : nat) (os : list op) : option nat := fold_left (fun v o => match o with SetDecoder e => e | _ => v end) os (Some d).
(* The heartbeat asked for last, with the functions set on it since. *)
Definition last_beat (os : list op) : option beat :=
  fold_left (fun v o => match o, v with
    | StartHeartBeat _ _ b, _ => Some b
    | SetHeartbeatMsgFunc f, Some b => Some (Beat f (bt_dead b))
    | SetOnRemoteNotAlive f, Some b => Some (Beat (bt_make b) f)
    | _, _ => v end) os None.

(* The messages that were given a handler, with their handlers. *)
Definition given (os : list op) : list (Z * nat) :=
  flat_map (fun o => match o with AddRouter id h | StartHeartBeat id h _ => [(id, h)] | _ => [] end) os.
(* No message is given a handler twice. *)
Definition once (os : list op) : Prop := NoDup (map fst (given os)).

(* What C98 says of iterations at the same time. *)
From Coq Require Import ZArith List Bool.
From Verif Require Import Bytes ShardMap Spec_Map ShardIter Spec_ShardIter ShardMany.
Import ListNotations.

Section Spec.
Context {V : Type}.
(* The content of the map at every moment. *)
Definition many_during (tr : list (many V)) : list (amap V) := map (fun s => sm_get (mn_map s)) tr.
(* What an iteration has reported once it has ended. *)
Definition reports (during : list (amap V)) (p : part V) : Prop :=
  match p with
  | PItems s => each_key_as_once during (ir_got s)
  | PKeys s => each_key_as_once_keys during (ks_got s)
  | PCount s => exists l, each_key_as_once during l /\ ct_n s = length l
  | PCb _ s _ => each_key_as_once during (cb_got s)
  end.
(* The j-th iteration was called with this. *)
Definition kind_of (k : kind V) (p : part V) : Prop :=
  match k, p with KItems, PItems _ | KKeys, PKeys _ | KCountAll, PCount _ => True | KCb cb, PCb cb' _ _ => cb = cb' | _, _ => False end.
(* No new iteration and no new call of others. *)
Definition no_new (l : mlabel V) : Prop := match l with MStart _ | MCall _ => False | _ => True end.
(* Callbacks do not use the map. *)
Definition quiet_label (l : mlabel V) : Prop := match l with MStart (KCb cb) => forall k v, cb k v = [] | _ => True end.
(* Nobody waits, everything has ended. *)
Definition all_over (s : many V) : Prop := mn_wait s = [] /\ forall p, In p (mn_parts s) -> p_end p = true.
End Spec.

(* Vocabulary for Clear and MSet among other calls. *)
From Coq Require Import List Bool.
From Verif Require Import Bytes ShardMap Spec_Map ShardIter ShardClear.
Import ListNotations.

Section Spec.
Context {V : Type}.
(* The content of the map at every moment of a call. *)
Definition clear_during (tr : list (clr V)) : list (amap V) := map (fun s => sm_get (cl_map s)) tr.
Definition mset_during (tr : list (mset V)) : list (amap V) := map (fun s => sm_get (ms_map s)) tr.
(* The step is not another goroutine's call that may change key k; is nobody else's at all. *)
Definition spares (k : key) (l : clabel V) : Prop := match l with CIter (IOther o) => writes o <> Some k | _ => True end.
Definition clear_only (l : clabel V) : Prop := match l with CIter (IOther _) => False | _ => True end.
Definition mspares (k : key) (l : mlabel V) : Prop := match l with MsOther o => writes o <> Some k | _ => True end.
(* Clear has removed key k: it received it, and is past the Remove. *)
Definition cleared (k : key) (s : clr V) : Prop := In k (map fst (ir_got (cl_iter s))) /\ cl_del s <> Some k.
End Spec.

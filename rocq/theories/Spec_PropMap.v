(* The calls on one connection's properties, as calls on a plain map: a set
   returns nothing, a get returns the value or "not there", a remove returns
   nothing.  Linearizability is that of Spec_Lin.v. *)
From Coq Require Import List Bool Arith.
From Verif Require Import Bytes ShardMap ShardConc Spec_Map Spec_Lin PropMap.
Import ListNotations.

Section Spec.
Context {V : Type}.
Definition as_map_call (o : pcall V) : mop V :=
  match o with PSet k v => MSet1 k v | PGet k => MGet k | PRemove k => MRemove k end.
Definition as_map_answer (o : pcall V) (r : pans V) : mret V :=
  match o, r with PGet _, PaVal v => RVal (Some v) | PGet _, _ => RVal None | _, _ => RUnit end.
(* The history of connection c. *)
Definition on_conn (c : nat) (h : list (pev V)) : list (cev V) :=
  flat_map (fun e => match e with
    | PevCall t d o => if Nat.eqb d c then [CCall t (as_map_call o)] else []
    | PevRet t d o r => if Nat.eqb d c then [CRet t (as_map_answer o r)] else []
    end) h.
End Spec.

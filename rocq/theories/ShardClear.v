(* Model of Clear and MSet of zutils/shard_lock_map.go (91-98, 147-152) while other goroutines
   use the map.  Clear is the loop over IterBuffered of ShardIter.v whose body removes the key
   received; MSet sets one entry after the other.  Another goroutine's single-key call is one
   step, as in ShardIter.v. *)
From Coq Require Import ZArith List Bool Arith.
From Verif Require Import Bytes GoSlice ShardMap ShardIter.
Import ListNotations.

Section Clear.
Context {V : Type}.

(* cl_del: the key received and not yet removed. *)
Record clr := Clr { cl_iter : iter V; cl_del : option key }.
Definition clear_start (m : smap V) : clr := Clr (iter_start m) None.
Inductive clabel :=
| CIter (l : ilabel V)     (* a goroutine of IterBuffered, or another goroutine's call *)
| CNext                    (* 149: receive *)
| CRemove.                 (* 150, 110-115: Remove *)

Definition clear_step (s : clr) (l : clabel) : clr :=
  match l with
  | CIter INext => s
  | CIter l' => Clr (iter_step (cl_iter s) l') (cl_del s)
  | CNext =>
    match cl_del s with
    | Some _ => s
    | None =>
      if ir_end (cl_iter s) then s
      else Clr (iter_step (cl_iter s) INext)
             (match ir_total (cl_iter s), ir_out (cl_iter s) with Some _, e :: _ => Some (fst e) | _, _ => None end)
    end
  | CRemove =>
    match cl_del s with
    | Some k => let o := MRemove k in
                if may (ir_map (cl_iter s)) (held (ir_lanes (cl_iter s))) o
                then Clr (iw_map (cl_iter s) (after (ir_map (cl_iter s)) o)) None else s
    | None => s
    end
  end.
Definition clear_run (s : clr) (ls : list clabel) : clr := fold_left clear_step ls s.
Fixpoint clear_trace (s : clr) (ls : list clabel) : list clr :=
  s :: match ls with [] => [] | l :: ls' => clear_trace (clear_step s l) ls' end.
Definition cl_map (s : clr) : smap V := ir_map (cl_iter s).
(* Clear has returned. *)
Definition cl_end (s : clr) : bool := ir_end (cl_iter s).

(* 91-98: MSet; ms_rest: the entries still to be set. *)
Record mset := MS { ms_map : smap V; ms_rest : gomap V }.
Inductive mlabel :=
| MsOther (o : mop V)
| MsSet (n : nat).         (* the n-th remaining entry: Go's map order *)
Fixpoint take_out {A} (n : nat) (l : list A) : list A :=
  match l, n with [], _ => [] | _ :: l', O => l' | x :: l', S n' => x :: take_out n' l' end.
Definition mset_step (s : mset) (l : mlabel) : mset :=
  match l with
  | MsOther o => MS (after (ms_map s) o) (ms_rest s)
  | MsSet n => match nth_error (ms_rest s) n with
               | Some (k, v) => MS (sm_set (ms_map s) k v) (take_out n (ms_rest s))
               | None => s
               end
  end.
Definition mset_run (s : mset) (ls : list mlabel) : mset := fold_left mset_step ls s.
Fixpoint mset_trace (s : mset) (ls : list mlabel) : list mset :=
  s :: match ls with [] => [] | l :: ls' => mset_trace (mset_step s l) ls' end.
End Clear.
Arguments clr : clear implicits.
Arguments clabel : clear implicits.
Arguments mset : clear implicits.
Arguments mlabel : clear implicits.

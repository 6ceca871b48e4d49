(* Model of zutils/shard_lock_map.go with any number of iterations of ShardIter.v at a time on one
   map, and other goroutines' single-key calls.  A goroutine waiting in Lock lets no new reader of its shard in
   (sync.RWMutex), whoever the reader is.  A read (Get, Has) of other goroutines changes nothing
   and is left out; a callback's reads are not. *)
From Coq Require Import ZArith List Bool Arith.
From Verif Require Import Bytes GoSlice ShardMap ShardIter.
Import ListNotations.

Section Many.
Context {V : Type}.

(* One iteration under way; for IterCb its callback, and whether it waits in Lock. *)
Inductive part :=
| PItems (s : iter V) | PKeys (s : keys V) | PCount (s : count V)
| PCb (cb : key -> V -> list (mop V)) (s : cbs V) (waits : bool).
Record many := Many { mn_map : smap V; mn_parts : list part; mn_wait : list (mop V) }.

(* The shard a part holds read-locked. *)
Definition p_held (p : part) (i : nat) : bool :=
  match p with
  | PItems s => held (ir_lanes s) i
  | PKeys s => kheld (ks_lanes s) i
  | PCount _ => false
  | PCb _ s _ => cb_held s i
  end.
Definition m_held (s : many) (i : nat) : bool := existsb (fun p => p_held p i) (mn_parts s).
Definition to_shard (m : smap V) (o : mop V) (i : nat) : bool :=
  match writes o with Some k => shard_of (sm_hash m) k =? i | None => false end.
(* Does a goroutine wait in Lock for shard i? *)
Definition m_waited (s : many) (i : nat) : bool :=
  existsb (fun o => to_shard (mn_map s) o i) (mn_wait s) ||
  existsb (fun p => match p with PCb _ c true => match cb_calls c with o :: _ => to_shard (mn_map s) o i | [] => false end | _ => false end) (mn_parts s).

(* The iterations' own copies of the map. *)
Definition on_map (m : smap V) (p : part) : part :=
  match p with
  | PItems s => PItems (iw_map s m)
  | PKeys s => PKeys (Keys m (ks_i s) (ks_n s) (ks_lanes s) (ks_out s) (ks_closed s) (ks_got s) (ks_end s))
  | PCount s => PCount (Count m (ct_i s) (ct_n s))
  | PCb cb s w => PCb cb (Cbs m (cb_i s) (cb_seen s) (cb_calls s) (cb_got s) (cb_wait s)) w
  end.
(* A single-key call is carried out. *)
Definition m_after (s : many) (o : mop V) (wait : list (mop V)) : many :=
  let m := after (mn_map s) o in Many m (map (on_map m) (mn_parts s)) wait.

Inductive kind := KItems | KKeys | KCountAll | KCb (cb : key -> V -> list (mop V)).
Definition begin (m : smap V) (k : kind) : part :=
  match k with KItems => PItems (iter_start m) | KKeys => PKeys (keys_start m) | KCountAll => PCount (Count m 0 0) | KCb cb => PCb cb (cb_start m) false end.

Inductive mlabel :=
| MStart (k : kind)                (* an iteration is called *)
| MCall (o : mop V)                (* another goroutine's call, which waits if it must *)
| MWake (n : nat)                  (* the n-th waiting call gets the lock *)
| MItems (j : nat) (l : ilabel V)  (* a step of the j-th iteration's own *)
| MKeys (j : nat) (l : klabel V)
| MCount (j : nat)
| MCb (j : nat) (l : cblabel V)
| MCbWait (j : nat).               (* the callback's next call, a write, finds the lock taken and waits *)

Definition put_part (s : many) (j : nat) (p : part) : many := Many (mn_map s) (set_nth j p (mn_parts s)) (mn_wait s).

Definition many_step (s : many) (lb : mlabel) : many :=
  match lb with
  | MStart k => Many (mn_map s) (mn_parts s ++ [begin (mn_map s) k]) (mn_wait s)
  | MCall o => if may (mn_map s) (m_held s) o then m_after s o (mn_wait s) else Many (mn_map s) (mn_parts s) (mn_wait s ++ [o])
  | MWake n =>
    match nth_error (mn_wait s) n with
    | Some o => if may (mn_map s) (m_held s) o then m_after s o (remove_nth n (mn_wait s)) else s
    | None => s
    end
  | MItems j l =>
    match nth_error (mn_parts s) j with
    | Some (PItems p) =>
      match l with
      | IOther _ => s
      | ILock i => if m_waited s i then s else put_part s j (PItems (iter_step p l))
      | _ => put_part s j (PItems (iter_step p l))
      end
    | _ => s
    end
  | MKeys j l =>
    match nth_error (mn_parts s) j with
    | Some (PKeys p) =>
      match l with
      | KOther _ => s
      | KLock i => if m_waited s i then s else put_part s j (PKeys (keys_step p l))
      | KCount => if m_waited s (ks_i p) then s else put_part s j (PKeys (keys_step p l))
      | _ => put_part s j (PKeys (keys_step p l))
      end
    | _ => s
    end
  | MCount j =>
    match nth_error (mn_parts s) j with
    | Some (PCount p) => if m_waited s (ct_i p) then s else put_part s j (PCount (count_step p CtNext))
    | _ => s
    end
  | MCb j l =>
    match nth_error (mn_parts s) j with
    | Some (PCb cb p w) =>
      match l with
      | QOther _ | QWake _ => s
      | QLock => if m_waited s (cb_i p) then s else put_part s j (PCb cb (cb_step cb p l) w)
      | QCall _ | QUnlock => put_part s j (PCb cb (cb_step cb p l) w)
      | QIn =>
        match cb_calls p with
        | [] => s
        | o :: os =>
          (* the callback's call goes through: no reader if it writes, no waiting writer if it reads *)
          if may (mn_map s) (m_held s) o && match reads o with Some k => negb (m_waited s (shard_of (sm_hash (mn_map s)) k)) | None => true end
          then m_after (put_part s j (PCb cb (Cbs (cb_map p) (cb_i p) (cb_seen p) os (cb_got p) (cb_wait p)) false)) o (mn_wait s)
          else s
        end
      end
    | _ => s
    end
  | MCbWait j =>
    match nth_error (mn_parts s) j with
    | Some (PCb cb p w) =>
      match cb_calls p with
      | o :: _ => if may (mn_map s) (m_held s) o then s else put_part s j (PCb cb p true)
      | [] => s
      end
    | _ => s
    end
  end.
Definition many_run (s : many) (ls : list mlabel) : many := fold_left many_step ls s.
Fixpoint many_trace (s : many) (ls : list mlabel) : list many :=
  s :: match ls with [] => [] | l :: ls' => many_trace (many_step s l) ls' end.

(* Has the iteration returned (and, for Items and Keys, its loop ended)? *)
Definition p_end (p : part) : bool :=
  match p with PItems s => ir_end s | PKeys s => ks_end s | PCount s => count_end s | PCb _ s _ => cb_end s end.
End Many.
Arguments part : clear implicits.
Arguments many : clear implicits.
Arguments kind : clear implicits.
Arguments mlabel : clear implicits.

(* Model of zutils/shard_lock_map.go under concurrent calls: the single-key
   operations, 62-88 and 101-145, as sequences of atomic instructions of
   goroutines that take the shard's RWMutex, read the map, write it and unlock.
   A writer waiting does not hold back readers here: that only adds executions. *)
From Coq Require Import ZArith List Bool Arith.
From Verif Require Import Bytes GoSlice ShardMap.
Import ListNotations.

Section Conc.
Context {V : Type}.

(* sync.RWMutex, embedded in SingleShardMap (zutils/shard_lock_map.go 18-21) *)
Record rwlock := Rwlock { lk_writer : option nat; lk_readers : list nat }.

(* Where a goroutine is in its call. *)
Inductive pc :=
| PIdle
| PCalled (o : mop V)                       (* before Lock / RLock *)
| PHold (o : mop V)                         (* lock taken *)
| PRead (o : mop V) (v : option V)          (* shard.items[key] read *)
| PUnlock (o : mop V) (r : mret V)          (* before Unlock / RUnlock *)
| PDone (o : mop V) (r : mret V).           (* before return *)

Record cst := Cst { cs_map : smap V; cs_locks : list rwlock; cs_thr : nat -> pc }.

Definition op_key (o : mop V) : option key :=
  match o with
  | MGet k | MHas k | MSet1 k _ | MSetNX k _ | MRemove k | MRemoveCb k _ | MPop k => Some k
  | _ => None
  end.
(* Lock rather than RLock *)
Definition is_writer (o : mop V) : bool := match o with MGet _ | MHas _ => false | _ => true end.

Inductive cev := CCall (t : nat) (o : mop V) | CRet (t : nat) (r : mret V).
Inductive clabel := LCall (t : nat) (o : mop V) | LStep (t : nat).

Definition set_thr (s : cst) (t : nat) (p : pc) : cst :=
  {| cs_map := cs_map s; cs_locks := cs_locks s; cs_thr := fun u => if Nat.eqb u t then p else cs_thr s u |}.
Definition set_lock (s : cst) (i : nat) (l : rwlock) : cst :=
  {| cs_map := cs_map s; cs_locks := set_nth i l (cs_locks s); cs_thr := cs_thr s |}.
Definition set_map (s : cst) (m : smap V) : cst :=
  {| cs_map := m; cs_locks := cs_locks s; cs_thr := cs_thr s |}.
Definition lock_of (s : cst) (i : nat) : rwlock := nth i (cs_locks s) {| lk_writer := None; lk_readers := [] |}.

(* sync.RWMutex Lock / RLock; None while it blocks. *)
Definition acquire (w : bool) (t : nat) (l : rwlock) : option rwlock :=
  match lk_writer l with
  | Some _ => None
  | None =>
    if w then match lk_readers l with
              | [] => Some {| lk_writer := Some t; lk_readers := [] |}
              | _ => None
              end
    else Some {| lk_writer := None; lk_readers := t :: lk_readers l |}
  end.
Definition release (w : bool) (t : nat) (l : rwlock) : rwlock :=
  if w then {| lk_writer := None; lk_readers := lk_readers l |}
  else {| lk_writer := lk_writer l; lk_readers := filter (fun u => negb (Nat.eqb u t)) (lk_readers l) |}.

(* First instruction under the lock: a write for Set (74) and Remove (113), a
   read for Get (65), SetNX (82), Has (104), RemoveCb (128), Pop (141). *)
Definition first_instr (s : cst) (t : nat) (o : mop V) (k : key) : cst :=
  let m := cs_map s in
  let sh := get_shard m k in
  match o with
  | MSet1 _ v => set_thr (set_map s (put_shard m k (gm_set k v sh))) t (PUnlock o RUnit)
  | MRemove _ => set_thr (set_map s (put_shard m k (gm_del k sh))) t (PUnlock o RUnit)
  | _ => set_thr s t (PRead o (gm_get k sh))
  end.
(* Second instruction: SetNX 83-85, RemoveCb 129-132, Pop 142. *)
Definition second_instr (s : cst) (t : nat) (o : mop V) (k : key) (v : option V) : cst :=
  let m := cs_map s in
  let sh := get_shard m k in
  match o with
  | MGet _ => set_thr s t (PUnlock o (RVal v))
  | MHas _ => set_thr s t (PUnlock o (RBool (match v with Some _ => true | None => false end)))
  | MSetNX _ x =>
    match v with
    | None => set_thr (set_map s (put_shard m k (gm_set k x sh))) t (PUnlock o (RBool true))
    | Some _ => set_thr s t (PUnlock o (RBool false))
    end
  | MRemoveCb _ cb =>
    let remove := cb k v in
    if remove && match v with Some _ => true | None => false end
    then set_thr (set_map s (put_shard m k (gm_del k sh))) t (PUnlock o (RBool remove))
    else set_thr s t (PUnlock o (RBool remove))
  | MPop _ => set_thr (set_map s (put_shard m k (gm_del k sh))) t (PUnlock o (RVal v))
  | _ => s
  end.

Definition cstep (s : cst) (l : clabel) : cst * list cev :=
  match l with
  | LCall t o =>
    match cs_thr s t, op_key o with
    | PIdle, Some _ => (set_thr s t (PCalled o), [CCall t o])
    | _, _ => (s, [])
    end
  | LStep t =>
    match cs_thr s t with
    | PCalled o =>
      match op_key o with
      | Some k =>
        let i := shard_of (sm_hash (cs_map s)) k in
        match acquire (is_writer o) t (lock_of s i) with
        | Some l' => (set_thr (set_lock s i l') t (PHold o), [])
        | None => (s, [])
        end
      | None => (s, [])
      end
    | PHold o => match op_key o with Some k => (first_instr s t o k, []) | None => (s, []) end
    | PRead o v => match op_key o with Some k => (second_instr s t o k v, []) | None => (s, []) end
    | PUnlock o r =>
      match op_key o with
      | Some k =>
        let i := shard_of (sm_hash (cs_map s)) k in
        (set_thr (set_lock s i (release (is_writer o) t (lock_of s i))) t (PDone o r), [])
      | None => (s, [])
      end
    | PDone o r => (set_thr s t PIdle, [CRet t r])
    | PIdle => (s, [])
    end
  end.

Fixpoint crun (s : cst) (ls : list clabel) : cst * list cev :=
  match ls with
  | [] => (s, [])
  | l :: ls' => let '(s1, e1) := cstep s l in let '(s2, e2) := crun s1 ls' in (s2, e1 ++ e2)
  end.

(* Goroutines start calling on map m. *)
Definition conc_init (m : smap V) : cst :=
  {| cs_map := m; cs_locks := repeat {| lk_writer := None; lk_readers := [] |} shard_count; cs_thr := fun _ => PIdle |}.
End Conc.
Arguments cst : clear implicits.
Arguments pc : clear implicits.
Arguments cev : clear implicits.
Arguments clabel : clear implicits.

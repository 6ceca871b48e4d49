(* Model of the iterators of zutils/shard_lock_map.go while other goroutines use
   the map: IterBuffered and Items (159-227), Keys (230-256), Count (50-59) and
   IterCb (258-273), one such call at a time.  Another goroutine's single-key
   call is one step, taken while it holds the shard's lock (ShardConc.v splits
   it).  A writer waiting holds back readers in IterCb only; elsewhere each
   goroutine holds one lock at a time and it makes no difference. *)
From Coq Require Import ZArith List Bool Arith.
From Verif Require Import Bytes GoSlice ShardMap.
Import ListNotations.

Section Iter.
Context {V : Type}.

(* The map after a single-key call: 71-88, 110-145; 62-68 and 101-107 leave it. *)
Definition after (m : smap V) (o : mop V) : smap V :=
  match o with
  | MSet1 k v => sm_set m k v
  | MSetNX k v => fst (sm_setnx m k v)
  | MRemove k => sm_remove m k
  | MRemoveCb k cb => fst (sm_remove_cb m k cb)
  | MPop k => fst (sm_pop m k)
  | _ => m
  end.
(* The key whose shard the call locks for writing. *)
Definition writes (o : mop V) : option key :=
  match o with MSet1 k _ | MSetNX k _ | MRemove k | MRemoveCb k _ | MPop k => Some k | _ => None end.
(* Does the call find the lock of its shard free? "held i": shard i is read-locked. *)
Definition may (m : smap V) (held : nat -> bool) (o : mop V) : bool :=
  match writes o with Some k => negb (held (shard_of (sm_hash m) k)) | None => true end.
Definition shard (m : smap V) (i : nat) : gomap V := nth i (sm_shards m) [].

(* Go: for k, v := range g takes the entries in any order (the labels choose);
   what it still has to visit when the keys in "seen" are done. *)
Definition rest (g : gomap V) (seen : list key) : gomap V := filter (fun e => negb (existsb (key_eqb (fst e)) seen)) g.

(* 169-187: the goroutine of snapshot for one shard. *)
Inductive fpc := FStart | FFill (seen : list key) | FEnd.
(* 190-203: the goroutine of fanIn for one channel: at its receive, holding a tuple, done. *)
Inductive npc := NReady | NHas (e : key * V) | NEnd.
(* chanList[i] with its capacity and what is in it, and the goroutines on both ends. *)
Record lane := Lane { ln_pc : fpc; ln_cap : nat; ln_ch : gomap V; ln_fan : npc }.
(* ir_total: capacity of the channel returned, once IterBuffered has returned;
   ir_got: what the range loop has received; ir_end: the loop has ended. *)
Record iter := Iter { ir_map : smap V; ir_lanes : list lane; ir_total : option nat;
  ir_out : gomap V; ir_closed : bool; ir_got : gomap V; ir_end : bool }.

Definition iter_start (m : smap V) : iter :=
  Iter m (repeat (Lane FStart 0 [] NReady) shard_count) None [] false [] false.

Inductive ilabel :=
| IOther (o : mop V)       (* another goroutine's call *)
| ILock (i : nat)          (* 175-177: RLock, make the channel, wg.Done *)
| ISend (i n : nat)        (* 178-180: the n-th remaining entry is sent *)
| IUnlock (i : nat)        (* 181-182: RUnlock, close the channel *)
| IReturn                  (* 185, 207-214: wg.Wait, add the capacities, make the channel, start fanIn *)
| IFanRecv (i : nat)       (* 195: receive *)
| IFanSend (i : nat)       (* 196: send *)
| IFanEnd (i : nat)        (* 198: channel closed and drained, wg.Done *)
| IClose                   (* 201-202 *)
| INext.                   (* the range loop receives, or ends *)

Definition held (ls : list lane) (i : nat) : bool :=
  match nth_error ls i with Some (Lane (FFill _) _ _ _) => true | _ => false end.
Definition iw_map (s : iter) (m : smap V) := Iter m (ir_lanes s) (ir_total s) (ir_out s) (ir_closed s) (ir_got s) (ir_end s).
Definition iw_lane (s : iter) (i : nat) (l : lane) :=
  Iter (ir_map s) (set_nth i l (ir_lanes s)) (ir_total s) (ir_out s) (ir_closed s) (ir_got s) (ir_end s).
Definition iw_out (s : iter) (o : gomap V) := Iter (ir_map s) (ir_lanes s) (ir_total s) o (ir_closed s) (ir_got s) (ir_end s).
Definition is_start (l : lane) : bool := match ln_pc l with FStart => true | _ => false end.
Definition fan_done (l : lane) : bool := match ln_fan l with NEnd => true | _ => false end.

Definition iter_step (s : iter) (lb : ilabel) : iter :=
  match lb with
  | IOther o => if may (ir_map s) (held (ir_lanes s)) o then iw_map s (after (ir_map s) o) else s
  | ILock i =>
    match nth_error (ir_lanes s) i with
    | Some (Lane FStart _ _ n) => let g := shard (ir_map s) i in iw_lane s i (Lane (FFill []) (length g) [] n)
    | _ => s
    end
  | ISend i n =>
    match nth_error (ir_lanes s) i with
    | Some (Lane (FFill seen) cap ch f) =>
      match nth_error (rest (shard (ir_map s) i) seen) n with
      | Some e => if length ch <? cap then iw_lane s i (Lane (FFill (fst e :: seen)) cap (ch ++ [e]) f) else s
      | None => s
      end
    | _ => s
    end
  | IUnlock i =>
    match nth_error (ir_lanes s) i with
    | Some (Lane (FFill seen) cap ch f) =>
      match rest (shard (ir_map s) i) seen with [] => iw_lane s i (Lane FEnd cap ch f) | _ => s end
    | _ => s
    end
  | IReturn =>
    match ir_total s with
    | None => if forallb (fun l => negb (is_start l)) (ir_lanes s)
              then Iter (ir_map s) (ir_lanes s) (Some (list_sum (map ln_cap (ir_lanes s)))) (ir_out s) (ir_closed s) (ir_got s) (ir_end s)
              else s
    | Some _ => s
    end
  | IFanRecv i =>
    match ir_total s, nth_error (ir_lanes s) i with
    | Some _, Some (Lane p cap (e :: ch) NReady) => iw_lane s i (Lane p cap ch (NHas e))
    | _, _ => s
    end
  | IFanSend i =>
    match ir_total s, nth_error (ir_lanes s) i with
    | Some t, Some (Lane p cap ch (NHas e)) =>
      if length (ir_out s) <? t then iw_out (iw_lane s i (Lane p cap ch NReady)) (ir_out s ++ [e]) else s
    | _, _ => s
    end
  | IFanEnd i =>
    match ir_total s, nth_error (ir_lanes s) i with
    | Some _, Some (Lane FEnd cap [] NReady) => iw_lane s i (Lane FEnd cap [] NEnd)
    | _, _ => s
    end
  | IClose =>
    match ir_total s with
    | Some _ => if forallb fan_done (ir_lanes s)
                then Iter (ir_map s) (ir_lanes s) (ir_total s) (ir_out s) true (ir_got s) (ir_end s) else s
    | None => s
    end
  | INext =>
    match ir_total s with
    | Some _ =>
      match ir_out s with
      | e :: o => Iter (ir_map s) (ir_lanes s) (ir_total s) o (ir_closed s) (ir_got s ++ [e]) (ir_end s)
      | [] => if ir_closed s then Iter (ir_map s) (ir_lanes s) (ir_total s) [] true (ir_got s) true else s
      end
    | None => s
    end
  end.
(* The states passed through. *)
Fixpoint iter_trace (s : iter) (ls : list ilabel) : list iter :=
  s :: match ls with [] => [] | l :: ls' => iter_trace (iter_step s l) ls' end.
Definition iter_run (s : iter) (ls : list ilabel) : iter := fold_left iter_step ls s.

(* 230-256: Keys.  ks_i: the shard Count reads next; ks_n: its sum so far, in the
   end the capacity of the channel.  The 32 goroutines send straight into it. *)
Record keys := Keys { ks_map : smap V; ks_i : nat; ks_n : nat; ks_lanes : list fpc;
  ks_out : list key; ks_closed : bool; ks_got : list key; ks_end : bool }.
Definition keys_start (m : smap V) : keys := Keys m 0 0 (repeat FStart shard_count) [] false [] false.
Inductive klabel :=
| KOther (o : mop V)
| KCount                   (* 50-59: Count reads the size of one shard *)
| KLock (i : nat)          (* 239 *)
| KSend (i n : nat)        (* 241, into the buffer *)
| KPass (i n : nat)        (* 241, to the loop waiting at 252 *)
| KUnlock (i : nat)        (* 243-244 *)
| KClose                   (* 247-248 *)
| KNext.                   (* 252-254: the loop receives, or ends *)
Definition kheld (ls : list fpc) (i : nat) : bool := match nth_error ls i with Some (FFill _) => true | _ => false end.
Definition kw_lane (s : keys) (i : nat) (p : fpc) :=
  Keys (ks_map s) (ks_i s) (ks_n s) (set_nth i p (ks_lanes s)) (ks_out s) (ks_closed s) (ks_got s) (ks_end s).
Definition keys_step (s : keys) (lb : klabel) : keys :=
  let go := shard_count <=? ks_i s in
  match lb with
  | KOther o =>
    if may (ks_map s) (kheld (ks_lanes s)) o
    then Keys (after (ks_map s) o) (ks_i s) (ks_n s) (ks_lanes s) (ks_out s) (ks_closed s) (ks_got s) (ks_end s) else s
  | KCount =>
    if go then s
    else Keys (ks_map s) (S (ks_i s)) (ks_n s + length (shard (ks_map s) (ks_i s))) (ks_lanes s) (ks_out s) (ks_closed s) (ks_got s) (ks_end s)
  | KLock i =>
    match nth_error (ks_lanes s) i with
    | Some FStart => if go then kw_lane s i (FFill []) else s
    | _ => s
    end
  | KSend i n =>
    match nth_error (ks_lanes s) i with
    | Some (FFill seen) =>
      match nth_error (rest (shard (ks_map s) i) seen) n with
      | Some e =>
        if length (ks_out s) <? ks_n s
        then Keys (ks_map s) (ks_i s) (ks_n s) (set_nth i (FFill (fst e :: seen)) (ks_lanes s)) (ks_out s ++ [fst e]) (ks_closed s) (ks_got s) (ks_end s)
        else s
      | None => s
      end
    | _ => s
    end
  | KPass i n =>
    match nth_error (ks_lanes s) i, ks_out s with
    | Some (FFill seen), [] =>
      match nth_error (rest (shard (ks_map s) i) seen) n with
      | Some e => Keys (ks_map s) (ks_i s) (ks_n s) (set_nth i (FFill (fst e :: seen)) (ks_lanes s)) [] (ks_closed s) (ks_got s ++ [fst e]) (ks_end s)
      | None => s
      end
    | _, _ => s
    end
  | KUnlock i =>
    match nth_error (ks_lanes s) i with
    | Some (FFill seen) => match rest (shard (ks_map s) i) seen with [] => kw_lane s i FEnd | _ => s end
    | _ => s
    end
  | KClose =>
    if forallb (fun p => match p with FEnd => true | _ => false end) (ks_lanes s)
    then Keys (ks_map s) (ks_i s) (ks_n s) (ks_lanes s) (ks_out s) true (ks_got s) (ks_end s) else s
  | KNext =>
    match ks_out s with
    | k :: o => Keys (ks_map s) (ks_i s) (ks_n s) (ks_lanes s) o (ks_closed s) (ks_got s ++ [k]) (ks_end s)
    | [] => if ks_closed s then Keys (ks_map s) (ks_i s) (ks_n s) (ks_lanes s) [] true (ks_got s) true else s
    end
  end.
Fixpoint keys_trace (s : keys) (ls : list klabel) : list keys :=
  s :: match ls with [] => [] | l :: ls' => keys_trace (keys_step s l) ls' end.
Definition keys_run (s : keys) (ls : list klabel) : keys := fold_left keys_step ls s.

(* 50-59: Count. *)
Record count := Count { ct_map : smap V; ct_i : nat; ct_n : nat }.
Inductive ctlabel := CtOther (o : mop V) | CtNext.
Definition count_step (s : count) (l : ctlabel) : count :=
  match l with
  | CtOther o => Count (after (ct_map s) o) (ct_i s) (ct_n s)
  | CtNext => if ct_i s <? shard_count
              then Count (ct_map s) (S (ct_i s)) (ct_n s + length (shard (ct_map s) (ct_i s))) else s
  end.
Fixpoint count_trace (s : count) (ls : list ctlabel) : list count :=
  s :: match ls with [] => [] | l :: ls' => count_trace (count_step s l) ls' end.
Definition count_run (s : count) (ls : list ctlabel) : count := fold_left count_step ls s.
Definition count_end (s : count) : bool := shard_count <=? ct_i s.

(* 258-273: IterCb.  "cb": the single-key calls the callback makes on the same
   map, one after the other.  cb_seen: keys visited of the shard being read.
   cb_wait: calls of other goroutines waiting in Lock; sync.RWMutex then lets no
   new reader of that shard in, not even in the callback. *)
Record cbs := Cbs { cb_map : smap V; cb_i : nat; cb_seen : option (list key); cb_calls : list (mop V);
  cb_got : gomap V; cb_wait : list (mop V) }.
Inductive cblabel :=
| QOther (o : mop V)
| QWake (n : nat)          (* the n-th waiting call gets the lock *)
| QLock | QCall (n : nat)  (* 267, 269 *)
| QIn                      (* the callback makes its next call *)
| QUnlock.                 (* 271 *)
Definition cb_held (s : cbs) (i : nat) : bool := match cb_seen s with Some _ => i =? cb_i s | None => false end.
Definition waited (s : cbs) (i : nat) : bool :=
  existsb (fun o => match writes o with Some k => shard_of (sm_hash (cb_map s)) k =? i | None => false end) (cb_wait s).
(* The key a call reads under RLock: 62-68, 101-107. *)
Definition reads (o : mop V) : option key := match o with MGet k | MHas k => Some k | _ => None end.
Definition cb_may (s : cbs) (o : mop V) : bool :=
  may (cb_map s) (cb_held s) o &&
  match reads o with Some k => negb (waited s (shard_of (sm_hash (cb_map s)) k)) | None => true end.
Fixpoint remove_nth {A} (n : nat) (l : list A) : list A :=
  match l, n with [], _ => [] | _ :: l', O => l' | x :: l', S n' => x :: remove_nth n' l' end.
Definition cb_step (cb : key -> V -> list (mop V)) (s : cbs) (l : cblabel) : cbs :=
  match l with
  | QOther o =>
    if may (cb_map s) (cb_held s) o then Cbs (after (cb_map s) o) (cb_i s) (cb_seen s) (cb_calls s) (cb_got s) (cb_wait s)
    else Cbs (cb_map s) (cb_i s) (cb_seen s) (cb_calls s) (cb_got s) (cb_wait s ++ [o])
  | QWake n =>
    match nth_error (cb_wait s) n with
    | Some o => if may (cb_map s) (cb_held s) o
                then Cbs (after (cb_map s) o) (cb_i s) (cb_seen s) (cb_calls s) (cb_got s) (remove_nth n (cb_wait s)) else s
    | None => s
    end
  | QLock =>
    match cb_seen s with
    | None => if (cb_i s <? shard_count) && negb (waited s (cb_i s))
              then Cbs (cb_map s) (cb_i s) (Some []) [] (cb_got s) (cb_wait s) else s
    | _ => s
    end
  | QCall n =>
    match cb_seen s, cb_calls s with
    | Some seen, [] =>
      match nth_error (rest (shard (cb_map s) (cb_i s)) seen) n with
      | Some e => Cbs (cb_map s) (cb_i s) (Some (fst e :: seen)) (cb (fst e) (snd e)) (cb_got s ++ [e]) (cb_wait s)
      | None => s
      end
    | _, _ => s
    end
  | QIn =>
    match cb_calls s with
    | o :: os => if cb_may s o then Cbs (after (cb_map s) o) (cb_i s) (cb_seen s) os (cb_got s) (cb_wait s) else s
    | [] => s
    end
  | QUnlock =>
    match cb_seen s, cb_calls s with
    | Some seen, [] =>
      match rest (shard (cb_map s) (cb_i s)) seen with [] => Cbs (cb_map s) (S (cb_i s)) None [] (cb_got s) (cb_wait s) | _ => s end
    | _, _ => s
    end
  end.
Fixpoint cb_trace cb (s : cbs) (ls : list cblabel) : list cbs :=
  s :: match ls with [] => [] | l :: ls' => cb_trace cb (cb_step cb s l) ls' end.
Definition cb_run cb (s : cbs) (ls : list cblabel) : cbs := fold_left (cb_step cb) ls s.
Definition cb_start (m : smap V) : cbs := Cbs m 0 None [] [] [].
Definition cb_end (s : cbs) : bool := shard_count <=? cb_i s.
End Iter.
Arguments fpc : clear implicits.
Arguments npc : clear implicits.
Arguments lane : clear implicits.
Arguments iter : clear implicits.
Arguments ilabel : clear implicits.
Arguments keys : clear implicits.
Arguments klabel : clear implicits.
Arguments count : clear implicits.
Arguments ctlabel : clear implicits.
Arguments cbs : clear implicits.
Arguments cblabel : clear implicits.

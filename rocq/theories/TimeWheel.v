(* Model of ztimer: timer.go, timewheel.go, timerscheduler.go. *)
From Coq Require Import ZArith List Bool.
From Verif Require Import Bytes.
Import ListNotations.
Local Open Scope Z_scope.

(* timer.go 49-55: a Timer as stored under its ID: its ID, which Timer object it is
   (the number of timers created before it) and its due time in milliseconds.  The
   function to call is identified with the object. *)
Record entry := Entry { e_id : Z; e_obj : Z; e_due : Z }.

(* timer.go 57-60: UnixMilli of a clock reading in nanoseconds. *)
Definition unix_milli (ns : Z) : Z := Z.quot ns 1000000.

(* timewheel.go 161-188, run: a wheel holds its lock while it moves timers:
   [Curs]: timers of the current slot still to be re-added, [Nexts]: of the next slot. *)
Inductive phase := Idle | Curs (pend : list entry) | Nexts (pend : list entry).

(* timewheel.go 30-48: TimeWheel; timerQueue as the list of (slot, timer).  Name
   and maxCap (a capacity hint) are left out; nextTimeWheel is the next element of the
   list of wheels. *)
Record wheel := Wheel { w_interval : Z; w_scales : Z; w_cur : Z; w_queue : list (Z * entry); w_phase : phase }.

(* timewheel.go 51-73: NewTimeWheel. *)
Definition new_wheel (interval scales : Z) : wheel := Wheel interval scales 0 [] Idle.

(* timerQueue[slot][tID] = t *)
Definition put (w : wheel) (slot : Z) (e : entry) : wheel :=
  Wheel (w_interval w) (w_scales w) (w_cur w)
        (filter (fun x => negb ((fst x =? slot) && (e_id (snd x) =? e_id e))) (w_queue w) ++ [(slot, e)]) (w_phase w).
Definition in_slot (slot : Z) (q : list (Z * entry)) : list entry := map snd (filter (fun x => fst x =? slot) q).
Definition out_slot (slot : Z) (q : list (Z * entry)) : list (Z * entry) := filter (fun x => negb (fst x =? slot)) q.

Definition idle (w : wheel) : bool := match w_phase w with Idle => true | _ => false end.

(* timewheel.go 85-138: AddTimer and addTimer (forceNext = false), from wheel [w] down;
   each level takes its wheel's lock and reads the clock.  None: a lock is taken. *)
Fixpoint add_timer (ws : list wheel) (clock : list Z) (e : entry) : option (list wheel) :=
  match ws with
  | [] => None
  | w :: lower =>
    if idle w then
      let delay := e_due e - unix_milli (hd 0 clock) in
      if w_interval w <=? delay then
        Some (put w ((w_cur w + Z.quot delay (w_interval w)) mod w_scales w) e :: lower)
      else match lower with
           | [] => Some [put w (w_cur w) e]
           | _ => option_map (cons w) (add_timer lower (tl clock) e)
           end
    else None
  end.

(* The same with forceNext = true, called by the wheel's own run. *)
Definition readd (w : wheel) (lower : list wheel) (clock : list Z) (e : entry) : option (list wheel) :=
  let delay := e_due e - unix_milli (hd 0 clock) in
  if w_interval w <=? delay then
    Some (put w ((w_cur w + Z.quot delay (w_interval w)) mod w_scales w) e :: lower)
  else match lower with
       | [] => Some [put w ((w_cur w + 1) mod w_scales w) e]
       | _ => option_map (cons w) (add_timer lower (tl clock) e)
       end.

(* An operation on wheel number k and those below it. *)
Fixpoint at_wheel (k : nat) (f : wheel -> list wheel -> option (list wheel)) (ws : list wheel) : option (list wheel) :=
  match ws, k with
  | [], _ => None
  | w :: lower, O => f w lower
  | w :: lower, S k' => option_map (cons w) (at_wheel k' f lower)
  end.

Definition with_queue (w : wheel) (q : list (Z * entry)) (p : phase) : wheel := Wheel (w_interval w) (w_scales w) (w_cur w) q p.
Definition next_slot (w : wheel) : Z := (w_cur w + 1) mod w_scales w.
Definition take {A} (i : nat) (l : list A) : option (A * list A) :=
  match nth_error l i with Some x => Some (x, firstn i l ++ skipn (S i) l) | None => None end.

(* timewheel.go 166-170: lock, take the current slot's map. *)
Definition tick_start (w : wheel) (lower : list wheel) : option (list wheel) :=
  match w_phase w with
  | Idle => Some (with_queue w (out_slot (w_cur w) (w_queue w)) (Curs (in_slot (w_cur w) (w_queue w))) :: lower)
  | _ => None
  end.
(* timewheel.go 171-174, 179-181: one timer (number i of those left: maps have no order) is re-added. *)
Definition tick_move (i : nat) (clock : list Z) (w : wheel) (lower : list wheel) : option (list wheel) :=
  match w_phase w with
  | Idle => None
  | Curs pend => match take i pend with
                 | Some (e, rest) => readd (with_queue w (w_queue w) (Curs rest)) lower clock e
                 | None => None
                 end
  | Nexts pend => match take i pend with
                  | Some (e, rest) => readd (with_queue w (w_queue w) (Nexts rest)) lower clock e
                  | None => None
                  end
  end.
(* timewheel.go 176-178: take the next slot's map. *)
Definition tick_next (w : wheel) (lower : list wheel) : option (list wheel) :=
  match w_phase w with
  | Curs [] => Some (with_queue w (out_slot (next_slot w) (w_queue w)) (Nexts (in_slot (next_slot w) (w_queue w))) :: lower)
  | _ => None
  end.
(* timewheel.go 183-186: advance, unlock. *)
Definition tick_end (w : wheel) (lower : list wheel) : option (list wheel) :=
  match w_phase w with
  | Nexts [] => Some (Wheel (w_interval w) (w_scales w) (next_slot w) (w_queue w) Idle :: lower)
  | _ => None
  end.
(* timewheel.go 141-150: RemoveTimer. *)
Definition remove_timer (id : Z) (w : wheel) (lower : list wheel) : option (list wheel) :=
  match w_phase w with
  | Idle => Some (with_queue w (filter (fun x => negb (e_id (snd x) =? id)) (w_queue w)) Idle :: lower)
  | _ => None
  end.

(* timewheel.go 197-223: GetTimerWithIn(100 ms) on the lowest wheel: the timers taken and the wheels. *)
Definition within : Z := 100.
Definition due_soon (now : Z) (e : entry) : bool := e_due e - now <? within.
Definition poll_wheel (now : Z) (w : wheel) : list entry * wheel :=
  (filter (due_soon now) (in_slot (w_cur w) (w_queue w)),
   with_queue w (filter (fun x => negb ((fst x =? w_cur w) && due_soon now (snd x))) (w_queue w)) (w_phase w)).
Fixpoint poll_leaf (now : Z) (ws : list wheel) : option (list entry * list wheel) :=
  match ws with
  | [] => None
  | [w] => if idle w then let '(es, w') := poll_wheel now w in Some (es, [w']) else None
  | w :: lower => match poll_leaf now lower with Some (es, l) => Some (es, w :: l) | None => None end
  end.

(* timerscheduler.go 27-36: TimerScheduler.  [s_cancel]: a CancelTimer in progress, with the ID
   and the number of the next wheel it will scan; [s_polled]: timers a poll has taken from
   the wheel and not yet put in the trigger channel, with the clock reading of the poll;
   [s_sent]: everything put in the trigger channel so far (its consumer is not
   modelled; a full channel only delays PollSend); [s_made] is not in the
   program: the timers created so far. *)
Record sched := Sched { s_wheels : list wheel; s_idgen : Z; s_cancel : option (Z * nat); s_polled : list (entry * Z); s_sent : list (entry * Z); s_made : list entry }.

(* timer.go 9-36, timerscheduler.go 39-61: NewTimerScheduler. *)
Definition hms : list (Z * Z) := [(3600000, 12); (60000, 60); (1000, 60)].
Definition new_sched_of (conf : list (Z * Z)) : sched := Sched (map (fun c => new_wheel (fst c) (snd c)) conf) 0 None [] [] [].
Definition new_sched : sched := new_sched_of hms.

Inductive tlabel :=
| TickStart (k : nat) | TickMove (k i : nat) (clock : list Z) | TickNext (k : nat) | TickEnd (k : nat)
| CreateAt (ns : Z) (clock : list Z)               (* timerscheduler.go 64-70 *)
| CreateAfter (now dur : Z) (clock : list Z)       (* timerscheduler.go 73-79, timer.go 72-75 *)
| CancelStart (id : Z) | CancelScan                (* timerscheduler.go 82-91 *)
| Poll (now : Z) | PollSend (i : nat).             (* timerscheduler.go 99-116 *)

Definition with_wheels (s : sched) (ows : option (list wheel)) : option sched :=
  match ows with
  | Some ws => Some (Sched ws (s_idgen s) (s_cancel s) (s_polled s) (s_sent s) (s_made s))
  | None => None
  end.

(* IDGen is a uint32; the scheduler's lock keeps creations out of a CancelTimer. *)
Definition create (s : sched) (due : Z) (clock : list Z) : option sched :=
  match s_cancel s with
  | Some _ => None
  | None =>
    let id := u32 (s_idgen s + 1) in
    let e := Entry id (Z.of_nat (length (s_made s))) due in
    match add_timer (s_wheels s) clock e with
    | Some ws => Some (Sched ws id None (s_polled s) (s_sent s) (s_made s ++ [e]))
    | None => None
    end
  end.

(* None: the label is not enabled. *)
Definition t_step1 (s : sched) (l : tlabel) : option sched :=
  match l with
  | TickStart k => with_wheels s (at_wheel k tick_start (s_wheels s))
  | TickMove k i clock => with_wheels s (at_wheel k (tick_move i clock) (s_wheels s))
  | TickNext k => with_wheels s (at_wheel k tick_next (s_wheels s))
  | TickEnd k => with_wheels s (at_wheel k tick_end (s_wheels s))
  | CreateAt ns clock => create s (Z.quot ns 1000000) clock
  | CreateAfter now dur clock => create s (Z.quot (s64 (now + dur)) 1000000) clock
  | CancelStart id =>
    match s_cancel s with
    | None => Some (Sched (s_wheels s) (s_idgen s) (Some (id, 0%nat)) (s_polled s) (s_sent s) (s_made s))
    | Some _ => None
    end
  | CancelScan =>
    match s_cancel s with
    | None => None
    | Some (id, k) =>
      if Nat.ltb k (length (s_wheels s)) then
        match at_wheel k (remove_timer id) (s_wheels s) with
        | Some ws => Some (Sched ws (s_idgen s) (Some (id, S k)) (s_polled s) (s_sent s) (s_made s))
        | None => None
        end
      else Some (Sched (s_wheels s) (s_idgen s) None (s_polled s) (s_sent s) (s_made s))
    end
  | Poll now =>
    match s_polled s with
    | [] => match poll_leaf (unix_milli now) (s_wheels s) with
            | Some (es, ws) => Some (Sched ws (s_idgen s) (s_cancel s) (map (fun e => (e, now)) es) (s_sent s) (s_made s))
            | None => None
            end
    | _ => None
    end
  | PollSend i =>
    match take i (s_polled s) with
    | Some (x, rest) => Some (Sched (s_wheels s) (s_idgen s) (s_cancel s) rest (s_sent s ++ [x]) (s_made s))
    | None => None
    end
  end.
Definition t_step (s : sched) (l : tlabel) : sched := match t_step1 s l with Some s' => s' | None => s end.
Definition t_run (s : sched) (ls : list tlabel) : sched := fold_left t_step ls s.

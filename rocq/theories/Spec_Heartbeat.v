(* Vocabulary of the heartbeat properties. *)
From Coq Require Import ZArith List Bool Sorted.
From Verif Require Import Bytes Heartbeat.
Import ListNotations.
Local Open Scope Z_scope.

(* The times at which activity was recorded. *)
Definition activity (l : hlabel) : list Z :=
  match l with
  | KStarted t | KPing t => [t]
  | KRead n t => if 0 <? n then [t] else []
  | _ => []
  end.
Definition activities (ls : list hlabel) : list Z := flat_map activity ls.

(* Clock readings do not go back. *)
Definition reading (l : hlabel) : list Z :=
  match l with KStarted t | KPing t | KRead _ t | KTick t => [t] | _ => [] end.
Definition clock_ok (ls : list hlabel) : Prop := Sorted.StronglySorted Z.le (flat_map reading ls).

(* The configured maximum in nanoseconds. *)
Definition nanoseconds (secs : Z) : Z := secs * 1000000000.
Definition is_dead_action (a : hact1) : bool := match a with ANotAlive _ => true | _ => false end.
Definition is_beat (a : hact1) : bool := match a with ANotAlive _ => false | _ => true end.
(* The checks made: ticks between the start and the quit of the checker. *)
Fixpoint checks (ticking : bool) (ls : list hlabel) : nat :=
  match ls with
  | [] => 0
  | KStart :: ls' => checks true ls'
  | KQuit :: ls' => checks false ls'
  | KTick _ :: ls' => (if ticking then 1 else 0) + checks ticking ls'
  | _ :: ls' => checks ticking ls'
  end%nat.
(* Every check comes less than the maximum after some activity. *)
Definition always_active (secs : Z) (ls : list hlabel) : Prop :=
  forall before now after, ls = before ++ KTick now :: after ->
    exists a, In a (activities before) /\ now - a < nanoseconds secs.
(* Whether the checker is running: started and not told to quit since. *)
Definition checking (ls : list hlabel) : bool :=
  fold_left (fun b l => match l with KStart => true | KQuit => false | _ => b end) ls false.
(* What one heartbeat is: the user's beat function or one message with the checker's ID. *)
Definition one_beat (h : checker) : hact1 :=
  match ck_beat h with Some f => ABeat f | None => ASent (ck_id h) (ck_make h) end.
(* The function an option chooses. *)
Definition chosen (o : option Z) : who := match o with Some f => User f | None => Default end.

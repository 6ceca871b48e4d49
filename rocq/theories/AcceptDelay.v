(* Model of znet/acceptdelay.go.  Durations are in nanoseconds (time.Duration);
   do (41-45) sleeps for the duration and changes nothing. *)
From Coq Require Import ZArith List.
Import ListNotations.
Local Open Scope Z_scope.

(* znet/acceptdelay.go 7-9 *)
Definition max_delay : Z := 1000000000.
(* znet/acceptdelay.go 30-39: Up *)
Definition delay_up (d : Z) : Z :=
  if d =? 0 then 5000000
  else let d2 := 2 * d in if d2 >? max_delay then max_delay else d2.
(* znet/acceptdelay.go 26-28: Reset *)
Definition delay_reset (d : Z) : Z := 0.

Inductive dop := DFail | DOk.         (* Delay (21-24): Up then sleep; Reset *)
(* The time slept by each operation. *)
Fixpoint delays (d : Z) (os : list dop) : list Z :=
  match os with
  | [] => []
  | DFail :: os' => delay_up d :: delays (delay_up d) os'
  | DOk :: os' => delay_reset d :: delays (delay_reset d) os'
  end.

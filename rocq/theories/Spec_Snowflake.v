(* Vocabulary of the ID generator properties. *)
From Coq Require Import ZArith List Bool.
From Verif Require Import Snowflake.
Import ListNotations.
Local Open Scope Z_scope.

Definition ids (rs : list id_result) : list Z := flat_map (fun r => match r with Got i => [i] | ClockBack => [] end) rs.
(* The time, in milliseconds, inside an ID. *)
Definition time_of (id : Z) : Z := id / 2 ^ 22.
(* Supported clock readings: 1970-01-01 to 2039-09-07, any order, any repetition. *)
Definition supported (clock : list Z) : Prop := forall ns, In ns clock -> 0 <= ns < 2 ^ 41 * 1000000.

(* Model of zutils/snowflake_uuid.go. *)
From Coq Require Import ZArith List Bool.
From Verif Require Import Bytes.
Import ListNotations.
Local Open Scope Z_scope.

(* snowflake_uuid.go 17-24: the constants. *)
Definition worker_bits : Z := 10.
Definition max_worker : Z := Z.lxor (-1) (Z.shiftl (-1) worker_bits).
Definition sequence_bits : Z := 12.
Definition sequence_mask : Z := Z.lxor (-1) (Z.shiftl (-1) sequence_bits).
Definition worker_shift : Z := sequence_bits.
Definition timestamp_shift : Z := sequence_bits + worker_bits.

(* snowflake_uuid.go 26-31: IDWorker; the mutex makes calls one after the other. *)
Record idworker := IdWorker { iw_seq : Z; iw_last : Z; iw_id : Z }.

(* snowflake_uuid.go 33-43: NewIDWorker; None is the error. *)
Definition new_idworker (id : Z) : option idworker :=
  if (id <? 0) || (max_worker <? id) then None else Some (IdWorker 0 (-1) id).

(* The clock is the list of readings time.Now().UnixNano() still to come. *)
Definition millis (ns : Z) : Z := Z.quot ns 1000000.

(* snowflake_uuid.go 69-74: nextMillisecond, entered with the current timestamp
   equal to the last one; None: still waiting when the readings end. *)
Fixpoint next_millisecond (last cur : Z) (clock : list Z) : option (Z * list Z) :=
  if cur <=? last then
    match clock with
    | [] => None
    | ns :: clock' => next_millisecond last (millis ns) clock'
    end
  else Some (cur, clock).

(* snowflake_uuid.go 66: the ID put together from its three parts (int64 shifts). *)
Definition id_bits (ts worker seq : Z) : Z :=
  Z.lor (Z.lor (s64 (Z.shiftl ts timestamp_shift)) (s64 (Z.shiftl worker worker_shift))) seq.

Inductive id_result := Got (id : Z) | ClockBack.

(* snowflake_uuid.go 45-67: NextID; None: no reading left, or still waiting. *)
Definition next_id (w : idworker) (clock : list Z) : option (idworker * id_result * list Z) :=
  match clock with
  | [] => None
  | ns :: clock1 =>
    let ts := millis ns in
    if ts <? iw_last w then Some (w, ClockBack, clock1)
    else
      let finish seq ts rest :=
        Some (IdWorker seq ts (iw_id w),
              Got (id_bits ts (iw_id w) seq), rest) in
      if ts =? iw_last w then
        let seq := Z.land (s64 (iw_seq w + 1)) sequence_mask in
        if seq =? 0 then
          match next_millisecond (iw_last w) ts clock1 with
          | None => None
          | Some (ts', rest) => finish seq ts' rest
          end
        else finish seq ts clock1
      else finish 0 ts clock1
  end.

(* A program: calls until the readings run out, at most n. *)
Fixpoint id_run (n : nat) (w : idworker) (clock : list Z) : list id_result :=
  match n with
  | O => []
  | S n' => match next_id w clock with
            | None => []
            | Some (w', r, clock') => r :: id_run n' w' clock'
            end
  end.

(* The generator and the readings left after those calls. *)
Fixpoint id_state (n : nat) (w : idworker) (clock : list Z) : idworker * list Z :=
  match n with
  | O => (w, clock)
  | S n' => match next_id w clock with None => (w, clock) | Some (w', _, clock') => id_state n' w' clock' end
  end.

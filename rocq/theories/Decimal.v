(* Go: strconv.FormatUint(n, 10) and strconv.ParseUint(s, 10, 64). *)
From Coq Require Import ZArith List Bool.
From Verif Require Import Bytes.
Import ListNotations.
Local Open Scope Z_scope.

Definition digit (d : Z) : byte := z2b (48 + d).
Fixpoint format_loop (fuel : nat) (n : Z) (acc : list byte) : list byte :=
  match fuel with
  | O => acc
  | S fuel' => if n <? 10 then digit n :: acc else format_loop fuel' (n / 10) (digit (n mod 10) :: acc)
  end.
(* A uint64 has at most 20 digits. *)
Definition format_uint (n : Z) : list byte := format_loop 20 n [].

(* The value and whether err is nil. *)
Fixpoint parse_loop (s : list byte) (acc : Z) : Z * bool :=
  match s with
  | [] => (acc, true)
  | b :: s' =>
    if (48 <=? b2z b) && (b2z b <=? 57) then
      let n := 10 * acc + (b2z b - 48) in
      if n <? 2^64 then parse_loop s' n else (2^64 - 1, false)
    else (0, false)
  end.
Definition parse_uint (s : list byte) : Z * bool :=
  match s with [] => (0, false) | _ => parse_loop s 0 end.

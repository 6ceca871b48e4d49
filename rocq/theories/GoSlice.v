(* Go slices over a heap of arrays: what append, copy and make do, with sharing
   of backing arrays.  Models the Go language, not zinx code. *)
From Coq Require Import List Arith Lia.
Import ListNotations.

Record slice := Slice { sl_arr : nat; sl_off : nat; sl_len : nat; sl_cap : nat }.
Definition nil_slice : slice := {| sl_arr := 0; sl_off := 0; sl_len := 0; sl_cap := 0 |}.

Section GoSlice.
  Context {A : Type}.
  Variable zero : A.                       (* Go's zero value *)
  Variable grow : nat -> nat -> nat.       (* spare cells append allocates *)

  Definition heap := list (list A).

  Definition sl_read (h : heap) (s : slice) : list A :=
    firstn (sl_len s) (skipn (sl_off s) (nth (sl_arr s) h [])).

  Definition write_at (l : list A) (i : nat) (xs : list A) : list A :=
    firstn i l ++ xs ++ skipn (i + length xs) l.

  Fixpoint set_nth {B} (n : nat) (x : B) (l : list B) : list B :=
    match l, n with
    | [], _ => []
    | _ :: l', O => x :: l'
    | y :: l', S n' => y :: set_nth n' x l'
    end.

  (* writing xs into the array of s from element i of s on *)
  Definition sl_write (h : heap) (s : slice) (i : nat) (xs : list A) : heap :=
    set_nth (sl_arr s) (write_at (nth (sl_arr s) h []) (sl_off s + i) xs) h.

  (* make([]T, len, len+extra) *)
  Definition sl_make (h : heap) (len extra : nat) : heap * slice :=
    (h ++ [repeat zero (len + extra)],
     {| sl_arr := length h; sl_off := 0; sl_len := len; sl_cap := len + extra |}).

  (* append(s, xs...) *)
  Definition sl_append (h : heap) (s : slice) (xs : list A) : heap * slice :=
    if sl_len s + length xs <=? sl_cap s then
      (sl_write h s (sl_len s) xs,
       {| sl_arr := sl_arr s; sl_off := sl_off s; sl_len := sl_len s + length xs; sl_cap := sl_cap s |})
    else
      let g := grow (sl_cap s) (sl_len s + length xs) in
      (h ++ [sl_read h s ++ xs ++ repeat zero g],
       {| sl_arr := length h; sl_off := 0; sl_len := sl_len s + length xs;
          sl_cap := sl_len s + length xs + g |}).

  (* s[i:] for i <= len(s) *)
  Definition sl_from (s : slice) (i : nat) : slice :=
    {| sl_arr := sl_arr s; sl_off := sl_off s + i; sl_len := sl_len s - i; sl_cap := sl_cap s - i |}.

  (* copy(dst, src) with the elements of src already read *)
  Definition sl_copy (h : heap) (dst : slice) (src : list A) : heap :=
    sl_write h dst 0 (firstn (sl_len dst) src).
End GoSlice.

(* Model of znet/callbacks.go: the linked list of close callbacks, with its heap
   nodes and pointers.  Handlers and keys are comparable values (Z); comparing
   uncomparable dynamic types would panic in Go and is not modelled. *)
From Coq Require Import ZArith List Bool Arith.
From Verif Require Import GoSlice.
Import ListNotations.

(* A callback function: which one, and whether it panics. *)
Record cbfun := Cbfun { cf_id : nat; cf_panics : bool }.

(* znet/callbacks.go 3-8: callbackCommon; pointers are heap positions. *)
Record cbnode := Cbnode { nd_handler : Z; nd_key : Z; nd_call : cbfun; nd_next : option nat }.
(* znet/callbacks.go 10-13 *)
Record callbacks := Callbacks { cb_heap : list cbnode; cb_first : option nat; cb_last : option nat }.
Definition cb_new : callbacks := {| cb_heap := []; cb_first := None; cb_last := None |}.

Inductive cbret :=
| CbUnit
| CbCalled (ids : list nat) (panicked : bool)    (* functions called, in order *)
| CbNum (n : nat)
| CbNilDeref                                     (* nil pointer dereference *)
| CbOutOfFuel.                                   (* the loop did not end in fuel steps *)

Definition set_next (h : list cbnode) (i : nat) (p : option nat) : list cbnode :=
  match nth_error h i with
  | Some n => set_nth i {| nd_handler := nd_handler n; nd_key := nd_key n; nd_call := nd_call n; nd_next := p |} h
  | None => h
  end.

(* znet/callbacks.go 15-26: Add *)
Definition cb_add (t : callbacks) (handler key : Z) (f : option cbfun) : callbacks * cbret :=
  match f with
  | None => (t, CbUnit)
  | Some f =>
    let new := length (cb_heap t) in
    let h := cb_heap t ++ [{| nd_handler := handler; nd_key := key; nd_call := f; nd_next := None |}] in
    match cb_first t with
    | None => ({| cb_heap := h; cb_first := Some new; cb_last := Some new |}, CbUnit)
    | Some _ =>
      match cb_last t with
      | None => (t, CbNilDeref)
      | Some l => ({| cb_heap := set_next h l (Some new); cb_first := cb_first t; cb_last := Some new |}, CbUnit)
      end
    end
  end.

Definition ptr_eqb (a b : option nat) : bool :=
  match a, b with Some x, Some y => Nat.eqb x y | None, None => true | _, _ => false end.

(* znet/callbacks.go 28-43: Remove; the loop *)
Fixpoint cb_remove_loop (fuel : nat) (t : callbacks) (handler key : Z) (prev cur : option nat) : callbacks * cbret :=
  match cur with
  | None => (t, CbUnit)
  | Some c =>
    match fuel with
    | O => (t, CbOutOfFuel)
    | S fuel' =>
      match nth_error (cb_heap t) c with
      | None => (t, CbNilDeref)
      | Some n =>
        if Z.eqb (nd_handler n) handler && Z.eqb (nd_key n) key then
          let t1 :=
            if ptr_eqb (cb_first t) cur
            then {| cb_heap := cb_heap t; cb_first := nd_next n; cb_last := cb_last t |}
            else match prev with
                 | Some p => {| cb_heap := set_next (cb_heap t) p (nd_next n); cb_first := cb_first t; cb_last := cb_last t |}
                 | None => t
                 end in
          (if ptr_eqb (cb_last t1) cur
           then {| cb_heap := cb_heap t1; cb_first := cb_first t1; cb_last := prev |}
           else t1, CbUnit)
        else cb_remove_loop fuel' t handler key cur (nd_next n)
      end
    end
  end.
Definition cb_remove (t : callbacks) (handler key : Z) : callbacks * cbret :=
  cb_remove_loop (length (cb_heap t)) t handler key None (cb_first t).

(* znet/callbacks.go 45-49: Invoke.  A panic leaves the loop (recovered in
   znet/connection.go 517-521). *)
Fixpoint cb_invoke_loop (fuel : nat) (h : list cbnode) (cur : option nat) (acc : list nat) : cbret :=
  match cur with
  | None => CbCalled acc false
  | Some c =>
    match fuel with
    | O => CbOutOfFuel
    | S fuel' =>
      match nth_error h c with
      | None => CbNilDeref
      | Some n =>
        if cf_panics (nd_call n) then CbCalled (acc ++ [cf_id (nd_call n)]) true
        else cb_invoke_loop fuel' h (nd_next n) (acc ++ [cf_id (nd_call n)])
      end
    end
  end.
Definition cb_invoke (t : callbacks) : cbret := cb_invoke_loop (length (cb_heap t)) (cb_heap t) (cb_first t) [].

(* znet/callbacks.go 51-57: Count *)
Fixpoint cb_count_loop (fuel : nat) (h : list cbnode) (cur : option nat) (n : nat) : cbret :=
  match cur with
  | None => CbNum n
  | Some c =>
    match fuel with
    | O => CbOutOfFuel
    | S fuel' => match nth_error h c with None => CbNilDeref | Some x => cb_count_loop fuel' h (nd_next x) (S n) end
    end
  end.
Definition cb_count (t : callbacks) : cbret := cb_count_loop (length (cb_heap t)) (cb_heap t) (cb_first t) 0.

Inductive cbop :=
| CbAdd (handler key : Z) (f : option cbfun)
| CbRemove (handler key : Z)
| CbInvoke
| CbCount.
Definition cb_step (t : callbacks) (o : cbop) : callbacks * cbret :=
  match o with
  | CbAdd h k f => cb_add t h k f
  | CbRemove h k => cb_remove t h k
  | CbInvoke => (t, cb_invoke t)
  | CbCount => (t, cb_count t)
  end.
Fixpoint cb_run (t : callbacks) (os : list cbop) : callbacks * list cbret :=
  match os with
  | [] => (t, [])
  | o :: os' => let '(t1, r) := cb_step t o in let '(t2, rs) := cb_run t1 os' in (t2, r :: rs)
  end.

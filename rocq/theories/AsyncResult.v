(* Model of zasync_op/async_op_result.go: AsyncOpResult used by any number of goroutines. *)
From Coq Require Import ZArith List Bool.
Import ListNotations.
Local Open Scope Z_scope.

(* A call made by one goroutine: SetReturnedObj(v) or OnComplete(f); None: a nil function. *)
Inductive call := SetCall (v : Z) | CbCall (f : option Z).

(* async_op_result.go 16-29: the fields (the connection is fixed and left out).  [r_queue]: function
   requests in the task queue of the connection's worker; [r_ran]: callbacks run so far, with the returned object they read. *)
Record aor := Aor { r_hasret : bool; r_hasfn : bool; r_called : bool; r_obj : option Z; r_fn : option Z; r_queue : list (option Z); r_ran : list (option Z * option Z) }.
(* 82-86: NewAsyncOpResult. *)
Definition new_aor : aor := Aor false false false None None [] [].

(* Where a call is: before its compare-and-swap (P0), before the store (P1), before OnComplete's
   load of hasReturnedObj (P2), in doComplete before the nil test, the
   compare-and-swap, the send (D0, D1, D2), returned (End). *)
Inductive pc := P0 | P1 | P2 | D0 | D1 | D2 | End.

(* One memory access of a call.  Accesses are taken to be sequentially consistent. *)
Definition call_step (c : call) (p : pc) (m : aor) : aor * pc :=
  match p with
  | P0 => match c with
          | SetCall _ => if r_hasret m then (m, End)                                     (* 38 *)
                         else (Aor true (r_hasfn m) (r_called m) (r_obj m) (r_fn m) (r_queue m) (r_ran m), P1)
          | CbCall _ => if r_hasfn m then (m, End)                                       (* 51 *)
                        else (Aor (r_hasret m) true (r_called m) (r_obj m) (r_fn m) (r_queue m) (r_ran m), P1)
          end
  | P1 => match c with
          | SetCall v => (Aor (r_hasret m) (r_hasfn m) (r_called m) (Some v) (r_fn m) (r_queue m) (r_ran m), D0)   (* 39 *)
          | CbCall f => (Aor (r_hasret m) (r_hasfn m) (r_called m) (r_obj m) f (r_queue m) (r_ran m), P2)          (* 52 *)
          end
  | P2 => (m, if r_hasret m then D0 else End)                                            (* 58 *)
  | D0 => (m, match r_fn m with None => End | Some _ => D1 end)                          (* 67-69 *)
  | D1 => if r_called m then (m, End)                                                    (* 72 *)
          else (Aor (r_hasret m) (r_hasfn m) true (r_obj m) (r_fn m) (r_queue m) (r_ran m), D2)
  | D2 => (Aor (r_hasret m) (r_hasfn m) (r_called m) (r_obj m) (r_fn m) (r_queue m ++ [r_fn m]) (r_ran m), End)    (* 76-77 *)
  | End => (m, End)
  end.

Record asys := Asys { a_mem : aor; a_calls : list (call * pc) }.
Definition a_new (calls : list call) : asys := Asys new_aor (map (fun c => (c, P0)) calls).

Fixpoint upd {A} (i : nat) (x : A) (l : list A) : list A :=
  match l, i with [], _ => [] | _ :: r, O => x :: r | y :: r, S i' => y :: upd i' x r end.

(* Go i: call number i does its next access.  Run: the worker takes the next function request and
   calls its function, which reads the returned object (GetReturnedObj, 32-34). *)
Inductive alabel := Go (i : nat) | Run.
Definition a_step (s : asys) (l : alabel) : asys :=
  match l with
  | Go i => match nth_error (a_calls s) i with
            | Some (c, p) => let '(m, p') := call_step c p (a_mem s) in Asys m (upd i (c, p') (a_calls s))
            | None => s
            end
  | Run => let m := a_mem s in
           match r_queue m with
           | f :: q => Asys (Aor (r_hasret m) (r_hasfn m) (r_called m) (r_obj m) (r_fn m) q (r_ran m ++ [(f, r_obj m)])) (a_calls s)
           | [] => s
           end
  end.
Definition a_run (s : asys) (ls : list alabel) : asys := fold_left a_step ls s.

(* Model of AddInterceptor and Execute called by several goroutines (znet/chainbuilder.go 39-63, called by
   znet/msghandler.go 291-295 and 346-350): neither takes a lock.  The slice ic.body is a pointer to an array, a length and a
   capacity, which are loaded and stored one by one.  The stores of "ic.body = append(ic.body, x)" come in the order
   in which the Go compiler makes them: capacity and pointer if the array had to grow, then the length, then the
   element.  The loads of Execute come in either order.
   Simplified: AddInterceptor loads the three words in one step, an element (an interface of two words) is stored in
   one step, and copying the elements in Execute is one step; head and tail are set before and do not change.
   Interceptors and messages are named by numbers. *)
From Coq Require Import List Bool Arith.
From Verif Require Import GoSlice.
Import ListNotations.

(* An array: None is a cell nothing was stored in, a nil interceptor. *)
Notation arr := (list (option nat)).
(* A goroutine in AddInterceptor. *)
Inductive apc :=
| AIdle
| AGot (x p n c : nat)       (* pointer, length, capacity loaded *)
| ACap (x p n c : nat)       (* grown: the new ones, to be stored *)
| APtr (x p n : nat)
| ALen (x p n : nat)
| AElem (x p n : nat).
(* A goroutine in Execute, before the chain starts. *)
Inductive rpc :=
| RIdle
| RBegun (m : nat)
| RChecked (m : nat)         (* 51: the length was not 0 *)
| RPtr (m p : nat)           (* 52: pointer loaded *)
| RLen (m n : nat)           (* 52: length loaded *)
| RBoth (m p n : nat).
Record kst := Kst { k_arrs : list arr; k_ptr : nat; k_len : nat; k_cap : nat; k_add : nat -> apc; k_exec : nat -> rpc }.

Inductive klabel :=
| LAdd (t x : nat)           (* goroutine t calls AddInterceptor(x) *)
| LAddGo (t : nat)           (* it goes on *)
| LExec (r m : nat)          (* goroutine r calls Execute(m) *)
| LExecGo (r : nat) (b : bool). (* it goes on; b: loads the pointer first *)
Inductive kev :=
| ECalled (t x : nat) | EReturned (t x : nat)
| EExec (r m : nat)
| ETook (r m : nat) (l : list (option nat)) (* the interceptors m will go through, in order *)
| EGarbage (r m : nat).                     (* elements beyond the end of an array were read *)

(* chainbuilder.go 22-26: make with length 0 *)
Definition k_new : kst := Kst [[]] 0 0 0 (fun _ => AIdle) (fun _ => RIdle).
Definition upd {A} (f : nat -> A) (t : nat) (v : A) : nat -> A := fun u => if Nat.eqb u t then v else f u.

Section Machine.
Variable grow : nat -> nat. (* the capacity append chooses, more than the old one *)
Variable head tail : option nat.

Definition opt_cell (o : option nat) : list (option nat) := match o with Some x => [Some x] | None => [] end.
Definition set_add (s : kst) (t : nat) (p : apc) : kst := Kst (k_arrs s) (k_ptr s) (k_len s) (k_cap s) (upd (k_add s) t p) (k_exec s).
Definition set_exec (s : kst) (r : nat) (p : rpc) : kst := Kst (k_arrs s) (k_ptr s) (k_len s) (k_cap s) (k_add s) (upd (k_exec s) r p).

(* chainbuilder.go 40 *)
Definition add_step (s : kst) (t : nat) : kst * list kev :=
  match k_add s t with
  | AIdle => (s, [])
  | AGot x p n c =>
    if n <? c then (set_add s t (ALen x p (S n)), [])
    else
      let a := firstn n (nth p (k_arrs s) []) ++ repeat None (grow c - n) in
      (Kst (k_arrs s ++ [a]) (k_ptr s) (k_len s) (k_cap s) (upd (k_add s) t (ACap x (length (k_arrs s)) (S n) (grow c))) (k_exec s), [])
  | ACap x p n c => (Kst (k_arrs s) (k_ptr s) (k_len s) c (upd (k_add s) t (APtr x p n)) (k_exec s), [])
  | APtr x p n => (Kst (k_arrs s) p (k_len s) (k_cap s) (upd (k_add s) t (ALen x p n)) (k_exec s), [])
  | ALen x p n => (Kst (k_arrs s) (k_ptr s) n (k_cap s) (upd (k_add s) t (AElem x p n)) (k_exec s), [])
  | AElem x p n =>
    (Kst (set_nth p (set_nth (n - 1) (Some x) (nth p (k_arrs s) [])) (k_arrs s)) (k_ptr s) (k_len s) (k_cap s) (upd (k_add s) t AIdle) (k_exec s), [EReturned t x])
  end.
(* chainbuilder.go 46-56 *)
Definition exec_step (s : kst) (r : nat) (b : bool) : kst * list kev :=
  match k_exec s r with
  | RIdle => (s, [])
  | RBegun m => if Nat.eqb (k_len s) 0 then (set_exec s r RIdle, [ETook r m (opt_cell head ++ opt_cell tail)]) else (set_exec s r (RChecked m), [])
  | RChecked m => (set_exec s r (if b then RPtr m (k_ptr s) else RLen m (k_len s)), [])
  | RPtr m p => (set_exec s r (RBoth m p (k_len s)), [])
  | RLen m n => (set_exec s r (RBoth m (k_ptr s) n), [])
  | RBoth m p n =>
    let a := nth p (k_arrs s) [] in
    if n <=? length a then (set_exec s r RIdle, [ETook r m (opt_cell head ++ firstn n a ++ opt_cell tail)])
    else (set_exec s r RIdle, [EGarbage r m])
  end.
Definition k_step (s : kst) (l : klabel) : kst * list kev :=
  match l with
  | LAdd t x => match k_add s t with AIdle => (set_add s t (AGot x (k_ptr s) (k_len s) (k_cap s)), [ECalled t x]) | _ => (s, []) end
  | LAddGo t => add_step s t
  | LExec r m => match k_exec s r with RIdle => (set_exec s r (RBegun m), [EExec r m]) | _ => (s, []) end
  | LExecGo r b => exec_step s r b
  end.
Fixpoint k_run (s : kst) (ls : list klabel) : kst * list kev :=
  match ls with
  | [] => (s, [])
  | l :: ls' => let '(s1, e1) := k_step s l in let '(s2, e2) := k_run s1 ls' in (s2, e1 ++ e2)
  end.
End Machine.

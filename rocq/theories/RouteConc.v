(* Model of route registration from several goroutines, while messages are being
   handled: znet/msghandler.go AddRouter, AddRouterSlices, Use and the lookups of
   doMsgHandler and doMsgHandlerSlices; znet/router.go 42-77.  The calls take no
   lock: GetHandlers (router.go 72-77) takes the read lock, and nothing takes the
   write lock. *)
From Coq Require Import ZArith List Bool Arith.
Import ListNotations.

(* The two tables: msghandler.go 26 and router.go 43. *)
Inductive kind := Classic | Slices.
Definition kind_eqb (a b : kind) : bool :=
  match a, b with Classic, Classic | Slices, Slices => true | _, _ => false end.

(* What is registered under an ID: one router, or handler functions; None is an
   entry of a fresh slice that nothing was copied to, a nil function. *)
Definition value := list (option Z).
Definition table := list (Z * value).
Fixpoint look (id : Z) (t : table) : option value :=
  match t with
  | [] => None
  | (i, v) :: t' => if Z.eqb i id then Some v else look id t'
  end.
Definition put (id : Z) (v : value) (t : table) : table := (id, v) :: t.

Inductive call := AddRouter (id h : Z) | AddSlices (id : Z) (hs : list Z) | Use (hs : list Z).

(* Where a goroutine is in its call. *)
Inductive pc :=
| Idle
| Begun (c : call)
| Inserting (id h : Z)                          (* msghandler.go 357 done *)
| Sizing (id : Z) (hs : list Z)                 (* router.go 61-63 done *)
| Copying (id : Z) (hs : list Z) (n : nat)      (* 65-66: finalSize *)
| Filling (id : Z) (hs : list Z) (m : value)    (* 67 *)
| Appending (id : Z) (hs : list Z) (m : value)  (* 68 *)
| Writing (c : call) (id : Z) (v : value)       (* inside the map assignment *)
| Storing (hs new : list Z).                    (* router.go 56, the append done *)

Inductive event :=
| Done (t : nat) (c : call)                      (* the call returned *)
| Panicked (t : nat) (c : call)                  (* the call panicked *)
| Found (k : kind) (id : Z) (v : option value).  (* a message looked for its handler *)

Record st := St {
  s_apis : table; s_slices : table; s_handlers : list Z;
  s_pcs : list pc; s_dead : bool; s_log : list event
}.
Definition init (n : nat) : st := St [] [] [] (repeat Idle n) false [].

Fixpoint set_at {A} (i : nat) (x : A) (l : list A) : list A :=
  match l, i with
  | [], _ => []
  | _ :: l', O => x :: l'
  | y :: l', S i' => y :: set_at i' x l'
  end.
Definition goto (s : st) (t : nat) (p : pc) : st :=
  St (s_apis s) (s_slices s) (s_handlers s) (set_at t p (s_pcs s)) (s_dead s) (s_log s).
Definition emit (s : st) (e : event) : st :=
  St (s_apis s) (s_slices s) (s_handlers s) (s_pcs s) (s_dead s) (s_log s ++ [e]).
Definition die (s : st) : st :=
  St (s_apis s) (s_slices s) (s_handlers s) (s_pcs s) true (s_log s).

Definition table_of (k : kind) (s : st) : table := match k with Classic => s_apis s | Slices => s_slices s end.
Definition kind_of (c : call) : kind := match c with AddRouter _ _ => Classic | _ => Slices end.

(* Go's map: a read or write that begins while a write is going on is a fatal error
   that ends the process and cannot be recovered.  A read that was begun before
   the write and is overtaken by it is taken to be over before the write. *)
Definition writes (k : kind) (p : pc) : bool :=
  match p with Writing c _ _ => kind_eqb (kind_of c) k | _ => false end.
Definition busy (k : kind) (s : st) : bool := existsb (writes k) (s_pcs s).
Definition touch (k : kind) (s : st) (f : st) : st := if busy k s then die s else f.

(* One step of goroutine t: msghandler.go 354-372, router.go 55-69.  Slices are by
   value: an append that writes into shared spare capacity is not modelled. *)
Definition step_of (s : st) (t : nat) : st :=
  match nth t (s_pcs s) Idle with
  | Idle => s
  | Begun (AddRouter id h) =>
    touch Classic s
      match look id (s_apis s) with
      | Some _ => emit (goto s t Idle) (Panicked t (AddRouter id h))
      | None => goto s t (Inserting id h)
      end
  | Inserting id h => touch Classic s (goto s t (Writing (AddRouter id h) id [Some h]))
  | Begun (AddSlices id hs) =>
    touch Slices s
      match look id (s_slices s) with
      | Some _ => emit (goto s t Idle) (Panicked t (AddSlices id hs))
      | None => goto s t (Sizing id hs)
      end
  | Sizing id hs => goto s t (Copying id hs (length (s_handlers s) + length hs))
  | Copying id hs n => goto s t (Filling id hs (firstn n (map Some (s_handlers s) ++ repeat None n)))
  | Filling id hs m =>
    let l := length (s_handlers s) in
    if length m <? l then emit (goto s t Idle) (Panicked t (AddSlices id hs))
    else goto s t (Appending id hs (firstn l m ++ firstn (length m - l) (map Some hs) ++ skipn (l + length hs) m))
  | Appending id hs m =>
    touch Slices s
      (goto s t (Writing (AddSlices id hs) id ((match look id (s_slices s) with Some v => v | None => [] end) ++ m)))
  | Writing c id v =>
    let s' := match kind_of c with
              | Classic => St (put id v (s_apis s)) (s_slices s) (s_handlers s) (s_pcs s) (s_dead s) (s_log s)
              | Slices => St (s_apis s) (put id v (s_slices s)) (s_handlers s) (s_pcs s) (s_dead s) (s_log s)
              end in
    emit (goto s' t Idle) (Done t c)
  | Begun (Use hs) => goto s t (Storing hs (s_handlers s ++ hs))
  | Storing hs new =>
    emit (goto (St (s_apis s) (s_slices s) new (s_pcs s) (s_dead s) (s_log s)) t Idle) (Done t (Use hs))
  end.

(* Call: goroutine t begins a call; Step: it goes on with it; Look: a worker looks
   up the handler of a message (msghandler.go 328, 390). *)
Inductive label := Call (t : nat) (c : call) | Step (t : nat) | Look (k : kind) (id : Z).
Definition step (s : st) (l : label) : st :=
  if s_dead s then s
  else match l with
       | Call t c => match nth t (s_pcs s) (Begun c) with Idle => goto s t (Begun c) | _ => s end
       | Step t => step_of s t
       | Look k id => touch k s (emit s (Found k id (look id (table_of k s))))
       end.
Definition run (s : st) (ls : list label) : st := fold_left step ls s.

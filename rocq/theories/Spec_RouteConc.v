(* Registration as the documentation has it: each call happens at once. *)
From Coq Require Import ZArith List Bool.
From Verif Require Import RouteConc.
Import ListNotations.

Record book := Book { b_apis : table; b_slices : table; b_used : list Z; b_log : list event }.
Definition empty_book : book := Book [] [] [] [].

(* AddRouter and AddRouterSlices refuse an ID that has something; the handler slices
   get the handlers given to Use so far in front; a lookup sees the calls before it. *)
Definition at_once (b : book) (l : label) : book :=
  match l with
  | Call t (AddRouter id h) =>
    match look id (b_apis b) with
    | Some _ => Book (b_apis b) (b_slices b) (b_used b) (b_log b ++ [Panicked t (AddRouter id h)])
    | None => Book ((id, [Some h]) :: b_apis b) (b_slices b) (b_used b) (b_log b ++ [Done t (AddRouter id h)])
    end
  | Call t (AddSlices id hs) =>
    match look id (b_slices b) with
    | Some _ => Book (b_apis b) (b_slices b) (b_used b) (b_log b ++ [Panicked t (AddSlices id hs)])
    | None => Book (b_apis b) ((id, map Some (b_used b ++ hs)) :: b_slices b) (b_used b)
                   (b_log b ++ [Done t (AddSlices id hs)])
    end
  | Call t (Use hs) => Book (b_apis b) (b_slices b) (b_used b ++ hs) (b_log b ++ [Done t (Use hs)])
  | Look Classic id => Book (b_apis b) (b_slices b) (b_used b) (b_log b ++ [Found Classic id (look id (b_apis b))])
  | Look Slices id => Book (b_apis b) (b_slices b) (b_used b) (b_log b ++ [Found Slices id (look id (b_slices b))])
  | Step _ => b
  end.

(* No goroutine is in a call. *)
Definition quiet (s : st) : Prop := Forall (fun p => p = Idle) (s_pcs s).
(* The calls do not overlap, and no message is looked up during one. *)
Fixpoint one_at_a_time (s : st) (ls : list label) : Prop :=
  match ls with
  | [] => True
  | l :: ls' =>
    match l with
    | Call t _ => (t < length (s_pcs s))%nat /\ quiet s
    | Look _ _ => quiet s
    | Step _ => True
    end /\ one_at_a_time (step s l) ls'
  end.

(* Call c registers something for id in table k. *)
Definition registers (c : call) (k : kind) (id : Z) : Prop :=
  match c with
  | AddRouter i _ => k = Classic /\ i = id
  | AddSlices i _ => k = Slices /\ i = id
  | Use _ => False
  end.
(* Handler h was given to a call of the run, for this ID or for all of them. *)
Definition given (ls : list label) (k : kind) (id h : Z) : Prop :=
  match k with
  | Classic => exists t, In (Call t (AddRouter id h)) ls
  | Slices => exists t hs, In h hs /\ (In (Call t (AddSlices id hs)) ls \/ In (Call t (Use hs)) ls)
  end.

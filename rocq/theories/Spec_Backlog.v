(* Vocabulary for the bounded queues. *)
From Coq Require Import ZArith List Bool Arith.
From Verif Require Import Backlog.
Import ListNotations.

(* Every connection has a worker of the pool (C27). *)
Definition pool_ok (cf : bcfg) : Prop := forall c, b_worker cf c < b_tasks cf.

(* Requests reader s has begun to send; those of giver g worker i has begun to handle; all
   that queue i has accepted, that worker i has begun, ended. *)
Definition offered (s : nat) (tr : list bev) : list req :=
  flat_map (fun e => match e with BvOffer n _ r => if Nat.eqb n s then [r] else [] | _ => [] end) tr.
Definition accepted (i : nat) (tr : list bev) : list (giver * req) :=
  flat_map (fun e => match e with BvPut g k r => if Nat.eqb k i then [(g, r)] else [] | _ => [] end) tr.
Definition begun (i : nat) (tr : list bev) : list (giver * req) :=
  flat_map (fun e => match e with BvBegin g k r => if Nat.eqb k i then [(g, r)] else [] | _ => [] end) tr.
Definition ended (i : nat) (tr : list bev) : list (giver * req) :=
  flat_map (fun e => match e with BvEnd g k r => if Nat.eqb k i then [(g, r)] else [] | _ => [] end) tr.
Definition of_reader (s : nat) (l : list (giver * req)) : list req :=
  flat_map (fun x => match fst x with Reader n => if Nat.eqb n s then [snd x] else [] | _ => [] end) l.
(* Sends of worker i's handlers that were accepted, in order: where to, and what. *)
Definition put_by (i : nat) (tr : list bev) : list (nat * req) :=
  flat_map (fun e => match e with BvPut (Worker k) q r => if Nat.eqb k i then [(q, r)] else [] | _ => [] end) tr.
(* The sends the handling of r makes. *)
Definition asked (cf : bcfg) (x : giver * req) : list (nat * req) := map (fun y => (index cf (fst y), snd y)) (sends_of (snd x)).
Definition running (w : bwork) : list (giver * req) := match bw_run w with Some (g, r, _) => [(g, r)] | None => [] end.

(* Reader s sends only to queue i. *)
Definition reads_for (cf : bcfg) (s i : nat) (ls : list blabel) : Prop :=
  forall t r, In (BOffer s t r) ls -> index cf t = i.

(* Steps of goroutines that have been given something to do: all but new requests. *)
Definition internal (l : blabel) : Prop := match l with BOffer _ _ _ => False | _ => True end.
(* Every step of the schedule is taken. *)
Fixpoint all_taken (cf : bcfg) (s : bst) (ls : list blabel) : Prop :=
  match ls with [] => True | l :: rest => exists s1 e, b_step cf s l = Some (s1, e) /\ all_taken cf s1 rest end.

(* Worker i has nothing to do; nobody outside the workers is sending to it. *)
Definition at_rest (cf : bcfg) (s : bst) (i : nat) : Prop :=
  (forall w, nth_error (bs_work s) i = Some w -> w = idle) /\
  (forall n t r, nth_error (bs_read s) n = Some (Some (t, r)) -> index cf t <> i).

(* Handlers run by workers of rank up to k send only to queues of lower rank; the requests
   any handler sends obey the same rule where they arrive. *)
Fixpoint downwards (cf : bcfg) (rank : nat -> nat) (k i : nat) (r : req) : Prop :=
  match r with
  | Req _ l => (fix all l := match l with
                | [] => True
                | (t, x) :: l' => (rank i <= k -> rank (index cf t) < rank i) /\ downwards cf rank k (index cf t) x /\ all l'
                end) l
  end.
Definition offers_ok (cf : bcfg) (rank : nat -> nat) (k : nat) (ls : list blabel) : Prop :=
  forall s t r, In (BOffer s t r) ls -> downwards cf rank k (index cf t) r.
(* No step of the workers of rank up to k, nor of a reader sending to one, can be taken. *)
Definition no_move (cf : bcfg) (rank : nat -> nat) (k : nat) (s : bst) : Prop :=
  (forall i d, rank i <= k -> b_step cf s (BTake i) = None /\ b_step cf s (BPut i d) = None /\ b_step cf s (BEnd i) = None) /\
  (forall n t r d, nth_error (bs_read s) n = Some (Some (t, r)) -> rank (index cf t) <= k -> b_step cf s (BSend n d) = None).
(* No goroutine can ever move again on its own. *)
Definition deadlocked (cf : bcfg) (s : bst) : Prop := forall l, internal l -> b_step cf s l = None.

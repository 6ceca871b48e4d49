(* Vocabulary of the async worker property. *)
From Coq Require Import ZArith List Bool.
From Verif Require Import AsyncWorker.
Import ListNotations.
Local Open Scope Z_scope.

(* The operations with worker index i in a record of events. *)
Definition at_index (i : Z) (l : list (Z * task)) : list task := map snd (filter (fun x => fst x =? i) l).
(* The operations now running on behalf of index i. *)
Definition running (i : Z) (s : wsys) : list task :=
  flat_map (fun k => if k_idx k =? i then match k_running k with Some t => [t] | None => [] end else []) (y_heap s).
Definition waiting (i : Z) (s : wsys) : list task := flat_map (fun k => if k_idx k =? i then k_queue k else []) (y_heap s).
(* The operations of a program, nil functions left out, as goroutine g submits them. *)
Definition tasks_of (g : nat) (prog : list (Z * option Z)) : list task :=
  flat_map (fun x => match snd x with Some op => [Task g (fst x) op] | None => [] end) prog.
Definition from (g : nat) (l : list (Z * task)) : list task := filter (fun t => Nat.eqb (t_from t) g) (map snd l).
Definition with_id (id : Z) (l : list task) : list task := filter (fun t => t_id t =? id) l.

(* The registry after a sequence of operations: per ID, the connection last
   added, unless a connection of that ID was removed since. *)
From Coq Require Import ZArith List Bool.
From Verif Require Import Bytes ShardMap Decimal ConnManager.
Import ListNotations.

Definition reg_step (id : Z) (r : option conn) (o : cmop) : option conn :=
  match o with
  | CmAdd c => if Z.eqb (cn_id c) id then Some c else r
  | CmRemove c => if Z.eqb (cn_id c) id then None else r
  | _ => r
  end.
Definition registered (os : list cmop) (id : Z) : option conn := fold_left (reg_step id) os None.

Definition uint64 (z : Z) : Prop := (0 <= z < 2^64)%Z.
Definition cmop_ok (o : cmop) : Prop :=
  match o with CmAdd c | CmRemove c => uint64 (cn_id c) | CmGet id => uint64 id | _ => True end.

(* l lists the registered IDs, each once. *)
Definition lists_ids (os : list cmop) (l : list Z) : Prop :=
  NoDup l /\ forall id, In id l <-> uint64 id /\ registered os id <> None.
(* l lists the registered connections, each once. *)
Definition lists_conns (os : list cmop) (l : list conn) : Prop :=
  NoDup l /\ forall c, In c l <-> uint64 (cn_id c) /\ registered os (cn_id c) = Some c.

(* What a call after operations os may answer. *)
Definition answer_ok (os : list cmop) (o : cmop) (r : cmret) : Prop :=
  match o, r with
  | CmAdd _, CrUnit | CmRemove _, CrUnit => True
  | CmGet id, CrConn c => c = registered os id
  | CmGet2 s, CrConn c =>
    (forall id, uint64 id -> s = format_uint id -> c = registered os id) /\
    ((forall id, uint64 id -> s <> format_uint id) -> c = None)
  | CmLen, CrNat n => exists l, lists_ids os l /\ n = length l
  | CmClear, CrStopped l => lists_conns os l
  | CmAllIDs, CrIDs l => lists_ids os l
  | CmAllIdStr, CrStrs l => exists ids, lists_ids os ids /\ l = map format_uint ids
  | CmRange _, CrRange calls _ =>
    lists_conns os (map snd calls) /\ forall id c, In (id, c) calls -> id = cn_id c
  | CmRange2 _, CrRange2 calls _ =>
    lists_conns os (map snd calls) /\ forall s c, In (s, c) calls -> s = format_uint (cn_id c)
  | _, _ => False
  end.

(* A callback reported an error during the calls made. *)
Fixpoint some_failed {K} (cb : nat -> K -> conn -> bool) (n : nat) (calls : list (K * conn)) : bool :=
  match calls with [] => false | (k, c) :: l => cb n k c || some_failed cb (S n) l end.
(* The last call made reported an error. *)
Fixpoint last_failed {K} (cb : nat -> K -> conn -> bool) (n : nat) (calls : list (K * conn)) : bool :=
  match calls with
  | [] => false
  | [(k, c)] => cb n k c
  | _ :: l => last_failed cb (S n) l
  end.

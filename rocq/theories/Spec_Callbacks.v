(* The callback registry as a plain list. *)
From Coq Require Import ZArith List Bool.
From Verif Require Import Callbacks.
Import ListNotations.

Definition entry : Type := (Z * Z) * cbfun.
Definition is_for (h k : Z) (e : entry) : bool := Z.eqb (fst (fst e)) h && Z.eqb (snd (fst e)) k.

(* Without the first entry satisfying p. *)
Fixpoint drop_first (p : entry -> bool) (l : list entry) : list entry :=
  match l with [] => [] | e :: l' => if p e then l' else e :: drop_first p l' end.

(* Functions called: all of them in order, up to one that panics. *)
Fixpoint called (l : list entry) : list nat * bool :=
  match l with
  | [] => ([], false)
  | e :: l' =>
    if cf_panics (snd e) then ([cf_id (snd e)], true)
    else let '(ids, p) := called l' in (cf_id (snd e) :: ids, p)
  end.

Definition list_step (l : list entry) (o : cbop) : list entry * cbret :=
  match o with
  | CbAdd h k (Some f) => (l ++ [((h, k), f)], CbUnit)
  | CbAdd h k None => (l, CbUnit)
  | CbRemove h k => (drop_first (is_for h k) l, CbUnit)
  | CbInvoke => (l, CbCalled (fst (called l)) (snd (called l)))
  | CbCount => (l, CbNum (length l))
  end.
Fixpoint list_run (l : list entry) (os : list cbop) : list entry * list cbret :=
  match os with
  | [] => (l, [])
  | o :: os' => let '(l1, r) := list_step l o in let '(l2, rs) := list_run l1 os' in (l2, r :: rs)
  end.

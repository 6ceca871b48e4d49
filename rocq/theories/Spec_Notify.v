(* The notifier as a plain map from IDs to connections: what each call must answer and
   send. *)
From Coq Require Import ZArith List Bool.
From Verif Require Import Bytes Notify.
Import ListNotations.
Local Open Scope Z_scope.

Definition reg := Z -> option Z.
Definition reg_set (a : reg) (id : Z) (c : option Z) : reg := fun x => if x =? id then c else a x.
(* l lists the registered IDs with their connections, each once. *)
Definition lists_reg (a : reg) (l : list (Z * Z)) : Prop :=
  NoDup (map fst l) /\ forall id c, In (id, c) l <-> (0 <= id < 2 ^ 64 /\ a id = Some c).

Inductive s_call : reg -> nop -> nret -> list send -> reg -> Prop :=
| SSet a id c : s_call a (NSet id (Some c)) NUnit [] (reg_set a id (Some c))
| SDel a id : s_call a (NDel id) NUnit [] (reg_set a id None)
| SHas a id b : (b = true <-> a id <> None) -> s_call a (NHas id) (NBool b) [] a
| SNums a l : lists_reg a l -> s_call a NNums (NNat (length l)) [] a
| SGet a id : s_call a (NGet id) (NConn (a id)) [] a
| SToMissing a buff id msg data ok : a id = None -> s_call a (NTo buff id msg data ok) (NErr true) [] a
| STo a buff id msg data ok c : a id = Some c -> s_call a (NTo buff id msg data ok) (NErr (negb ok)) [Send c buff msg data ok] a
| SAll a buff msg data oks l e ev : lists_reg a l ->
  map (fun s => (se_conn s, se_buff s, se_msg s, se_data s)) ev = map (fun x => (snd x, buff, msg, data)) l ->
  s_call a (NAll buff msg data oks) (NErr e) ev a.

Inductive s_calls : reg -> list (nop * nret * list send) -> reg -> Prop :=
| SNil a : s_calls a [] a
| SCons a o r ev a1 h a2 : s_call a o r ev a1 -> s_calls a1 h a2 -> s_calls a ((o, r, ev) :: h) a2.

(* IDs are uint64, and nobody registers a nil connection. *)
Definition nop_ok (o : nop) : Prop :=
  match o with
  | NSet id c => 0 <= id < 2 ^ 64 /\ c <> None
  | NDel id | NHas id | NGet id | NTo _ id _ _ _ => 0 <= id < 2 ^ 64
  | NNums | NAll _ _ _ _ => True
  end.

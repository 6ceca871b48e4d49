(* Model of znotify/notify.go, calls one at a time (calls on the map from several
   goroutines: ShardConc.v).  A connection is a number, the nil interface is None.
   Whether a send fails is decided by the connection, that is by the environment: every
   call that sends carries the answers it will get, in order. *)
From Coq Require Import ZArith List Bool Permutation.
From Verif Require Import Bytes ShardMap Decimal.
Import ListNotations.
Local Open Scope Z_scope.

(* One call of SendMsg (buffered = false) or SendBuffMsg (true) on a connection, and
   whether it succeeded. *)
Record send := Send { se_conn : Z; se_buff : bool; se_msg : Z; se_data : list byte; se_ok : bool }.

Inductive nop :=
| NSet (id : Z) (c : option Z) | NDel (id : Z) | NHas (id : Z) | NGet (id : Z) | NNums
| NTo (buff : bool) (id msg : Z) (data : list byte) (ok : bool)
| NAll (buff : bool) (msg : Z) (data : list byte) (oks : list bool).
Inductive nret :=
| NUnit | NBool (b : bool) | NNat (n : nat) | NConn (c : option Z)  (* None: "Not Find UserId" *)
| NErr (failed : bool) | NPanic.

(* notify.go 30-33 *)
Definition gen_id (id : Z) : key := format_uint id.

(* notify.go 77-83, 103-109: the callback of NotifyAll and NotifyBuffAll on the entries in
   the order of IterCb; false: a nil connection was called. *)
Fixpoint send_all (buff : bool) (msg : Z) (data : list byte) (ord : list (key * option Z)) (oks : list bool) : list send * bool :=
  match ord with
  | [] => ([], true)
  | (_, None) :: _ => ([], false)
  | (_, Some c) :: ord' =>
    let (ev, b) := send_all buff msg data ord' (tl oks) in
    (Send c buff msg data (hd true oks) :: ev, b)
  end.

(* One call: the answer, what was sent, the state after. *)
Inductive n_call : smap (option Z) -> nop -> nret -> list send -> smap (option Z) -> Prop :=
| CSet m id c : n_call m (NSet id c) NUnit [] (sm_set m (gen_id id) c)                                     (* 44-47 *)
| CDel m id : n_call m (NDel id) NUnit [] (sm_remove m (gen_id id))                                        (* 59-62 *)
| CHas m id : n_call m (NHas id) (NBool (sm_has m (gen_id id))) [] m                                       (* 39-42 *)
| CNums m : n_call m NNums (NNat (sm_count m)) [] m                                                        (* 35-37 *)
| CGet m id :                                                                                              (* 49-57 *)
  n_call m (NGet id)
    match sm_get m (gen_id id) with None => NConn None | Some (Some c) => NConn (Some c) | Some None => NPanic end [] m
| CTo m buff id msg data ok :                                                                              (* 64-75, 88-99 *)
  n_call m (NTo buff id msg data ok)
    match sm_get m (gen_id id) with None => NErr true | Some (Some _) => NErr (negb ok) | Some None => NPanic end
    match sm_get m (gen_id id) with Some (Some c) => [Send c buff msg data ok] | _ => [] end m
| CAll m buff msg data oks ord : Permutation ord (sm_entries m) ->                                         (* 77-86, 101-113 *)
  n_call m (NAll buff msg data oks)
    (if snd (send_all buff msg data ord oks) then NErr false else NPanic) (fst (send_all buff msg data ord oks)) m.

Inductive n_calls : smap (option Z) -> list (nop * nret * list send) -> smap (option Z) -> Prop :=
| CNil m : n_calls m [] m
| CCons m o r ev m1 h m2 : n_call m o r ev m1 -> n_calls m1 h m2 -> n_calls m ((o, r, ev) :: h) m2.

(* notify.go 24-28 *)
Definition new_notify : smap (option Z) := sm_new fnv32.

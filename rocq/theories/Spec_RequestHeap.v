(* What requests should be: independent values, no objects, no pool. *)
From Coq Require Import ZArith List Bool.
From Verif Require Import Bytes Pack Request RequestHeap GoSlice.
Import ListNotations.
Local Open Scope Z_scope.

Record vreq := Vreq {
  v_msg : message;
  v_keys : Z -> option Z;
  v_resp : option Z;
  v_live : bool
}.

(* A key with a new value; all other keys as before. *)
Definition assign (key v : Z) (f : Z -> option Z) : Z -> option Z :=
  fun k => if k =? key then Some v else f k.

Definition vupd (l : list vreq) (h : nat) (f : vreq -> vreq) : list vreq :=
  match nth_error l h with
  | Some v => if v_live v then set_nth h (f v) l else l
  | None => l
  end.

Definition vstep (l : list vreq) (o : qop) : list vreq * qout :=
  let obs (h : nat) (f : vreq -> qout) :=
    match nth_error l h with Some v => if v_live v then f v else QNothing | None => QNothing end in
  match o with
  | QNew _ _ m => (l ++ [{| v_msg := m; v_keys := fun _ => None; v_resp := None; v_live := true |}], QNothing)
  | QPut h => (vupd l h (fun v => {| v_msg := v_msg v; v_keys := v_keys v; v_resp := v_resp v; v_live := false |}), QNothing)
  | QSet h key x => (vupd l h (fun v => {| v_msg := v_msg v; v_keys := assign key x (v_keys v); v_resp := v_resp v; v_live := v_live v |}), QNothing)
  | QGet h key => (l, obs h (fun v => QValue (v_keys v key)))
  | QSetResp h x => (vupd l h (fun v => {| v_msg := v_msg v; v_keys := v_keys v; v_resp := Some x; v_live := v_live v |}), QNothing)
  | QGetResp h => (l, obs h (fun v => QResponse (v_resp v)))
  | QControl _ _ _ _ => (l, QNothing)
  | QCopy h =>
    match nth_error l h with
    | Some v => if v_live v then (l ++ [v], QNothing) else (l, QNothing)
    | None => (l, QNothing)
    end
  end.

Fixpoint vrun (l : list vreq) (os : list qop) : list vreq * list qout :=
  match os with
  | [] => (l, [])
  | o :: os' =>
    let '(l1, x) := vstep l o in
    let '(l2, xs) := vrun l1 os' in (l2, x :: xs)
  end.

(* Observations of context keys only. *)
Definition key_observations (xs : list qout) : list (option Z) :=
  flat_map (fun x => match x with QValue v => [v] | _ => [] end) xs.
(* Observations of the response object only. *)
Definition response_observations (xs : list qout) : list (option Z) :=
  flat_map (fun x => match x with QResponse v => [v] | _ => [] end) xs.
Definition no_copies (os : list qop) : Prop := forall h, ~ In (QCopy h) os.

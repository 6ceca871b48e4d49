(* Model of znet/request.go: request objects, their key maps, the object pool
   and copies, with object identity. *)
From Coq Require Import ZArith List Bool.
From Verif Require Import Bytes Pack Request GoSlice.
Import ListNotations.
Local Open Scope Z_scope.

(* znet/request.go 29-41: Request.  The message is a value: the decoders finish
   with it before user code runs.  The router and handler fields are left out:
   doMsgHandler and doMsgHandlerSlices bind them before they are used
   (znet/msghandler.go 337, 397). *)
Record robj := Robj {
  o_conn : option Z;
  o_msg : message;
  o_steps : Z;
  o_need : bool;
  o_index : Z;
  o_resp : option Z;
  o_keys : option nat            (* reference to a map, or nil *)
}.

(* Objects and maps are named by their position; nothing is ever freed. *)
Record world := World {
  w_objs : list robj;
  w_maps : list (list (Z * Z));
  w_pool : list nat              (* RequestPool *)
}.
Definition empty_world : world := {| w_objs := []; w_maps := []; w_pool := [] |}.

Definition set_obj (w : world) (r : nat) (o : robj) : world :=
  {| w_objs := set_nth r o (w_objs w); w_maps := w_maps w; w_pool := w_pool w |}.
Definition add_obj (w : world) (o : robj) : world * nat :=
  ({| w_objs := w_objs w ++ [o]; w_maps := w_maps w; w_pool := w_pool w |}, length (w_objs w)).

Definition with_keys (o : robj) (k : option nat) : robj :=
  {| o_conn := o_conn o; o_msg := o_msg o; o_steps := o_steps o; o_need := o_need o;
     o_index := o_index o; o_resp := o_resp o; o_keys := k |}.
Definition with_resp (o : robj) (v : option Z) : robj :=
  {| o_conn := o_conn o; o_msg := o_msg o; o_steps := o_steps o; o_need := o_need o;
     o_index := o_index o; o_resp := v; o_keys := o_keys o |}.
Definition with_control (o : robj) (steps : Z) (need : bool) (index : Z) : robj :=
  {| o_conn := o_conn o; o_msg := o_msg o; o_steps := steps; o_need := need;
     o_index := index; o_resp := o_resp o; o_keys := o_keys o |}.

(* znet/request.go 51-60: NewRequest. *)
Definition new_request (conn : Z) (m : message) : robj :=
  {| o_conn := Some conn; o_msg := m; o_steps := 0; o_need := true; o_index := -1;
     o_resp := None; o_keys := None |}.

(* znet/request.go 90-98: Reset. *)
Definition reset (o : robj) (conn : Z) (m : message) : robj :=
  {| o_conn := Some conn; o_msg := m; o_steps := 0; o_need := true; o_index := -1;
     o_resp := o_resp o; o_keys := None |}.

(* Go: sync.Pool.Get hands out any pooled object, or New() (82-88); [pick]
   says which.  Objects the pool drops are simply never picked. *)
Definition remove_nth {B} (n : nat) (l : list B) : list B := firstn n l ++ skipn (S n) l.

(* znet/request.go 62-73: GetRequest; [pooled] is GlobalObject.RequestPoolMode. *)
Definition get_request (pooled : bool) (pick : option nat) (w : world) (conn : Z) (m : message)
  : world * nat :=
  if pooled then
    match pick with
    | Some i =>
      match nth_error (w_pool w) i with
      | Some r =>
        match nth_error (w_objs w) r with
        | Some o =>
          ({| w_objs := set_nth r (reset o conn m) (w_objs w); w_maps := w_maps w;
              w_pool := remove_nth i (w_pool w) |}, r)
        | None => add_obj w (new_request conn m)
        end
      | None => add_obj w (new_request conn m)
      end
    | None => add_obj w (new_request conn m)     (* allocateRequest, then Reset *)
    end
  else add_obj w (new_request conn m).

(* znet/request.go 75-80: PutRequest. *)
Definition put_request (pooled : bool) (w : world) (r : nat) : world :=
  if pooled then {| w_objs := w_objs w; w_maps := w_maps w; w_pool := r :: w_pool w |} else w.

(* znet/request.go 136-144: Set. *)
Definition req_set (w : world) (r : nat) (key v : Z) : world :=
  match nth_error (w_objs w) r with
  | None => w
  | Some o =>
    match o_keys o with
    | Some a =>
      {| w_objs := w_objs w;
         w_maps := set_nth a (kv_put key v (nth a (w_maps w) [])) (w_maps w); w_pool := w_pool w |}
    | None =>
      {| w_objs := set_nth r (with_keys o (Some (length (w_maps w)))) (w_objs w);
         w_maps := w_maps w ++ [kv_put key v []]; w_pool := w_pool w |}
    end
  end.

(* znet/request.go 147-152: Get. *)
Definition obj_keys (w : world) (o : robj) : list (Z * Z) :=
  match o_keys o with Some a => nth a (w_maps w) [] | None => [] end.
Definition req_get (w : world) (r : nat) (key : Z) : option Z :=
  match nth_error (w_objs w) r with
  | None => None
  | Some o => kv_get key (obj_keys w o)
  end.

(* znet/request.go 43-49: SetResponse, GetResponse. *)
Definition req_set_resp (w : world) (r : nat) (v : Z) : world :=
  match nth_error (w_objs w) r with None => w | Some o => set_obj w r (with_resp o (Some v)) end.
Definition req_get_resp (w : world) (r : nat) : option Z :=
  match nth_error (w_objs w) r with None => None | Some o => o_resp o end.

(* znet/request.go 121-126: the "copy" of icResp: copy into a slice of length 0
   copies nothing, so the range loop body never runs. *)
Definition copy_resp (orig : option Z) : option Z :=
  fold_left (fun _ v => v) (firstn 0 [orig]) None.

(* znet/request.go 103-133: Copy. *)
Definition req_copy (w : world) (r : nat) : world * nat :=
  match nth_error (w_objs w) r with
  | None => (w, r)
  | Some o =>
    let w1 := {| w_objs := w_objs w; w_maps := w_maps w ++ [obj_keys w o]; w_pool := w_pool w |} in
    add_obj w1
      {| o_conn := None;
         o_msg := new_message_by_id (m_id (o_msg o)) (m_len (o_msg o)) (m_raw (o_msg o));
         o_steps := o_steps o; o_need := false; o_index := 127;
         o_resp := copy_resp (o_resp o);
         o_keys := Some (length (w_maps w)) |}
  end.

(* What user code and the framework do with requests.  A handle is the variable
   that holds the request; PutRequest ends its life (znet/msghandler.go 343, 400
   call it once, after the last handler). *)
Inductive qop :=
| QNew (pick : option nat) (conn : Z) (m : message)   (* GetRequest *)
| QPut (h : nat)                                      (* PutRequest *)
| QSet (h : nat) (key v : Z)
| QGet (h : nat) (key : Z)
| QSetResp (h : nat) (v : Z)
| QGetResp (h : nat)
| QControl (h : nat) (steps : Z) (need : bool) (index : Z)  (* effect of running handlers *)
| QCopy (h : nat).

Record qstate := Qst { q_world : world; q_handles : list (nat * bool) }.
Definition qinit : qstate := {| q_world := empty_world; q_handles := [] |}.

Inductive qout := QNothing | QValue (v : option Z) | QResponse (v : option Z).

Definition live (s : qstate) (h : nat) : option nat :=
  match nth_error (q_handles s) h with Some (r, true) => Some r | _ => None end.

Definition qstep (pooled : bool) (s : qstate) (o : qop) : qstate * qout :=
  let w := q_world s in
  let keep w' := {| q_world := w'; q_handles := q_handles s |} in
  match o with
  | QNew pick conn m =>
    let '(w', r) := get_request pooled pick w conn m in
    ({| q_world := w'; q_handles := q_handles s ++ [(r, true)] |}, QNothing)
  | QPut h =>
    match live s h with
    | Some r => ({| q_world := put_request pooled w r; q_handles := set_nth h (r, false) (q_handles s) |}, QNothing)
    | None => (s, QNothing)
    end
  | QSet h key v =>
    match live s h with Some r => (keep (req_set w r key v), QNothing) | None => (s, QNothing) end
  | QGet h key =>
    match live s h with Some r => (s, QValue (req_get w r key)) | None => (s, QNothing) end
  | QSetResp h v =>
    match live s h with Some r => (keep (req_set_resp w r v), QNothing) | None => (s, QNothing) end
  | QGetResp h =>
    match live s h with Some r => (s, QResponse (req_get_resp w r)) | None => (s, QNothing) end
  | QControl h a b c =>
    match live s h with
    | Some r =>
      match nth_error (w_objs w) r with
      | Some o => (keep (set_obj w r (with_control o a b c)), QNothing)
      | None => (s, QNothing)
      end
    | None => (s, QNothing)
    end
  | QCopy h =>
    match live s h with
    | Some r =>
      let '(w', r') := req_copy w r in
      ({| q_world := w'; q_handles := q_handles s ++ [(r', true)] |}, QNothing)
    | None => (s, QNothing)
    end
  end.

Fixpoint qrun (pooled : bool) (s : qstate) (os : list qop) : qstate * list qout :=
  match os with
  | [] => (s, [])
  | o :: os' =>
    let '(s1, x) := qstep pooled s o in
    let '(s2, xs) := qrun pooled s1 os' in (s2, x :: xs)
  end.

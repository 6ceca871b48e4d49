(* Model of who holds a request object and when it is used again: znet/request.go 62-98
   (GetRequest, PutRequest, Reset), the read loops (znet/connection.go 271-284), the
   interceptor chain around MsgHandle.Intercept (znet/msghandler.go 255-280, 298-306) and
   the workers (znet/msghandler.go 318-344, 383-401, 418-441). *)
From Coq Require Import ZArith List Bool.
From Verif Require Import GoSlice.
Import ListNotations.

(* The fields of a Request user code reads and writes: connection, message, context.  The
   other fields are in RequestHeap.v. *)
Record ob := Ob { ob_conn : nat; ob_msg : Z; ob_keys : list (Z * Z) }.
Definition get_key (l : list (Z * Z)) (k : Z) : option Z :=
  match find (fun p => Z.eqb (fst p) k) l with Some p => Some (snd p) | None => None end.
(* What user code does with a request it holds: GetMessage/GetData/GetConnection; changing
   the message; Set; Get (request.go 137-168). *)
Inductive write := WMsg (m : Z) | WKey (k v : Z).
Inductive rop := OLook | OWrite (w : write) | OGet (k : Z).
Definition apply_write (w : write) (o : ob) : ob :=
  match w with WMsg m => Ob (ob_conn o) m (ob_keys o) | WKey k v => Ob (ob_conn o) (ob_msg o) ((k, v) :: ob_keys o) end.

(* A goroutine that holds a request: connection c's reader inside the chain, having passed
   it on [sent] times; a task queue (or the new goroutine, without a worker pool); a worker
   in its handler; a goroutine some handler started. *)
Inductive role := Chain (c sent : nat) | Waiting | Running | Kept.
Record holder := Holder { h_role : role; h_ref : nat; h_ser : nat }.
(* Before the request is passed on; in a handler; after it was passed on, or in a goroutine
   the handler left behind. *)
Inductive phase := Before | Inside | After.
Definition phase_of (r : role) : option phase :=
  match r with Chain _ 0 => Some Before | Chain _ _ => Some After | Waiting => None | Running => Some Inside | Kept => Some After end.

(* Requests are numbered as they are read. *)
Inductive rsev :=
| RsRead (ser c : nat) (m : Z)
| RsHand (ser : nat)
| RsLook (p : phase) (ser : nat) (c : nat) (m : Z)
| RsGet (p : phase) (ser : nat) (k : Z) (v : option Z)
| RsSet (p : phase) (ser : nat) (w : write).

Record rst := Rst { r_objs : list ob; r_pool : list nat; r_hs : list holder; r_next : nat }.
Definition r_new : rst := Rst [] [] [] 0.

Inductive rslabel :=
| RRead (c : nat) (m : Z) (pick : option nat)
| ROp (i : nat) (o : rop)
| RHand (i : nat)
| RBack (i : nat)
| RTake (i : nat)
| RKeep (i : nat)
| REnd (i : nat) (put : bool).

Definition drop_nth {A} (n : nat) (l : list A) : list A := firstn n l ++ skipn (S n) l.
Definition in_chain (c : nat) (h : holder) : bool := match h_role h with Chain c' _ => Nat.eqb c' c | _ => false end.

Section ReqShare.
  Variable pooled : bool.                (* zconf.GlobalObject.RequestPoolMode *)

  (* request.go 62-73: GetRequest.  sync.Pool.Get hands out any pooled object or a new one;
     [pick] says which.  Reset (90-98) sets connection and message, clears the keys. *)
  Definition rs_get (s : rst) (c : nat) (m : Z) (pick : option nat) : list ob * list nat * nat :=
    match (if pooled then pick else None) with
    | Some j =>
      match nth_error (r_pool s) j with
      | Some r => (set_nth r (Ob c m []) (r_objs s), drop_nth j (r_pool s), r)
      | None => (r_objs s ++ [Ob c m []], r_pool s, length (r_objs s))
      end
    | None => (r_objs s ++ [Ob c m []], r_pool s, length (r_objs s))
    end.

  Definition rs_step (s : rst) (l : rslabel) : rst * list rsev :=
    match l with
    | RRead c m pick =>
      (* connection.go 273-277: the reader, done with the last request, makes the next *)
      if existsb (in_chain c) (r_hs s) then (s, [])
      else
        let '(objs, pool, r) := rs_get s c m pick in
        (Rst objs pool (r_hs s ++ [Holder (Chain c 0) r (r_next s)]) (S (r_next s)), [RsRead (r_next s) c m])
    | ROp i o =>
      match nth_error (r_hs s) i with
      | Some h =>
        match phase_of (h_role h), nth_error (r_objs s) (h_ref h) with
        | Some p, Some x =>
          match o with
          | OLook => (s, [RsLook p (h_ser h) (ob_conn x) (ob_msg x)])
          | OGet k => (s, [RsGet p (h_ser h) k (get_key (ob_keys x) k)])
          | OWrite w => (Rst (set_nth (h_ref h) (apply_write w x) (r_objs s)) (r_pool s) (r_hs s) (r_next s), [RsSet p (h_ser h) w])
          end
        | _, _ => (s, [])
        end
      | None => (s, [])
      end
    | RHand i =>
      (* msghandler.go 262-276: the request goes to a queue or a new goroutine; the chain
         then goes on (line 279, and the log line 305) *)
      match nth_error (r_hs s) i with
      | Some (Holder (Chain c n) r ser) =>
        (Rst (r_objs s) (r_pool s) (set_nth i (Holder (Chain c (S n)) r ser) (r_hs s) ++ [Holder Waiting r ser]) (r_next s), [RsHand ser])
      | _ => (s, [])
      end
    | RBack i =>
      (* the chain has returned *)
      match nth_error (r_hs s) i with
      | Some (Holder (Chain _ _) _ _) => (Rst (r_objs s) (r_pool s) (drop_nth i (r_hs s)) (r_next s), [])
      | _ => (s, [])
      end
    | RTake i =>
      match nth_error (r_hs s) i with
      | Some (Holder Waiting r ser) => (Rst (r_objs s) (r_pool s) (set_nth i (Holder Running r ser) (r_hs s)) (r_next s), [])
      | _ => (s, [])
      end
    | RKeep i =>
      (* a handler starts a goroutine that uses the request *)
      match nth_error (r_hs s) i with
      | Some (Holder Running r ser) => (Rst (r_objs s) (r_pool s) (r_hs s ++ [Holder Kept r ser]) (r_next s), [])
      | _ => (s, [])
      end
    | REnd i put =>
      (* msghandler.go 343, 400: PutRequest; not after a panic or for an unknown ID *)
      match nth_error (r_hs s) i with
      | Some (Holder Running r _) =>
        (Rst (r_objs s) (if pooled && put then r :: r_pool s else r_pool s) (drop_nth i (r_hs s)) (r_next s), [])
      | _ => (s, [])
      end
    end.
  Fixpoint rs_run (s : rst) (ls : list rslabel) : rst * list rsev :=
    match ls with
    | [] => (s, [])
    | l :: ls' => let (s1, e1) := rs_step s l in let (s2, e2) := rs_run s1 ls' in (s2, e1 ++ e2)
    end.
End ReqShare.

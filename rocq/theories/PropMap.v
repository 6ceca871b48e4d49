(* Model of the property map of a connection: SetProperty, GetProperty and
   RemoveProperty of znet/connection.go 466-492, and the same text in
   znet/ws_connection.go 463-489 and znet/kcp_connection.go 454-480, called by any
   goroutines on any connections.  No other function touches the map after the
   constructors set it to nil (connection.go 133, 171; ws 128, 163; kcp 131, 167).
   A Go string key is its bytes; values are compared by nobody. *)
From Coq Require Import List Bool Arith.
From Verif Require Import Bytes ShardMap ShardConc.
Import ListNotations.

Section Prop_.
Context {V : Type}.

Inductive pcall := PSet (k : key) (v : V) | PGet (k : key) | PRemove (k : key).
(* PaNone: the error "no property found" *)
Inductive pans := PaUnit | PaVal (v : V) | PaNone.

(* Where a goroutine is in a call on connection c. *)
Inductive ppc :=
| QIdle
| QCalled (c : nat) (o : pcall)             (* before propertyLock.Lock *)
| QHold (c : nat) (o : pcall)               (* lock taken *)
| QMade (c : nat) (o : pcall)               (* SetProperty after 469-471 *)
| QLeave (c : nat) (o : pcall) (r : pans)   (* before the deferred Unlock *)
| QDone (c : nat) (o : pcall) (r : pans)    (* before return *)
| QPanic.                                   (* assignment to an entry of a nil map *)

(* property (nil is None) and propertyLock of each connection. *)
Record pst := Pst { pt_map : nat -> option (gomap V); pt_lock : nat -> option nat; pt_thr : nat -> ppc }.
(* Connections as constructed. *)
Definition prop_init : pst := Pst (fun _ => None) (fun _ => None) (fun _ => QIdle).

Definition upd {A} (f : nat -> A) (i : nat) (a : A) : nat -> A := fun j => if Nat.eqb j i then a else f j.
Definition pt_go (s : pst) (t : nat) (p : ppc) : pst := Pst (pt_map s) (pt_lock s) (upd (pt_thr s) t p).

Inductive pev := PevCall (t c : nat) (o : pcall) | PevRet (t c : nat) (o : pcall) (r : pans).
Inductive plabel := PlCall (t c : nat) (o : pcall) | PlStep (t : nat).

(* Go: reading a nil map finds nothing, deleting from it does nothing. *)
Definition props (s : pst) (c : nat) : gomap V := match pt_map s c with Some g => g | None => [] end.

(* The instructions between Lock and Unlock: 469-471, 480-484, 491. *)
Definition prop_body (s : pst) (t c : nat) (o : pcall) : pst :=
  match o with
  | PSet k v =>
    match pt_map s c with
    | None => Pst (upd (pt_map s) c (Some [])) (pt_lock s) (upd (pt_thr s) t (QMade c o))
    | Some _ => pt_go s t (QMade c o)
    end
  | PGet k => pt_go s t (QLeave c o (match gm_get k (props s c) with Some v => PaVal v | None => PaNone end))
  | PRemove k =>
    match pt_map s c with
    | Some g => Pst (upd (pt_map s) c (Some (gm_del k g))) (pt_lock s) (upd (pt_thr s) t (QLeave c o PaUnit))
    | None => pt_go s t (QLeave c o PaUnit)
    end
  end.
(* 473 *)
Definition prop_write (s : pst) (t c : nat) (o : pcall) : pst :=
  match o, pt_map s c with
  | PSet k v, Some g => Pst (upd (pt_map s) c (Some (gm_set k v g))) (pt_lock s) (upd (pt_thr s) t (QLeave c o PaUnit))
  | PSet k v, None => pt_go s t QPanic
  | _, _ => s
  end.

Definition prop_step (s : pst) (l : plabel) : pst * list pev :=
  match l with
  | PlCall t c o => match pt_thr s t with QIdle => (pt_go s t (QCalled c o), [PevCall t c o]) | _ => (s, []) end
  | PlStep t =>
    match pt_thr s t with
    | QCalled c o =>
      match pt_lock s c with
      | None => (Pst (pt_map s) (upd (pt_lock s) c (Some t)) (upd (pt_thr s) t (QHold c o)), [])
      | Some _ => (s, [])
      end
    | QHold c o => (prop_body s t c o, [])
    | QMade c o => (prop_write s t c o, [])
    | QLeave c o r => (Pst (pt_map s) (upd (pt_lock s) c None) (upd (pt_thr s) t (QDone c o r)), [])
    | QDone c o r => (pt_go s t QIdle, [PevRet t c o r])
    | QIdle | QPanic => (s, [])
    end
  end.
Fixpoint prop_run (s : pst) (ls : list plabel) : pst * list pev :=
  match ls with
  | [] => (s, [])
  | l :: rest => let (s1, e1) := prop_step s l in let (s2, e2) := prop_run s1 rest in (s2, e1 ++ e2)
  end.
End Prop_.
Arguments pcall : clear implicits.
Arguments pans : clear implicits.
Arguments pst : clear implicits.
Arguments pev : clear implicits.
Arguments plabel : clear implicits.
Arguments ppc : clear implicits.

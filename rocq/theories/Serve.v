(* Model of Server.Serve and of signals (znet/server.go 463-471): Start, then signal.Notify for
   SIGINT and SIGTERM on a channel of its own with room for one, then a receive, a log line and
   return.  Of the servers' connections only what is needed to say what an interrupt leaves
   behind: whether they are open and whether their stop hook ran.  The Go runtime: a signal goes
   to every channel that asked for it and is dropped where there is no room; SIGINT and SIGTERM
   end the process as long as nobody asked for them, other signals (here: those that end a
   process by default and that are not asked for) always do.  Signals the user's own code asks
   for, and a second Serve of the same server, are not modelled. *)
From Coq Require Import List Bool Arith.
From Verif Require Import GoSlice.
Import ListNotations.

Inductive sig := Sigint | Sigterm | OtherSig.
(* server.go 467: the signals Serve asks for *)
Definition asked_for (g : sig) : bool := match g with Sigint | Sigterm => true | OtherSig => false end.

Inductive phase :=
| NotServed
| Serving                      (* 464: Start has returned *)
| Waiting (room : option sig)  (* 466-467: the channel, with the signal in it if there is one *)
| Returned.                    (* 468-470 *)
Record srv := Srv { sv_phase : phase; sv_conns : list bool (* open? *) }.
Record pst := Pst { ps_srvs : list srv; ps_notify : bool (* somebody called signal.Notify *); ps_ended : bool (* the process *) }.
Definition p_new (n : nat) : pst := Pst (repeat (Srv NotServed []) n) false false.

Inductive plabel :=
| LServe (i : nat)             (* Serve is called on server i: 464 *)
| LNotify (i : nat)            (* 466-467 *)
| LSignal (g : sig)
| LReceive (i : nat)           (* 468-470 *)
| LAccept (i : nat)            (* a connection of server i is started *)
| LClose (i c : nat)           (* it ends, by Stop, by the peer, ...: its stop hook runs *)
| LExit.                       (* main returns or os.Exit *)
Inductive pev :=
| EServed (i : nat)            (* Start returned *)
| EReturned (i : nat) (g : sig)(* Serve returned *)
| EOpened (i c : nat)
| EHook (i c : nat)            (* the stop hook of that connection *)
| EEnded (g : option sig).     (* the process ended, by a signal or by itself *)

Definition put (s : pst) (i : nat) (x : srv) : pst := Pst (set_nth i x (ps_srvs s)) (ps_notify s) (ps_ended s).
(* os/signal: a send that does not wait, into a channel with room for one *)
Definition deliver (g : sig) (x : srv) : srv :=
  match sv_phase x with Waiting None => Srv (Waiting (Some g)) (sv_conns x) | _ => x end.

Definition p_step (s : pst) (l : plabel) : pst * list pev :=
  if ps_ended s then (s, []) else
  match l with
  | LServe i =>
    match nth_error (ps_srvs s) i with
    | Some (Srv NotServed cs) => (put s i (Srv Serving cs), [EServed i])
    | _ => (s, [])
    end
  | LNotify i =>
    match nth_error (ps_srvs s) i with
    | Some (Srv Serving cs) => (Pst (set_nth i (Srv (Waiting None) cs) (ps_srvs s)) true false, [])
    | _ => (s, [])
    end
  | LSignal g =>
    if asked_for g && ps_notify s then (Pst (map (deliver g) (ps_srvs s)) true false, [])
    else (Pst (ps_srvs s) (ps_notify s) true, [EEnded (Some g)])
  | LReceive i =>
    match nth_error (ps_srvs s) i with
    | Some (Srv (Waiting (Some g)) cs) => (put s i (Srv Returned cs), [EReturned i g])
    | _ => (s, [])
    end
  | LAccept i =>
    match nth_error (ps_srvs s) i with
    | Some (Srv NotServed _) | None => (s, [])
    | Some (Srv p cs) => (put s i (Srv p (cs ++ [true])), [EOpened i (length cs)])
    end
  | LClose i c =>
    match nth_error (ps_srvs s) i with
    | Some (Srv p cs) =>
      match nth_error cs c with
      | Some true => (put s i (Srv p (set_nth c false cs)), [EHook i c])
      | _ => (s, [])
      end
    | None => (s, [])
    end
  | LExit => (Pst (ps_srvs s) (ps_notify s) true, [EEnded None])
  end.
Fixpoint p_run (s : pst) (ls : list plabel) : pst * list pev :=
  match ls with
  | [] => (s, [])
  | l :: rest => let (s1, e1) := p_step s l in let (s2, e2) := p_run s1 rest in (s2, e1 ++ e2)
  end.

(* Model of starting and stopping several servers of one process: znet/server.go 240-277 and
   308-315 (ListenTcpConn), 317-366 (ListenWebsocketConn), 368-377 and 412-419 (ListenKcpConn), 424-449
   (Start), 452-461 (Stop: only whether it returns and what it releases; see ConnServer.v for the
   rest).  The goroutines started by Start are tasks that run in any order; a label that is not
   enabled does nothing.  net/http's default mux (Go 1.17) is the part of it that decides which
   handler gets a request: host patterns and paths that are not in their shortest form are left out. *)
From Coq Require Import ZArith List Bool.
Import ListNotations.
Local Open Scope Z_scope.

Definition path := list Z.                    (* bytes; 47 is the slash *)
Fixpoint path_eqb (a b : path) : bool :=
  match a, b with [], [] => true | x :: a', y :: b' => (x =? y) && path_eqb a' b' | _, _ => false end.
Fixpoint path_prefix (a b : path) : bool :=   (* strings.HasPrefix(b, a) *)
  match a, b with [], _ => true | x :: a', y :: b' => (x =? y) && path_prefix a' b' | _, [] => false end.
Definition ends_in_slash (p : path) : bool := last p 0 =? 47.

Inductive mode := MTcp | MWs | MKcp | MBoth.   (* zconf.GlobalObject.Mode when Start is called; MBoth: anything else *)
Inductive tls := TlsOff | TlsGood | TlsBad.    (* server.go 251-270: no certificate set; it loads; it does not *)
Record sconf := SConf {
  sc_addr : bool;           (* net.ResolveTCPAddr accepts the address, server.go 243-247 *)
  sc_port : Z; sc_wsport : Z; sc_kcpport : Z;
  sc_path : path            (* WsPath *)
}.

Inductive task := TTcp | TWs | TWsListen | TKcp.  (* what a listening goroutine does next *)
Inductive lkind := LkTcp | LkWs.
Record proc := Proc {
  pr_mux : list (path * nat);          (* http.DefaultServeMux: pattern, server whose handler it is *)
  pr_tcp : list (Z * (lkind * nat));   (* TCP ports this process listens on, for whom *)
  pr_udp : list (Z * nat);
  pr_todo : list (nat * task);
  pr_dead : bool                       (* a goroutine panicked *)
}.
Definition proc_new : proc := Proc [] [] [] [] false.

(* net/http: which handler a request for a path gets: the pattern that is the path; else a redirect if
   the path with a slash is a pattern; else the longest pattern that ends in a slash and begins the path. *)
Inductive answer := Served (i : nat) | Redirected | NotFound.
Definition mux_exact (m : list (path * nat)) (p : path) : option nat := option_map snd (find (fun e => path_eqb (fst e) p) m).
Definition mux_longest (m : list (path * nat)) (p : path) : option (path * nat) :=
  fold_left (fun best e =>
    if ends_in_slash (fst e) && path_prefix (fst e) p
    then match best with Some b => if (length (fst b) <? length (fst e))%nat then Some e else best | None => Some e end
    else best) m None.
Definition mux_match (m : list (path * nat)) (p : path) : answer :=
  match mux_exact m p with
  | Some i => Served i
  | None =>
    match mux_exact m (p ++ [47]) with
    | Some _ => if ends_in_slash p then match mux_longest m p with Some e => Served (snd e) | None => NotFound end else Redirected
    | None => match mux_longest m p with Some e => Served (snd e) | None => NotFound end
    end
  end.
(* A websocket request for a path to a port: all listeners of the process use the one mux
   (http.ListenAndServe with a nil handler, server.go 361). *)
Definition ws_request (s : proc) (port : Z) (p : path) : option answer :=
  if existsb (fun e => (fst e =? port) && match fst (snd e) with LkWs => true | LkTcp => false end) (pr_tcp s) && negb (pr_dead s)
  then Some (mux_match (pr_mux s) p) else None.

Section Process.
  Variable conf : nat -> sconf.       (* the servers of the process *)
  Variable busy_tcp busy_udp : Z -> bool.  (* ports taken by others *)

  Inductive plabel :=
  | PStart (i : nat) (m : mode)       (* Start of server i, while the global mode is m *)
  | PTask (n : nat) (t : tls)         (* the n-th listening goroutine goes on *)
  | PStop (i : nat).                  (* Stop of server i, up to the closing of its listener *)

  Definition free_tcp (s : proc) (port : Z) : bool := negb (busy_tcp port) && negb (existsb (fun e => fst e =? port) (pr_tcp s)).
  Definition free_udp (s : proc) (port : Z) : bool := negb (busy_udp port) && negb (existsb (fun e => fst e =? port) (pr_udp s)).
  (* server.go 436-447 *)
  Definition tasks_of (m : mode) : list task :=
    match m with MTcp => [TTcp] | MWs => [TWs] | MKcp => [TKcp] | MBoth => [TTcp; TWs] end.
  Fixpoint drop_nth {A} (n : nat) (l : list A) : list A :=
    match l, n with [], _ => [] | _ :: l', O => l' | x :: l', S n' => x :: drop_nth n' l' end.
  Definition crash (s : proc) : proc := Proc (pr_mux s) (pr_tcp s) (pr_udp s) (pr_todo s) true.

  Definition run_task (s : proc) (i : nat) (t : task) (c : tls) (rest : list (nat * task)) : proc :=
    match t with
    | TTcp => (* 240-276 *)
      if negb (sc_addr (conf i)) then Proc (pr_mux s) (pr_tcp s) (pr_udp s) rest false
      else match c with
      | TlsBad => crash s
      | _ => if free_tcp s (sc_port (conf i)) then Proc (pr_mux s) ((sc_port (conf i), (LkTcp, i)) :: pr_tcp s) (pr_udp s) rest false else crash s
      end
    | TWs => (* 319: http.HandleFunc panics for the empty pattern and for one that is there *)
      match sc_path (conf i) with
      | [] => crash s
      | _ => match mux_exact (pr_mux s) (sc_path (conf i)) with
             | Some _ => crash s
             | None => Proc ((sc_path (conf i), i) :: pr_mux s) (pr_tcp s) (pr_udp s) ((i, TWsListen) :: rest) false
             end
      end
    | TWsListen => (* 361-364 *)
      if free_tcp s (sc_wsport (conf i)) then Proc (pr_mux s) ((sc_wsport (conf i), (LkWs, i)) :: pr_tcp s) (pr_udp s) rest false else crash s
    | TKcp => (* 371-375 *)
      if free_udp s (sc_kcpport (conf i)) then Proc (pr_mux s) (pr_tcp s) ((sc_kcpport (conf i), i) :: pr_udp s) rest false
      else Proc (pr_mux s) (pr_tcp s) (pr_udp s) rest false
    end.

  Definition tcp_of (i : nat) (e : Z * (lkind * nat)) : bool := match snd e with (LkTcp, j) => Nat.eqb j i | _ => false end.
  Definition udp_of (i : nat) (e : Z * nat) : bool := Nat.eqb (snd e) i.
  (* Does a listening goroutine of server i wait to receive from exitChan (309, 413)? *)
  Definition can_stop (s : proc) (i : nat) : bool := existsb (tcp_of i) (pr_tcp s) || existsb (udp_of i) (pr_udp s).

  Definition p_step (s : proc) (l : plabel) : proc :=
    if pr_dead s then s else
    match l with
    | PStart i m => Proc (pr_mux s) (pr_tcp s) (pr_udp s) (pr_todo s ++ map (pair i) (tasks_of m)) false
    | PTask n c =>
      match nth_error (pr_todo s) n with
      | Some (i, t) => run_task s i t c (drop_nth n (pr_todo s))
      | None => s
      end
    | PStop i => (* 452-461, 309-314, 413-418; without a receiver Stop waits for ever.  (A server that was
         started in two modes without a Stop between them has two receivers and Stop reaches one of
         them; here it reaches both.) *)
      if can_stop s i
      then Proc (pr_mux s) (filter (fun e => negb (tcp_of i e)) (pr_tcp s)) (filter (fun e => negb (udp_of i e)) (pr_udp s)) (pr_todo s) false
      else s
    end.
  Definition p_run (s : proc) (ls : list plabel) : proc := fold_left p_step ls s.
End Process.

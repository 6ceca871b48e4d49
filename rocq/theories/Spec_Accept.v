(* What C95 says. *)
From Coq Require Import ZArith List Bool Arith.
From Verif Require Import Bytes ConnManager ConnLife ConnServer.
Import ListNotations.

(* The two accept loops.  [go]: the loop goes on by one statement; [ok]: if it is at Accept, that
   returns a connection. *)
Inductive loop := TcpLoop | KcpLoop.
Definition runs (c : scfg) (k : loop) : bool := match k with TcpLoop => has_tcp (sf_mode c) | KcpLoop => has_kcp (sf_mode c) end.
Definition go (k : loop) (ok : bool) : slabel := match k with TcpLoop => STcp ok | KcpLoop => SKcp ok end.
Definition at_ (k : loop) (s : srv) : apc := match k with TcpLoop => sv_tcp s | KcpLoop => sv_kcp s end.

(* Before each of these steps, from s on: the process lives, and P. *)
Definition all_along (c : scfg) (P : srv -> Prop) (s : srv) (b : list slabel) : Prop :=
  forall b1 l b2, b = b1 ++ l :: b2 -> let s1 := fst (srv_run c s b1) in sv_crashed s1 = false /\ P s1.
(* There is room for one more. *)
Definition room (c : scfg) (s : srv) : Prop := cm_len (sv_mgr s) < sf_max c.

(* How often the loop went on. *)
Definition is_go (k : loop) (l : slabel) : bool := match k, l with TcpLoop, STcp _ | KcpLoop, SKcp _ => true | _, _ => false end.
Definition moves (k : loop) (b : list slabel) : nat := length (filter (is_go k) b).

(* One of its moves created a connection. *)
Definition took (c : scfg) (k : loop) (s : srv) (b : list slabel) : Prop :=
  exists b1 ok b2 i, b = b1 ++ go k ok :: b2 /\ In (SvAdded i) (snd (srv_step c (fst (srv_run c s b1)) (go k ok))).

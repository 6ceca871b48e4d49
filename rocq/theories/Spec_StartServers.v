(* What servers need for themselves: ports and websocket paths. *)
From Coq Require Import ZArith List Bool.
From Verif Require Import StartServers.
Import ListNotations.

Inductive resource := ATcpPort (p : Z) | AUdpPort (p : Z) | APath (p : path).
Definition needs (c : sconf) (m : mode) : list resource :=
  match m with
  | MTcp => [ATcpPort (sc_port c)]
  | MWs => [APath (sc_path c); ATcpPort (sc_wsport c)]
  | MKcp => [AUdpPort (sc_kcpport c)]
  | MBoth => [ATcpPort (sc_port c); APath (sc_path c); ATcpPort (sc_wsport c)]
  end.
(* The calls of Start in a run. *)
Definition starts (ls : list plabel) : list (nat * mode) := flat_map (fun l => match l with PStart i m => [(i, m)] | _ => [] end) ls.
Definition all_needs (conf : nat -> sconf) (ls : list plabel) : list resource := flat_map (fun e => needs (conf (fst e)) (snd e)) (starts ls).

(* Everybody needs something else, nobody else has it, addresses are fine, certificates load. *)
Record compatible (conf : nat -> sconf) (busy_tcp busy_udp : Z -> bool) (ls : list plabel) : Prop := {
  co_apart : NoDup (all_needs conf ls);
  co_tcp : forall p, In (ATcpPort p) (all_needs conf ls) -> busy_tcp p = false;
  co_udp : forall p, In (AUdpPort p) (all_needs conf ls) -> busy_udp p = false;
  co_path : ~ In (APath []) (all_needs conf ls);
  co_addr : forall i m, In (i, m) (starts ls) -> m = MTcp \/ m = MBoth -> sc_addr (conf i) = true;
  co_cert : forall n, ~ In (PTask n TlsBad) ls
}.
(* Server i, started in mode m, is listening everywhere it should. *)
Definition listening (conf : nat -> sconf) (s : proc) (i : nat) (m : mode) : Prop :=
  let tcp := In (sc_port (conf i), (LkTcp, i)) (pr_tcp s) in
  let ws := In (sc_path (conf i), i) (pr_mux s) /\ In (sc_wsport (conf i), (LkWs, i)) (pr_tcp s) in
  match m with MTcp => tcp | MWs => ws | MKcp => In (sc_kcpport (conf i), i) (pr_udp s) | MBoth => tcp /\ ws end.

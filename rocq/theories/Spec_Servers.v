(* Specification vocabulary for C77: several servers in one process. *)
From Coq Require Import ZArith List Bool.
From Verif Require Import Bytes Conf Servers.
Import ListNotations.
Local Open Scope Z_scope.

(* What a server is known by: its name, address, ports, path, KCP settings, kind of router
   and number of workers. *)
Definition identity (s : server) := (v_name s, v_host s, v_path s, (v_tcp s, v_ws s, v_kcp s, v_kcpset s), v_slices s, v_workers s).

(* What a user configuration asks for on top of what was there before. *)
Definition asked_s (u g : config) (f : sfield) : list byte := match strs u f with [] => strs g f | v => v end.
Definition asked_i (u g : config) (f : ifield) : Z := if ints u f =? 0 then ints g f else ints u f.

(* The listeners a Mode calls for. *)
Definition opens (mode : list byte) (q : proto) : Prop :=
  match q with
  | Tcp => mode <> m_ws /\ mode <> m_kcp
  | Ws => mode <> m_tcp /\ mode <> m_kcp
  | Kcp => mode = m_kcp
  end.

(* The settings decisions are taken from while a server runs. *)
Record limits := Limits { l_mode : list byte; l_cert : list byte; l_key : list byte; l_conn : Z; l_task : Z; l_beat : Z }.

(* A decision that follows them. *)
Definition follows (c : limits) (e : event) : Prop :=
  match e with
  | Listening _ q _ _ tls => opens (l_mode c) q /\ (tls = true <-> q = Tcp /\ l_cert c <> [] /\ l_key c <> [])
  | Pool _ _ len => len = l_task c
  | Accepted _ n => n < l_conn c
  | Held _ n => n >= l_conn c
  | Judged _ idle alive => alive = true <-> idle < l_beat c
  | _ => True
  end.

(* What user configuration u asks for, and what is in force in a process. *)
Definition own_limits (u g : config) := Limits (asked_s u g Mode) (asked_s u g CertFile) (asked_s u g PrivateKeyFile) (asked_i u g MaxConn) (asked_i u g MaxWorkerTaskLen) (asked_i u g HeartbeatMax).
Definition in_force (p : proc) := let c := p_conf p in Limits (strs c Mode) (strs c CertFile) (strs c PrivateKeyFile) (ints c MaxConn) (ints c MaxWorkerTaskLen) (ints c HeartbeatMax).

(* The user configuration a step brings, if any. *)
Definition brings (o : op) : option config :=
  match o with
  | New (NewUserConfServer u) => Some u
  | New (NewUserConfDefaultRouterSlicesServer u) => if bools u RouterSlicesMode then Some u else None
  | _ => None
  end.
(* The last value given for a setting, d if none was. *)
Fixpoint last_s (f : sfield) (os : list op) (d : list byte) : list byte :=
  match os with [] => d | o :: os => last_s f os (match brings o with Some u => match strs u f with [] => d | v => v end | None => d end) end.
Fixpoint last_i (f : ifield) (os : list op) (d : Z) : Z :=
  match os with [] => d | o :: os => last_i f os (match brings o with Some u => if ints u f =? 0 then d else ints u f | None => d end) end.
(* A step that turns slice routing on. *)
Definition slices_on (o : op) : bool :=
  match o with
  | New NewDefaultRouterSlicesServer => true
  | _ => match brings o with Some u => bools u RouterSlicesMode | None => false end
  end.

(* Steps that make no server. *)
Definition makes_none (o : op) : Prop := match o with New _ => False | _ => True end.
(* The servers that were started. *)
Definition starts (os : list op) : list nat := flat_map (fun o => match o with Start i => [i] | _ => [] end) os.

(* Model of where a client connects to: NewClient, NewWsClient, NewTLSClient (znet/client.go 55-111), the options
   (znet/options.go 23-44), and the dialling in Restart (client.go 115-176).
   Given: what net.ParseIP makes of a text, how an IP is written, what a name is looked up to, the machine's own address.
   net.Dial, net.DialTCP and url are written after their documentation.
   Simplified: the port is written and read back as it is; a connection is refused or made, with no time in between;
   what is at the address is not looked at; a URL has its port (else the scheme gives it); the dialler's proxy is left out. *)
From Coq Require Import List Bool Ascii String.
Import ListNotations.

Notation text := (list ascii).
Definition colon : ascii := ":"%char.
Record url := Url { u_tls : bool; u_host : text; u_port : nat; u_rest : text }. (* scheme, host as written, port, path and parameters *)
Inductive kind := Plain | Tls | Ws.
Inductive version := VTcp | VWebsocket.
Inductive copt := OPacket | OName | OUrl (u : option url).
Record client := Cl { k_host : text; k_port : nat; k_ver : version; k_tls : bool; k_url : option url }.
(* how a connection was tried to be made *)
Inductive outcome := Failed | To (tls : bool) (ip port : nat) (rest : text).

(* options.go 23-44 *)
Definition apply_opt (c : client) (o : copt) : client :=
  match o with
  | OPacket | OName => c
  | OUrl u => Cl (k_host c) (k_port c) (k_ver c) (k_tls c) u
  end.
(* client.go 55-78, 80-103, 105-112 *)
Definition new_client (k : kind) (host : text) (port : nat) (opts : list copt) : client :=
  match k with
  | Plain => fold_left apply_opt opts (Cl host port VTcp false None)
  | Ws => fold_left apply_opt opts (Cl host port VWebsocket false None)
  | Tls => let c := fold_left apply_opt opts (Cl host port VTcp false None) in Cl (k_host c) (k_port c) (k_ver c) true (k_url c)
  end.

Section Net.
Variable parse_ip : text -> option nat. (* net.ParseIP *)
Variable render : nat -> text.          (* IP.String *)
Variable dns : text -> option nat.      (* what a name is looked up to *)
Variable local : nat.

(* net.Dial: a host without brackets; an empty one is the local system *)
Definition lookup (h : text) : option nat :=
  match h with
  | [] => Some local
  | _ => match parse_ip h with Some ip => Some ip | None => dns h end
  end.
(* net.SplitHostPort of h:port (called by net.Dial, client.go 136 and 157) *)
Definition host_of (h : text) : option text :=
  match h with
  | c :: r =>
    if Ascii.eqb c "["%char then
      match rev r with
      | e :: r' => if Ascii.eqb e "]"%char then Some (rev r') else None
      | [] => None
      end
    else if existsb (Ascii.eqb colon) h then None else Some h (* too many colons *)
  | [] => Some []
  end.
Definition dial (tls : bool) (h : text) (port : nat) (rest : text) : outcome :=
  match host_of h with
  | None => Failed
  | Some h' => match lookup h' with Some ip => To tls ip port rest | None => Failed end
  end.
(* fmt's "%v" of an IP (client.go 157) *)
Definition print_ip (o : option nat) : text := match o with Some ip => render ip | None => list_ascii_of_string "<nil>" end.
(* net.DialTCP (client.go 164): without an IP the local system *)
Definition dial_tcp (o : option nat) (port : nat) : outcome := To false (match o with Some ip => ip | None => local end) port [].

(* client.go 120-176 *)
Definition goes (c : client) : outcome :=
  match k_ver c with
  | VWebsocket =>
    match k_url c with
    | Some u => dial (u_tls u) (u_host u) (u_port u) (u_rest u)
    | None => dial false (k_host c) (k_port c) []
    end
  | VTcp => if k_tls c then dial true (print_ip (parse_ip (k_host c))) (k_port c) [] else dial_tcp (parse_ip (k_host c)) (k_port c)
  end.
End Net.

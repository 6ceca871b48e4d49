(* C112: where a client connects to. *)
From Coq Require Import List Bool Ascii String Arith.
From Verif Require Import Dial Spec_Dial.
Import ListNotations.

Lemma last_from opts c : fold_left apply_opt opts c = Cl (k_host c) (k_port c) (k_ver c) (k_tls c) (if existsb (fun o => match o with OUrl _ => true | _ => false end) opts then last_url opts else k_url c).
Proof.
  revert c. induction opts as [|o opts IH]; intros c; [destruct c; reflexivity|]. cbn [fold_left]. rewrite IH. destruct o; cbn [apply_opt existsb last_url k_host k_port k_ver k_tls k_url orb]; reflexivity.
Qed.
Lemma none_last opts : existsb (fun o => match o with OUrl _ => true | _ => false end) opts = false -> last_url opts = None.
Proof. induction opts as [|[| |u] opts IH]; cbn; intros E; auto; discriminate. Qed.
Lemma made k host port opts : new_client k host port opts = Cl host port (match k with Ws => VWebsocket | _ => VTcp end) (is_tls k) (last_url opts).
Proof.
  unfold new_client. destruct k; rewrite !last_from; cbn [k_host k_port k_ver k_tls k_url is_tls]; destruct (existsb _ opts) eqn:E; try reflexivity; now rewrite (none_last _ E).
Qed.
Lemma no_colon h : ~ In colon h -> existsb (Ascii.eqb colon) h = false.
Proof. intros N. destruct (existsb (Ascii.eqb colon) h) eqn:E; [|reflexivity]. apply existsb_exists in E. destruct E as (c & I & E). apply Ascii.eqb_eq in E. subst. contradiction. Qed.
Lemma host_plain h : h <> [] -> (forall t, h <> "["%char :: t) -> host_of h = if existsb (Ascii.eqb colon) h then None else Some h.
Proof. intros N B. destruct h as [|c r]; [congruence|]. unfold host_of. destruct (Ascii.eqb_spec c "["%char) as [->|_]; [exfalso; exact (B r eq_refl)|reflexivity]. Qed.
Lemma has_colon h : In colon h -> existsb (Ascii.eqb colon) h = true.
Proof. intros I. apply existsb_exists. exists colon. split; [exact I|apply Ascii.eqb_refl]. Qed.
Lemma lookup_ip parse_ip dns local h ip : h <> [] -> parse_ip h = Some ip -> lookup parse_ip dns local h = Some ip.
Proof. intros N E. destruct h; [congruence|]. unfold lookup. now rewrite E. Qed.

(* An IP written without colons: every kind of client connects to it; a websocket client if it has no URL. *)
Theorem C112_ip_partial : forall parse_ip render dns local k host port opts ip, sane parse_ip render dns -> parse_ip host = Some ip -> ~ In colon host -> ~ In colon (render ip) ->
  k <> Ws \/ last_url opts = None -> goes parse_ip render dns local (new_client k host port opts) = To (is_tls k) ip port [].
Proof.
  intros parse_ip render dns local k host port opts ip (S1 & S2 & _) P N1 N2 U. rewrite made. unfold goes. cbn [k_ver k_tls k_url k_host k_port]. destruct (S1 ip) as (R & S3). destruct (S3 []) as (R0 & _). destruct (S2 _ _ P) as (H0 & HB). destruct k; cbn [is_tls].
  - unfold dial_tcp. now rewrite P.
  - rewrite P. cbn [print_ip]. unfold dial. rewrite host_plain; [|exact R0|intros t; apply S3]. rewrite no_colon by exact N2. now rewrite (lookup_ip _ _ _ _ ip).
  - destruct U as [U|U]; [congruence|]. rewrite U. unfold dial. rewrite host_plain by assumption. rewrite no_colon by exact N1. now rewrite (lookup_ip _ _ _ _ ip).
Qed.
Print Assumptions C112_ip_partial.
(* A plain client connects to any IP. *)
Theorem C112_plain : forall parse_ip render dns local host port opts ip, parse_ip host = Some ip -> goes parse_ip render dns local (new_client Plain host port opts) = To false ip port [].
Proof. intros. rewrite made. unfold goes, dial_tcp. cbn. now rewrite H. Qed.
Print Assumptions C112_plain.
(* A websocket client connects to host names, and to its URL. *)
Theorem C112_ws_name : forall parse_ip render dns local host port opts ip, a_host_name parse_ip host -> dns host = Some ip -> last_url opts = None ->
  goes parse_ip render dns local (new_client Ws host port opts) = To false ip port [].
Proof.
  intros parse_ip render dns local host port opts ip (N & P & C & B) D U. rewrite made. unfold goes. cbn [k_ver k_url k_host k_port]. rewrite U. unfold dial. rewrite host_plain; [|exact N|intros t ->; apply B; now left]. rewrite no_colon by exact C. unfold lookup. destruct host; [congruence|]. now rewrite P, D.
Qed.
Print Assumptions C112_ws_name.
(* ... and reports an error if nobody knows the name. *)
Theorem C112_ws_unknown : forall parse_ip render dns local host port opts, a_host_name parse_ip host -> dns host = None -> last_url opts = None ->
  goes parse_ip render dns local (new_client Ws host port opts) = Failed.
Proof.
  intros parse_ip render dns local host port opts (N & P & C & B) D U. rewrite made. unfold goes. cbn [k_ver k_url k_host k_port]. rewrite U. unfold dial. rewrite host_plain; [|exact N|intros t ->; apply B; now left]. rewrite no_colon by exact C. unfold lookup. destruct host; [congruence|]. now rewrite P, D.
Qed.
Print Assumptions C112_ws_unknown.
Theorem C112_url : forall parse_ip render dns local host port opts u ip, last_url opts = Some u -> (u_host u <> [] /\ ~ In colon (u_host u) /\ ~ In "["%char (u_host u) /\ (parse_ip (u_host u) = Some ip \/ parse_ip (u_host u) = None /\ dns (u_host u) = Some ip) \/ exists h, u_host u = "["%char :: h ++ ["]"%char] /\ h <> [] /\ parse_ip h = Some ip) ->
  goes parse_ip render dns local (new_client Ws host port opts) = To (u_tls u) ip (u_port u) (u_rest u).
Proof.
  intros parse_ip render dns local host port opts u ip U H. rewrite made. unfold goes. cbn [k_ver k_url]. rewrite U. unfold dial. destruct H as [(N & C & B & D)|(h & E & N & P)].
  - rewrite host_plain; [|exact N|intros t E; apply B; rewrite E; now left]. rewrite no_colon by exact C. unfold lookup. destruct (u_host u); [congruence|]. destruct D as [->|(-> & ->)]; reflexivity.
  - rewrite E. unfold host_of. rewrite Ascii.eqb_refl, rev_app_distr. cbn [rev app]. rewrite Ascii.eqb_refl, rev_involutive. now rewrite (lookup_ip _ _ _ _ ip).
Qed.
Print Assumptions C112_url.

(* Host names: a plain client connects to its own machine, a TLS client to nothing. *)
Theorem C112_name_refuted : forall parse_ip render dns local host port opts far, sane parse_ip render dns -> a_host_name parse_ip host -> dns host = Some far -> far <> local ->
  goes parse_ip render dns local (new_client Plain host port opts) = To false local port [] /\ goes parse_ip render dns local (new_client Tls host port opts) = Failed.
Proof.
  intros parse_ip render dns local host port opts far (_ & _ & S3 & S4) (_ & P & _) _ _. rewrite !made. unfold goes, dial_tcp. cbn [k_ver k_tls k_host k_port is_tls]. rewrite P. split; [reflexivity|]. cbn [print_ip]. unfold dial. change (host_of (list_ascii_of_string "<nil>")) with (Some (list_ascii_of_string "<nil>")). cbv iota.
  assert (L : lookup parse_ip dns local (list_ascii_of_string "<nil>") = None) by (change (match parse_ip (list_ascii_of_string "<nil>") with Some ip => Some ip | None => dns (list_ascii_of_string "<nil>") end = None); now rewrite S3). now rewrite L.
Qed.
Print Assumptions C112_name_refuted.
(* IPs written with colons: TLS and websocket clients do not connect. *)
Theorem C112_v6_refuted : forall parse_ip render dns local host port opts ip, sane parse_ip render dns -> parse_ip host = Some ip ->
  (In colon (render ip) -> goes parse_ip render dns local (new_client Tls host port opts) = Failed) /\
  (In colon host -> last_url opts = None -> goes parse_ip render dns local (new_client Ws host port opts) = Failed).
Proof.
  intros parse_ip render dns local host port opts ip (S1 & S2 & _) P. destruct (S1 ip) as (_ & S3). destruct (S3 []) as (R0 & _). destruct (S2 _ _ P) as (H0 & HB). rewrite !made. unfold goes. cbn [k_ver k_tls k_url k_host k_port is_tls]. rewrite P. cbn [print_ip]. split.
  - intros C. unfold dial. rewrite host_plain; [|exact R0|intros t; apply S3]. now rewrite has_colon.
  - intros C ->. unfold dial. rewrite host_plain by assumption. now rewrite has_colon.
Qed.
Print Assumptions C112_v6_refuted.

(* A small network: addresses n are written as n dots after "1", or with colons from 10 on. *)
Definition s_render (ip : nat) : text := if ip <? 10 then "1"%char :: repeat "."%char ip else "1"%char :: repeat colon ip.
Definition s_parse (h : text) : option nat :=
  match h with
  | c :: r => if Ascii.eqb c "1"%char then if (if list_eq_dec ascii_dec h (s_render (List.length r)) then true else false) then Some (List.length r) else None else None
  | [] => None
  end.
Definition s_dns (h : text) : option nat := if list_eq_dec ascii_dec h (list_ascii_of_string "game") then Some 4 else None.
Lemma s_sane : sane s_parse s_render s_dns.
Proof.
  split; [|split; [|split; reflexivity]].
  - intros ip. split; [|intros t; unfold s_render; destruct (ip <? 10); split; discriminate]. assert (E : exists r, s_render ip = "1"%char :: r /\ List.length r = ip) by (unfold s_render; destruct (ip <? 10); eexists; (split; [reflexivity|apply repeat_length])).
    destruct E as (r & E & L). rewrite E. unfold s_parse. rewrite Ascii.eqb_refl, L, <- E. destruct (list_eq_dec ascii_dec (s_render ip) (s_render ip)); [reflexivity|congruence].
  - intros h ip E. destruct h as [|c r]; [discriminate|]. split; [discriminate|]. intros t [= -> _]. discriminate.
Qed.
Example C112_used : let go := goes s_parse s_render s_dns 0 in let new := new_client in let game := list_ascii_of_string "game" in
  (map (fun k => go (new k (s_render 3) 89 [OName; OPacket])) [Plain; Tls; Ws], map (fun k => go (new k (s_render 12) 89 [])) [Plain; Tls; Ws], map (fun k => go (new k game 89 [])) [Plain; Tls; Ws],
   go (new Ws game 1 [OUrl None; OUrl (Some (Url true ("["%char :: s_render 12 ++ ["]"%char]) 443 game))])) =
  ([To false 3 89 []; To true 3 89 []; To false 3 89 []], [To false 12 89 []; Failed; Failed], [To false 0 89 []; Failed; To false 4 89 []], To true 12 443 game).
Proof. reflexivity. Qed.
Example C112_name_used : a_host_name s_parse (list_ascii_of_string "game") /\ s_dns (list_ascii_of_string "game") = Some 4.
Proof. split; [|reflexivity]. repeat split; try discriminate; cbn; intuition discriminate. Qed.
Example C112_unknown_used : a_host_name s_parse (list_ascii_of_string "nobody") /\ s_dns (list_ascii_of_string "nobody") = None.
Proof. split; [|reflexivity]. repeat split; try discriminate; cbn; intuition discriminate. Qed.

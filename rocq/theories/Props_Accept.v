(* C95: accepting connections. *)
From Coq Require Import ZArith List Bool Arith Lia.
From Verif Require Import Bytes GoSlice ShardMap ConnManager ConnLife Spec_ConnLife ConnServer Spec_ConnServer ConnServer_proofs ConnServer2_proofs ConnStop_proofs Spec_Accept Accept_proofs Props_ConnStop.
Import ListNotations.

(* From every reachable state, whatever else goes on: while there is room, connections are waiting
   and the Tcp listener is open, the accept loop takes a connection on within four of its own
   statements. *)
Theorem C95_taken : forall c k a b, let s := fst (srv_run c (srv_new c) a) in runs c k = true ->
  all_along c (fun s => room c s /\ (k = TcpLoop -> sv_lclosed s = false)) s b -> ~ In (go k false) b -> 4 <= moves k b -> took c k s b.
Proof.
  intros c k a b s R A N M. apply taken; auto.
  - destruct (end_closed c a) as (E1 & E2). fold s in E1, E2. destruct b as [|l b]; [cbn in M; lia|]. destruct (A [] l b eq_refl) as (_ & _ & L). cbn in L. destruct k; cbn; [|exact E2]. intros E. specialize (E1 E). rewrite (L eq_refl) in E1. discriminate.
  - destruct (at_ k s); cbn; lia.
Qed.
Print Assumptions C95_taken.

(* With the listener closed the Tcp loop ends, within four statements while there is room ... *)
Theorem C95_ends_partial : forall c a b, let s := fst (srv_run c (srv_new c) a) in has_tcp (sf_mode c) = true -> sv_lclosed s = true ->
  all_along c (room c) s b -> 4 <= moves TcpLoop b -> sv_tcp (fst (srv_run c s b)) = AEnd.
Proof. intros c a b s R L A M. apply ends_tcp; auto. destruct (sv_tcp s); cbn; lia. Qed.
Print Assumptions C95_ends_partial.
(* ... and it never ends while the listener is open. *)
Theorem C95_goes_on : forall c a, let s := fst (srv_run c (srv_new c) a) in sv_lclosed s = false -> sv_tcp s <> AEnd.
Proof. intros c a s L E. destruct (end_closed c a) as (H & _). fold s in H. rewrite (H E) in L. discriminate. Qed.
Print Assumptions C95_goes_on.

(* Refuted (F98): the Kcp loop never ends, closed listener or not. *)
Theorem C95_kcp_refuted : forall c a, sv_kcp (fst (srv_run c (srv_new c) a)) <> AEnd.
Proof. intros c a. apply (end_closed c a). Qed.
Print Assumptions C95_kcp_refuted.

(* Refuted (F98): after Server.Stop has returned and the listener is closed, it may still take on
   the sessions that wait. *)
Theorem C95_kcp_late_refuted : forall c, sf_mode c = ServeKcp -> 1 < sf_max c ->
  exists a b, let s := fst (srv_run c (srv_new c) a) in
  In (SvReturned 0) (snd (srv_run c (srv_new c) a)) /\ sv_lclosed s = true /\ added (snd (srv_run c s b)) = 2.
Proof.
  intros c M Hm. destruct c as [m [|[|x]] h p q]; cbn in Hm; try lia. cbn in M. subst m.
  exists [SStopCall; SStopStep 0 0; SStopStep 0 0; SStopStep 0 0; SListener], (repeat (SKcp true) 8).
  vm_compute. auto.
Qed.
Print Assumptions C95_kcp_late_refuted.

(* A server with room for two: one connection runs, the loop fails once, then takes on the next
   while the first one stops; later the server is stopped and the loop ends. *)
Definition c95 : scfg := Scfg ServeTcp 2 false false false.
Definition before95 : list slabel := accept4 ++ start 0 ++ [STcp true; STcp false].
Definition during95 : list slabel := [STcp true; SConn 0 LStop; STcp true; SConn 0 LMain; STcp true; STcp true].
Fixpoint ok_along (c : scfg) (P : srv -> bool) (s : srv) (b : list slabel) : bool :=
  match b with [] => true | l :: b' => negb (sv_crashed s) && P s && ok_along c P (fst (srv_step c s l)) b' end.
Lemma ok_all c (P : srv -> bool) (Q : srv -> Prop) : (forall s, P s = true -> Q s) -> forall b s, ok_along c P s b = true -> all_along c Q s b.
Proof.
  intros PQ. induction b as [|l b IH]; intros s H b1 l1 b2 E; cbn [ok_along] in H.
  - destruct b1; discriminate.
  - apply andb_true_iff in H as (H & H2); apply andb_true_iff in H as (H0 & H1); apply negb_true_iff in H0.
    destruct b1 as [|l0 b1]; [cbn; auto|]. injection E as <- E. specialize (IH _ H2 b1 l1 b2 E). cbn [srv_run]. destruct (srv_step c s l) as [s1 e]. cbn [fst] in *. destruct (srv_run c s1 b1). exact IH.
Qed.
Example C95_case : let s := fst (srv_run c95 (srv_new c95) before95) in
  all_along c95 (fun s => room c95 s /\ (TcpLoop = TcpLoop -> sv_lclosed s = false)) s during95 /\ moves TcpLoop during95 = 4 /\ ~ In (go TcpLoop false) during95 /\
  length (sv_conns s) = 1 /\ length (sv_conns (fst (srv_run c95 s during95))) = 2.
Proof.
  cbv zeta. split; [|vm_compute; repeat split; try reflexivity; intuition discriminate].
  apply (ok_all c95 (fun s => (cm_len (sv_mgr s) <? 2) && negb (sv_lclosed s))); [|vm_compute; reflexivity].
  intros s H. apply andb_true_iff in H as (H1 & H2). apply Nat.ltb_lt in H1. apply negb_true_iff in H2. split; [exact H1|auto].
Qed.
(* The server is stopped while the loop waits in Accept; the loop ends. *)
Definition stopped95 : list slabel := accept4 ++ start 0 ++ [STcp true; SStopCall; SStopStep 0 0; SConn 0 LMain; SStopStep 0 0; SStopStep 0 0; SStopStep 0 0; SListener].
Example C95_ends_case : let s := fst (srv_run c95 (srv_new c95) stopped95) in
  In (SvReturned 0) (snd (srv_run c95 (srv_new c95) stopped95)) /\ sv_lclosed s = true /\ sv_tcp s = AAccept /\
  all_along c95 (room c95) s accept4 /\ moves TcpLoop accept4 = 4.
Proof.
  cbv zeta. split; [vm_compute; tauto|]. split; [vm_compute; reflexivity|]. split; [vm_compute; reflexivity|]. split; [|reflexivity].
  apply (ok_all c95 (fun s => cm_len (sv_mgr s) <? 2)); [|vm_compute; reflexivity]. intros s H. now apply Nat.ltb_lt in H.
Qed.

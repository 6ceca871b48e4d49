(* C77, further: the workers of a server in Bind mode. *)
From Coq Require Import ZArith List Bool Lia Permutation.
From Verif Require Import Bytes Conf Spec_Conf Servers Spec_Servers Servers_proofs Bind_servers_proofs Dynamic_servers_proofs.
Import ListNotations.
Local Open Scope Z_scope.

(* In Bind mode, as long as no other server is made after it, every open connection of a server
   is read by one worker of the server's own that no other connection has, and none is held up
   waiting for one. *)
Theorem C77_own_worker_partial : forall g l before c after i, let p := run (begin g l) before in p_down p = false ->
  let p1 := fst (step p (New c)) in snd (step p (New c)) = [Created i] -> strs (p_conf p1) WorkerMode = w_bind -> Forall makes_none after ->
  exists s ws, nth_error (p_servers (run p1 after)) i = Some s /\ v_conns s = map Some ws /\ NoDup ws /\ (forall w, In w ws -> 0 <= w < v_workers s).
Proof.
  intros g l before c after i p D p1 Cr B F. apply str_eq_spec in B. destruct (new_bound c p i D Cr B) as (s0 & N0 & K0).
  destruct (run_bound after p1 i s0 F B N0 K0) as (s & N & _ & free & ws & _ & C & P & _). exists s, ws. split; [exact N|]. split; [exact C|].
  assert (ND : NoDup (free ++ ws)) by (eapply Permutation_NoDup; [apply Permutation_sym, P|apply numbers_nodup]). split.
  - clear -ND. induction free as [|x free IH]; [exact ND|]. inversion_clear ND. auto.
  - intros w H. apply numbers_in. eapply Permutation_in; [exact P|]. apply in_or_app. now right.
Qed.
Print Assumptions C77_own_worker_partial.

(* A limit of three connections; four come, the second goes, and one more comes. *)
Definition bind_conf : config := Config (fun f => match f with WorkerMode => w_bind | Mode => m_tcp | _ => [] end) (fun f => match f with MaxConn => 3 | WorkerPoolSize => 10 | _ => 0 end) (fun _ => false).
Example C77_own_worker_case :
  let p := begin bind_conf (Logger 0 None) in
  snd (step p (New NewServer)) = [Created 0] /\ strs (p_conf (fst (step p (New NewServer)))) WorkerMode = w_bind /\
  option_map v_conns (nth_error (p_servers (run (fst (step p (New NewServer))) [Connect 0 1; Connect 0 0; Connect 0 0; Connect 0 0; Close 0 1; Connect 0 5])) 0) = Some [Some 1; Some 2; Some 0].
Proof. vm_compute. auto. Qed.

(* In DynamicBind mode, under the same condition, no connection is held up, and a worker of the pool
   never has two connections; the other connections are read by extra workers. *)
Theorem C77_dynamic_worker_partial : forall g l before c after i, let p := run (begin g l) before in p_down p = false ->
  let p1 := fst (step p (New c)) in snd (step p (New c)) = [Created i] -> strs (p_conf p1) WorkerMode = w_dynamic -> Forall makes_none after ->
  exists s ws, nth_error (p_servers (run p1 after)) i = Some s /\ v_conns s = map Some ws /\ v_workers s = ints (p_conf p1) WorkerPoolSize /\
    NoDup (filter (fun w => w <? v_workers s) ws) /\ (forall w, In w ws -> w < v_workers s -> 0 <= w) /\
    (forall w, In w ws -> v_workers s <= w -> w < ints (p_conf p1) MaxConn).
Proof.
  intros g l before c after i p D p1 Cr B F. assert (Dy : is_dynamic (p_conf p1) = true) by (now apply str_eq_spec). assert (Nb : is_bind (p_conf p1) = false) by (unfold is_bind; rewrite B; reflexivity).
  destruct (new_shared c p i D Cr Nb Dy) as (s0 & N0 & K0).
  destruct (run_shared after p1 i s0 F Nb Dy N0 K0) as (s & N & _ & W & free & ex & ws & _ & _ & C & P & R & _). exists s, ws. split; [exact N|]. split; [exact C|]. split; [exact W|].
  assert (ND : NoDup (free ++ base (v_workers s) ws)) by (eapply Permutation_NoDup; [apply Permutation_sym, P|apply numbers_nodup]). split.
  - clear -ND. induction free as [|x free IH]; [exact ND|]. inversion_clear ND. auto.
  - split.
    + intros w H Hw. apply (numbers_in (v_workers s)). eapply Permutation_in; [exact P|]. apply in_or_app. right. apply filter_In. split; [exact H|]. now apply Z.ltb_lt.
    + intros w H Hw. apply R. right. split; [exact H|lia].
Qed.
Print Assumptions C77_dynamic_worker_partial.
Definition dyn_conf : config := Config (fun f => match f with WorkerMode => w_dynamic | Mode => m_tcp | _ => [] end) (fun f => match f with MaxConn => 4 | WorkerPoolSize => 2 | _ => 0 end) (fun _ => false).
Example C77_dynamic_worker_case :
  let p := begin dyn_conf (Logger 0 None) in
  snd (step p (New NewServer)) = [Created 0] /\ strs (p_conf (fst (step p (New NewServer)))) WorkerMode = w_dynamic /\
  option_map v_conns (nth_error (p_servers (run (fst (step p (New NewServer))) [Connect 0 1; Connect 0 0; Connect 0 0; Close 0 0; Connect 0 5])) 0) = Some [Some 0; Some 2; Some 1].
Proof. vm_compute. auto. Qed.

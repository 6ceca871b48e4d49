(* Corner cases of C24 (jobs that are functions), C55 (a nil connection in the notifier), C58
   (maps without a grid size) and C82 (a goroutine a handler left behind). *)
From Coq Require Import ZArith List Bool Arith Lia Permutation.
From Verif Require Import Bytes Pack Request GoSlice Router Dispatch Workers Spec_Workers Workers_proofs Workers2_proofs Workers3_proofs Dispatch_proofs.
From Verif Require ShardMap ShardMap_proofs Notify Aoi ReqShare Spec_ReqShare.
Import ListNotations.

(* C24: a function given to the workers is started; it ends, or its panic stops only itself:
   the worker comes back in both cases. *)
Theorem C24_function_job : forall cf ls s tr c n p es,
  server_run cf ls = Some (s, tr) -> In (EvEnd c (JFunc n p) es) tr -> es = [HvStart n; if p then HvPanic else HvEnd n].
Proof. intros cf ls s tr c n p es E H. destruct (run_does cf ls s tr E c _ _ H) as [f Hf]. destruct p; now injection Hf as <-. Qed.
Print Assumptions C24_function_job.
Theorem C24_function_returns : forall ro n p, returns ro (JFunc n p).
Proof. intros ro n p. exists 0. now destruct p. Qed.
Print Assumptions C24_function_returns.
Example C24_function_case :
  let cf := {| cf_mode := ModeHash; cf_pool := 1; cf_max := 3; cf_routes := {| ro_slices_mode := true; ro_apis := []; ro_slices := [] |} |} in
  exists s tr, server_run cf [LAccept; LStart 0 0; LSend 0 (JFunc 7 true); LSend 0 (JFunc 8 false); LTake 0; LFinish 0 0; LTake 0; LFinish 0 0] = Some (s, tr) /\
    In (EvEnd 0 (JFunc 7 true) [HvStart 7; HvPanic]) tr /\ In (EvEnd 0 (JFunc 8 false) [HvStart 8; HvEnd 8]) tr.
Proof. do 2 eexists. split; [vm_compute; reflexivity|]. cbn. tauto. Qed.
Local Open Scope Z_scope.
(* C55: after a nil connection was registered, NotifyAll and NotifyBuffAll panic, whatever else
   is registered. *)
Theorem C55_nil_all_refuted : forall h id m buff msg data oks r ev m1,
  Notify.n_calls Notify.new_notify (h ++ [(Notify.NSet id None, Notify.NUnit, [])]) m -> Notify.n_call m (Notify.NAll buff msg data oks) r ev m1 -> r = Notify.NPanic.
Proof.
  intros h id m buff msg data oks r ev m1 C A. assert (I : ShardMap_proofs.minv (@Notify.new_notify)) by apply ShardMap_proofs.new_inv.
  revert I C. generalize Notify.new_notify. induction h as [|x h IH]; intros m0 I C.
  - cbn [app] in C. inversion C as [|m0' o r' ev' m2 h' m3 C1 C2]; subst. inversion C1; subst. inversion C2; subst. inversion A; subst.
    match goal with P : Permutation ?o (ShardMap.sm_entries _) |- _ => assert (N : In (Notify.gen_id id, None) o) end.
    { eapply Permutation_in; [apply Permutation_sym; eassumption|]. apply ShardMap_proofs.entries_in; [now apply ShardMap_proofs.set_inv|]. rewrite ShardMap_proofs.set_get by exact I.
      replace (ShardMap.key_eqb (Notify.gen_id id) (Notify.gen_id id)) with true; [reflexivity|]. symmetry. now apply ShardMap_proofs.key_eqb_eq. }
    replace (snd (Notify.send_all buff msg data ord oks)) with false; [reflexivity|]. symmetry. clear -N. revert oks N. induction ord as [|[k [c|]] ord IH]; intros oks N; [destruct N| |reflexivity].
    destruct N as [N|N]; [discriminate|]. cbn. specialize (IH (tl oks) N). destruct (Notify.send_all buff msg data ord (tl oks)). exact IH.
  - cbn [app] in C. inversion C as [|m0' o r' ev' m2 h' m3 C1 C2]; subst. apply (IH m2); [|exact C2]. inversion C1; subst; try exact I; [now apply ShardMap_proofs.set_inv|now apply ShardMap_proofs.remove_inv].
Qed.
Print Assumptions C55_nil_all_refuted.
Example C55_nil_all_case : exists m ev m1, Notify.n_calls Notify.new_notify ([(Notify.NSet 7 (Some 1), Notify.NUnit, [])] ++ [(Notify.NSet 8 None, Notify.NUnit, [])]) m /\
  Notify.n_call m (Notify.NAll true 5 [] [true]) Notify.NPanic ev m1.
Proof.
  eexists _, _, _. split; [eapply Notify.CCons; [apply Notify.CSet|eapply Notify.CCons; [apply Notify.CSet|apply Notify.CNil]]|].
  lazymatch goal with |- Notify.n_call ?m _ _ _ _ => exact (Notify.CAll m true 5 [] [true] (ShardMap.sm_entries m) (Permutation_refl _)) end.
Qed.

(* C58: the position of a player has a grid number exactly if the counts are not zero and the
   grids are at least one unit wide and long; otherwise the server divides by zero. *)
Theorem C58_defined : forall minx maxx cx miny maxy cy x y, let m := Aoi.new_aoi minx maxx cx miny maxy cy in
  Aoi.gid_by_pos m x y = None <-> cx = 0 \/ cy = 0 \/ Z.abs (maxx - minx) < Z.abs cx \/ Z.abs (maxy - miny) < Z.abs cy.
Proof.
  assert (Q : forall a b, b <> 0 -> (a ÷ b =? 0) = (Z.abs a <? Z.abs b)).
  { intros a b B. destruct (Z.ltb_spec (Z.abs a) (Z.abs b)) as [L|L].
    - apply Z.eqb_eq. pose proof (Z.quot_abs a b B) as Hq. rewrite Z.quot_small in Hq by lia. lia.
    - apply Z.eqb_neq. intros E. pose proof (Z.quot_abs a b B) as Hq. rewrite E in Hq. pose proof (Z.quot_rem' (Z.abs a) (Z.abs b)). pose proof (Z.rem_bound_pos (Z.abs a) (Z.abs b)). rewrite Hq in *. lia. }
  intros minx maxx cx miny maxy cy x y m. unfold Aoi.gid_by_pos, Aoi.width, Aoi.len, m, Aoi.new_aoi. cbn [Aoi.a_cx Aoi.a_cy Aoi.a_minx Aoi.a_maxx Aoi.a_miny Aoi.a_maxy].
  destruct (Z.eqb_spec cx 0) as [->|Nx]; [tauto|]. destruct (Z.eqb_spec cy 0) as [->|Ny]; [tauto|]. rewrite !Q by assumption.
  destruct (Z.ltb_spec (Z.abs (maxx - minx)) (Z.abs cx)), (Z.ltb_spec (Z.abs (maxy - miny)) (Z.abs cy)); cbn [orb]; (split; [intros E; try discriminate E; lia|intros E; try reflexivity; exfalso; lia]).
Qed.
Print Assumptions C58_defined.
Example C58_defined_case : Aoi.gid_by_pos (Aoi.new_aoi 0 10 20 0 10 2) 3 4 = None /\ Aoi.gid_by_pos (Aoi.new_aoi 0 10 2 0 10 2) 3 4 <> None.
Proof. split; vm_compute; [reflexivity|discriminate]. Qed.

(* C82: a goroutine that a handler starts and that uses the request after the handler has
   returned may see another connection's message. *)
Definition left_behind : list ReqShare.rslabel :=
  [ReqShare.RRead 1 11 None; ReqShare.RHand 0; ReqShare.RBack 0; ReqShare.RTake 0; ReqShare.RKeep 0; ReqShare.REnd 0 true; ReqShare.RRead 2 22 (Some 0%nat); ReqShare.ROp 0 ReqShare.OLook].
Theorem C82_left_behind_refuted : let tr := snd (ReqShare.rs_run true ReqShare.r_new left_behind) in
  Spec_ReqShare.once tr /\ Spec_ReqShare.quiet tr /\ exists tr1 tr2, tr = tr1 ++ ReqShare.RsLook ReqShare.After 0 2 22 :: tr2 /\ In (ReqShare.RsRead 0 1 11) tr1 /\
    ~ Spec_ReqShare.true_to tr1 (ReqShare.RsLook ReqShare.After 0 2 22).
Proof.
  split; [unfold Spec_ReqShare.once; vm_compute; repeat constructor; cbn; intuition discriminate|]. split; [intros s w H; vm_compute in H; intuition discriminate|].
  exists [ReqShare.RsRead 0 1 11; ReqShare.RsHand 0; ReqShare.RsRead 1 2 22], []. split; [vm_compute; reflexivity|]. split; [now left|]. intros (ks & H). vm_compute in H. discriminate.
Qed.
Print Assumptions C82_left_behind_refuted.

From Coq Require Import ZArith List Bool Arith Lia.
From Verif Require Import Bytes Pack Request Router Dispatch Workers Spec_Workers Workers_proofs Workers2_proofs.
Import ListNotations.
Local Open Scope Z_scope.

Lemma call_loop_mono fuel r : forall s es o, call_loop fuel r s = (es, o) -> o <> HFuel ->
  forall fuel', (fuel <= fuel')%nat -> call_loop fuel' r s = (es, o).
Proof.
  induction fuel as [|fuel IH]; intros s es o E Ho fuel' Hf; cbn [call_loop] in E.
  - injection E as <- <-. congruence.
  - destruct fuel' as [|fuel']; [lia|]. cbn [call_loop].
    destruct (rs_steps s <? 3); [|exact E].
    destruct (phase_body r (rs_steps s)) as [body|]; [|now apply IH; [..|lia]].
    destruct (run_hact false next_without_handlers body s) as [es1 o1]. destruct o1 as [s1| |]; [|exact E|exact E].
    destruct (call_loop fuel r (next_step s1)) as [es2 o2] eqn:E2.
    injection E as <- <-. now rewrite (IH _ _ _ E2 Ho fuel' ltac:(lia)).
Qed.

Lemma handle_mono fuel ro j es : handle fuel ro j = (es, GoRet) ->
  forall fuel', (fuel <= fuel')%nat -> handle fuel' ro j = (es, GoRet).
Proof.
  destruct j as [m|n p]; cbn [handle]; [|auto]. destruct (ro_slices_mode ro); [auto|].
  unfold do_msg_handler. destruct (find_router (ro_apis ro) (m_id m)) as [r|]; [|auto].
  intros E fuel' Hf. cbn [call] in *. destruct (call_loop fuel r (fresh_request m)) as [es0 o] eqn:Ec.
  assert (Ho : o <> HFuel) by (intros ->; discriminate).
  now rewrite (call_loop_mono _ _ _ _ _ Ec Ho fuel' Hf).
Qed.

Lemma does_fun ro j es es' : does ro j es -> does ro j es' -> es = es'.
Proof.
  intros [f E] [f' E']. pose proof (handle_mono f ro j es E (f + f')%nat ltac:(lia)) as H1.
  pose proof (handle_mono f' ro j es' E' (f + f')%nat ltac:(lia)) as H2. congruence.
Qed.

Lemma find_router_in {R} (l : list (Z * R)) id : find_router l id <> None <-> In id (map fst l).
Proof.
  unfold find_router. induction l as [|[k r] l IH]; cbn; [tauto|].
  destruct (Z.eqb_spec k id) as [->|N]; [split; [now left|discriminate]|].
  rewrite IH. split; [now right|]. intros [?|?]; [congruence|assumption].
Qed.

Lemma unrouted_handle ro m fuel : ~ routed ro (m_id m) -> handle fuel ro (JMsg m) = ([], GoRet).
Proof.
  unfold routed. cbn [handle]. destruct (ro_slices_mode ro); intros H.
  - unfold do_msg_handler_slices. destruct (find_router (ro_slices ro) (m_id m)) eqn:E; [|reflexivity].
    elim H. apply find_router_in. congruence.
  - unfold do_msg_handler. destruct (find_router (ro_apis ro) (m_id m)) eqn:E; [|reflexivity].
    elim H. apply find_router_in. congruence.
Qed.

Lemma run_does cf ls s tr : server_run cf ls = Some (s, tr) ->
  forall c j es, In (EvEnd c j es) tr -> does (cf_routes cf) j es.
Proof.
  unfold server_run. destruct (start_pool cf) as [s0|]; [|discriminate]. intros [= E] c j es Hin.
  pose proof (ended_handled cf ls s0 c j es) as H. rewrite E in H. now apply H.
Qed.

(* the handler of a routed message runs exactly as the request model says *)
Lemma does_slices ro m hs es s : ro_slices_mode ro = true -> find_router (ro_slices ro) (m_id m) = Some hs ->
  run_slices hs (fresh_request m) = (es, HDone s) -> does ro (JMsg m) es.
Proof. intros E1 E2 E3. exists 0%nat. cbn [handle]. rewrite E1. unfold do_msg_handler_slices. now rewrite E2, E3. Qed.

Lemma find_router_nodup {R} (l : list (Z * R)) id r :
  NoDup (map fst l) -> In (id, r) l -> find_router l id = Some r.
Proof.
  unfold find_router. induction l as [|[k r0] l IH]; cbn; [tauto|].
  intros Hnd Hin. inversion Hnd as [|? ? Hn Hnd']; subst.
  destruct (Z.eqb_spec k id) as [->|N].
  - destruct Hin as [[= <-]|Hin]; [reflexivity|]. elim Hn. change id with (fst (id, r)). now apply in_map.
  - destruct Hin as [[= -> _]|Hin]; [congruence|auto].
Qed.

Lemma does_routed_slices ro m hs es :
  ro_slices_mode ro = true -> NoDup (map fst (ro_slices ro)) -> In (m_id m, hs) (ro_slices ro) ->
  does ro (JMsg m) es -> exists o, run_slices hs (fresh_request m) = (es, o).
Proof.
  intros Hm Hnd Hin [f E]. cbn [handle] in E. rewrite Hm in E. unfold do_msg_handler_slices in E.
  rewrite (find_router_nodup _ _ _ Hnd Hin) in E. destruct (run_slices hs (fresh_request m)) as [es0 o].
  exists o. congruence.
Qed.

Lemma does_routed_phases ro m r es :
  ro_slices_mode ro = false -> NoDup (map fst (ro_apis ro)) -> In (m_id m, r) (ro_apis ro) ->
  does ro (JMsg m) es -> exists fuel o, call fuel (Some r) (fresh_request m) = (es, o) /\ o <> HFuel.
Proof.
  intros Hm Hnd Hin [f E]. cbn [handle] in E. rewrite Hm in E. unfold do_msg_handler in E.
  rewrite (find_router_nodup _ _ _ Hnd Hin) in E.
  destruct (call f (Some r) (fresh_request m)) as [es0 o] eqn:Ec.
  exists f, o. injection E as -> E. split; [exact Ec|]. intros ->. discriminate.
Qed.

(* Property theorems C16-C19, C21, C22, C67 (requests and routes). *)
From Coq Require Import ZArith List Bool Lia Permutation.
From Verif Require Import Bytes Pack Request Spec_Request Request_proofs
  GoSlice Router Spec_Router Router_proofs RequestHeap Spec_RequestHeap RequestHeap_proofs.
Import ListNotations.
Local Open Scope Z_scope.

Definition some_msg : message := new_msg_package 7 [Byte.x61; Byte.x62].

(* ---- C16: three phases ---- *)

(* Every run is a legal run of phases from PreHandle: in each phase exactly the
   user's code for that phase runs, and a phase that returns is followed by the phase the last Abort or Goto of its body asks for, or
   by the next one. *)
Theorem C16_phases : forall fuel r m es o,
  call fuel (Some r) (fresh_request m) = (es, o) ->
  phase_run r (completed o) (Some 0) es.
Proof.
  exact (fun fuel r m es o E =>
    proj1 (call_loop_phases fuel r (fresh_request m) es o eq_refl E)).
Qed.
Print Assumptions C16_phases.

Theorem C16_order : forall fuel r m es s,
  call fuel (Some r) (fresh_request m) = (es, HDone s) -> no_abort es -> no_goto es ->
  starts es = [0; 1; 2] /\ ends es = [0; 1; 2].
Proof.
  exact (fun fuel r m es s E => phases_no_redirect r es (C16_phases fuel r m es (HDone s) E)).
Qed.
Print Assumptions C16_order.

(* Abort stops all later phases (a later Goto of the same phase body would
   override it). *)
Theorem C16_abort : forall fuel r m es o t1 t2,
  call fuel (Some r) (fresh_request m) = (es, o) ->
  es = t1 ++ HvAbort :: t2 -> no_goto t2 -> starts t2 = [].
Proof.
  exact (fun fuel r m es o t1 t2 E => phases_abort r _ _ es (C16_phases fuel r m es o E) t1 t2).
Qed.
Print Assumptions C16_abort.

(* The phase whose last redirection is Goto(n) is followed by phase n, or by
   nothing when n is past PostHandle. *)
Theorem C16_goto : forall fuel r m es s t1 n t2 p rest,
  call fuel (Some r) (fresh_request m) = (es, HDone s) ->
  es = t1 ++ HvGoto n :: t2 ++ HvEnd p :: rest -> inside t2 -> last_redirect t2 = NoRedirect ->
  match valid_phase n with
  | Some q => exists rest', rest = HvStart q :: rest'
  | None => rest = []
  end.
Proof.
  exact (fun fuel r m es s t1 n t2 p rest E =>
    phases_goto r _ es (C16_phases fuel r m es (HDone s) E) t1 n t2 p rest).
Qed.
Print Assumptions C16_goto.

(* Without Goto a run ends. *)
Theorem C16_terminates : forall fuel r m es o,
  (4 <= fuel)%nat -> call fuel (Some r) (fresh_request m) = (es, o) -> no_goto es -> o <> HFuel.
Proof.
  intros fuel r m es o Hf E Hg ->.
  pose proof (proj2 (proj2 (call_loop_phases fuel r (fresh_request m) es HFuel eq_refl E)) eq_refl Hg).
  cbn in H. lia.
Qed.
Print Assumptions C16_terminates.

Definition plain_router : router := Router (HSet 1 2 HRet) (HGet 1 (fun _ => HRet)) HRet.
Definition jumping_router : router :=
  Router (HGet 5 (fun v => match v with None => HGoto 2 HRet | Some _ => HRet end))
         (HAbort HRet) (HGet 5 (fun v => match v with None => HSet 5 1 (HGoto 0 HRet) | Some _ => HRet end)).
Example C16_nonvacuous :
  (exists es s, call 4 (Some plain_router) (fresh_request some_msg) = (es, HDone s) /\
     no_abort es /\ no_goto es) /\
  (exists s, call 10 (Some jumping_router) (fresh_request some_msg) =
     ([HvStart 0; HvGot 5 None; HvGoto 2; HvEnd 0;
       HvStart 2; HvGot 5 None; HvSet 5 1; HvGoto 0; HvEnd 2;
       HvStart 0; HvGot 5 (Some 1); HvEnd 0; HvStart 1; HvAbort; HvEnd 1], HDone s)).
Proof.
  split.
  - do 2 eexists. split; [vm_compute; reflexivity|].
    split; [intros H|intros s H]; repeat (destruct H as [H|H]; [discriminate|]); exact H.
  - eexists. vm_compute. reflexivity.
Qed.

(* ---- C17: slice order ---- *)

(* The handlers that start are, in order, an initial piece of the registered ones
   (so each at most once), for any number of handlers and any calls to
   RouterSlicesNext. *)
Theorem C17_prefix : forall hs m es o,
  run_slices hs (fresh_request m) = (es, o) ->
  exists rest, map h_name hs = starts es ++ rest.
Proof. exact (fun hs m es o => slices_prefix hs (fresh_request m) es o eq_refl). Qed.
Print Assumptions C17_prefix.

(* With at most 127 handlers and no Abort or panic all of them start, and they
   have all returned when the run ends.  Missing from the full statement: longer
   lists, for which it is false (next theorem). *)
Theorem C17_order_partial : forall hs m es o,
  zlen hs <= 127 -> run_slices hs (fresh_request m) = (es, o) -> no_abort es -> no_panic es ->
  starts es = map h_name hs /\
  (zlen hs + next_calls es <= 127 -> exists s, o = HDone s) /\
  (forall s, o = HDone s -> Permutation (ends es) (map h_name hs)).
Proof.
  intros hs m es o Hl E Ha Hp.
  pose proof (slices_all hs (fresh_request m) es o Hl eq_refl E Ha Hp) as Hs.
  split; [exact Hs|]. split.
  - exact (proj1 (slices_done hs (fresh_request m) es o Hl eq_refl E Hp) Ha).
  - intros s ->. rewrite <- Hs. apply Permutation_sym. exact (ends_le_starts_done hs (fresh_request m) es s eq_refl E).
Qed.
Print Assumptions C17_order_partial.

(* Every run ends. *)
Theorem C17_terminates : forall hs m es o,
  run_slices hs (fresh_request m) = (es, o) -> o <> HFuel.
Proof. exact (fun hs m es o => slices_terminates hs (fresh_request m) es o eq_refl). Qed.
Print Assumptions C17_terminates.

(* The 8 bit index: with 128 handlers or more some are never run, whatever they
   do, and with 128 to 255 none is. *)
Theorem C17_too_many_refuted : forall hs m es o,
  128 <= zlen hs -> run_slices hs (fresh_request m) = (es, o) ->
  (length (starts es) < length hs)%nat /\ (zlen hs <= 255 -> es = []).
Proof. exact (fun hs m es o H => slices_too_many hs (fresh_request m) es o H eq_refl). Qed.
Print Assumptions C17_too_many_refuted.

(* With exactly 127 handlers, one superfluous RouterSlicesNext wraps the index
   and the run panics although no handler does. *)
Definition wrap_handlers : list handler :=
  Handler 0 (HNext HRet) :: map (fun n => Handler (Z.of_nat n) HRet) (seq 1 126).
Theorem C17_wrap_refuted : forall m,
  zlen wrap_handlers = 127 /\
  exists es, run_slices wrap_handlers (fresh_request m) = (es, HPanicked) /\ no_abort es /\ no_panic es.
Proof.
  intros m. split; [reflexivity|]. eexists. split; [vm_compute; reflexivity|].
  split; intros H; repeat (destruct H as [H|H]; [discriminate|]); exact H.
Qed.
Print Assumptions C17_wrap_refuted.

Definition nested_handlers : list handler :=
  [Handler 10 (HNext (HNext HRet)); Handler 11 (HSet 1 1 HRet); Handler 12 (HNext HRet); Handler 13 HRet].
Example C17_nonvacuous :
  zlen nested_handlers <= 127 /\
  (exists es s, run_slices nested_handlers (fresh_request some_msg) = (es, HDone s) /\
     no_abort es /\ no_panic es /\ zlen nested_handlers + next_calls es <= 127 /\
     starts es = [10; 11; 12; 13] /\ ends es = [11; 13; 12; 10]) /\
  128 <= zlen (repeat (Handler 1 HRet) 128).
Proof.
  split; [vm_compute; discriminate|]. split; [|vm_compute; discriminate].
  do 2 eexists. split; [vm_compute; reflexivity|].
  split; [intros H; cbn in H; intuition discriminate|].
  split; [intros H; cbn in H; intuition discriminate|].
  split; [vm_compute; discriminate|]. split; reflexivity.
Qed.

(* ---- C18: Abort in slices ---- *)

Theorem C18_no_start_after_abort : forall hs m es o t1 t2,
  run_slices hs (fresh_request m) = (es, o) -> es = t1 ++ HvAbort :: t2 -> starts t2 = [].
Proof. exact (fun hs m es o t1 t2 => abort_no_start hs (fresh_request m) es o t1 t2 eq_refl). Qed.
Print Assumptions C18_no_start_after_abort.

(* Handlers already running finish: every handler started has returned, when the
   list is not near the limit of the 8 bit index. *)
Theorem C18_running_finish_partial : forall hs m es o,
  zlen hs <= 127 -> run_slices hs (fresh_request m) = (es, o) -> no_panic es ->
  zlen hs + zlen (ends es) + next_calls es <= 126 ->
  Permutation (starts es) (ends es).
Proof.
  intros hs m es o Hl E Hp Hb.
  destruct (proj2 (slices_done hs (fresh_request m) es o Hl eq_refl E Hp) Hb) as [s ->].
  exact (ends_le_starts_done hs (fresh_request m) es s eq_refl E).
Qed.
Print Assumptions C18_running_finish_partial.

(* At the limit it is false: with 127 handlers, Abort in the second, called
   inside the first one's RouterSlicesNext, wraps the index and the request
   panics before the first handler finishes. *)
Definition abort_wrap_handlers : list handler :=
  Handler 0 (HNext HRet) :: Handler 1 (HAbort HRet) ::
  map (fun n => Handler (Z.of_nat n) HRet) (seq 2 125).
Theorem C18_running_finish_refuted : forall m,
  zlen abort_wrap_handlers = 127 /\
  run_slices abort_wrap_handlers (fresh_request m) =
    ([HvStart 0; HvNext; HvStart 1; HvAbort; HvEnd 1], HPanicked).
Proof. intros m. split; reflexivity. Qed.
Print Assumptions C18_running_finish_refuted.

Definition aborting_handlers : list handler :=
  [Handler 10 (HNext (HGet 4 (fun _ => HRet))); Handler 11 (HAbort (HSet 4 1 HRet)); Handler 12 HRet].
Example C18_nonvacuous :
  exists s, run_slices aborting_handlers (fresh_request some_msg) =
    ([HvStart 10; HvNext; HvStart 11; HvAbort; HvSet 4 1; HvEnd 11; HvGot 4 (Some 1); HvEnd 10], HDone s) /\
  zlen aborting_handlers + 2 + 1 <= 126.
Proof. eexists. split; [reflexivity|vm_compute; discriminate]. Qed.

(* ---- C19: registration ---- *)

(* For every program of registration calls (with its own slices, kept and
   overwritten at will, and any growth policy of append), every ID is bound to
   what the plain-list specification says, and the same calls panic. *)
Theorem C19_registration : forall (A : Type) (zero : A) grow os id,
  get_handlers (fst (rrun zero grow (new_router_slices zero) os)) id =
    bound_to (fst (reg_run empty_reg os)) id /\
  snd (rrun zero grow (new_router_slices zero) os) = snd (reg_run (@empty_reg A) os).
Proof. exact @registration_refines. Qed.
Print Assumptions C19_registration.

Theorem C19_stable : forall (A : Type) (zero : A) grow os1 os2 id hs,
  get_handlers (fst (rrun zero grow (new_router_slices zero) os1)) id = Some hs ->
  get_handlers (fst (rrun zero grow (new_router_slices zero) (os1 ++ os2))) id = Some hs.
Proof. exact @registration_stable. Qed.
Print Assumptions C19_stable.

(* The specification: what one registration call does. *)
Theorem C19_group_binding : forall (A : Type) (r : reg A) g id i a b hs own,
  nth_error (g_slices r) i = Some own -> nth_error (g_groups r) g = Some (a, b, hs) ->
  (a <= id <= b -> bound_to r id = None ->
   bound_to (fst (reg_step r (OpGroupAdd g id i))) id = Some (g_global r ++ hs ++ own) /\
   snd (reg_step r (OpGroupAdd g id i)) = false) /\
  (~ (a <= id <= b) \/ bound_to r id <> None -> reg_step r (OpGroupAdd g id i) = (r, true)).
Proof.
  intros A r g id i a b hs own Es Eg. cbn [reg_step]. rewrite Es, Eg. split.
  - intros Hr Hn. replace ((a <=? id) && (id <=? b)) with true by (symmetry; apply andb_true_iff; split; apply Z.leb_le; lia).
    unfold bind. rewrite Hn. cbn. unfold bound_to. cbn. now rewrite Z.eqb_refl.
  - intros [Ho|Hb].
    + destruct (Z.leb_spec a id); [|reflexivity]. destruct (Z.leb_spec id b); [lia|reflexivity].
    + destruct ((a <=? id) && (id <=? b)); [|reflexivity]. unfold bind. destruct (bound_to r id); [reflexivity|congruence].
Qed.
Print Assumptions C19_group_binding.

(* Three phase routers: one router per ID, a repeated ID panics and changes nothing. *)
Theorem C19_add_router : forall (R : Type) (apis : list (Z * R)) id r,
  match find_router apis id with
  | Some _ => add_router apis id r = None
  | None => exists apis', add_router apis id r = Some apis' /\
      forall id', find_router apis' id' = if id' =? id then Some r else find_router apis id'
  end.
Proof.
  intros R apis id r. unfold find_router, add_router.
  destruct (find (fun p => fst p =? id) apis) as [p|]; [reflexivity|].
  eexists. split; [reflexivity|]. intros id'. cbn. rewrite Z.eqb_sym. now destruct (id' =? id).
Qed.
Print Assumptions C19_add_router.

Definition some_program : list (rop Z) :=
  [OpSlice [1; 2]; OpUse 0; OpSlice [3]; OpGroup 10 20 1; OpSlice [4; 5]; OpGroupAdd 0 15 2;
   OpWrite 2 0 99; OpUse 2; OpGroupUse 0 2; OpGroupAdd 0 15 2; OpGroupAdd 0 21 2; OpGroupAdd 0 16 2].
Example C19_nonvacuous :
  let t := fst (rrun 0 (fun _ n => n) (new_router_slices 0) some_program) in
  get_handlers t 15 = Some [1; 2; 3; 4; 5] /\
  get_handlers t 16 = Some [1; 2; 99; 5; 3; 99; 5; 99; 5] /\
  snd (rrun 0 (fun _ n => n) (new_router_slices 0) some_program) =
    [false; false; false; false; false; false; false; false; false; true; true; false].
Proof. repeat split; reflexivity. Qed.

(* ---- C21: copies ---- *)

(* For every history of requests, copies and key writes, every key read gives
   what it would give if requests were independent values: a copy starts with the
   keys of its original and later writes to either are not seen in the other. *)
Theorem C21_keys : forall pooled os,
  key_observations (snd (qrun pooled qinit os)) = key_observations (snd (vrun [] os)).
Proof. exact keys_refine. Qed.
Print Assumptions C21_keys.

(* A copy has the same message ID and keys, and the same payload as long as no
   decoder has replaced the payload.  Missing: the response object, and the payload
   behind a decoder: false, see below. *)
Theorem C21_copy_partial : forall w r o,
  nth_error (w_objs w) r = Some o ->
  exists oc, nth_error (w_objs (fst (req_copy w r))) (snd (req_copy w r)) = Some oc /\
    m_id (o_msg oc) = m_id (o_msg o) /\
    (m_raw (o_msg o) = m_data (o_msg o) -> m_data (o_msg oc) = m_data (o_msg o)) /\
    (forall key, req_get (fst (req_copy w r)) (snd (req_copy w r)) key = req_get w r key).
Proof.
  intros w r o E. destruct (copy_fields w r o E) as (oc & E1 & E2 & E3 & _ & E5).
  exists oc. repeat split; auto. congruence.
Qed.
Print Assumptions C21_copy_partial.

(* The response object is never copied. *)
Theorem C21_response_refuted : forall w r o v,
  nth_error (w_objs w) r = Some o -> o_resp o = Some v ->
  req_get_resp (fst (req_copy w r)) (snd (req_copy w r)) = None.
Proof.
  intros w r o v E Er. destruct (copy_fields w r o E) as (oc & E1 & _ & _ & E4 & _).
  unfold req_get_resp. now rewrite E1.
Qed.
Print Assumptions C21_response_refuted.

(* The payload of the copy is the raw data: after a decoder it differs. *)
Theorem C21_payload_refuted : forall w r o,
  nth_error (w_objs w) r = Some o -> m_raw (o_msg o) <> m_data (o_msg o) ->
  exists oc, nth_error (w_objs (fst (req_copy w r))) (snd (req_copy w r)) = Some oc /\
    m_data (o_msg oc) <> m_data (o_msg o).
Proof.
  intros w r o E Hne. destruct (copy_fields w r o E) as (oc & E1 & _ & E3 & _).
  exists oc. split; [exact E1|congruence].
Qed.
Print Assumptions C21_payload_refuted.

(* A message as the TLV decoder leaves it: payload replaced, raw frame kept. *)
Definition decoded_msg : message := set_data some_msg [Byte.x62].
Example C21_nonvacuous :
  key_observations (snd (qrun true qinit
    [QNew None 1 some_msg; QSet 0 5 50; QCopy 0; QSet 0 5 51; QSet 1 6 60; QGet 0 5; QGet 1 5; QGet 0 6; QGet 1 6])) =
    [Some 51; Some 50; None; Some 60] /\
  m_raw (o_msg (with_resp (new_request 1 some_msg) (Some 3))) = m_data some_msg /\
  m_raw (o_msg (new_request 1 decoded_msg)) <> m_data decoded_msg.
Proof. repeat split; try reflexivity. vm_compute. discriminate. Qed.

(* ---- C22: pooling ---- *)

(* No key set on an earlier request is ever seen, for every history and every
   choice the pool makes (this is C21_keys read for pooled = true). *)
Theorem C22_keys : forall os,
  key_observations (snd (qrun true qinit os)) = key_observations (snd (vrun [] os)).
Proof. exact (keys_refine true). Qed.
Print Assumptions C22_keys.

(* A response the request itself set is what it reads. *)
Theorem C22_response_partial : forall pooled os,
  no_copies os ->
  Forall2 (fun got should => forall x, should = Some x -> got = Some x)
    (response_observations (snd (qrun pooled qinit os)))
    (response_observations (snd (vrun [] os))).
Proof. exact resp_own. Qed.
Print Assumptions C22_response_partial.

(* Without pooling the response is exact. *)
Theorem C22_response_unpooled : forall os,
  no_copies os ->
  response_observations (snd (qrun false qinit os)) = response_observations (snd (vrun [] os)).
Proof. exact resp_no_pool. Qed.
Print Assumptions C22_response_unpooled.

(* The run state is always fresh. *)
Theorem C22_control_state : forall pooled pick w conn m w' r,
  get_request pooled pick w conn m = (w', r) ->
  exists o, nth_error (w_objs w') r = Some o /\ o_conn o = Some conn /\ o_msg o = m /\
    o_steps o = 0 /\ o_need o = true /\ o_index o = -1 /\ o_keys o = None.
Proof. exact control_fresh. Qed.
Print Assumptions C22_control_state.

(* With pooling a request that set no response reads the one of an earlier
   request. *)
Theorem C22_response_refuted : exists os,
  no_copies os /\
  response_observations (snd (qrun true qinit os)) = [Some 42] /\
  response_observations (snd (vrun [] os)) = [None].
Proof.
  exists [QNew None 1 some_msg; QSetResp 0 42; QPut 0; QNew (Some 0%nat) 2 some_msg; QGetResp 1].
  split; [|split; reflexivity].
  intros h H. cbn in H. intuition discriminate.
Qed.
Print Assumptions C22_response_refuted.

Example C22_nonvacuous :
  let os := [QNew None 1 some_msg; QSet 0 5 50; QSetResp 0 7; QGetResp 0; QPut 0;
             QNew (Some 0%nat) 2 some_msg; QGet 1 5; QSetResp 1 8; QGetResp 1] in
  no_copies os /\ length (w_objs (q_world (fst (qrun true qinit os)))) = 1%nat /\
  key_observations (snd (qrun true qinit os)) = [None] /\
  response_observations (snd (qrun true qinit os)) = [Some 7; Some 8].
Proof. cbn. split; [intros h H; cbn in H; intuition discriminate|]. repeat split; reflexivity. Qed.

(* ---- C67: the context inside one run ---- *)

(* Whatever the handlers of a request do, each Get, GetResponse and GetMessage
   gives what the same or an earlier handler of this request stored last (nothing
   if none did), and the request's own message; also when the run breaks off. *)
Theorem C67_phases : forall fuel r m es o,
  call fuel (Some r) (fresh_request m) = (es, o) -> reads_back m es.
Proof. exact call_reads. Qed.
Print Assumptions C67_phases.

Theorem C67_slices : forall hs m es o,
  run_slices hs (fresh_request m) = (es, o) -> reads_back m es.
Proof. exact slices_reads. Qed.
Print Assumptions C67_slices.

(* A handler stores what a later one reads, and the later one decides by it. *)
Definition sharing_handlers : list handler :=
  [Handler 1 (HMsg (fun m => HSet 9 (m_id m) (HNext (HGetResp (fun _ => HRet)))));
   Handler 2 (HGet 9 (fun v => match v with Some 7 => HSetResp 70 (HSet 9 8 HRet) | _ => HAbort HRet end));
   Handler 3 (HGet 9 (fun _ => HGet 4 (fun _ => HRet)))].
Example C67_nonvacuous :
  exists s, run_slices sharing_handlers (fresh_request some_msg) =
    ([HvStart 1; HvMsg some_msg; HvSet 9 7; HvNext;
      HvStart 2; HvGot 9 (Some 7); HvSetResp 70; HvSet 9 8; HvEnd 2;
      HvStart 3; HvGot 9 (Some 8); HvGot 4 None; HvEnd 3;
      HvGotResp (Some 70); HvEnd 1], HDone s).
Proof. eexists. vm_compute. reflexivity. Qed.

(* C82: requests are not mixed up when request objects are used again. *)
From Coq Require Import ZArith List Bool Lia.
From Verif Require Import ReqShare Spec_ReqShare ReqShare_proofs.
Import ListNotations.
Local Open Scope nat_scope.

(* Without the pool (RequestPoolMode false), whoever looks at a request, at any time, sees
   what was read and what was done to that request. *)
Theorem C82_unpooled : forall ls tr1 e tr2,
  snd (rs_run false r_new ls) = tr1 ++ e :: tr2 -> true_to tr1 e.
Proof. intros ls tr1 e tr2 H. exact (u_run ls r_new [] u_new tr1 e tr2 H). Qed.
Print Assumptions C82_unpooled.

(* With the pool, interceptors before passing the request on and handlers do, as long as
   each request is passed on at most once and only its handler changes it afterwards.
   Missing: the code after Proceed, and requests kept by other goroutines (refuted below). *)
Theorem C82_pooled_partial : forall ls tr1 e tr2,
  once (snd (rs_run true r_new ls)) -> quiet (snd (rs_run true r_new ls)) ->
  snd (rs_run true r_new ls) = tr1 ++ e :: tr2 -> in_time e -> true_to tr1 e.
Proof. intros ls tr1 e tr2 O Q H. exact (p_run ls r_new [] p_new O Q tr1 e tr2 H). Qed.
Print Assumptions C82_pooled_partial.

(* So a handler sees the connection and the message its request was read with, when nobody
   replaced that message. *)
Theorem C82_handler_sees_own_message : forall pooled ls tr1 s c m tr2,
  once (snd (rs_run pooled r_new ls)) -> quiet (snd (rs_run pooled r_new ls)) ->
  snd (rs_run pooled r_new ls) = tr1 ++ RsLook Inside s c m :: tr2 ->
  exists m0, In (RsRead s c m0) tr1 /\ ((forall p m', ~ In (RsSet p s (WMsg m')) tr1) -> m0 = m).
Proof.
  intros pooled ls tr1 s c m tr2 O Q H. assert (C : true_to tr1 (RsLook Inside s c m)) by (destruct pooled; [exact (C82_pooled_partial _ _ _ _ O Q H Logic.I)|exact (C82_unpooled _ _ _ _ H)]).
  destruct C as (ks & C). clear - C. revert c m ks C. induction tr1 as [|e tr IH] using rev_ind; intros c m ks; [discriminate|]. rewrite content_app. cbn [fold_left]. 
  assert (Old : content s tr = Some (Ob c m ks) -> exists m0, In (RsRead s c m0) (tr ++ [e]) /\ ((forall p m', ~ In (RsSet p s (WMsg m')) (tr ++ [e])) -> m0 = m)).
  { intros H. destruct (IH _ _ _ H) as (m0 & I & E). exists m0. split; [apply in_app_iff; now left|]. intros N. apply E. intros p m' I'. apply (N p m'), in_app_iff. now left. }
  destruct e as [s' c' m'|s'|p s' c' m'|p s' k v|p s' w]; cbn [content_step]; try exact Old.
  - destruct (Nat.eqb_spec s' s) as [->|_]; [|exact Old]. intros [= -> -> <-]. exists m. split; [apply in_app_iff; right; now left|auto].
  - destruct (Nat.eqb_spec s' s) as [->|_]; [|exact Old]. destruct (content s tr) as [[c0 m0 k0]|] eqn:E; [|discriminate]. cbn [option_map]. destruct w as [m1|k v]; cbn [apply_write ob_conn ob_msg ob_keys]; intros [= -> <- <-].
    + destruct (IH _ _ _ eq_refl) as (m2 & I & _). exists m2. split; [apply in_app_iff; now left|]. intros N. exfalso. apply (N p m1), in_app_iff. right. now left.
    + destruct (IH _ _ _ eq_refl) as (m2 & I & E2). exists m2. split; [apply in_app_iff; now left|]. intros N. apply E2. intros p' m' I'. apply (N p' m'), in_app_iff. now left.
Qed.
Print Assumptions C82_handler_sees_own_message.

(* Two connections' requests through the pool: connection 1's object is used again for
   connection 2, whose handler sees its own message, keys and connection. *)
Definition shared : list rslabel :=
  [RRead 1 11 None; ROp 0 (OWrite (WKey 5 50)); RHand 0; RBack 0; RTake 0; ROp 0 (OGet 5); ROp 0 OLook; REnd 0 true;
   RRead 2 22 (Some 0); ROp 0 (OGet 5); RHand 0; RBack 0; RTake 0; ROp 0 OLook; ROp 0 (OWrite (WMsg 23)); ROp 0 OLook].
Example C82_case :
  once (snd (rs_run true r_new shared)) /\ quiet (snd (rs_run true r_new shared)) /\
  snd (rs_run true r_new shared) =
    [RsRead 0 1 11; RsSet Before 0 (WKey 5 50); RsHand 0; RsGet Inside 0 5 (Some 50%Z); RsLook Inside 0 1 11;
     RsRead 1 2 22; RsGet Before 1 5 None; RsHand 1; RsLook Inside 1 2 22; RsSet Inside 1 (WMsg 23); RsLook Inside 1 2 23] /\
  length (r_objs (fst (rs_run true r_new shared))) = 1.
Proof.
  split; [unfold once; vm_compute; repeat constructor; cbn; intuition discriminate|]. split; [|split; vm_compute; reflexivity].
  intros s w H. vm_compute in H. intuition discriminate.
Qed.

(* Code after Proceed - the library's own log line after queueing among it - can see another
   connection's message. *)
Definition late_look : list rslabel :=
  [RRead 1 11 None; RHand 0; RTake 1; REnd 1 true; RRead 2 22 (Some 0); ROp 0 OLook].
Theorem C82_after_refuted :
  once (snd (rs_run true r_new late_look)) /\ quiet (snd (rs_run true r_new late_look)) /\
  exists tr1 tr2, snd (rs_run true r_new late_look) = tr1 ++ RsLook After 0 2 22 :: tr2 /\ In (RsRead 0 1 11) tr1 /\
    ~ true_to tr1 (RsLook After 0 2 22).
Proof.
  split; [unfold once; vm_compute; repeat constructor; cbn; intuition discriminate|]. split; [intros s w H; vm_compute in H; intuition discriminate|].
  exists [RsRead 0 1 11; RsHand 0; RsRead 1 2 22], []. split; [vm_compute; reflexivity|]. split; [now left|]. intros (ks & H). vm_compute in H. discriminate.
Qed.
Print Assumptions C82_after_refuted.

(* A key set after Proceed turns up in another connection's request. *)
Definition late_set : list rslabel :=
  [RRead 1 11 None; RHand 0; RTake 1; REnd 1 true; RRead 2 22 (Some 0); ROp 0 (OWrite (WKey 5 50)); RHand 1; RTake 2; ROp 2 (OGet 5)].
Theorem C82_write_after_refuted :
  once (snd (rs_run true r_new late_set)) /\
  exists tr1 tr2, snd (rs_run true r_new late_set) = tr1 ++ RsGet Inside 1 5 (Some 50%Z) :: tr2 /\
    (forall p w, ~ In (RsSet p 1 w) tr1) /\ ~ true_to tr1 (RsGet Inside 1 5 (Some 50%Z)).
Proof.
  split; [unfold once; vm_compute; repeat constructor; cbn; intuition discriminate|].
  exists [RsRead 0 1 11; RsHand 0; RsRead 1 2 22; RsSet After 0 (WKey 5 50); RsHand 1], []. split; [vm_compute; reflexivity|]. split; [intros p w H; cbn in H; intuition discriminate|].
  intros (x & H & E). vm_compute in H. injection H as <-. vm_compute in E. discriminate.
Qed.
Print Assumptions C82_write_after_refuted.

(* An interceptor that passes a request on twice makes two connections share one object: a
   handler sees another connection's message. *)
Definition twice : list rslabel :=
  [RRead 1 11 None; RHand 0; RHand 0; RBack 0; RTake 0; RTake 1; REnd 0 true; REnd 0 true;
   RRead 2 22 (Some 0); RHand 0; RBack 0; RTake 0; RRead 3 33 (Some 0); ROp 0 OLook].
Theorem C82_twice_refuted :
  quiet (snd (rs_run true r_new twice)) /\
  exists tr1 tr2, snd (rs_run true r_new twice) = tr1 ++ RsLook Inside 1 3 33 :: tr2 /\ In (RsRead 1 2 22) tr1 /\
    ~ true_to tr1 (RsLook Inside 1 3 33).
Proof.
  split; [intros s w H; vm_compute in H; intuition discriminate|].
  exists [RsRead 0 1 11; RsHand 0; RsHand 0; RsRead 1 2 22; RsHand 1; RsRead 2 3 33], []. split; [vm_compute; reflexivity|]. split; [cbn; tauto|]. intros (ks & H). vm_compute in H. discriminate.
Qed.
Print Assumptions C82_twice_refuted.

(* The same runs without the pool. *)
Example C82_unpooled_case :
  snd (rs_run false r_new late_look) = [RsRead 0 1 11; RsHand 0; RsRead 1 2 22; RsLook After 0 1 11] /\
  snd (rs_run false r_new twice) = [RsRead 0 1 11; RsHand 0; RsHand 0; RsRead 1 2 22; RsHand 1; RsRead 2 3 33; RsLook Inside 1 2 22].
Proof. split; vm_compute; reflexivity. Qed.

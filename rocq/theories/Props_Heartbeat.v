(* C38: heartbeat liveness.  C39: heartbeat routing. *)
From Coq Require Import ZArith List Bool Lia Sorted.
From Verif Require Import Bytes Router Heartbeat Spec_Heartbeat Heartbeat_proofs.
Import ListNotations.
Local Open Scope Z_scope.

(* C38. A check made at time [now], after any history with a clock that does not
   go back: the connection is declared dead, once, if it is closed or every recorded
   activity is at least the configured maximum old; otherwise exactly one
   heartbeat is sent.  (The maximum in seconds is one whose nanoseconds fit in an
   int64.) *)
Theorem C38_check secs h ls now : 0 <= secs <= 9223372036 -> clock_ok ls -> checking ls = true ->
  let done := snd (h_run secs (hconn_new (Some h)) ls) in
  let after := snd (h_run secs (hconn_new (Some h)) (ls ++ [KTick now])) in
  ((In KClosed ls \/ forall a, In a (activities ls) -> now - a >= nanoseconds secs) -> after = done ++ [ANotAlive (ck_dead h)]) /\
  (~ In KClosed ls -> (exists a, In a (activities ls) /\ now - a < nanoseconds secs) -> after = done ++ [one_beat h]).
Proof.
  intros Hs Hc Ht. cbv zeta. rewrite (next_tick secs h ls now), Ht. pose proof (dead_iff secs h ls now Hs Hc) as D. cbv zeta in D.
  split; [intros X; now rewrite (proj2 D X)|]. intros X (a & Ia & La).
  destruct (check_is secs (fst (h_run secs (hconn_new (Some h)) ls)) h now) as [E|E]; [|now rewrite E].
  apply D in E. destruct E as [E|E]; [contradiction|]. specialize (E a Ia). lia.
Qed.
Print Assumptions C38_check.

(* Nothing else does either of these: not a tick before the start or after the
   quit, nor reads, pings, the closing of the connection. *)
Theorem C38_only_checks secs h ls l : (checking ls = false \/ forall now, l <> KTick now) ->
  snd (h_run secs (hconn_new (Some h)) (ls ++ [l])) = snd (h_run secs (hconn_new (Some h)) ls).
Proof.
  intros H. assert (X : (exists now, l = KTick now) \/ forall now, l <> KTick now) by (destruct l; (now right) || (left; eexists; reflexivity)).
  destruct X as [[now ->]|X]; [|now apply next_other]. destruct H as [H|H]; [|now elim (H now)].
  rewrite (next_tick secs h ls now), H. apply app_nil_r.
Qed.
Print Assumptions C38_only_checks.

(* A connection active at intervals shorter than the maximum is never declared dead. *)
Theorem C38_never_dead secs h ls a : 0 <= secs <= 9223372036 -> clock_ok ls -> ~ In KClosed ls -> always_active secs ls ->
  In a (snd (h_run secs (hconn_new (Some h)) ls)) -> is_beat a = true.
Proof. exact (never_dead secs h ls a). Qed.
Print Assumptions C38_never_dead.

(* The checker each connection of a server gets is a clone: it does what the configured one would. *)
Theorem C38_clone secs h ls : snd (h_run secs (hconn_new (Some (clone h))) ls) = snd (h_run secs (hconn_new (Some h)) ls).
Proof. now destruct h. Qed.
Print Assumptions C38_clone.
Example C38_clone_case : snd (h_run 1 (hconn_new (Some (clone (Checker Default Default 7 Default [] (Some 3))))) [KStart; KStarted 0; KTick 1; KQuit; KTick 2]) = [ABeat 3].
Proof. reflexivity. Qed.

(* One second.  Reads at 0.5 s and 1.2 s (an empty one at 1.1 s), checks at 0.9 s, 2.1 s and
   2.2 s; then closed. *)
Example C38_case :
  let ls := [KStart; KStarted 0; KRead 5 500000000; KTick 900000000; KRead 0 1100000000; KRead 1 1200000000; KTick 2199999999] in
  clock_ok ls /\ always_active 1 ls /\ checking ls = true /\
  snd (h_run 1 (hconn_new (Some new_checker)) (ls ++ [KTick 2200000000; KRead 1 2300000000; KClosed; KTick 2300000001; KQuit; KTick 3000000000])) =
    [ASent default_id Default; ASent default_id Default; ANotAlive Default; ANotAlive Default].
Proof.
  cbv zeta. split; [unfold clock_ok; cbn; repeat constructor; lia|]. split; [|split; reflexivity].
  intros b now after E.
  assert (X : (b = [KStart; KStarted 0; KRead 5 500000000] /\ now = 900000000) \/
              (b = [KStart; KStarted 0; KRead 5 500000000; KTick 900000000; KRead 0 1100000000; KRead 1 1200000000] /\ now = 2199999999)).
  { do 3 (destruct b as [|? b]; [discriminate|]; injection E as <- E).
    destruct b as [|? b]; [injection E as <- E; auto|]. injection E as <- E.
    do 2 (destruct b as [|? b]; [discriminate|]; injection E as <- E).
    destruct b as [|? b]; [injection E as <- E; auto|]. injection E as <- E. now destruct b. }
  destruct X as [[-> ->]|[-> ->]]; [exists 500000000|exists 1200000000]; (split; [cbn; auto|reflexivity]).
Qed.

(* C39. Full statement: an option with a custom ID and router makes exactly that
   router handle the messages of that ID.  Proved for the three phase router, on
   the server and on the client, after any earlier and before any later
   registrations: exactly that router handles the ID, the connections' checkers
   send that ID with the message function given and report to the function given,
   and no other ID is affected. *)
Theorem C39_router_partial client os op r s :
  op_router op = Some r -> op_id op <> default_id ->
  start_heartbeat (host_run (host_new client false) os) (Some op) = Some s ->
  (forall after, handled_by (host_run s after) (op_id op) = [User r]) /\
  (exists k, conn_checker s = Some k /\ ck_id k = op_id op /\
     ck_make k = chosen (op_make op) /\ ck_dead k = chosen (op_dead op)) /\
  (forall id, id <> op_id op -> handled_by s id = handled_by (host_run (host_new client false) os) id).
Proof. exact (custom_router client os op r s). Qed.
Print Assumptions C39_router_partial.
Example C39_case :
  let op := HbOption None None 7 (Some 42) [] in let os := [HoRoute 1 5; HoBeat None] in
  exists s, start_heartbeat (host_run (host_new false false) os) (Some op) = Some s /\
    handled_by (host_run s [HoRoute 7 9; HoRoute 8 9]) 7 = [User 42] /\ handled_by s default_id = [Default].
Proof. eexists. repeat split; reflexivity. Qed.

(* Finding: in slices mode the default handler runs as well, before the custom
   ones (after the global handlers). *)
Theorem C39_slices_partial os op h hs s :
  op_slices op = h :: hs -> op_id op <> default_id ->
  start_heartbeat (host_run (host_new false true) os) (Some op) = Some s ->
  forall after, handled_by (host_run s after) (op_id op) = ho_use (host_run (host_new false true) os) ++ Default :: map User (h :: hs).
Proof. exact (custom_slices os op h hs s). Qed.
Print Assumptions C39_slices_partial.
Theorem C39_slices_refuted id h hs : id <> default_id -> exists s,
  start_heartbeat (host_new false true) (Some (HbOption None None id None (h :: hs))) = Some s /\
  handled_by s id = Default :: map User (h :: hs) /\ handled_by s id <> map User (h :: hs).
Proof.
  intros Hid. unfold start_heartbeat, configured, bind_slices, add_slices. cbn.
  destruct (Z.eqb_spec id default_id); [contradiction|]. cbn. eexists. split; [reflexivity|].
  unfold handled_by. cbn. rewrite Z.eqb_refl. cbn. split; [reflexivity|discriminate].
Qed.
Print Assumptions C39_slices_refuted.
(* Finding: a custom router for the default ID is silently dropped. *)
Theorem C39_default_id_refuted client r : exists s,
  start_heartbeat (host_new client false) (Some (HbOption None None default_id (Some r) [])) = Some s /\
  handled_by s default_id = [Default].
Proof. eexists. split; reflexivity. Qed.
Print Assumptions C39_default_id_refuted.
(* Finding: a client in a process in slices mode never runs its heartbeat router
   (it can only use the other table). *)
Theorem C39_client_slices_refuted id r os : id <> default_id ->
  handled_by (host_run (host_new true true) os) id = [] /\
  forall s, start_heartbeat (host_run (host_new true true) os) (Some (HbOption None None id (Some r) [])) = Some s -> handled_by s id = [].
Proof.
  intros Hid. assert (T : forall os s, ho_slices s = true -> ho_client s = true -> ho_table s = [] -> ho_table (host_run s os) = []).
  { clear. induction os as [|o os IH]; intros s H1 H2 H3; cbn; [exact H3|].
    destruct (host_mode [o] s) as [M1 M2]. cbn in M1, M2. apply IH; [congruence|congruence|].
    unfold host_step. destruct (host_try s o) as [s'|] eqn:E; [|exact H3]. destruct o; cbn in E.
    - unfold add_route in E. rewrite H1, H2 in E. cbn in E. destruct (add_router _ _ _); [|discriminate]. now injection E as <-.
    - unfold add_slices in E. rewrite H1, H2 in E. discriminate.
    - unfold use_slices in E. rewrite H1, H2 in E. discriminate.
    - unfold start_heartbeat in E. rewrite H1, H2 in E. cbn in E. unfold add_route in E. rewrite H1, H2 in E. cbn in E.
      destruct (add_router _ _ _); [|discriminate]. now injection E as <-. }
  destruct (host_mode os (host_new true true)) as [M1 M2]. cbn in M1, M2.
  pose proof (T os (host_new true true) eq_refl eq_refl eq_refl) as Tb.
  split; [unfold handled_by; now rewrite M1, Tb|]. intros s. unfold start_heartbeat. rewrite M1, M2. cbn [andb negb].
  unfold add_route. rewrite M1, M2. cbn [andb negb]. destruct (add_router _ _ _); [|discriminate]. intros [= <-]. unfold handled_by. cbn.
  now rewrite ?M1, Tb.
Qed.
Print Assumptions C39_client_slices_refuted.

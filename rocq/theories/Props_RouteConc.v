(* C104.  Routes added by several goroutines, or while messages are handled.
   Theorems about the model in RouteConc.v. *)
From Coq Require Import ZArith List Bool Arith Lia.
From Verif Require Import RouteConc Spec_RouteConc RouteConc_proofs.
Import ListNotations.

(* As long as no two calls overlap and no message is looked up during a call, the
   process lives, and every call and every lookup has the effect and result of
   registration happening at once.  Missing: calls that overlap, and calls while
   messages are handled; see the refutations. *)
Theorem C104_sequential_partial : forall n ls, let s := run (init n) ls in
  one_at_a_time (init n) ls ->
  s_dead s = false /\
  (quiet s -> let b := fold_left at_once ls empty_book in
   s_apis s = b_apis b /\ s_slices s = b_slices b /\ s_handlers s = b_used b /\ s_log s = b_log b).
Proof.
  intros n ls s H. destruct (sequential n ls H) as (D & Q). split; [exact D|]. intros q b.
  specialize (Q q). fold s in Q. fold b in Q. rewrite <- Q. repeat split.
Qed.
Print Assumptions C104_sequential_partial.
Definition steps (t n : nat) : list label := repeat (Step t) n.
Definition setup : list label :=
  Call 0 (Use [1%Z]) :: steps 0 2 ++ Call 1 (AddSlices 5 [9%Z]) :: steps 1 6 ++ Look Slices 5 ::
  Call 0 (AddSlices 5 [8%Z]) :: steps 0 1 ++ Call 0 (AddRouter 7 4) :: steps 0 3 ++ [Look Classic 7; Look Classic 8].
Example C104_sequential_case : one_at_a_time (init 2) setup /\ quiet (run (init 2) setup) /\
  s_log (run (init 2) setup) =
  [Done 0 (Use [1%Z]); Done 1 (AddSlices 5 [9%Z]); Found Slices 5 (Some [Some 1%Z; Some 9%Z]);
   Panicked 0 (AddSlices 5 [8%Z]); Done 0 (AddRouter 7 4); Found Classic 7 (Some [Some 4%Z]); Found Classic 8 None].
Proof.
  split; [|split; [|reflexivity]].
  - vm_compute. repeat match goal with
      | |- _ /\ _ => split | |- Forall _ _ => constructor | |- (_ <= _)%nat => lia | |- True => exact I | |- _ = _ => reflexivity end.
  - vm_compute. repeat constructor.
Qed.

(* Whatever went on before: once no call is under way, messages can be looked up by
   any number of workers, and get what is in the tables. *)
Theorem C104_settled : forall n ls looks, let s := run (init n) ls in
  quiet s -> s_dead s = false ->
  let s' := run s (map (fun p => Look (fst p) (snd p)) looks) in
  s_dead s' = false /\ s_apis s' = s_apis s /\ s_slices s' = s_slices s /\
  s_log s' = s_log s ++ map (fun p => Found (fst p) (snd p) (look (snd p) (table_of (fst p) s))) looks.
Proof.
  intros n ls looks s. clearbody s. clear n ls. cbv zeta. revert s.
  induction looks as [|[k id] looks IH]; intros s Q D.
  - cbn. rewrite app_nil_r. auto.
  - cbn [map run fold_left fst snd].
    assert (E : step s (Look k id) = emit s (Found k id (look id (table_of k s)))).
    { unfold step. rewrite D. unfold touch. now rewrite (quiet_busy k s Q). }
    rewrite E. destruct (IH (emit s (Found k id (look id (table_of k s)))) Q D) as (A & B & C & F).
    unfold run in *. rewrite A, B, C, F. repeat split. cbn [emit s_log]. rewrite <- app_assoc. reflexivity.
Qed.
Print Assumptions C104_settled.
Example C104_settled_case : quiet (run (init 2) setup) /\ s_dead (run (init 2) setup) = false.
Proof. split; [exact (proj1 (proj2 C104_sequential_case))|reflexivity]. Qed.

(* In all schedules: a message that looks for its handler after a call that
   registers its ID has returned finds one. *)
Theorem C104_found : forall n ls a t c b k id r d,
  s_log (run (init n) ls) = a ++ Done t c :: b ++ Found k id r :: d -> registers c k id -> r <> None.
Proof. intros n ls. exact (proj2 (proj2 (found_run n ls))). Qed.
Print Assumptions C104_found.
Example C104_found_case : let ls := Call 0 (AddRouter 7 4) :: Call 1 (AddSlices 7 [5%Z]) :: steps 0 2 ++ Step 1 :: steps 0 1 ++ [Look Classic 7] in
  s_log (run (init 2) ls) = [] ++ Done 0 (AddRouter 7 4) :: [] ++ Found Classic 7 (Some [Some 4%Z]) :: [] /\
  registers (AddRouter 7 4) Classic 7.
Proof. split; [reflexivity|split; reflexivity]. Qed.

(* In all schedules: the handlers found for an ID were given to a call for that
   ID, or to Use; a router was given for that ID. *)
Theorem C104_own : forall n ls k id v,
  In (Found k id (Some v)) (s_log (run (init n) ls)) ->
  (forall h, In (Some h) v -> given ls k id h) /\ (k = Classic -> exists h, v = [Some h] /\ given ls k id h).
Proof.
  intros n ls k id v H. destruct (found_own n ls k id v H) as (A & B). split; [exact A|].
  intros E. destruct (B E) as (h & ->). exists h. split; [reflexivity|]. apply A. now left.
Qed.
Print Assumptions C104_own.
Example C104_own_case : In (Found Slices 5 (Some [Some 1%Z; Some 9%Z])) (s_log (run (init 2) setup)).
Proof. vm_compute. auto. Qed.

(* In all schedules: the process ends only when a lookup, or a call's look at the
   same table, comes while another call is inside its map assignment. *)
Theorem C104_dead_why : forall n ls l, let s := run (init n) ls in
  s_dead s = false -> s_dead (run (init n) (ls ++ [l])) = true ->
  exists u c id v, nth u (s_pcs s) Idle = Writing c id v /\
    match l with
    | Look k _ => k = kind_of c
    | Step t => t <> u /\
      match nth t (s_pcs s) Idle with
      | Begun (AddRouter _ _) | Inserting _ _ => kind_of c = Classic
      | Begun (AddSlices _ _) | Appending _ _ _ => kind_of c = Slices
      | _ => False
      end
    | Call _ _ => False
    end.
Proof.
  intros n ls l s D H. rewrite run_app in H. cbn [run fold_left] in H.
  destruct (dead_step s l D H) as (k & u & c & id & v & E & K & R). exists u, c, id, v. split; [exact E|].
  destruct l as [t c'|t|k' i]; [exact R| |congruence].
  destruct R as (R1 & R2). split; [exact R1|].
  destruct (nth t (s_pcs s) Idle) as [|[i h|i hs|hs]|i h|i hs|i hs m|i hs m|i hs m|c0 i w|hs new]; cbn in R2; try contradiction; try congruence.
  - destruct R2 as (_ & <-). exact K.
  - destruct R2 as (_ & <-). exact K.
  - destruct R2 as (R2 & _). now elim R2.
Qed.
Print Assumptions C104_dead_why.
Definition crash : list label :=
  Call 0 (AddRouter 1 10) :: steps 0 3 ++ Call 0 (AddRouter 2 20) :: steps 0 2 ++ [Look Classic 1].
Example C104_dead_why_case : exists ls l, crash = ls ++ [l] /\
  s_dead (run (init 1) ls) = false /\ s_dead (run (init 1) (ls ++ [l])) = true.
Proof. exists (removelast crash), (Look Classic 1). repeat split. Qed.

(* Refuted: a route that is added while messages for other routes are handled ends
   the process. *)
Theorem C104_crash_refuted : exists ls, In (Done 0 (AddRouter 1 10)) (s_log (run (init 1) ls)) /\
  s_dead (run (init 1) ls) = false /\ s_dead (run (init 1) (ls ++ [Look Classic 1])) = true.
Proof. exists (removelast crash). vm_compute. auto. Qed.
Print Assumptions C104_crash_refuted.

(* Refuted: two calls for one ID both return; one router is lost, and with handler
   slices both sets of handlers are run for each message. *)
Theorem C104_twice_refuted :
  (exists ls, let s := run (init 2) ls in s_dead s = false /\
     s_log s = [Done 0 (AddRouter 1 10); Done 1 (AddRouter 1 20); Found Classic 1 (Some [Some 20%Z])]) /\
  (exists ls, let s := run (init 2) ls in s_dead s = false /\
     s_log s = [Done 0 (AddSlices 1 [10%Z]); Done 1 (AddSlices 1 [20%Z]); Found Slices 1 (Some [Some 10%Z; Some 20%Z])]).
Proof.
  split.
  - exists (Call 0 (AddRouter 1 10) :: Call 1 (AddRouter 1 20) :: Step 0 :: Step 1 :: steps 0 2 ++ steps 1 2 ++ [Look Classic 1]).
    split; reflexivity.
  - exists (Call 0 (AddSlices 1 [10%Z]) :: Call 1 (AddSlices 1 [20%Z]) :: Step 0 :: Step 1 :: steps 0 5 ++ steps 1 5 ++ [Look Slices 1]).
    split; reflexivity.
Qed.
Print Assumptions C104_twice_refuted.

(* Refuted: Use during another call.  Of two calls of Use one is lost; a route that
   is being added loses its own handler, or gets a nil one. *)
Theorem C104_use_refuted :
  (exists ls, let s := run (init 2) ls in
     s_log s = [Done 0 (Use [1%Z]); Done 1 (Use [2%Z]); Done 0 (AddSlices 5 [9%Z]); Found Slices 5 (Some [Some 2%Z; Some 9%Z])]) /\
  (exists ls, let s := run (init 2) ls in
     s_log s = [Done 1 (Use [1%Z]); Done 0 (AddSlices 5 [9%Z]); Found Slices 5 (Some [Some 1%Z])]) /\
  (exists ls, let s := run (init 2) ls in
     s_log s = [Done 1 (Use [1%Z]); Done 0 (AddSlices 5 [9%Z]); Found Slices 5 (Some [None])]).
Proof.
  split; [|split].
  - exists (Call 0 (Use [1%Z]) :: Call 1 (Use [2%Z]) :: Step 0 :: Step 1 :: Step 0 :: Step 1 :: Call 0 (AddSlices 5 [9%Z]) :: steps 0 6 ++ [Look Slices 5]).
    reflexivity.
  - exists (Call 0 (AddSlices 5 [9%Z]) :: steps 0 2 ++ Call 1 (Use [1%Z]) :: steps 1 2 ++ steps 0 4 ++ [Look Slices 5]).
    reflexivity.
  - exists (Call 0 (AddSlices 5 [9%Z]) :: steps 0 3 ++ Call 1 (Use [1%Z]) :: steps 1 2 ++ steps 0 3 ++ [Look Slices 5]).
    reflexivity.
Qed.
Print Assumptions C104_use_refuted.

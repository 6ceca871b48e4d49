(* C38, C39: a checker configured through its own setters (heartbeat.go 74-104;
   an application reaches a server's through GetHeartBeat), in any order and any
   number of times. *)
From Coq Require Import ZArith List Bool Lia.
From Verif Require Import Bytes Router Heartbeat Spec_Heartbeat Heartbeat_proofs Props_Heartbeat.
Import ListNotations.
Local Open Scope Z_scope.

(* One call of a setter; None is nil. *)
Inductive setting :=
| GsDead (f : option Z) | GsMake (f : option Z) | GsBeat (f : option Z)
| GsRouter (id : Z) (r : option Z) | GsSlices (id : Z) (hs : list Z).
(* heartbeat.go 74-104 *)
Definition apply_setting (h : checker) (g : setting) : checker :=
  match g with
  | GsDead f => set_dead h f
  | GsMake f => set_make h f
  | GsBeat f => set_beat h f
  | GsRouter id r => bind_router h id r
  | GsSlices id hs => bind_slices h id hs
  end.

(* What a call asks for: a function that is not nil; a binding of an ID that is
   not the default one to something. *)
Definition asks_dead (g : setting) : list Z := match g with GsDead (Some f) => [f] | _ => [] end.
Definition asks_make (g : setting) : list Z := match g with GsMake (Some f) => [f] | _ => [] end.
Definition asks_beat (g : setting) : list Z := match g with GsBeat (Some f) => [f] | _ => [] end.
Definition asks_router (g : setting) : list Z :=
  match g with GsRouter id (Some r) => if id =? 99999 then [] else [r] | _ => [] end.
Definition asks_slices (g : setting) : list Z :=
  match g with GsSlices id hs => if id =? 99999 then [] else hs | _ => [] end.
Definition asks_id (g : setting) : list Z :=
  match g with
  | GsRouter id (Some _) | GsSlices id (_ :: _) => if id =? 99999 then [] else [id]
  | _ => []
  end.
(* The last of some requests. *)
Fixpoint latest {A} (d : A) (l : list A) : A := match l with [] => d | a :: l' => latest a l' end.
Definition all {A} (f : setting -> list A) (gs : list setting) : list A := flat_map f gs.

Lemma latest_app {A} (l1 l2 : list A) : forall d, latest d (l1 ++ l2) = latest (latest d l1) l2.
Proof. induction l1 as [|a l1 IH]; intros d; [reflexivity|apply IH]. Qed.
Lemma latest_map {A B} (f : A -> B) l : forall d, latest (f d) (map f l) = f (latest d l).
Proof. induction l as [|a l IH]; intros d; [reflexivity|apply IH]. Qed.

Lemma one_setting g h :
  ck_dead (apply_setting h g) = latest (ck_dead h) (map User (asks_dead g)) /\
  ck_make (apply_setting h g) = latest (ck_make h) (map User (asks_make g)) /\
  ck_beat (apply_setting h g) = latest (ck_beat h) (map (@Some Z) (asks_beat g)) /\
  ck_id (apply_setting h g) = latest (ck_id h) (asks_id g) /\
  ck_router (apply_setting h g) = latest (ck_router h) (map User (asks_router g)) /\
  ck_slices (apply_setting h g) = ck_slices h ++ map User (asks_slices g).
Proof.
  destruct g as [[f|]|[f|]|[f|]|id [r|]|id [|x hs]]; cbn; unfold bind_router, bind_slices, default_id;
    repeat match goal with |- context [?a =? 99999] => destruct (a =? 99999) end; cbn; rewrite ?app_nil_r; repeat split; reflexivity.
Qed.

Lemma settings gs : forall h,
  let k := fold_left apply_setting gs h in
  ck_dead k = latest (ck_dead h) (map User (all asks_dead gs)) /\
  ck_make k = latest (ck_make h) (map User (all asks_make gs)) /\
  ck_beat k = latest (ck_beat h) (map (@Some Z) (all asks_beat gs)) /\
  ck_id k = latest (ck_id h) (all asks_id gs) /\
  ck_router k = latest (ck_router h) (map User (all asks_router gs)) /\
  ck_slices k = ck_slices h ++ map User (all asks_slices gs).
Proof.
  induction gs as [|g gs IH]; intros h; cbv zeta.
  - cbn. rewrite app_nil_r. repeat split; reflexivity.
  - cbn [fold_left all flat_map]. destruct (IH (apply_setting h g)) as (A & B & C & D & E & F).
    destruct (one_setting g h) as (A' & B' & C' & D' & E' & F'). unfold all in *.
    rewrite A, B, C, D, E, F, A', B', C', D', E', F', !map_app, !latest_app, <- app_assoc. repeat split; reflexivity.
Qed.

(* Each part of the checker is what the last call that asked for it gave, and the
   package's own if none did; the calls for one part leave the others alone.  Only
   the slice handlers add up, after the package's own. *)
Theorem C38_setters gs :
  let k := fold_left apply_setting gs new_checker in
  ck_dead k = latest Default (map User (all asks_dead gs)) /\
  ck_make k = latest Default (map User (all asks_make gs)) /\
  ck_beat k = latest None (map (@Some Z) (all asks_beat gs)) /\
  ck_id k = latest 99999 (all asks_id gs) /\
  ck_router k = latest Default (map User (all asks_router gs)) /\
  ck_slices k = Default :: map User (all asks_slices gs).
Proof. exact (settings gs new_checker). Qed.
Print Assumptions C38_setters.

(* What a connection whose checker was configured so does at a check: the function
   given last, whatever else was set and in whatever order. *)
Theorem C38_configured secs gs ls now : 0 <= secs <= 9223372036 -> clock_ok ls -> checking ls = true ->
  let run l := snd (h_run secs (hconn_new (Some (clone (fold_left apply_setting gs new_checker)))) l) in
  ((In KClosed ls \/ forall a, In a (activities ls) -> now - a >= nanoseconds secs) ->
   run (ls ++ [KTick now]) = run ls ++ [ANotAlive (latest Default (map User (all asks_dead gs)))]) /\
  (~ In KClosed ls -> (exists a, In a (activities ls) /\ now - a < nanoseconds secs) ->
   run (ls ++ [KTick now]) = run ls ++
     [match all asks_beat gs with
      | [] => ASent (latest 99999 (all asks_id gs)) (latest Default (map User (all asks_make gs)))
      | f :: fs => ABeat (latest f fs)
      end]).
Proof.
  intros Hs Hc Ht. cbv beta zeta. rewrite !C38_clone. destruct (C38_setters gs) as (A & B & C & D & _). cbv zeta in *.
  destruct (C38_check secs (fold_left apply_setting gs new_checker) ls now Hs Hc Ht) as [X Y]. cbv zeta in X, Y. split.
  - intros H. rewrite (X H), A. reflexivity.
  - intros H H'. rewrite (Y H H'). unfold one_beat. rewrite C, D, B. destruct (all asks_beat gs) as [|f fs]; [reflexivity|].
    cbn [map latest]. now rewrite (latest_map (@Some Z)).
Qed.
Print Assumptions C38_configured.
Example C38_configured_case :
  let gs := [GsMake (Some 1); GsBeat (Some 2); GsDead (Some 3); GsBeat None; GsRouter 7 (Some 4); GsDead (Some 5); GsRouter 99999 (Some 6); GsBeat (Some 8)] in
  let ls := [KStart; KStarted 0; KTick 500000000; KTick 1000000000] in
  clock_ok ls /\ checking ls = true /\
  snd (h_run 1 (hconn_new (Some (clone (fold_left apply_setting gs new_checker)))) ls) = [ABeat 8; ANotAlive (User 5)] /\
  ck_router (fold_left apply_setting gs new_checker) = User 4.
Proof. cbv zeta. split; [unfold clock_ok; cbn; repeat constructor; lia|]. repeat split; reflexivity. Qed.

(* The handlers given to Use, in order. *)
Definition used (os : list hostop) : list who := flat_map (fun o => match o with HoUse hs => map User hs | _ => [] end) os.
Lemma used_run os : forall s, ho_slices s = true -> ho_client s = false -> ho_use (host_run s os) = ho_use s ++ used os.
Proof.
  induction os as [|o os IH]; intros s Hm Hc; cbn [host_run used flat_map]; [now rewrite app_nil_r|].
  destruct (host_mode [o] s) as [M1 M2]. cbn [host_run] in M1, M2. rewrite IH by congruence. rewrite app_assoc. f_equal.
  unfold host_step. destruct o as [id r|id hs|hs|b]; cbn [host_try].
  - unfold add_route. rewrite Hm, Hc. cbn. now rewrite app_nil_r.
  - unfold add_slices. rewrite Hm, Hc. cbn. destruct (find _ _); cbn; now rewrite app_nil_r.
  - unfold use_slices. rewrite Hm, Hc. reflexivity.
  - unfold start_heartbeat, add_slices. rewrite Hm, Hc. cbn. destruct (find _ _); cbn; now rewrite app_nil_r.
Qed.
(* In slices mode a heartbeat's messages run what was given to Use before it was
   started, then the package's handler, then the option's. *)
Theorem C39_slices_order os op h hs s :
  op_slices op = h :: hs -> op_id op <> 99999 ->
  start_heartbeat (host_run (host_new false true) os) (Some op) = Some s ->
  forall after, handled_by (host_run s after) (op_id op) = used os ++ Default :: map User (h :: hs).
Proof.
  intros A B C after. rewrite (C39_slices_partial os op h hs s A B C after). now rewrite used_run.
Qed.
Print Assumptions C39_slices_order.
Example C39_slices_order_case :
  let op := HbOption None None 7 None [41; 42] in let os := [HoUse [1]; HoSlices 5 [6]; HoUse [2; 3]] in
  exists s, start_heartbeat (host_run (host_new false true) os) (Some op) = Some s /\
    handled_by (host_run s [HoUse [8]; HoSlices 7 [9]]) 7 = [User 1; User 2; User 3; Default; User 41; User 42].
Proof. eexists. split; reflexivity. Qed.

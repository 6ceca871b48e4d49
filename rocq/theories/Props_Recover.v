(* C97: the handlers RouterRecovery and RouterTime. *)
From Coq Require Import ZArith List Bool Lia ZifyBool String.
From Verif Require Import Bytes Pack Request Decimal Recover Spec_Recover Recover_proofs.
Import ListNotations.
Local Open Scope Z_scope.
Local Notation length := List.length.

(* Whatever recovers from whatever, each handler begins at most once, in the order of the list,
   without a gap.  "Partial": for lists away from the limit of the eight bit index. *)
Theorem C97_order_partial : forall fs m, let '(es, o) := run_chain fs m in small fs es ->
  (exists rest, map fn_name fs = begun es ++ rest) /\ o <> RFuel.
Proof.
  intros fs m. destruct (run_chain fs m) as [es o] eqn:E. intros S. destruct (chain_ok fs m) as (s0 & _ & K & _ & B & _); [now rewrite E|]. rewrite E in K, B. cbn [fst] in B.
  destruct (K B) as (j & J & Bg & _ & I & _). split; [|intros ->; exact I]. rewrite Bg. unfold seg. rewrite Z.sub_0_r. cbn [skipn Z.to_nat]. eexists. symmetry. apply firstn_skipn.
Qed.
Print Assumptions C97_order_partial.

(* If the run returns and no handler called Abort, all of them have begun. *)
Theorem C97_all_partial : forall fs m, let '(es, o) := run_chain fs m in small fs es -> ~ aborts es -> returned o -> begun es = map fn_name fs.
Proof.
  intros fs m. destruct (run_chain fs m) as [es o] eqn:E. intros S NA (s' & ->). destruct (chain_ok fs m) as (s0 & _ & K & O & B & T); [now rewrite E|]. rewrite E in K, B, O.
  pose proof (ok_over fs (-1) 0 s0 _ 1 O K NA B T ltac:(lia)) as Q. cbn [fst snd] in Q. rewrite Q. unfold seg. rewrite Z.sub_0_r. cbn [skipn Z.to_nat]. apply firstn_all2. rewrite map_length. unfold zlen. lia.
Qed.
Print Assumptions C97_all_partial.

(* Every panic is recorded once, with the message's ID, or is the one that leaves the list. *)
Theorem C97_accounted_partial : forall fs m, let '(es, o) := run_chain fs m in small fs es ->
  panics es = (length (records es) + match o with RPanic _ => 1 | _ => 0 end)%nat /\ Forall (fun id => id = m_id m) (records es).
Proof.
  intros fs m. destruct (run_chain fs m) as [es o] eqn:E. intros S. destruct (chain_ok fs m) as (s0 & <- & K & _ & B & _); [now rewrite E|]. rewrite E in K, B. cbn [fst] in B.
  destruct (K B) as (j & _ & _ & P & _ & R). split; [exact P|exact R].
Qed.
Print Assumptions C97_accounted_partial.

(* With RouterRecovery first, one panic, wherever it happens, does not leave the list. *)
Theorem C97_contained_partial : forall n fs m, let '(es, o) := run_chain (Recovery n :: fs) m in small (Recovery n :: fs) es -> (panics es <= 1)%nat -> returned o.
Proof.
  intros n fs m. pose proof (C97_accounted_partial (Recovery n :: fs) m) as A. pose proof (chain_ok (Recovery n :: fs) m) as C.
  unfold run_chain in *. set (F := Recovery n :: fs) in *. set (s := set_index _ _) in *. cbn [rec_loop] in *.
  assert (L8 : s8 (zlen F) <= 0 \/ (rs_index s <? s8 (zlen F)) = true) by (unfold s; cbn; lia).
  destruct (rs_index s <? s8 (zlen F)) eqn:Li; [|intros _ _; now exists s]. change (rs_index s <? 0) with false in *. cbv iota in *. change (nth_error F (Z.to_nat (rs_index s))) with (Some (Recovery n)) in *. cbv zeta iota beta in *.
  set (next := fun s1 => rec_loop (length F) F (set_index s1 (s8 (rs_index s1 + 1)))) in *. cbn [run_fn] in *.
  change (rec_loop (length F) F (set_index s (s8 (rs_index s + 1)))) with (next s) in *.
  destruct (next s) as [es o] eqn:E. destruct o as [s'|s'|].
  - change (rec_loop (length F) F (set_index s' (s8 (rs_index s' + 1)))) with (next s') in *. destruct (next s') as [es' o'] eqn:E'. intros Sm P. specialize (A Sm). destruct A as (A & _). destruct (C Sm) as (s0 & _ & K & _ & B & _). cbn [fst] in B.
    destruct (K B) as (j & _ & _ & _ & I & _). destruct o' as [s2|s2|]; [now exists s2| |contradiction]. exfalso.
    (* the inner call returned, so no handler is left *)
    assert (G : good F 0 1 s). { pose proof (zlen_nonneg fs). assert (zlen F = zlen fs + 1) by (unfold F, zlen; cbn [length]; lia). repeat split; cbn; lia. }
    assert (B1 : bnd F s + 1 + counted es <= 127 /\ bnd F s + 1 + counted es + 1 + counted es' <= 127).
    { unfold small in Sm. change (Ev (HvStart (fn_name (Recovery n))) :: (Ev HvNext :: es) ++ Ev (HvEnd (fn_name (Recovery n))) :: es') with ([Ev (HvStart n)] ++ [Ev HvNext] ++ es ++ [Ev (HvEnd n)] ++ es') in Sm. rewrite !counted_app in Sm. change (counted [Ev (HvStart n)]) with 0 in Sm. change (counted [Ev HvNext]) with 1 in Sm. change (counted [Ev (HvEnd n)]) with 1 in Sm.
      unfold bnd. change (rs_index s) with 0. pose proof (zlen_nonneg F). pose proof (counted_pos es'). lia. }
    destruct (ok_loop F (length F) s 1 0 G) as (K1 & O1); [change (rs_index s) with 0; unfold zlen; lia|cbn; lia|]. fold (next s) in K1, O1. rewrite E in K1, O1. cbn [fst] in O1. specialize (O1 (proj1 B1)). change (rs_index s' >= zlen F) in O1.
    destruct (K1 (proj1 B1)) as (j1 & _ & _ & _ & I1 & _). cbn [idx] in I1. destruct I1 as ((_ & I1 & _) & I2 & _).
    revert E'. unfold next. change (length F) with (S (length fs)). cbn [rec_loop]. cbn [rs_index set_index]. pose proof (counted_pos es'). rewrite !s8_small by (unfold bnd in *; pose proof (zlen_nonneg F); lia).
    replace (rs_index s' + 1 <? zlen F) with false by lia. discriminate.
  - change (rec_loop (length F) F (set_index s' (s8 (rs_index s' + 1)))) with (next s') in *. destruct (next s') as [es' o'] eqn:E'. intros Sm P. specialize (A Sm). destruct A as (A & _). destruct (C Sm) as (s0 & _ & K & _ & B & _). cbn [fst] in B.
    destruct (K B) as (j & _ & _ & _ & I & _). destruct o' as [s2|s2|]; [now exists s2| |contradiction]. exfalso.
    rewrite shape in A, P. match type of P with (panics ?x <= _)%nat => assert (R : In (m_id (rs_msg s')) (records x)) end.
    { unfold records. apply in_flat_map. exists (Logged (m_id (rs_msg s'))). split; [right; right; apply in_or_app; right; now left|now left]. }
    destruct (records _) as [|r0 rs]; [destruct R|]. cbn [length] in A. lia.
  - intros Sm P. destruct (C Sm) as (s0 & _ & K & _ & B & _). cbn [fst] in B. destruct (K B) as (j & _ & _ & _ & I & _). contradiction.
Qed.
Print Assumptions C97_contained_partial.

Definition plain (n : Z) (a : hact) : fn := User {| h_name := n; h_body := a |}.
Example C97_case : let fs := [Recovery 0; Timing 1; plain 2 (HSet 7 9 (HNext HRet)); plain 3 (HGet 7 (fun _ => HPanic)); plain 4 HRet] in
  let '(es, o) := run_chain fs (new_msg_package 3 []) in small fs es /\ panics es = 1%nat /\ ~ aborts es /\ returned o /\ records es = [3] /\ begun es = [0; 1; 2; 3; 4].
Proof. vm_compute. repeat split; auto; try discriminate; try (intros H; repeat (destruct H as [H|H]; [discriminate|]); exact H). eexists. reflexivity. Qed.

(* Refuted (F101): a handler that panics stops nothing.  RouterRecovery records the panic, and
   then every handler after it runs all the same, outside RouterRecovery. *)
Theorem C97_rest_refuted : forall n fs m, let '(es, o) := run_chain (Recovery n :: fs) m in
  small (Recovery n :: fs) es -> panics es = 1%nat -> ~ aborts es -> begun es = map fn_name (Recovery n :: fs) /\ records es = [m_id m].
Proof.
  intros n fs m. pose proof (C97_contained_partial n fs m) as A. pose proof (C97_all_partial (Recovery n :: fs) m) as B. pose proof (C97_accounted_partial (Recovery n :: fs) m) as C.
  destruct (run_chain _ m) as [es o]. intros S P NA. destruct (A S) as (s & ->); [lia|]. split; [apply B; auto; now exists s|]. destruct (C S) as (D & F). rewrite P in D. destruct (records es) as [|id [|]]; cbn in D; try lia. inversion F; subst. now subst.
Qed.
Print Assumptions C97_rest_refuted.
Theorem C97_guard_refuted : exists es s, run_chain [Recovery 0; plain 1 HPanic; plain 2 (HSetResp 42 HRet)] (new_msg_package 3 []) = (es, RDone s) /\
  es = [Ev (HvStart 0); Ev HvNext; Ev (HvStart 1); Ev HvPanic; Logged 3; Ev (HvEnd 0); Ev (HvStart 2); Ev (HvSetResp 42); Ev (HvEnd 2)].
Proof. eexists. eexists. split; vm_compute; reflexivity. Qed.
Print Assumptions C97_guard_refuted.
(* and a second panic leaves the list without a record. *)
Theorem C97_second_refuted : exists es s, run_chain [Recovery 0; plain 1 HPanic; plain 2 HPanic] (new_msg_package 3 []) = (es, RPanic s) /\ panics es = 2%nat /\ records es = [3].
Proof. eexists. eexists. split; [vm_compute; reflexivity|]. split; reflexivity. Qed.
Print Assumptions C97_second_refuted.

(* RouterTime prints once, at its end, for each time it returns, and nothing else prints. *)
Theorem C97_timed : forall fs m n, NoDup (map fn_name fs) -> In (Timing n) fs -> forall before after, fst (run_chain fs m) = before ++ Ev (HvEnd n) :: after -> exists b, before = b ++ [Timed].
Proof. intros fs m n D T a b E. exact (wf_ended fs n _ D T (wf_loop fs _ _) a b E). Qed.
Print Assumptions C97_timed.
Theorem C97_timed_only : forall fs m before after, fst (run_chain fs m) = before ++ Timed :: after -> exists n a, after = Ev (HvEnd n) :: a /\ In (Timing n) fs.
Proof. intros fs m a b E. exact (wf_timed fs _ (wf_loop fs _ _) a b E). Qed.
Print Assumptions C97_timed_only.
Theorem C97_recorded_only : forall fs m before id after, fst (run_chain fs m) = before ++ Logged id :: after -> exists n a, after = Ev (HvEnd n) :: a /\ In (Recovery n) fs.
Proof. intros fs m a id b E. exact (wf_logged fs _ (wf_loop fs _ _) a id b E). Qed.
Print Assumptions C97_recorded_only.
Example C97_timed_case : let fs := [Timing 5; plain 6 (HMsg (fun _ => HRet))] in NoDup (map fn_name fs) /\ In (Timing 5) fs /\
  fst (run_chain fs (new_msg_package 3 [])) = [Ev (HvStart 5); Ev HvNext; Ev (HvStart 6); Ev (HvMsg (new_msg_package 3 [])); Ev (HvEnd 6); Timed] ++ Ev (HvEnd 5) :: [].
Proof. split; [repeat constructor; cbn; intuition discriminate|]. split; [now left|reflexivity]. Qed.

(* A list of the user's handlers alone runs as C16, C17 and C18 describe. *)
Theorem C97_users : forall hs m, let '(es, o) := run_chain (map User hs) m in let '(es', o') := run_slices hs (fresh_request m) in
  es = map Ev es' /\ (forall s, o = RDone s <-> o' = HDone s) /\ ((exists s, o = RPanic s) <-> o' = HPanicked).
Proof.
  intros hs m. unfold run_chain, run_slices, slices_next, slices_fuel. rewrite map_length. cbn [rs_index set_nhandlers fresh_request]. change (s8 (-1 + 1)) with 0. unfold zlen at 1. rewrite map_length. fold (zlen hs).
  destruct (same_loop hs (S (length hs)) (set_index (set_nhandlers (fresh_request m) (zlen hs)) 0)) as (A & B). destruct (rec_loop _ _ _) as [es o], (slices_loop _ _ _) as [es' o']. cbn [fst snd] in *. split; [exact A|].
  destruct o as [s|s|], o' as [s'| |]; try contradiction; split; try (intros s1); split; try discriminate; try (intros (? & X); discriminate); intros X; try congruence; now exists s.
Qed.
Print Assumptions C97_users.

(* What the record shows: of the function that panicked and its two callers, the name as
   written, if the path of its package has no dot. *)
Definition dotless (s : list byte) : Prop := ~ In "."%byte s.
Lemma after_dot p s : dotless p -> after "."%byte (p ++ "."%byte :: s) = Some s.
Proof. induction p as [|b p IH]; intros D; [reflexivity|]. cbn. destruct (Byte.eqb b ".") eqn:E; [exfalso; apply D; left; now apply Byte.byte_dec_bl|]. apply IH. intros X. apply D. now right. Qed.
Lemma until_dot p s : dotless p -> until "."%byte (p ++ "."%byte :: s) = p.
Proof. induction p as [|b p IH]; intros D; [reflexivity|]. cbn. destruct (Byte.eqb b ".") eqn:E; [exfalso; apply D; left; now apply Byte.byte_dec_bl|]. f_equal. apply IH. intros X. apply D. now right. Qed.
Lemma until_none p : dotless p -> until "."%byte p = p.
Proof. induction p as [|b p IH]; intros D; [reflexivity|]. cbn. destruct (Byte.eqb b ".") eqn:E; [exfalso; apply D; left; now apply Byte.byte_dec_bl|]. f_equal. apply IH. intros X. apply D. now right. Qed.
Lemma last_app a b acc : ~ In "/"%byte b -> last_part (a ++ "/"%byte :: b) acc = b.
Proof.
  assert (N : forall c acc, ~ In "/"%byte c -> last_part c acc = rev acc ++ c).
  { clear. induction c as [|x b0 IH]; intros acc0 D; [cbn; now rewrite app_nil_r|]. cbn. destruct (Byte.eqb x "/") eqn:E; [exfalso; apply D; left; now apply Byte.byte_dec_bl|]. rewrite IH by (intros X; apply D; now right). cbn. now rewrite <- app_assoc. }
  intros D. revert acc. induction a as [|x a IH]; intros acc; cbn; [now rewrite N|]. destruct (Byte.eqb x "/"); apply IH.
Qed.
Definition shown (name file : list byte) (line : Z) : list byte := text "funcname:" ++ name ++ text " filename:" ++ file ++ text " LineNo:" ++ format_uint line ++ [z2b 10].
(* A function of a package, in a file of a directory. *)
Record place := Place { pkg : list byte; func : list byte; dir : list byte; file : list byte; line : Z }.
Definition frame_of (p : place) : frame := Frame (pkg p ++ "."%byte :: func p) (dir p ++ "/"%byte :: file p) (line p).
Theorem C97_where_partial : forall below ps above, length below = 3%nat -> length ps = 3%nat ->
  (forall p, In p ps -> dotless (pkg p) /\ dotless (func p) /\ ~ In "/"%byte (file p)) ->
  get_info (below ++ map frame_of ps ++ above) = Some (flat_map (fun p => shown (func p) (file p) (line p)) ps).
Proof.
  intros below ps above LB LF H. destruct below as [|b1 [|b2 [|b3 [|]]]]; try discriminate LB. destruct ps as [|p1 [|p2 [|p3 [|]]]]; try discriminate LF.
  assert (K : forall p, In p [p1; p2; p3] -> info_line (frame_of p) = Some (shown (func p) (file p) (line p))).
  { intros p I. destruct (H p I) as (A & B & C). unfold info_line, second_part, frame_of. cbn [f_func f_file f_line]. rewrite after_dot by exact A. cbn [option_map]. rewrite until_none by exact B. unfold base. now rewrite last_app by exact C. }
  unfold get_info. cbn [info_loop nth_error app map]. rewrite !K by (cbn; auto). reflexivity.
Qed.
Print Assumptions C97_where_partial.
(* Refuted (F102): for a package such as this one's own, whatever the function is, the name shown is
   the rest of the path. *)
Theorem C97_where_refuted : forall f, ~ In "."%byte f -> second_part (text "github.com/aceld/zinx/znet." ++ f) = Some (text "com/aceld/zinx/znet").
Proof. intros f _. vm_compute. reflexivity. Qed.
Print Assumptions C97_where_refuted.
Example C97_where_case : let ps := [Place (text "main") (text "run") (text "/src") (text "main.go") 12] in (forall p, In p ps -> dotless (pkg p) /\ dotless (func p) /\ ~ In "/"%byte (file p)) /\
  get_info [Frame [] [] 0; Frame [] [] 0; Frame [] [] 0; Frame (text "main.run") (text "/src/main.go") 12; Frame (text "main.handle") (text "/src/h.go") 7; Frame (text "main.main") (text "/src/main.go") 30]
  = Some (text "funcname:run filename:main.go LineNo:12" ++ [z2b 10] ++ text "funcname:handle filename:h.go LineNo:7" ++ [z2b 10] ++ text "funcname:main filename:main.go LineNo:30" ++ [z2b 10]).
Proof.
  split; [|vm_compute; reflexivity]. intros p [<-|[]]. unfold dotless. cbn. repeat split; intros X; repeat (destruct X as [X|X]; [discriminate|]); exact X.
Qed.

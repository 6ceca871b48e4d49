(* Proofs for C84, TCP: calls return and the writer ends. *)
From Coq Require Import List Bool Arith Lia ZifyBool ZifyNat.
From Verif Require Import Bytes SendQueue Spec_Send SendQueue_proofs Spec_Fair SendFair_proofs Spec_Ends.
Import ListNotations.
Local Arguments Nat.ltb : simpl never.
Local Arguments Nat.max : simpl never.
Local Arguments Nat.leb : simpl never.
Local Arguments Nat.eqb : simpl never.

(* A quantity that never grows and goes down at every move reaches zero. *)
Lemma descend (D : nat -> nat) (moved : nat -> Prop) n0 :
  (forall n, n0 <= n -> D (S n) <= D n) -> (forall n, n0 <= n -> moved n -> 0 < D n -> D (S n) < D n) -> often moved ->
  exists m, n0 <= m /\ D m = 0.
Proof.
  intros Dn Dm O.
  assert (X : forall k n, n0 <= n -> D n <= k -> exists m, n0 <= m /\ D m = 0).
  { induction k as [|k IH]; intros n Hn Hk; [exists n; split; [exact Hn|lia]|].
    destruct (O n) as (m & Hm & Mm). assert (L : D m <= D n) by (clear -Dn Hn Hm; induction Hm as [|m Hm IH]; [lia|]; specialize (Dn m ltac:(lia)); lia).
    destruct (Nat.eq_dec (D m) 0) as [Z|Z]; [exists m; split; [lia|exact Z]|]. apply (IH (S m)); [lia|]. specialize (Dm m ltac:(lia) Mm ltac:(lia)). lia. }
  exact (X (D n0) n0 (le_n _) (le_n _)).
Qed.

Lemma called_app t a b : called t (a ++ b) = called t a + called t b.
Proof. unfold called. now rewrite filter_app, app_length. Qed.
Lemma returned_app t a b : returned t (a ++ b) = returned t a + returned t b.
Proof. unfold returned. now rewrite filter_app, app_length. Qed.

Definition srank (p : spc) : nat :=
  match p with SIdle => 0 | SChk _ => 8 | SCas _ => 7 | SMake _ => 6 | SGo _ => 5 | SClosed _ => 4 | SEnter _ => 3 | SSel _ _ => 2 | DChk _ => 2 | DWrite _ => 1 end.
Definition busy (p : spc) : nat := match p with SIdle => 0 | _ => 1 end.

Lemma writer_send c s ch o : q_send (fst (writer_step c s ch o)) = q_send s /\ forall t, called t (snd (writer_step c s ch o)) = 0 /\ returned t (snd (writer_step c s ch o)) = 0.
Proof.
  unfold writer_step. destruct (q_writer s); try (cbn; auto; fail).
  - destruct (q_ctx s); cbn; auto.
  - destruct ch; try (cbn; auto; fail). + destruct (q_cancelled s); cbn; auto. + destruct (q_chan s) as [[[|[? ?] ?] [|]]|]; cbn; auto.
  - destruct (q_is_closed s); cbn; auto.
  - destruct (buf_write_eq c s rest o) as (b & er & wi & br & E). destruct (buf_write c s rest o) as [s1 r]. cbn in E. subst s1. cbn. auto.
  - destruct (q_is_closed s); cbn; auto.
  - destruct (buf_flush_eq s o) as (b & er & wi & br & E). destruct (buf_flush s o) as [s1 r]. cbn in E. subst s1. cbn. auto.
  - destruct (q_is_closed s); cbn; auto.
  - destruct (buf_flush_eq s o) as (b & er & wi & br & E). rewrite E. cbn. auto.
Qed.

(* One step and goroutine t: the call goes on, or it returns. *)
Lemma sender_steps c s l t : let s' := fst (q_step c s l) in let ev := snd (q_step c s l) in
  called t ev + busy (q_send s t) = returned t ev + busy (q_send s' t) /\
  (q_send s t <> SIdle -> called t ev = 0 /\ (returned t ev = 0 -> srank (q_send s' t) <= srank (q_send s t))) /\
  (q_send s t <> SIdle -> q_crashed s = false -> step_of c s (Sending t) l -> returned t ev = 0 -> srank (q_send s' t) < srank (q_send s t)).
Proof.
  cbv zeta. unfold step_of. unfold q_step. destruct (q_crashed s) eqn:Cr; [cbn; repeat split; auto; try lia; discriminate|].
  destruct l as [ | | |u d m|u ch o|ch o].
  - cbn. repeat split; auto; try lia. intros _ _ (ch & o & X & _). discriminate.
  - destruct (q_ctx s); cbn; (repeat split; auto; try lia; intros _ _ (ch & o & X & _); discriminate).
  - destruct (q_cancelled s); cbn; (repeat split; auto; try lia; intros _ _ (ch & o & X & _); discriminate).
  - split; [|split; [|intros _ _ (ch & o & X & _); discriminate]].
    + destruct (q_send s u) eqn:Eu; try (cbn; lia). destruct d; [destruct (q_is_closed s)|]; cbn; unfold called, returned, upd; cbn; rewrite ?(Nat.eqb_sym t u);
        destruct (Nat.eqb_spec u t) as [<-|]; rewrite ?Eu; cbn; lia.
    + intros B. assert (u = t \/ u <> t) as [->|N] by lia.
      * destruct (q_send s t) eqn:Et; try congruence; cbn; rewrite ?Et; auto.
      * destruct (q_send s u) eqn:Eu; try (cbn; auto; fail). destruct d; [destruct (q_is_closed s)|]; cbn; unfold called, returned, upd; cbn; rewrite ?(Nat.eqb_sym t u);
        (destruct (Nat.eqb_spec u t) as [|_]; [contradiction|]); cbn; auto.
  - assert (u = t \/ u <> t) as [->|N] by lia.
    + unfold send_step. unfold called, returned, net_write, upd in *.
      destruct (q_send s t) eqn:Es.
      * cbn. rewrite Es. cbn. repeat split; auto; congruence.
      * destruct (q_chan s); cbn; unfold upd; rewrite ?Nat.eqb_refl; cbn; repeat split; auto; lia.
      * destruct (q_flag s); cbn; unfold upd; rewrite ?Nat.eqb_refl; cbn; repeat split; auto; lia.
      * cbn; unfold upd; rewrite ?Nat.eqb_refl; cbn; repeat split; auto; lia.
      * cbn; unfold upd; rewrite ?Nat.eqb_refl; cbn; repeat split; auto; lia.
      * destruct (q_is_closed s); cbn; unfold upd; rewrite ?Nat.eqb_refl; cbn; repeat split; auto; lia.
      * cbn; unfold upd; rewrite ?Nat.eqb_refl; cbn; repeat split; auto; lia.
      * assert (Stuck : send_ready c s nonnil ch = false -> let ev := @nil qev in
          called t ev + busy (SSel m nonnil) = returned t ev + busy (q_send s t) /\
          (SSel m nonnil <> SIdle -> called t ev = 0 /\ (returned t ev = 0 -> srank (q_send s t) <= srank (SSel m nonnil))) /\
          (SSel m nonnil <> SIdle -> false = false -> (exists ch0 o0, QSend t ch o = QSend t ch0 o0 /\ forall m0 b, SSel m nonnil = SSel m0 b -> send_ready c s b ch0 = true) -> returned t ev = 0 -> srank (q_send s t) < srank (SSel m nonnil))).
        { intros R. cbv zeta. rewrite Es. cbn. repeat split; auto. intros _ _ (ch0 & o0 & [= <- <-] & X). rewrite (X m nonnil eq_refl) in R. discriminate. }
        unfold send_ready in Stuck at 1.
        destruct ch; [destruct (q_cancelled s) eqn:Ec; [destruct (q_chan s) as [[? [|]]|]|]| |destruct nonnil; [destruct (q_chan s) as [[q [|]]|]; [|destruct (length q <? max 1 (qc_cap c)) eqn:El|]|]];
          try (apply Stuck; reflexivity); cbn; unfold upd; rewrite ?Nat.eqb_refl, ?Es; cbn; repeat split; auto; lia.
      * destruct (q_is_closed s); cbn; unfold upd; rewrite ?Nat.eqb_refl; cbn; repeat split; auto; lia.
      * destruct (q_broken s); [|destruct o]; cbn; unfold upd; rewrite ?Nat.eqb_refl; cbn; repeat split; auto; lia.
    + assert (Q : q_send (fst (send_step c s u ch o)) t = q_send s t /\ called t (snd (send_step c s u ch o)) = 0 /\ returned t (snd (send_step c s u ch o)) = 0).
      { unfold send_step, called, returned, net_write. assert (E : (u =? t) = false) by lia. assert (E' : (t =? u) = false) by lia.
        destruct (q_send s u); try (cbn; auto; fail).
        - destruct (q_chan s); cbn; unfold upd; rewrite ?E, ?E'; auto.
        - destruct (q_flag s); cbn; unfold upd; rewrite ?E, ?E'; auto.
        - cbn; unfold upd; rewrite ?E, ?E'; auto.
        - cbn; unfold upd; rewrite ?E, ?E'; auto.
        - destruct (q_is_closed s); cbn; unfold upd; rewrite ?E, ?E'; auto.
        - cbn; unfold upd; rewrite ?E, ?E'; auto.
        - destruct ch; [destruct (q_cancelled s); [destruct (q_chan s) as [[? [|]]|]|]| |destruct nonnil; [destruct (q_chan s) as [[q [|]]|]; [|destruct (length q <? max 1 (qc_cap c))|]|]];
          cbn; unfold upd; rewrite ?E, ?E'; auto.
        - destruct (q_is_closed s); cbn; unfold upd; rewrite ?E, ?E'; auto.
        - destruct (q_broken s); [|destruct o]; cbn; unfold upd; rewrite ?E, ?E'; auto. }
      destruct Q as (Q1 & Q2 & Q3). rewrite Q1, Q2, Q3. repeat split; auto. intros _ _ (ch' & o' & X & _). congruence.
  - destruct (writer_send c s ch o) as (Q1 & Q2). rewrite Q1. destruct (Q2 t) as (-> & ->). repeat split; auto. intros _ _ (ch' & o' & X & _). discriminate.
Qed.

(* Once started, never crashed; stopped and broken stay so. *)
Lemma keeps c s l : q_ctx s = true -> q_crashed s = false -> let s' := fst (q_step c s l) in
  q_ctx s' = true /\ q_crashed s' = false /\ (q_cancelled s = true -> q_cancelled s' = true) /\ (q_broken s = true -> q_broken s' = true) /\
  (l = QSockClose -> q_cancelled s = true -> q_broken s' = true).
Proof.
  intros A B. cbv zeta. unfold q_step. rewrite B. destruct l as [ | | |u d m|u ch o|ch o].
  - cbn. repeat split; auto; discriminate.
  - rewrite A. cbn. repeat split; auto; discriminate.
  - destruct (q_cancelled s) eqn:E; cbn; repeat split; auto; discriminate.
  - destruct (q_send s u); try (cbn; repeat split; auto; discriminate). destruct d; [destruct (q_is_closed s)|]; cbn; repeat split; auto; discriminate.
  - assert (Q : forall s', q_ctx s' = q_ctx s -> q_crashed s' = q_crashed s -> q_cancelled s' = q_cancelled s -> (q_broken s = true -> q_broken s' = true) ->
      q_ctx s' = true /\ q_crashed s' = false /\ (q_cancelled s = true -> q_cancelled s' = true) /\ (q_broken s = true -> q_broken s' = true) /\ (QSend u ch o = QSockClose -> q_cancelled s = true -> q_broken s' = true)).
    { intros s' X1 X2 X3 X4. rewrite X1, X2, X3. repeat split; auto; discriminate. }
    unfold send_step, net_write. destruct (q_send s u).
    + apply Q; auto.
    + destruct (q_chan s); apply Q; auto.
    + destruct (q_flag s); apply Q; auto.
    + apply Q; auto.
    + apply Q; auto.
    + destruct (q_is_closed s); apply Q; auto.
    + apply Q; auto.
    + destruct ch; [destruct (q_cancelled s) eqn:Ec; [destruct (q_chan s) as [[? [|]]|]|]| |destruct nonnil; [destruct (q_chan s) as [[q [|]]|]; [|destruct (length q <? max 1 (qc_cap c))|]|]]; apply Q; cbn; auto.
    + destruct (q_is_closed s); apply Q; auto.
    + destruct (q_broken s) eqn:Eb; [|destruct o]; apply Q; cbn; auto.
  - assert (NW : forall s p, q_broken s = true -> q_broken (fst (fst (net_write s p o))) = true) by (intros s0 p X; unfold net_write; now rewrite X).
    assert (BF : forall s, q_broken s = true -> q_broken (fst (buf_flush s o)) = true).
    { intros s0 X. unfold buf_flush. destruct (q_err s0); [exact X|]. destruct (q_buf s0) as [|b l]; [exact X|]. unfold net_write. rewrite X. cbn. exact X. }
    assert (BW : forall p, q_broken s = true -> q_broken (fst (buf_write c s p o)) = true).
    { intros p X. unfold buf_write. destruct (q_err s); [exact X|]. destruct (length p <=? _); [exact X|]. destruct (q_buf s) as [|b l] eqn:Eb.
      - unfold net_write. rewrite X. cbn. exact X.
      - match goal with |- context [buf_flush ?s0 o] => pose proof (BF s0) as Y; destruct (buf_flush s0 o) as [s1 r] end. cbn. now apply Y. }
    assert (Q : forall s', q_ctx s' = q_ctx s -> q_crashed s' = q_crashed s -> q_cancelled s' = q_cancelled s -> (q_broken s = true -> q_broken s' = true) ->
      q_ctx s' = true /\ q_crashed s' = false /\ (q_cancelled s = true -> q_cancelled s' = true) /\ (q_broken s = true -> q_broken s' = true) /\ (QWriter ch o = QSockClose -> q_cancelled s = true -> q_broken s' = true)).
    { intros s' X1 X2 X3 X4. rewrite X1, X2, X3. repeat split; auto; discriminate. }
    unfold writer_step. rewrite A. destruct (q_writer s).
    + apply Q; auto.
    + apply Q; auto.
    + destruct ch; [destruct (q_cancelled s) eqn:Ec| |destruct (q_chan s) as [[[|[? ?] ?] [|]]|]]; apply Q; cbn; auto.
    + destruct (q_is_closed s); apply Q; auto.
    + specialize (BW rest). destruct (buf_write_eq c s rest o) as (b & er & wi & br & E). destruct (buf_write c s rest o) as [s1 r]. cbn in E, BW. subst s1. cbn in *. repeat split; auto; discriminate.
    + destruct (q_is_closed s); apply Q; auto.
    + specialize (BF s). destruct (buf_flush_eq s o) as (b & er & wi & br & E). destruct (buf_flush s o) as [s1 r]. cbn in E, BF. subst s1. cbn in *. repeat split; auto; discriminate.
    + destruct (q_is_closed s); apply Q; auto.
    + specialize (BF s). destruct (buf_flush_eq s o) as (b & er & wi & br & E). destruct (buf_flush s o) as [s1 r]. cbn in E, BF. subst s1. cbn in *. repeat split; auto; discriminate.
    + apply Q; auto.
Qed.

Definition wrank (s : qst) : nat :=
  match q_writer s with WNone | WGone => 0 | WBegin => 7 | WPut _ => if q_err s then 5 else 6 | WFlush => 5 | WSelect => 4 | WTick | WHave _ => 3 | WDefer => 2 | WLast => 1 end.
(* On a stopped connection with a closed socket the writer nears its end. *)
Lemma writer_steps c s l : str s -> q_ctx s = true -> q_crashed s = false -> q_cancelled s = true -> q_broken s = true -> q_writer s <> WNone ->
  let s' := fst (q_step c s l) in q_writer s' <> WNone /\ wrank s' <= wrank s /\ (step_of c s Writing l -> 0 < wrank s -> wrank s' < wrank s).
Proof.
  intros S A B C D N. cbv zeta. unfold step_of. unfold q_step. rewrite B. destruct l as [ | | |u d m|u ch o|ch o].
  - cbn. repeat split; auto. intros (? & ? & X0 & _). discriminate X0.
  - rewrite A. cbn. repeat split; auto. intros (? & ? & X0 & _). discriminate X0.
  - rewrite C. cbn. repeat split; auto. intros (? & ? & X0 & _). discriminate X0.
  - split; [|split; [|intros (? & ? & X0 & _); discriminate X0]]; destruct (q_send s u); try (cbn; auto; fail); destruct d; [destruct (q_is_closed s)| |destruct (q_is_closed s)|]; cbn; auto.
  - assert (Q : q_writer (fst (send_step c s u ch o)) = q_writer s /\ q_err (fst (send_step c s u ch o)) = q_err s).
    { unfold send_step, net_write. destruct (q_send s u) eqn:Es; try (cbn; auto; fail); try (destruct (q_chan s); cbn; auto; fail); try (destruct (q_flag s); cbn; auto; fail); try (destruct (q_is_closed s); cbn; auto; fail).
      - exfalso. destruct (st_go _ S _ _ Es) as (_ & Y & _). auto.
      - destruct ch; [destruct (q_cancelled s); [destruct (q_chan s) as [[? [|]]|]|]| |destruct nonnil; [destruct (q_chan s) as [[q [|]]|]; [|destruct (length q <? max 1 (qc_cap c))|]|]]; cbn; auto.
      - rewrite D. cbn. auto. }
    destruct Q as (Q1 & Q2). unfold wrank. rewrite Q1, Q2. repeat split; auto. intros (? & ? & X0 & _). discriminate X0.
  - assert (Cl : q_is_closed s = true) by (unfold q_is_closed; rewrite C; apply orb_true_r). unfold writer_step, wrank. rewrite Cl, A, C. destruct (q_writer s) eqn:Ew; try congruence.
    + cbn. repeat split; try discriminate; lia.
    + assert (Stay : recv_ready s ch = false -> WSelect <> WNone /\ 4 <= 4 /\ ((exists ch0 o0, QWriter ch o = QWriter ch0 o0 /\ (WSelect = WSelect -> recv_ready s ch0 = true)) -> 0 < 4 -> 4 < 4)).
      { intros R. split; [discriminate|]. split; [lia|]. intros (ch0 & o0 & [= <- <-] & X). rewrite (X eq_refl) in R. discriminate. }
      unfold recv_ready in Stay at 1. destruct ch; [| |destruct (q_chan s) as [[[|[? ?] ?] [|]]|]]; cbn; rewrite ?Ew; try (apply Stay; reflexivity); repeat split; try discriminate; lia.
    + cbn. repeat split; try discriminate; lia.
    + unfold buf_write, net_write. destruct (q_err s) eqn:Ee; [cbn; repeat split; try discriminate; lia|].
      destruct (length rest <=? _); [cbn; repeat split; try discriminate; lia|].
      destruct (q_buf s) as [|b l] eqn:Eb; rewrite ?D.
      * cbn. repeat split; try discriminate; lia.
      * unfold buf_flush, net_write. cbn -[firstn skipn app]. rewrite D. destruct ((b :: l) ++ _) eqn:Ea; [discriminate|]. cbn. repeat split; try discriminate; lia.
    + cbn. repeat split; try discriminate; lia.
    + unfold buf_flush, net_write. destruct (q_err s) eqn:Ee; [cbn; repeat split; try discriminate; lia|]. destruct (q_buf s); rewrite ?D; cbn; repeat split; try discriminate; lia.
    + cbn. repeat split; try discriminate; lia.
    + cbn. repeat split; try discriminate; lia.
    + cbn. rewrite Ew. repeat split; try discriminate; lia.
Qed.

Section Runs.
Variables (c : qcfg) (taking : nat -> bool) (sch : nat -> qlabel).
Hypothesis F : tcp_fair c taking sch.
Let st n := fst (conn_at c sch n).
Let tr n := snd (conn_at c sch n).
Lemma e_step n : st (S n) = fst (q_step c (st n) (sch n)) /\ tr (S n) = tr n ++ snd (q_step c (st n) (sch n)).
Proof. unfold st, tr, conn_at. rewrite firstS, app_comm_cons, q_run_snoc. auto. Qed.
Lemma e_on n : q_ctx (st n) = true /\ q_crashed (st n) = false.
Proof.
  induction n as [|n (A & B)]; [split; reflexivity|]. rewrite (proj1 (e_step n)). destruct (keeps c (st n) (sch n) A B) as (X & Y & _). auto.
Qed.
Lemma e_str n : str (st n).
Proof. apply str_run. Qed.
Lemma e_stay n m : n <= m -> (q_cancelled (st n) = true -> q_cancelled (st m) = true) /\ (q_broken (st n) = true -> q_broken (st m) = true).
Proof.
  induction 1 as [|m H (IH1 & IH2)]; [auto|]. rewrite (proj1 (e_step m)). destruct (e_on m) as (A & B). destruct (keeps c (st m) (sch m) A B) as (_ & _ & X & Y & _). auto.
Qed.
Lemma e_calls n t : called t (tr n) = returned t (tr n) + busy (q_send (st n) t).
Proof.
  induction n as [|n IH]; [reflexivity|]. destruct (e_step n) as (E1 & E2). rewrite E1, E2, called_app, returned_app.
  destruct (sender_steps c (st n) (sch n) t) as (X & _). lia.
Qed.
Lemma e_called n m t : n <= m -> called t (tr n) <= called t (tr m).
Proof. induction 1 as [|m H IH]; [lia|]. rewrite (proj2 (e_step m)), called_app. lia. Qed.

Lemma call_ends n t : often (fun m => step_of c (st m) (Sending t) (sch m)) -> exists m, n <= m /\ called t (tr n) <= returned t (tr m).
Proof.
  intros O. set (D := fun k => if called t (tr n) <=? returned t (tr k) then 0 else srank (q_send (st k) t)).
  assert (Busy : forall k, n <= k -> returned t (tr k) < called t (tr n) -> q_send (st k) t <> SIdle).
  { intros k Hk L E. pose proof (e_calls k t) as X. rewrite E in X. cbn in X. pose proof (e_called n k t Hk). lia. }
  destruct (descend D (fun m => step_of c (st m) (Sending t) (sch m)) n) as (m & Hm & Z).
  - intros k Hk. unfold D. destruct (e_step k) as (E1 & E2). rewrite E1, E2, returned_app. destruct (sender_steps c (st k) (sch k) t) as (_ & Y & _).
    destruct (Nat.leb_spec (called t (tr n)) (returned t (tr k))) as [L|L].
    + destruct (Nat.leb_spec (called t (tr n)) (returned t (tr k) + returned t (snd (q_step c (st k) (sch k))))); lia.
    + destruct (Nat.leb_spec (called t (tr n)) (returned t (tr k) + returned t (snd (q_step c (st k) (sch k))))) as [L'|L']; [lia|].
      destruct (Y (Busy k Hk L)) as (_ & Y'). pose proof (e_calls k t) as X. pose proof (e_called n k t Hk). destruct (returned t (snd (q_step c (st k) (sch k)))) as [|r] eqn:Er; [auto|].
      exfalso. assert (busy (q_send (st k) t) <= 1) by (destruct (q_send (st k) t); cbn; lia). lia.
  - intros k Hk Mv P. unfold D in *. destruct (e_step k) as (E1 & E2). rewrite E1, E2, returned_app. destruct (sender_steps c (st k) (sch k) t) as (_ & _ & Y). destruct (e_on k) as (_ & Nc).
    destruct (Nat.leb_spec (called t (tr n)) (returned t (tr k))) as [L|L]; [lia|].
    destruct (Nat.leb_spec (called t (tr n)) (returned t (tr k) + returned t (snd (q_step c (st k) (sch k))))) as [L'|L']; [lia|].
    apply (Y (Busy k Hk L) Nc Mv). pose proof (e_calls k t). pose proof (e_called n k t Hk). assert (busy (q_send (st k) t) <= 1) by (destruct (q_send (st k) t); cbn; lia). lia.
  - exact O.
  - exists m. split; [exact Hm|]. unfold D in Z. destruct (Nat.leb_spec (called t (tr n)) (returned t (tr m))) as [L|L]; [exact L|].
    exfalso. apply (Busy m Hm L). destruct (q_send (st m) t); cbn in Z; congruence.
Qed.
Lemma moves g : often (fun m => held_up (taking m) (st m) g = false) -> often (fun m => step_of c (st m) g (sch m)).
Proof. intros O n. destruct (proj1 F g n) as (m & Hm & [(_ & X)|X]); [exists m; auto|]. destruct (O m) as (k & Hk & E). now elim (X k Hk). Qed.

Lemma tcp_returns n t : often (fun m => taking m = true) -> exists m, n <= m /\ called t (tr n) <= returned t (tr m).
Proof.
  intros O. apply call_ends, moves. intros k. destruct (O k) as (m & Hm & E). exists m. split; [exact Hm|]. unfold held_up. rewrite E. now rewrite andb_false_r.
Qed.
Lemma buffered_state t : buffered_sender t sch -> forall n, is_direct (q_send (st n) t) = false.
Proof.
  intros B. induction n as [|n IH]; [reflexivity|]. rewrite (proj1 (e_step n)). specialize (B n). revert IH B. generalize (sch n), (st n). intros l s IH B. unfold q_step.
  destruct (q_crashed s); [exact IH|]. destruct l as [ | | |u d m|u ch o|ch o].
  - exact IH.
  - destruct (q_ctx s); exact IH.
  - destruct (q_cancelled s); exact IH.
  - destruct (q_send s u) eqn:Eu; try exact IH. destruct (Nat.eq_dec u t) as [->|N].
    + destruct d; [elim (B m eq_refl)|]. cbn. unfold upd. now rewrite Nat.eqb_refl.
    + destruct d; [destruct (q_is_closed s)|]; cbn; unfold upd; replace (t =? u) with false by lia; exact IH.
  - destruct (Nat.eq_dec u t) as [->|N].
    + unfold send_step, net_write. destruct (q_send s t) eqn:Es; try discriminate IH; try (cbn; unfold upd; rewrite ?Nat.eqb_refl, ?Es; reflexivity).
      * destruct (q_chan s); cbn; unfold upd; now rewrite Nat.eqb_refl.
      * destruct (q_flag s); cbn; unfold upd; now rewrite Nat.eqb_refl.
      * destruct (q_is_closed s); cbn; unfold upd; now rewrite Nat.eqb_refl.
      * destruct ch; [destruct (q_cancelled s); [destruct (q_chan s) as [[? [|]]|]|]| |destruct nonnil; [destruct (q_chan s) as [[q [|]]|]; [|destruct (length q <? max 1 (qc_cap c))|]|]];
          cbn; unfold upd; rewrite ?Nat.eqb_refl, ?Es; reflexivity.
    + assert (E' : (t =? u) = false) by lia. unfold send_step, net_write. destruct (q_send s u); try (cbn; unfold upd; rewrite ?E'; exact IH).
      * destruct (q_chan s); cbn; unfold upd; rewrite ?E'; exact IH.
      * destruct (q_flag s); cbn; unfold upd; rewrite ?E'; exact IH.
      * destruct (q_is_closed s); cbn; unfold upd; rewrite ?E'; exact IH.
      * destruct ch; [destruct (q_cancelled s); [destruct (q_chan s) as [[? [|]]|]|]| |destruct nonnil; [destruct (q_chan s) as [[q [|]]|]; [|destruct (length q <? max 1 (qc_cap c))|]|]];
          cbn; unfold upd; rewrite ?E'; exact IH.
      * destruct (q_is_closed s); cbn; unfold upd; rewrite ?E'; exact IH.
      * destruct (q_broken s); [|destruct o]; cbn; unfold upd; rewrite ?E'; exact IH.
  - now rewrite (proj1 (writer_send c s ch o)).
Qed.
Lemma tcp_buffered_returns n t : buffered_sender t sch -> exists m, n <= m /\ called t (tr n) <= returned t (tr m).
Proof.
  intros B. apply call_ends, moves. intros k. exists k. split; [lia|]. pose proof (buffered_state t B k) as X. unfold held_up, in_write. destruct (q_send (st k) t); try reflexivity; discriminate X.
Qed.

Lemma stop_closes n : q_cancelled (st n) = true -> exists m, n <= m /\ q_broken (st m) = true.
Proof.
  intros C. destruct (proj2 F n) as (m & Hm & E). exists (S m). split; [lia|]. rewrite (proj1 (e_step m)). destruct (e_on m) as (A & B).
  destruct (keeps c (st m) (sch m) A B) as (_ & _ & _ & _ & X). apply X; [exact E|]. now apply (proj1 (e_stay n m Hm)).
Qed.
Lemma later (P : nat -> Prop) n : (forall m, n <= m -> P m) -> often P.
Proof. intros H k. exists (n + k). split; [lia|]. apply H. lia. Qed.
Lemma broken_moves n g : q_broken (st n) = true -> often (fun m => step_of c (st m) g (sch m)).
Proof. intros B. apply moves. apply (later _ n). intros m Hm. unfold held_up. rewrite (proj2 (e_stay n m Hm) B). now rewrite andb_false_r. Qed.
Lemma tcp_stop_returns n t : q_cancelled (st n) = true -> exists m, n <= m /\ called t (tr n) <= returned t (tr m).
Proof. intros C. destruct (stop_closes n C) as (k & Hk & B). apply call_ends, (broken_moves k), B. Qed.
Lemma tcp_writer_ends n : q_cancelled (st n) = true -> exists m, n <= m /\ (q_writer (st m) = WNone \/ q_writer (st m) = WGone).
Proof.
  intros C. destruct (stop_closes n C) as (k & Hk & B).
  assert (Wn : q_writer (st k) = WNone \/ q_writer (st k) <> WNone) by (destruct (q_writer (st k)); auto; right; discriminate).
  destruct Wn as [Wn|Wn]; [exists k; auto|].
  assert (W : forall m, k <= m -> q_writer (st m) <> WNone /\ wrank (st (S m)) <= wrank (st m) /\ (step_of c (st m) Writing (sch m) -> 0 < wrank (st m) -> wrank (st (S m)) < wrank (st m))).
  { intros m Hm. induction Hm as [|m Hm (IH & _)].
    - split; [exact Wn|]. rewrite (proj1 (e_step k)). destruct (e_on k) as (A1 & A2). apply (writer_steps c (st k) (sch k) (e_str k) A1 A2 (proj1 (e_stay n k Hk) C) B Wn).
    - assert (X : q_writer (st (S m)) <> WNone).
      { rewrite (proj1 (e_step m)). destruct (e_on m) as (A1 & A2). apply (writer_steps c (st m) (sch m) (e_str m) A1 A2); auto; [now apply (proj1 (e_stay n m ltac:(lia)))|now apply (proj2 (e_stay k m Hm))]. }
      split; [exact X|]. rewrite (proj1 (e_step (S m))). destruct (e_on (S m)) as (A1 & A2). apply (writer_steps c (st (S m)) (sch (S m)) (e_str (S m)) A1 A2); auto; [now apply (proj1 (e_stay n (S m) ltac:(lia)))|now apply (proj2 (e_stay k (S m) ltac:(lia)))]. }
  destruct (descend (fun m => wrank (st m)) (fun m => step_of c (st m) Writing (sch m)) k) as (m & Hm & Z).
  - intros m Hm. apply (W m Hm).
  - intros m Hm. apply (W m Hm).
  - apply (broken_moves k), B.
  - exists m. split; [lia|]. unfold wrank in Z. destruct (W m Hm) as (X & _). destruct (q_writer (st m)); auto; try discriminate Z. destruct (q_err (st m)); discriminate Z.
Qed.
End Runs.

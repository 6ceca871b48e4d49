(* Proofs about the TCP send path: the theorems for C34-C36. *)
From Coq Require Import List Bool Arith Lia ZifyBool ZifyNat.
From Verif Require Import Bytes SendQueue Spec_Send SendQueue_proofs.
Import ListNotations.

Lemma cont_new : cont q_new [].
Proof. constructor; cbn; auto; [now exists []|]. intros _. exists []. now cbn. Qed.

Lemma buffered_labels ls : buffered_only ls -> forall l, In l ls -> buffered_label l.
Proof. intros H l Hl. destruct l as [ | | |t [|] m|t ch o|ch o]; cbn; auto. exact (H _ _ Hl). Qed.

Lemma cont_run c ls : buffered_only ls -> cont (fst (q_run c q_new ls)) (snd (q_run c q_new ls)).
Proof.
  intros H.
  pose proof (run_inv c buffered_label (fun s tr => str s /\ cont s tr)) as R.
  assert (X : str q_new /\ cont q_new []) by (split; [apply str_new|apply cont_new]).
  specialize (R ltac:(intros s tr l Hl [S C]; split; [now apply str_step|now apply cont_step]) ls q_new [] X (buffered_labels ls H)).
  apply R.
Qed.

Lemma tcp_prefix c ls : buffered_only ls ->
  prefix (q_wire (fst (q_run c q_new ls))) (concat (map snd (oks (snd (q_run c q_new ls))))).
Proof.
  intros H. destruct (ct_pre _ _ (cont_run c ls H)) as (r & ->). eexists. now rewrite <- app_assoc.
Qed.
Lemma tcp_whole c ls : buffered_only ls ->
  let s := fst (q_run c q_new ls) in let tr := snd (q_run c q_new ls) in
  q_writer s = WSelect -> q_buf s = [] ->
  exists n, q_wire s = concat (firstn n (map snd (oks tr))).
Proof.
  intros H s tr Hw Hb. pose proof (ct_ex _ _ (cont_run c ls H)) as X. fold s tr in X.
  destruct X as (done & E & F).
  - now rewrite Hw.
  - rewrite Hw, Hb in F. cbn in F. rewrite app_nil_r in F. exists (length done).
    rewrite E, firstn_app, firstn_all, Nat.sub_diag. cbn. now rewrite app_nil_r.
Qed.

(* ---- one goroutine's messages keep their order ---- *)

Definition inflight (p : spc) : list msg :=
  match p with
  | SIdle => []
  | SChk m | SCas m | SMake m | SGo m | SClosed m | SEnter m | SSel m _ | DChk m | DWrite m => [m]
  end.

Lemma subseq_nil {A} (l : list A) : subseq [] l.
Proof. induction l; constructor; auto. Qed.
Lemma subseq_snoc {A} (a b : list A) x : subseq a b -> subseq (a ++ [x]) (b ++ [x]).
Proof. induction 1; cbn; [apply sub_take, sub_nil|now apply sub_skip|now apply sub_take]. Qed.
Lemma subseq_drop {A} (a b : list A) x : subseq (a ++ [x]) b -> subseq a b.
Proof.
  revert a. induction b as [|y b IH]; intros a H.
  - destruct a; inversion H.
  - destruct a as [|z a]; [apply subseq_nil|]. cbn in H. inversion H; subst.
    + apply sub_skip, (IH (z :: a)). assumption.
    + apply sub_take, IH. assumption.
Qed.
Lemma asked_app t a b : asked t (a ++ b) = asked t a ++ asked t b.
Proof. induction a as [|[] a IH]; cbn; auto. destruct (t0 =? t); cbn; now rewrite IH. Qed.
Lemma oks_of_app t a b : oks_of t (a ++ b) = oks_of t a ++ oks_of t b.
Proof. unfold oks_of. now rewrite oks_app, filter_app, map_app. Qed.

Definition ordered (s : qst) (tr : list qev) : Prop :=
  forall t, subseq (oks_of t tr ++ inflight (q_send s t)) (asked t tr).

(* A step leaves the other goroutines alone, and its own events fit. *)
Definition fits (p p' : spc) (t : nat) (ev : list qev) : Prop :=
  (inflight p' = inflight p /\ oks_of t ev = [] /\ asked t ev = []) \/
  (inflight p' = [] /\ oks_of t ev = inflight p /\ asked t ev = []) \/
  (inflight p' = [] /\ oks_of t ev = [] /\ asked t ev = []) \/
  (exists m, inflight p = [] /\ (inflight p' = [m] \/ inflight p' = []) /\ oks_of t ev = [] /\ asked t ev = [m]).

Lemma ordered_fits s s' tr ev :
  ordered s tr -> (forall t, fits (q_send s t) (q_send s' t) t ev) -> ordered s' (tr ++ ev).
Proof.
  intros H F t. specialize (H t). rewrite oks_of_app, asked_app.
  destruct (F t) as [(A & B & C)|[(A & B & C)|[(A & B & C)|(m & A & B & C & D)]]].
  - rewrite A, B, C, !app_nil_r. exact H.
  - rewrite A, B, C, !app_nil_r. exact H.
  - rewrite A, B, C, !app_nil_r. destruct (inflight (q_send s t)) as [|m [|]] eqn:E.
    + now rewrite app_nil_r in H.
    + now apply subseq_drop in H.
    + destruct (q_send s t); discriminate.
  - rewrite A, app_nil_r in H. rewrite C, D, app_nil_r. destruct B as [->| ->].
    + now apply subseq_snoc.
    + rewrite app_nil_r. apply (subseq_drop _ _ m). now apply subseq_snoc.
Qed.

Lemma fits_same p t ev : oks_of t ev = [] -> asked t ev = [] -> fits p p t ev.
Proof. intros. left. auto. Qed.
Lemma fits_upd s s' t p ev :
  q_send s' = upd (q_send s) t p ->
  (forall u, u <> t -> oks_of u ev = [] /\ asked u ev = []) -> fits (q_send s t) p t ev ->
  forall u, fits (q_send s u) (q_send s' u) u ev.
Proof.
  intros E H F u. rewrite E. unfold upd. destruct (Nat.eqb_spec u t) as [->|Hn]; [exact F|].
  destruct (H u Hn). now apply fits_same.
Qed.
Lemma quiet s s' ev : q_send s' = q_send s -> (forall u, oks_of u ev = [] /\ asked u ev = []) ->
  forall u, fits (q_send s u) (q_send s' u) u ev.
Proof. intros -> H u. destruct (H u). now apply fits_same. Qed.

Lemma others t u m : u <> t -> oks_of u [QOk t m] = [].
Proof. intros H. unfold oks_of. cbn. destruct (Nat.eqb_spec t u); [congruence|reflexivity]. Qed.
Lemma mine t m : oks_of t [QOk t m] = [m].
Proof. unfold oks_of. cbn. now rewrite Nat.eqb_refl. Qed.
Lemma asked_others t u m ev : u <> t -> asked u (QBegin t m :: ev) = asked u ev.
Proof. intros H. cbn. destruct (Nat.eqb_spec t u); [congruence|reflexivity]. Qed.
Lemma asked_mine t m ev : asked t (QBegin t m :: ev) = m :: asked t ev.
Proof. cbn. now rewrite Nat.eqb_refl. Qed.

Lemma writer_quiet c s ch o : q_send (fst (writer_step c s ch o)) = q_send s /\
  (snd (writer_step c s ch o) = [] \/ snd (writer_step c s ch o) = [QCrash]).
Proof.
  unfold writer_step. destruct (q_writer s); cbn; auto.
  - destruct (q_ctx s); cbn; auto.
  - destruct ch; cbn; auto.
    + destruct (q_cancelled s); cbn; auto.
    + destruct (q_chan s) as [[[|[t m] l] [|]]|]; cbn; auto.
  - destruct (q_is_closed s); cbn; auto.
  - destruct (buf_write_eq c s rest o) as (b & er & wi & br & E). destruct (buf_write c s rest o) as [s1 r].
    cbn in E. subst s1. cbn. auto.
  - destruct (q_is_closed s); cbn; auto.
  - destruct (buf_flush_eq s o) as (b & er & wi & br & E). destruct (buf_flush s o) as [s1 r].
    cbn in E. subst s1. cbn. auto.
  - destruct (q_is_closed s); cbn; auto.
  - destruct (buf_flush_eq s o) as (b & er & wi & br & E). destruct (buf_flush s o) as [s1 r].
    cbn in E. subst s1. cbn. auto.
Qed.

Ltac fit_own := eapply fits_upd; [reflexivity|cbn; auto|].

Lemma ordered_step c s tr l : ordered s tr -> ordered (fst (q_step c s l)) (tr ++ snd (q_step c s l)).
Proof.
  intros H. apply (ordered_fits s); [exact H|]. unfold q_step.
  destruct (q_crashed s); [apply quiet; cbn; auto|].
  destruct l as [ | | |t d m|t ch o|ch o].
  - apply quiet; cbn; auto.
  - destruct (q_ctx s); apply quiet; cbn; auto.
  - destruct (q_cancelled s); apply quiet; cbn; auto.
  - destruct (q_send s t) eqn:Es; try (apply quiet; cbn; now auto). destruct d.
    + destruct (q_is_closed s).
      * intros u. cbn [fst snd]. destruct (Nat.eq_dec u t) as [->|Hn].
        -- right; right; right. exists m. rewrite Es. cbn [inflight]. rewrite asked_mine. cbn. auto.
        -- apply fits_same; [reflexivity|]. now rewrite asked_others.
      * eapply fits_upd; [reflexivity|intros u Hu; cbn [fst snd]; rewrite asked_others; auto|].
        right; right; right. exists m. rewrite Es. cbn [fst snd inflight]. rewrite asked_mine. cbn. auto.
    + eapply fits_upd; [reflexivity|intros u Hu; cbn [fst snd]; rewrite asked_others; auto|].
      right; right; right. exists m. rewrite Es. cbn [fst snd inflight]. rewrite asked_mine. cbn. auto.
  - unfold send_step. destruct (q_send s t) eqn:Es; try (apply quiet; cbn; now auto).
    + destruct (q_chan s); (fit_own; rewrite Es; left; cbn; auto).
    + destruct (q_flag s); (fit_own; rewrite Es; left; cbn; auto).
    + fit_own; rewrite Es; left; cbn; auto.
    + fit_own; rewrite Es; left; cbn; auto.
    + destruct (q_is_closed s); fit_own; rewrite Es; [right; right; left|left]; cbn; auto.
    + fit_own; rewrite Es; left; cbn; auto.
    + destruct ch.
      * destruct (q_cancelled s); [|apply quiet; cbn; now auto].
        destruct (q_chan s) as [[l [|]]|]; (fit_own; right; right; left; cbn; auto).
      * fit_own; right; right; left; cbn; auto.
      * destruct nonnil; [|apply quiet; cbn; now auto].
        destruct (q_chan s) as [[l [|]]|]; [ |destruct (length l <? max 1 (qc_cap c))|];
          try (apply quiet; cbn; now auto).
        -- fit_own; right; right; left; cbn; auto.
        -- eapply fits_upd; [reflexivity|intros u Hu; cbn [fst snd]; now rewrite others|].
           right; left. rewrite Es. cbn [fst snd]. rewrite mine. cbn. auto.
    + destruct (q_is_closed s); fit_own; rewrite Es; [right; right; left|left]; cbn; auto.
    + destruct (net_write_eq s m o) as (n & br & ok & E & _). rewrite E. cbn [fst snd]. destruct ok.
      * eapply fits_upd; [reflexivity|intros u Hu; now rewrite others|].
        right; left. rewrite Es, mine. cbn. auto.
      * fit_own; right; right; left; cbn; auto.
  - destruct (writer_quiet c s ch o) as [E F]. apply quiet; [exact E|]. intros u. destruct F as [-> | ->]; cbn; auto.
Qed.

Lemma ordered_run c ls : ordered (fst (q_run c q_new ls)) (snd (q_run c q_new ls)).
Proof.
  apply (run_inv c (fun _ => True) ordered) with (tr := []) (ls := ls) (s := q_new); auto.
  - intros; now apply ordered_step.
  - intros t. cbn. constructor.
Qed.
Lemma tcp_order c ls t : let tr := snd (q_run c q_new ls) in subseq (oks_of t tr) (asked t tr).
Proof.
  intros tr. pose proof (ordered_run c ls t) as H. fold tr in H.
  destruct (inflight (q_send (fst (q_run c q_new ls)) t)) as [|m [|]] eqn:E.
  - now rewrite app_nil_r in H.
  - now apply subseq_drop in H.
  - destruct (q_send (fst (q_run c q_new ls)) t); discriminate.
Qed.

(* ---- direct sends only ---- *)

Definition dstate (p : spc) : bool := match p with SIdle | DChk _ | DWrite _ => true | _ => false end.
Record dinv (s : qst) (tr : list qev) : Prop := {
  di_s : forall t, dstate (q_send s t) = true;
  di_c : q_chan s = None;
  di_w : q_writer s = WNone;
  di_ok : q_broken s = false -> q_wire s = concat (map snd (oks tr));
  di_any : exists t m k, q_wire s = concat (map snd (oks tr)) ++ firstn k m /\ (k <> 0 -> In (QErr t m) tr)
}.

Lemma dinv_new : dinv q_new [].
Proof. constructor; cbn; auto. exists 0, [], 0. cbn. split; [reflexivity|lia]. Qed.

Lemma dinv_same s s' tr ev : dinv s tr -> oks ev = [] -> (forall t, dstate (q_send s' t) = true) ->
  q_chan s' = None -> q_writer s' = WNone -> q_wire s' = q_wire s -> (q_broken s' = false -> q_broken s = false) ->
  dinv s' (tr ++ ev).
Proof.
  intros [A B C D (t & m & k & E & F)] He Hs Hc Hw Hwi Hb. constructor; auto.
  - intros X. rewrite Hwi, oks_app, He, app_nil_r. auto.
  - exists t, m, k. rewrite Hwi, oks_app, He, app_nil_r. split; [exact E|]. intros X. apply in_or_app. auto.
Qed.
Lemma dst_upd s t p : (forall u, dstate (q_send s u) = true) -> dstate p = true ->
  forall u, dstate (upd (q_send s) t p u) = true.
Proof. intros H Hp u. updcases; auto. Qed.

Definition direct_label (l : qlabel) : Prop := match l with QCall _ false _ => False | _ => True end.

Lemma dinv_step c s tr l : direct_label l -> dinv s tr -> dinv (fst (q_step c s l)) (tr ++ snd (q_step c s l)).
Proof.
  intros Hl D. pose proof D as [A B C W X].
  assert (N : dinv s (tr ++ [])) by now rewrite app_nil_r.
  unfold q_step. destruct (q_crashed s); [exact N|].
  destruct l as [ | | |t d m|t ch o|ch o].
  - eapply dinv_same; eauto.
  - destruct (q_ctx s); [eapply dinv_same; eauto|exact N].
  - destruct (q_cancelled s); [eapply dinv_same; cbn; eauto; discriminate|exact N].
  - destruct d; [|contradiction]. destruct (q_send s t) eqn:Es; try exact N.
    destruct (q_is_closed s); eapply dinv_same; cbn; eauto using dst_upd.
  - unfold send_step. pose proof (A t) as At. destruct (q_send s t) eqn:Es; cbn in At; try discriminate; try exact N.
    + destruct (q_is_closed s); eapply dinv_same; cbn; eauto using dst_upd.
    + unfold net_write. destruct (q_broken s) eqn:Eb.
      * eapply dinv_same; cbn; eauto using dst_upd.
      * specialize (W eq_refl). destruct o as [|n].
        -- constructor; cbn; eauto using dst_upd.
           ++ intros _. rewrite firstn_all, oks_app, map_app, concat_app, W. cbn. now rewrite app_nil_r.
           ++ exists 0, [], 0. split; [|lia]. rewrite firstn_all, oks_app, map_app, concat_app, W. cbn. now rewrite !app_nil_r.
        -- constructor; cbn; eauto using dst_upd; [discriminate|].
           exists t, m, (min n (length m)). rewrite W, oks_app. cbn. rewrite app_nil_r. split; [reflexivity|].
           intros _. apply in_or_app. cbn. auto.
  - unfold writer_step. rewrite C. exact N.
Qed.

Lemma tcp_direct c ls : direct_only ls ->
  let s := fst (q_run c q_new ls) in let tr := snd (q_run c q_new ls) in
  exists t m k, q_wire s = concat (map snd (oks tr)) ++ firstn k m /\ (k <> 0 -> In (QErr t m) tr).
Proof.
  intros H s tr. apply (di_any s tr).
  apply (run_inv c direct_label dinv) with (tr := []) (ls := ls) (s := q_new); auto using dinv_step, dinv_new.
  intros l Hl. destruct l as [ | | |t [|] m|t ch o|ch o]; cbn; auto. exact (H _ _ Hl).
Qed.

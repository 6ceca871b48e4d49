(* Proofs about the websocket and KCP send paths: order, progress, loss. *)
From Coq Require Import List Bool Arith Lia ZifyBool ZifyNat.
From Verif Require Import Bytes GoSlice SendQueue Spec_Send SendLocked Spec_SendLocked SendLocked_proofs SendLocked2_proofs.
Import ListNotations.

Definition started : lst := fst (l_step 0 Ws l_new MStart).
Lemma started_run c fl ls : l_run c fl l_new (MStart :: ls) = l_run c fl started ls.
Proof. cbn. now destruct (l_run _ _ _ _). Qed.
Lemma ws_started : wsinv started [].
Proof.
  constructor; cbn; auto; try discriminate; try tauto.
  - constructor; cbn; auto; try discriminate.
    + constructor; unfold holds; cbn; try discriminate; auto. intros [|i]; discriminate.
    + intros [|i]; discriminate.
    + split; intros; cbn; auto.
  - exists []. reflexivity.
Qed.
Lemma ws_run c ls : wsinv (fst (l_run c Ws l_new (MStart :: ls))) (snd (l_run c Ws l_new (MStart :: ls))).
Proof.
  rewrite started_run. change (snd (l_run c Ws started ls)) with ([] ++ snd (l_run c Ws started ls)).
  apply (l_run_inv c Ws (fun _ => True) wsinv (fun s tr l _ => ws_step c s tr l)); [exact ws_started|auto].
Qed.
Lemma ws_content c ls : let r := l_run c Ws l_new (MStart :: ls) in
  wired false (l_wire (fst r)) = nils false (snd r) /\ prefix (wired true (l_wire (fst r))) (nils true (snd r)).
Proof. pose proof (ws_run c ls) as W. split; [exact (wi_dir _ _ W)|exact (wi_pre _ _ W)]. Qed.

(* ---- order ---- *)

Definition pend (b : bool) (p : lpc) : option msg :=
  match p with
  | LIdle => None
  | LDAcq m | LDClosed m | LDWrite m => if b then None else Some m
  | LAcq m | LChk _ m | LMake _ m | LGo _ m | LClosed _ m | LEnter _ m | LSel _ m _ => if b then Some m else None
  end.
Definition in_order (s : lst) (tr : list lev) : Prop := forall t b,
  match pend b (l_send s t) with
  | None => subseq (of_goroutine t (nils b tr)) (asked_l t b tr)
  | Some m => exists old, asked_l t b tr = old ++ [m] /\ subseq (of_goroutine t (nils b tr)) old
  end.

Lemma asked_app t b x y : asked_l t b (x ++ y) = asked_l t b x ++ asked_l t b y.
Proof. induction x as [|[] x IH]; cbn; auto. destruct ((t0 =? t) && Bool.eqb buffered b); cbn; now rewrite IH. Qed.
Local Arguments of_goroutine : simpl never.
Lemma of_app t x y : of_goroutine t (x ++ y) = of_goroutine t x ++ of_goroutine t y.
Proof. unfold of_goroutine. now rewrite filter_app, map_app. Qed.
Lemma subseq_skip {A} (l k : list A) x : subseq l k -> subseq l (k ++ [x]).
Proof. induction 1; cbn; [apply sub_skip, sub_nil|now apply sub_skip|now apply sub_take]. Qed.
Lemma subseq_snoc {A} (l k : list A) x : subseq l k -> subseq (l ++ [x]) (k ++ [x]).
Proof. induction 1; cbn; [apply sub_take, sub_nil|now apply sub_skip|now apply sub_take]. Qed.

(* The step of one goroutine: it begins, returns nil, returns an error, or goes on with the same message. *)
Lemma order_one s s' tr ev t p : in_order s tr -> (forall u, l_send s' u = if u =? t then p else l_send s u) ->
  (ev = [] /\ (forall b, pend b p = pend b (l_send s t))
   \/ (exists b m, ev = [MBegin t b m] /\ l_send s t = LIdle /\ pend b p = Some m /\ pend (negb b) p = None)
   \/ (exists b m, ev = [MOk t b m] /\ p = LIdle /\ pend b (l_send s t) = Some m /\ pend (negb b) (l_send s t) = None)
   \/ (exists e, ev = [e] /\ p = LIdle /\ match e with MErr _ _ | MPanic _ => True | _ => False end)) ->
  in_order s' (tr ++ ev).
Proof.
  intros H Hs Hc u b. specialize (H u b). rewrite Hs, nils_app, asked_app, of_app.
  destruct Hc as [(-> & Hp)|[(b0 & m & -> & Hi & Hp & Hn)|[(b0 & m & -> & -> & Hp & Hn)|(e & -> & -> & He)]]].
  - cbn. change (of_goroutine u []) with (@nil msg). rewrite !app_nil_r. destruct (Nat.eqb_spec u t) as [->|]; [rewrite Hp|]; exact H.
  - cbn. change (of_goroutine u []) with (@nil msg). rewrite app_nil_r. rewrite (Nat.eqb_sym t u). destruct (Nat.eqb_spec u t) as [->|]; cbn.
    + rewrite Hi in H. cbn in H. destruct (Bool.eqb_spec b0 b) as [->|Hb].
      * rewrite Hp. eauto.
      * replace b with (negb b0) in * by (destruct b, b0; solve [reflexivity|congruence]). rewrite Hn, app_nil_r. exact H.
    + rewrite app_nil_r. exact H.
  - cbn. rewrite app_nil_r. destruct (Nat.eqb_spec u t) as [->|].
    + cbn. destruct (Bool.eqb_spec b b0) as [->|Hb].
      * rewrite Hp in H. destruct H as (old & -> & H). unfold of_goroutine at 2. cbn. rewrite Nat.eqb_refl. cbn. now apply subseq_snoc.
      * replace b with (negb b0) in * by (destruct b, b0; solve [reflexivity|congruence]). rewrite Hn in H. change (of_goroutine t []) with (@nil msg). now rewrite app_nil_r.
    + assert (E : of_goroutine u (if Bool.eqb b b0 then [(t, m)] else []) = []).
      { destruct (Bool.eqb b b0); [|reflexivity]. unfold of_goroutine. cbn. destruct (Nat.eqb_spec t u); [congruence|reflexivity]. }
      rewrite E, app_nil_r. exact H.
  - assert (E : nils b [e] = [] /\ asked_l u b [e] = []) by (destruct e; cbn; auto; contradiction). destruct E as [-> ->].
    change (of_goroutine u []) with (@nil msg). rewrite !app_nil_r. destruct (Nat.eqb_spec u t) as [->|]; [|exact H]. cbn.
    destruct (pend b (l_send s t)); [|exact H]. destruct H as (old & -> & H). now apply subseq_skip.
Qed.
Lemma order_keep s s' tr ev : in_order s tr -> l_send s' = l_send s -> (ev = [] \/ ev = [MCrash]) -> in_order s' (tr ++ ev).
Proof.
  intros H Hs He u b. specialize (H u b). rewrite Hs, nils_app, asked_app, of_app.
  destruct He as [-> | ->]; cbn; change (of_goroutine u []) with (@nil msg); rewrite !app_nil_r; exact H.
Qed.
Lemma release_send s x : l_send (release s x) = l_send s.
Proof. unfold release. now destruct (l_excl s). Qed.
Lemma take_send fl s x s1 : take fl s x = Some s1 -> l_send s1 = l_send s.
Proof. intros H. destruct (take_eq _ _ _ _ H) as (e & sh & -> & _). reflexivity. Qed.

Lemma order_step c fl s tr l : in_order s tr -> in_order (fst (l_step c fl s l)) (tr ++ snd (l_step c fl s l)).
Proof.
  intros H. assert (N : in_order s (tr ++ [])) by now rewrite app_nil_r.
  unfold l_step. destruct (l_crashed s); [exact N|]. destruct l as [ | |t a m|t ch o|i ch o|].
  - now apply order_keep with s; auto.
  - destruct (l_ctx s); [now apply order_keep with s; auto|exact N].
  - destruct (l_send s t) eqn:Es; try exact N.
    destruct a; cbn [fst snd]; (eapply order_one with (t := t); [exact H|intros u; cbn; reflexivity|]); right; left.
    + exists false, m. auto.
    + exists true, m. auto.
    + exists true, m. destruct fl; auto.
  - unfold lsend_step. destruct (l_send s t) eqn:Es; try exact N.
    + destruct (take fl s (OSend t)) eqn:Et; [|exact N]. apply take_send in Et.
      eapply order_one with (t := t); [exact H|intros u; cbn; rewrite Et; reflexivity|]. left. rewrite Es. auto.
    + destruct (l_field s); (eapply order_one with (t := t); [exact H|intros u; cbn; reflexivity|]); left; rewrite Es; destruct lk; auto.
    + eapply order_one with (t := t); [exact H|intros u; cbn; reflexivity|]. left; rewrite Es; destruct lk; auto.
    + eapply order_one with (t := t); [exact H|intros u; cbn; reflexivity|]. left; rewrite Es; destruct lk; auto.
    + destruct (l_closed s).
      * eapply order_one with (t := t); [exact H|intros u; cbn; destruct lk; cbn; rewrite ?release_send; reflexivity|]. right; right; right. eexists. repeat split.
      * eapply order_one with (t := t); [exact H|intros u; cbn; reflexivity|]. left; rewrite Es; destruct lk; auto.
    + eapply order_one with (t := t); [exact H|intros u; cbn; reflexivity|]. left; rewrite Es; auto.
    + assert (R : forall e, match e with MErr _ _ | MPanic _ => True | _ => False end ->
        in_order (w_send (release_if lk s (OSend t)) t LIdle) (tr ++ [e])).
      { intros e He. eapply order_one with (t := t); [exact H|intros u; cbn; destruct lk; cbn; rewrite ?release_send; reflexivity|].
        right; right; right. eauto. }
      destruct ch; [exact N|now apply R|]. destruct i as [k|]; [|exact N]. destruct (chan_at s k) as [[q [|]]|]; [now apply R| |exact N].
      destruct (length q <? max 1 c); [|exact N].
      eapply order_one with (t := t); [exact H|intros u; cbn; destruct lk; cbn; rewrite ?release_send; reflexivity|].
      right; right; left. exists true, m. rewrite Es. auto.
    + destruct (take fl s (OSend t)) eqn:Et; [|exact N]. apply take_send in Et.
      eapply order_one with (t := t); [exact H|intros u; cbn; rewrite Et; reflexivity|]. left. rewrite Es. auto.
    + destruct (l_closed s).
      * eapply order_one with (t := t); [exact H|intros u; cbn; rewrite ?release_send; reflexivity|]. right; right; right. eexists. repeat split.
      * eapply order_one with (t := t); [exact H|intros u; cbn; reflexivity|]. left; rewrite Es; auto.
    + destruct (l_broken s); [|destruct o].
      * eapply order_one with (t := t); [exact H|intros u; cbn; rewrite ?release_send; reflexivity|]. right; right; right. eexists. repeat split.
      * eapply order_one with (t := t); [exact H|intros u; cbn; rewrite ?release_send; reflexivity|].
        right; right; left. exists false, m. rewrite Es. auto.
      * eapply order_one with (t := t); [exact H|intros u; cbn; rewrite ?release_send; reflexivity|]. right; right; right. eexists. repeat split.
  - unfold lwriter_step. destruct (nth_error (l_writers s) i) as [v|]; [|exact N]. destruct v; try exact N.
    + destruct (l_ctx s); apply order_keep with s; auto.
    + destruct ch; [destruct (l_cancelled s); [apply order_keep with s; auto|exact N]|exact N|].
      destruct i0 as [j|]; [|exact N]. destruct (chan_at s j) as [[[|[t m] q] [|]]|]; try exact N; apply order_keep with s; auto.
    + destruct (take fl s (OWriter i)) eqn:Et; [|exact N]. apply take_send in Et. apply order_keep with s; auto.
    + destruct (l_closed s); apply order_keep with s; auto. apply release_send.
    + destruct (l_broken s); [|destruct o]; apply order_keep with s; auto; cbn; rewrite release_send; reflexivity.
  - unfold lfinal_step. destruct (l_final s); try exact N; try (apply order_keep with s; auto; fail).
    + destruct (l_cancelled s); [apply order_keep with s; auto|exact N].
    + destruct (take_excl s OFinal) as [s1|] eqn:Et; [|exact N]. assert (X : take Ws s OFinal = Some s1) by exact Et.
      apply take_send in X. apply order_keep with s; auto.
    + cbn [fst snd]. apply order_keep with s; auto. destruct (l_field s); auto. now destruct (chan_at s n) as [[? ?]|].
    + cbn [fst snd]. apply order_keep with s; auto. cbn. apply release_send.
Qed.

Lemma prefix_subseq {A} (p l : list A) : prefix p l -> subseq p l.
Proof.
  intros (r & ->). induction p as [|x p IH]; cbn; [|now constructor]. induction r; constructor; auto.
Qed.
Lemma subseq_trans {A} (a b c : list A) : subseq a b -> subseq b c -> subseq a c.
Proof.
  intros H1 H2. revert a H1. induction H2; intros a H1; [exact H1|apply sub_skip; auto|].
  inversion H1; subst; [apply sub_skip|apply sub_take]; auto.
Qed.
Lemma returned_order c fl ls t b : let tr := snd (l_run c fl l_new ls) in subseq (of_goroutine t (nils b tr)) (asked_l t b tr).
Proof.
  cbv zeta. assert (I : in_order (fst (l_run c fl l_new ls)) ([] ++ snd (l_run c fl l_new ls))).
  { apply (l_run_inv c fl (fun _ => True) in_order (fun s tr l _ => order_step c fl s tr l)); [|auto].
    intros u b'. destruct b'; constructor. }
  specialize (I t b). cbn [app] in I. destruct (pend b _); [|exact I]. destruct I as (old & -> & I). now apply subseq_skip.
Qed.
Lemma ws_order c ls t : let r := l_run c Ws l_new (MStart :: ls) in
  subseq (of_goroutine t (wired true (l_wire (fst r)))) (asked_l t true (snd r)).
Proof.
  cbv zeta. eapply subseq_trans; [|exact (returned_order c Ws (MStart :: ls) t true)].
  apply prefix_subseq. destruct (proj2 (ws_content c ls)) as (rest & E). exists (of_goroutine t rest).
  etransitivity; [exact (f_equal (of_goroutine t) E)|apply of_app].
Qed.

(* Proofs about the TCP send path. *)
From Coq Require Import List Bool Arith Lia ZifyBool ZifyNat.
From Verif Require Import Bytes SendQueue Spec_Send.
Import ListNotations.

Lemma q_run_app c : forall ls s ls', q_run c s (ls ++ ls') =
  (fst (q_run c (fst (q_run c s ls)) ls'), snd (q_run c s ls) ++ snd (q_run c (fst (q_run c s ls)) ls')).
Proof.
  induction ls as [|l ls IH]; intros s ls'; cbn.
  - now destruct (q_run c s ls').
  - destruct (q_step c s l) as [s1 e]. rewrite IH. destruct (q_run c s1 ls) as [s2 es]. cbn. now rewrite app_assoc.
Qed.
Lemma q_run_snoc c ls l s : q_run c s (ls ++ [l]) =
  (fst (q_step c (fst (q_run c s ls)) l), snd (q_run c s ls) ++ snd (q_step c (fst (q_run c s ls)) l)).
Proof.
  rewrite q_run_app. cbn. destruct (q_step c (fst (q_run c s ls)) l). cbn. now rewrite app_nil_r.
Qed.

(* A property of state and trace that every step preserves holds after every run. *)
Lemma run_inv c (ok : qlabel -> Prop) (I : qst -> list qev -> Prop) :
  (forall s tr l, ok l -> I s tr -> I (fst (q_step c s l)) (tr ++ snd (q_step c s l))) ->
  forall ls s tr, I s tr -> (forall l, In l ls -> ok l) -> I (fst (q_run c s ls)) (tr ++ snd (q_run c s ls)).
Proof.
  intros H. induction ls as [|l ls IH]; intros s tr Hi Hok; cbn.
  - now rewrite app_nil_r.
  - pose proof (H s tr l (Hok l (or_introl eq_refl)) Hi) as H1.
    destruct (q_step c s l) as [s1 e]. cbn in H1.
    specialize (IH s1 (tr ++ e) H1 (fun x Hx => Hok x (or_intror Hx))).
    destruct (q_run c s1 ls) as [s2 es]. cbn in *. now rewrite app_assoc.
Qed.

Definition making (p : spc) : bool := match p with SMake _ | SGo _ => true | _ => false end.
Definition is_direct (p : spc) : bool := match p with DChk _ | DWrite _ => true | _ => false end.
Definition wlive (w : wpc) : bool := match w with WNone | WBegin | WGone => false | _ => true end.

Record str (s : qst) : Prop := {
  st_flag : q_flag s = false -> q_chan s = None /\ q_writer s = WNone /\ forall t, making (q_send s t) = false;
  st_make : forall t m, q_send s t = SMake m -> q_chan s = None /\ q_writer s = WNone /\ forall u, u <> t -> making (q_send s u) = false;
  st_go : forall t m, q_send s t = SGo m -> q_chan s <> None /\ q_writer s = WNone /\ forall u, u <> t -> making (q_send s u) = false;
  st_sel : forall t m, q_send s t = SSel m true -> q_chan s <> None;
  st_closed : forall l, q_chan s = Some (l, true) -> q_cancelled s = true;
  st_nil : q_chan s = None -> q_writer s = WNone;
  st_ctx : wlive (q_writer s) = true -> q_ctx s = true;
  st_can : q_cancelled s = true -> q_ctx s = true
}.

Lemma str_new : str q_new.
Proof. constructor; cbn; try tauto; try discriminate; intros; try discriminate; repeat split; auto; intros; discriminate. Qed.

(* Which fields the network and the buffer touch. *)
Lemma net_write_eq s p o : exists n br ok, net_write s p o =
  (Qst (q_ctx s) (q_cancelled s) (q_flag s) (q_chan s) (q_writer s) (q_buf s) (q_err s)
     (q_wire s ++ firstn n p) br (q_send s) (q_crashed s), n, ok) /\ n <= length p /\ (ok = true -> n = length p) .
Proof.
  unfold net_write. destruct s as [cx ca fl chn w b er wi br sd cr]. cbn. destruct br.
  - exists 0, true, false. cbn. rewrite app_nil_r. repeat split; [lia|discriminate].
  - destruct o as [|n].
    + exists (length p), false, true. repeat split; lia.
    + exists (min n (length p)), true, false. repeat split; [lia|discriminate].
Qed.
Lemma buf_flush_eq s o : exists b er wi br, fst (buf_flush s o) =
  Qst (q_ctx s) (q_cancelled s) (q_flag s) (q_chan s) (q_writer s) b er wi br (q_send s) (q_crashed s).
Proof.
  unfold buf_flush. destruct s as [cx ca fl chn w b er wi br sd cr]. cbn. destruct er; [now repeat eexists|].
  destruct b as [|x b]; [now repeat eexists|].
  destruct (net_write_eq (Qst cx ca fl chn w (x :: b) false wi br sd cr) (x :: b) o) as (n & br' & ok & E & _).
  rewrite E. destruct ok; cbn; now repeat eexists.
Qed.
Lemma buf_write_eq c s p o : exists b er wi br, fst (buf_write c s p o) =
  Qst (q_ctx s) (q_cancelled s) (q_flag s) (q_chan s) (q_writer s) b er wi br (q_send s) (q_crashed s).
Proof.
  unfold buf_write. destruct s as [cx ca fl chn w b er wi br sd cr]. cbn -[Nat.leb buf_flush net_write].
  destruct er; [now repeat eexists|].
  destruct (length p <=? qc_buf c - length b); [now repeat eexists|].
  destruct b as [|x b].
  - destruct (net_write_eq (Qst cx ca fl chn w [] false wi br sd cr) p o) as (n & br' & ok & E & _).
    rewrite E. cbn. now repeat eexists.
  - match goal with |- context [buf_flush ?s0 o] => destruct (buf_flush_eq s0 o) as (b1 & e1 & w1 & r1 & E) end.
    destruct (buf_flush _ o) as [s1 ok]. cbn in E. subst s1. cbn. now repeat eexists.
Qed.

Ltac updcases := repeat match goal with
  | H : context [upd _ ?t _ ?u] |- _ => unfold upd in H; destruct (Nat.eqb_spec u t); subst
  | |- context [upd _ ?t _ ?u] => unfold upd; destruct (Nat.eqb_spec u t); subst
  end.

Lemma str_frame s b er wi br : str s ->
  str (Qst (q_ctx s) (q_cancelled s) (q_flag s) (q_chan s) (q_writer s) b er wi br (q_send s) (q_crashed s)).
Proof. intros [A B C D E F G H]. now constructor. Qed.
Lemma str_writer s w : str s -> w <> WNone -> q_writer s <> WNone -> (wlive w = true -> q_ctx s = true) -> str (set_writer s w).
Proof.
  intros [A B C D E F G H] Hw Hw' Hc. constructor; cbn; auto; intros.
  - destruct (A H0) as (_ & X & _). congruence.
  - destruct (B _ _ H0) as (_ & X & _). congruence.
  - destruct (C _ _ H0) as (_ & X & _). congruence.
  - specialize (F H0). congruence.
Qed.
Lemma str_take s l cl l' : str s -> q_chan s = Some (l, cl) -> str (set_chan s (q_flag s) (Some (l', cl))).
Proof.
  intros [A B C D E F G H] Hc. constructor; cbn; auto; intros; try discriminate.
  - destruct (A H0) as (X & _). congruence.
  - destruct (B _ _ H0) as (X & _). congruence.
  - destruct (C _ _ H0) as (_ & X). split; [discriminate|exact X].
  - injection H0 as <- ->. eapply E; exact Hc.
Qed.
(* Moving a sender that is not making the channel, to a state that is not making it. *)
Lemma str_send s t p : str s -> making p = false -> (forall m, p = SSel m true -> q_chan s <> None) ->
  str (set_send s t p).
Proof.
  intros [A B C D E F G H] Hp Hs. constructor; cbn; auto; intros.
  - destruct (A H0) as (X & Y & Z). repeat split; auto. intros u. updcases; auto.
  - updcases; [discriminate|]. destruct (B _ _ H0) as (X & Y & Z). repeat split; auto. intros u Hu. updcases; auto.
  - updcases; [discriminate|]. destruct (C _ _ H0) as (X & Y & Z). repeat split; auto. intros u Hu. updcases; auto.
  - updcases; eauto.
Qed.

Lemma str_step c s l : str s -> str (fst (q_step c s l)).
Proof.
  intros S. unfold q_step. destruct (q_crashed s); [exact S|].
  destruct l as [ | | |t d m|t ch o|ch o].
  - destruct S as [A B C D E F G H]. constructor; cbn; auto.
  - destruct (q_ctx s) eqn:Ec; [|exact S]. destruct S as [A B C D E F G H]. constructor; cbn; auto.
  - destruct (q_cancelled s) eqn:Ec; [|exact S]. destruct S as [A B C D E F G H]. constructor; cbn; auto; rewrite <- Ec; auto.
  - destruct (q_send s t) eqn:Es; try exact S. destruct d.
    + destruct (q_is_closed s); [exact S|]. apply str_send; cbn; auto; discriminate.
    + apply str_send; cbn; auto; discriminate.
  - unfold send_step. destruct (q_send s t) eqn:Es; try exact S.
    + destruct (q_chan s) eqn:Ec; apply str_send; cbn; auto; discriminate.
    + destruct (q_flag s) eqn:Ef; [apply str_send; cbn; auto; discriminate|].
      destruct (st_flag s S Ef) as (X & Y & Z).
      destruct S as [A B C D E F G H]. constructor; cbn; auto; intros; try discriminate; updcases;
        try (inversion H0; subst); auto; try discriminate.
      * repeat split; auto. intros u Hu. updcases; [congruence|apply Z].
      * specialize (Z t0). rewrite H0 in Z. discriminate.
      * specialize (Z t0). rewrite H0 in Z. discriminate.
      * eapply D; eauto.
    + destruct (st_make s S t m Es) as (X & Y & Z).
      destruct S as [A B C D E F G H]. constructor; cbn; auto; intros; try discriminate; updcases;
        try (inversion H0; subst); auto; try discriminate.
      * destruct (A H0) as (_ & _ & V). specialize (V t). rewrite Es in V. discriminate.
      * specialize (Z t0 n). rewrite H0 in Z. discriminate.
      * repeat split; auto; try discriminate. intros u Hu. updcases; [congruence|apply Z; auto].
      * specialize (Z t0 n). rewrite H0 in Z. discriminate.
    + destruct (st_go s S t m Es) as (X & Y & Z).
      destruct S as [A B C D E F G H]. constructor; cbn; auto; intros; try discriminate; updcases;
        try (inversion H0; subst); auto; try discriminate.
      * destruct (A H0) as (V & _). congruence.
      * specialize (Z t0 n). rewrite H0 in Z. discriminate.
      * specialize (Z t0 n). rewrite H0 in Z. discriminate.
      * contradiction.
    + destruct (q_is_closed s); apply str_send; cbn; auto; discriminate.
    + apply str_send; cbn; auto. intros m0 H. destruct (q_chan s); [discriminate|inversion H].
    + destruct ch.
      * destruct (q_cancelled s) eqn:Ec; [|exact S].
        destruct (q_chan s) as [[l [|]]|] eqn:Eh; try (apply str_send; cbn; auto; discriminate).
        assert (S1 : str (set_chan s (q_flag s) (Some (l, true)))).
        { destruct S as [A B C D E F G H]. constructor; cbn; auto; intros; try discriminate.
          - destruct (A H0) as (V & _). congruence.
          - destruct (B _ _ H0) as (V & _). congruence.
          - destruct (C _ _ H0) as (_ & V). split; [discriminate|exact V]. }
        cbn [fst]. apply str_send; cbn; auto; discriminate.
      * apply str_send; cbn; auto; discriminate.
      * destruct nonnil; [|exact S]. destruct (q_chan s) as [[l [|]]|] eqn:Eh; try exact S.
        -- apply str_send; cbn; auto; discriminate.
        -- destruct (length l <? max 1 (qc_cap c)); [|exact S]. cbn [fst].
           apply str_send; cbn; auto; try discriminate. eapply str_take; eauto.
    + destruct (q_is_closed s); apply str_send; cbn; auto; discriminate.
    + destruct (net_write_eq s m o) as (n & br & ok & E & _). rewrite E. cbn [fst].
      apply str_send; cbn; auto; try discriminate. apply str_frame, S.
  - unfold writer_step. destruct (q_writer s) eqn:Ew; try exact S.
    + destruct (q_ctx s) eqn:Ec.
      * apply str_writer; auto; congruence.
      * cbn [fst]. rewrite <- Ec. pose proof (str_writer s WGone S ltac:(discriminate) ltac:(congruence) ltac:(discriminate)) as [A B C D E F G H].
        now constructor.
    + assert (Hc : q_ctx s = true) by (apply (st_ctx s S); now rewrite Ew).
      destruct ch.
      * destruct (q_cancelled s) eqn:Ec; [|exact S]. apply str_writer; auto; congruence.
      * apply str_writer; auto; congruence.
      * destruct (q_chan s) as [[[|[t m] l] [|]]|] eqn:Eh; try exact S.
        -- apply str_writer; auto; congruence.
        -- cbn [fst]. apply str_writer; cbn; auto; try congruence. eapply str_take; eauto.
        -- cbn [fst]. apply str_writer; cbn; auto; try congruence. eapply str_take; eauto.
    + assert (Hc : q_ctx s = true) by (apply (st_ctx s S); now rewrite Ew).
      destruct (q_is_closed s); apply str_writer; auto; congruence.
    + assert (Hc : q_ctx s = true) by (apply (st_ctx s S); now rewrite Ew).
      destruct (buf_write_eq c s rest o) as (b & er & wi & br & E).
      destruct (buf_write c s rest o) as [s1 r]. cbn in E. subst s1. cbn [fst].
      apply str_writer; cbn; auto; try congruence; [apply str_frame, S|destruct r as [?|[|]]; discriminate].
    + assert (Hc : q_ctx s = true) by (apply (st_ctx s S); now rewrite Ew).
      destruct (q_is_closed s); apply str_writer; auto; congruence.
    + assert (Hc : q_ctx s = true) by (apply (st_ctx s S); now rewrite Ew).
      destruct (buf_flush_eq s o) as (b & er & wi & br & E).
      destruct (buf_flush s o) as [s1 r]. cbn in E. subst s1. cbn [fst].
      apply str_writer; cbn; auto; try congruence; [apply str_frame, S|destruct r; discriminate].
    + assert (Hc : q_ctx s = true) by (apply (st_ctx s S); now rewrite Ew).
      destruct (q_is_closed s); apply str_writer; auto; congruence.
    + assert (Hc : q_ctx s = true) by (apply (st_ctx s S); now rewrite Ew).
      destruct (buf_flush_eq s o) as (b & er & wi & br & E).
      destruct (buf_flush s o) as [s1 r]. cbn in E. subst s1. cbn [fst].
      apply str_writer; cbn; auto; try congruence. apply str_frame, S.
Qed.

Lemma str_run c ls : str (fst (q_run c q_new ls)).
Proof.
  assert (H : forall ls s, str s -> str (fst (q_run c s ls))).
  { clear. induction ls as [|l ls IH]; intros s S; cbn; [exact S|].
    pose proof (str_step c s l S) as S1. destruct (q_step c s l) as [s1 e]. specialize (IH s1 S1).
    now destruct (q_run c s1 ls). }
  apply H, str_new.
Qed.

(* ---- conservation of bytes ---- *)

Lemma flush_conserve s o : q_wire (fst (buf_flush s o)) ++ q_buf (fst (buf_flush s o)) = q_wire s ++ q_buf s.
Proof.
  unfold buf_flush. destruct (q_err s); [reflexivity|]. destruct (q_buf s) as [|x b] eqn:Eb; [cbn; now rewrite Eb|].
  destruct (net_write_eq s (x :: b) o) as (n & br & ok & E & Hn & Hok). rewrite E. destruct ok.
  - rewrite (Hok eq_refl). cbn -[firstn length]. rewrite firstn_all, app_nil_r. reflexivity.
  - cbn -[firstn skipn]. rewrite <- app_assoc, firstn_skipn. reflexivity.
Qed.
Definition left_over (p : list byte) (r : list byte + bool) : list byte :=
  match r with inl p' => p' | inr true => [] | inr false => p end.
Lemma write_conserve c s p o :
  q_wire (fst (buf_write c s p o)) ++ q_buf (fst (buf_write c s p o)) ++ left_over p (snd (buf_write c s p o)) =
  q_wire s ++ q_buf s ++ p.
Proof.
  unfold buf_write. destruct (q_err s); [reflexivity|].
  destruct (length p <=? qc_buf c - length (q_buf s)) eqn:El; [cbn; now rewrite app_nil_r|].
  destruct (q_buf s) as [|x b] eqn:Eb.
  - destruct (net_write_eq s p o) as (n & br & ok & E & Hn & Hok). rewrite E. cbn -[firstn skipn].
    rewrite Eb. cbn -[firstn skipn]. now rewrite <- app_assoc, firstn_skipn.
  - match goal with |- context [buf_flush ?s0 o] => pose proof (flush_conserve s0 o) as C; destruct (buf_flush s0 o) as [s1 ok] end.
    cbn -[firstn skipn length] in *. rewrite app_assoc, C, <- !app_assoc.
    cbn -[firstn skipn length]. rewrite <- app_assoc. now rewrite firstn_skipn.
Qed.

Definition hand (w : wpc) : list msg := match w with WHave m => [m] | _ => [] end.
Definition rest_of (w : wpc) : list byte := match w with WPut p => p | _ => [] end.
Definition queue (s : qst) : list msg := match q_chan s with None => [] | Some (l, _) => map snd l end.
Definition ended (w : wpc) : bool := match w with WDefer | WLast | WGone => true | _ => false end.

Definition exact (s : qst) (tr : list qev) : Prop :=
  exists done, map snd (oks tr) = done ++ hand (q_writer s) ++ queue s /\
               concat done = q_wire s ++ q_buf s ++ rest_of (q_writer s).
Record cont (s : qst) (tr : list qev) : Prop := {
  ct_dir : forall t, is_direct (q_send s t) = false;
  ct_pre : prefix (q_wire s ++ q_buf s) (concat (map snd (oks tr)));
  ct_ex : ended (q_writer s) = false -> exact s tr
}.

Lemma oks_app a b : oks (a ++ b) = oks a ++ oks b.
Proof. induction a as [|[] a IH]; cbn; auto. now rewrite IH. Qed.

Lemma exact_prefix s tr : exact s tr -> prefix (q_wire s ++ q_buf s) (concat (map snd (oks tr))).
Proof.
  intros (done & E & F). rewrite E, !concat_app, F. eexists. now rewrite <- !app_assoc.
Qed.
Lemma prefix_more {A} (p l k : list A) : prefix p l -> prefix p (l ++ k).
Proof. intros (r & ->). exists (r ++ k). now rewrite app_assoc. Qed.

(* Steps that touch neither the bytes nor the queue nor the accepted list. *)
Lemma cont_same s s' tr ev :
  cont s tr -> (forall t, is_direct (q_send s' t) = false) -> oks ev = [] ->
  q_wire s' = q_wire s -> q_buf s' = q_buf s -> queue s' = queue s ->
  (ended (q_writer s') = false -> ended (q_writer s) = false /\ hand (q_writer s') = hand (q_writer s) /\ rest_of (q_writer s') = rest_of (q_writer s)) ->
  cont s' (tr ++ ev).
Proof.
  intros [D P X] Hd He Hw Hb Hq Hr. constructor; auto.
  - rewrite oks_app, He, app_nil_r, Hw, Hb. exact P.
  - intros Hn. destruct (Hr Hn) as (R1 & R2 & R3). unfold exact. rewrite oks_app, He, app_nil_r, Hw, Hb, Hq, R2, R3. exact (X R1).
Qed.
Lemma cont_done s s' tr ev :
  cont s tr -> (forall t, is_direct (q_send s' t) = false) -> oks ev = [] -> exact s' tr -> cont s' (tr ++ ev).
Proof.
  intros C Hd He X. constructor; auto.
  - rewrite oks_app, He, app_nil_r. now apply exact_prefix.
  - intros _. unfold exact. rewrite oks_app, He, app_nil_r. exact X.
Qed.

Definition buffered_label (l : qlabel) : Prop := match l with QCall _ true _ => False | _ => True end.

Lemma dir_upd s t p : (forall u, is_direct (q_send s u) = false) -> is_direct p = false ->
  forall u, is_direct (upd (q_send s) t p u) = false.
Proof. intros H Hp u. updcases; auto. Qed.

Ltac same := eapply cont_same; [eassumption|..]; cbn; auto using dir_upd; try (intros; repeat split; cbn in *; auto; congruence).

Lemma cont_step c s tr l : str s -> buffered_label l -> cont s tr ->
  cont (fst (q_step c s l)) (tr ++ snd (q_step c s l)).
Proof.
  intros S Hl C. pose proof (ct_dir _ _ C) as Hd. unfold q_step. destruct (q_crashed s); [cbn; now rewrite app_nil_r|].
  destruct l as [ | | |t d m|t ch o|ch o].
  - same.
  - destruct (q_ctx s); [|cbn; now rewrite app_nil_r]. same.
  - destruct (q_cancelled s); [|cbn; now rewrite app_nil_r]. same.
  - destruct d; [contradiction|]. destruct (q_send s t) eqn:Es; try (cbn; now rewrite app_nil_r). same.
  - unfold send_step. destruct (q_send s t) eqn:Es; try (cbn; now rewrite app_nil_r).
    + destruct (q_chan s) eqn:Ec; same.
    + destruct (q_flag s) eqn:Ef; same.
    + destruct (st_make s S t m Es) as (X & Y & Z). same. unfold queue. cbn. now rewrite X.
    + destruct (st_go s S t m Es) as (X & Y & Z). same. rewrite Y. intros; repeat split.
    + destruct (q_is_closed s); same.
    + same.
    + destruct ch.
      * destruct (q_cancelled s); [|cbn; now rewrite app_nil_r].
        destruct (q_chan s) as [[l [|]]|] eqn:Eh; same. unfold queue. cbn. now rewrite Eh.
      * same.
      * destruct nonnil; [|cbn; now rewrite app_nil_r].
        destruct (q_chan s) as [[l [|]]|] eqn:Eh; try (cbn; now rewrite app_nil_r).
        -- same.
        -- destruct (length l <? max 1 (qc_cap c)); [|cbn; now rewrite app_nil_r].
           destruct C as [D P X]. constructor; cbn [fst snd].
           ++ intros u. apply dir_upd; auto.
           ++ rewrite oks_app, map_app, concat_app. apply prefix_more. exact P.
           ++ cbn. intros Hn. destruct (X Hn) as (done & E & F). exists done. split; [|exact F].
              rewrite oks_app, map_app, E. unfold queue. rewrite Eh. cbn. rewrite map_app. cbn. now rewrite !app_assoc.
    + specialize (Hd t). rewrite Es in Hd. discriminate.
    + specialize (Hd t). rewrite Es in Hd. discriminate.
  - unfold writer_step. destruct (q_writer s) eqn:Ew; try (cbn; now rewrite app_nil_r).
    + destruct (q_ctx s); same; rewrite Ew; intros; repeat split; discriminate.
    + destruct ch.
      * destruct (q_cancelled s); [|cbn; now rewrite app_nil_r]. same.
      * same. rewrite Ew. intros; repeat split.
      * destruct (q_chan s) as [[[|[t m] l] cl]|] eqn:Eh; try (cbn; now rewrite app_nil_r).
        -- destruct cl; [|cbn; now rewrite app_nil_r]. same.
        -- assert (X : exact s tr) by (apply (ct_ex _ _ C); now rewrite Ew).
           destruct X as (done & E & F). rewrite Ew in E, F. unfold queue in E. rewrite Eh in E. cbn in E, F.
           cbn [fst snd]. eapply cont_done; [eassumption|exact Hd|reflexivity|].
           exists done. cbn. split; [exact E|exact F].
    + destruct (q_is_closed s); [same|].
      assert (X : exact s tr) by (apply (ct_ex _ _ C); now rewrite Ew).
      destruct X as (done & E & F). rewrite Ew in E, F. cbn in E, F.
      eapply cont_done; [eassumption|exact Hd|reflexivity|].
      exists (done ++ [m]). cbn. split; [rewrite <- app_assoc; exact E|].
      rewrite concat_app, F. cbn. now rewrite !app_nil_r, app_assoc.
    + destruct (buf_write_eq c s rest o) as (b & er & wi & br & E).
      pose proof (write_conserve c s rest o) as W.
      destruct (buf_write c s rest o) as [s1 r]. cbn in E, W. subst s1. cbn in W. cbn [fst snd].
      assert (X : exact s tr) by (apply (ct_ex _ _ C); now rewrite Ew).
      destruct X as (done & E & F). rewrite Ew in E, F. cbn in E, F.
      destruct r as [p'|[|]]; cbn in W.
      * eapply cont_done; [eassumption|exact Hd|reflexivity|]. exists done. cbn. split; [exact E|congruence].
      * eapply cont_done; [eassumption|exact Hd|reflexivity|]. exists done. cbn. split; [exact E|congruence].
      * assert (W2 : wi ++ b = q_wire s ++ q_buf s) by (rewrite !app_assoc in W; now apply app_inv_tail in W).
        constructor; cbn; [exact Hd| |discriminate]. rewrite app_nil_r, W2. apply (ct_pre _ _ C).
    + destruct (q_is_closed s); [same|]. same. rewrite Ew. intros; repeat split.
    + destruct (buf_flush_eq s o) as (b & er & wi & br & E).
      pose proof (flush_conserve s o) as W.
      destruct (buf_flush s o) as [s1 r]. cbn in E, W. subst s1. cbn in W. cbn [fst snd].
      constructor; cbn; [exact Hd| |].
      * rewrite app_nil_r, W. apply (ct_pre _ _ C).
      * intros Hr. assert (X : exact s tr) by (apply (ct_ex _ _ C); now rewrite Ew).
        destruct X as (done & E & F). rewrite Ew in E, F. cbn in E, F. destruct r; [|discriminate].
        exists done. cbn. rewrite app_nil_r. split; [exact E|]. rewrite F, app_nil_r, app_nil_r. congruence.
    + destruct (q_is_closed s); same.
    + destruct (buf_flush_eq s o) as (b & er & wi & br & E).
      pose proof (flush_conserve s o) as W.
      destruct (buf_flush s o) as [s1 r]. cbn in E, W. subst s1. cbn in W. cbn [fst snd].
      constructor; cbn; [exact Hd| |discriminate]. rewrite app_nil_r, W. apply (ct_pre _ _ C).
Qed.

(* When sends return errors. *)
From Coq Require Import List Bool Arith Lia.
From Verif Require Import Bytes GoSlice SendQueue Spec_Send SendQueue_proofs SendLocked Spec_SendLocked SendLocked_proofs.
Import ListNotations.

(* ---- TCP ---- *)
Definition waiting_msg (p : spc) : option msg :=
  match p with SChk m | SCas m | SMake m | SGo m | SClosed m | SEnter m | SSel m _ => Some m | _ => None end.
Record open (s : qst) : Prop := { op_ctx : q_ctx s = true; op_can : q_cancelled s = false; op_net : q_broken s = false }.
Lemma net_write_fine s p : q_broken s = false -> exists wi, net_write s p NetOk =
  (Qst (q_ctx s) (q_cancelled s) (q_flag s) (q_chan s) (q_writer s) (q_buf s) (q_err s) wi false (q_send s) (q_crashed s), length p, true).
Proof. intros H. unfold net_write. rewrite H. eexists. reflexivity. Qed.
Definition fine_out (l : qlabel) : Prop := match l with QStop => False | QSend _ _ (NetFail _) | QWriter _ (NetFail _) => False | _ => True end.

Lemma flush_fine s : open s -> open (fst (buf_flush s NetOk)) /\ q_send (fst (buf_flush s NetOk)) = q_send s.
Proof.
  intros [A B C]. unfold buf_flush. destruct (q_err s); [split; [constructor; auto|reflexivity]|]. destruct (q_buf s); [split; [constructor; auto|reflexivity]|].
  destruct (net_write_fine s (b :: l) C) as (wi & ->). cbn. split; [constructor; auto|reflexivity].
Qed.
Lemma write_fine c s p : open s -> open (fst (buf_write c s p NetOk)) /\ q_send (fst (buf_write c s p NetOk)) = q_send s.
Proof.
  intros H. assert (H0 := H). destruct H as [A B C]. unfold buf_write. destruct (q_err s); [now split|]. destruct (_ <=? _); [split; [constructor; auto|reflexivity]|]. destruct (q_buf s) eqn:E.
  - destruct (net_write_fine s p C) as (wi & ->). cbn. split; [constructor; auto|reflexivity].
  - match goal with |- context [buf_flush ?x NetOk] => destruct (flush_fine x) as (F & G); [constructor; auto|]; destruct (buf_flush x NetOk) as [s1 ok] end. cbn in *. now split.
Qed.
Lemma set_writer_open s w : open s -> open (set_writer s w). Proof. intros [A B C]. now constructor. Qed.
Lemma writer_fine c s ch : open s -> open (fst (writer_step c s ch NetOk)) /\ q_send (fst (writer_step c s ch NetOk)) = q_send s.
Proof.
  intros H. assert (H0 := H). destruct H as [A B C]. unfold writer_step. destruct (q_writer s); try (now split).
  - rewrite A. split; [now apply set_writer_open|reflexivity].
  - destruct ch; [rewrite B; now split|split; [now apply set_writer_open|reflexivity]|].
    destruct (q_chan s) as [[[|[t m] l] []]|]; cbn; (split; [|reflexivity]); try exact H0; now constructor.
  - destruct (q_is_closed s); (split; [now apply set_writer_open|reflexivity]).
  - destruct (write_fine c s rest H0) as (F & G). destruct (buf_write c s rest NetOk) as [s1 r]. cbn [fst] in *. split; [now apply set_writer_open|exact G].
  - destruct (q_is_closed s); (split; [now apply set_writer_open|reflexivity]).
  - destruct (flush_fine s H0) as (F & G). destruct (buf_flush s NetOk) as [s1 ok]. cbn [fst] in *. split; [now apply set_writer_open|exact G].
  - destruct (q_is_closed s); (split; [now apply set_writer_open|reflexivity]).
  - destruct (flush_fine s H0) as (F & G). cbn [fst]. split; [now apply set_writer_open|exact G].
Qed.

(* One step of a run without Stop and with a working network. *)
Lemma open_step c s l : fine_out l -> open s ->
  open (fst (q_step c s l)) /\
  (forall t m, waiting_msg (q_send (fst (q_step c s l)) t) = Some m -> waiting_msg (q_send s t) = Some m \/ l = QCall t false m) /\
  (forall t m, In (QErr t m) (snd (q_step c s l)) -> waiting_msg (q_send s t) = Some m /\ exists o, l = QSend t ChTimer o).
Proof.
  intros F H. assert (H0 := H). destruct H as [A B C]. assert (CL : q_is_closed s = false) by (unfold q_is_closed; now rewrite A, B).
  unfold q_step. destruct (q_crashed s); [cbn; intuition|]. destruct l as [| | |t0 d m0|t0 ch o|ch o].
  - cbn. split; [now constructor|]. split; [auto|intros ? ? []].
  - destruct F.
  - rewrite B. cbn. split; [exact H0|]. split; [auto|intros ? ? []].
  - destruct (q_send s t0) eqn:E; try (cbn; intuition; fail). rewrite CL. destruct d; cbn; (split; [now constructor|]); (split; [|intros ? ? [X|[]]; discriminate]);
      intros t m; unfold upd; destruct (Nat.eqb_spec t t0) as [->|N]; auto; [discriminate|]. intros [= <-]. now right.
  - destruct o; [|destruct F]. unfold send_step. destruct (q_send s t0) eqn:E;
      repeat match goal with
      | |- context [match q_chan s with _ => _ end] => destruct (q_chan s) as [[? []]|] eqn:?
      | |- context [if q_flag s then _ else _] => destruct (q_flag s) eqn:?
      | |- context [if q_is_closed s then _ else _] => rewrite CL
      | |- context [match ch with _ => _ end] => destruct ch
      | |- context [if q_cancelled s then _ else _] => rewrite B
      | |- context [if ?b then _ else _] => destruct b eqn:?
      | |- context [net_write s ?m NetOk] => let wi := fresh "wi" in destruct (net_write_fine s m C) as (wi & ->)
      end; cbn [fst snd]; (split; [try exact H0; now constructor|]); split.
    all: try (solve [intros u v; cbn [q_send set_send set_chan set_writer upd]; unfold upd; try destruct (Nat.eqb_spec u t0) as [->|N]; rewrite ?E; cbn; auto; discriminate]).
    all: try (intros u v X; cbn in X; intuition discriminate).
    all: intros u v X; cbn in X; destruct X as [X|[]]; injection X as <- <-; (split; [now rewrite E|eexists; reflexivity]).
  - destruct o; [|destruct F]. destruct (writer_fine c s ch H0) as (X & Y). split; [exact X|]. rewrite Y. split; [auto|].
    intros t m Z. exfalso. revert Z. unfold writer_step.
    destruct (q_writer s); repeat match goal with
      | |- context [match ch with _ => _ end] => destruct ch
      | |- context [match q_chan s with _ => _ end] => destruct (q_chan s) as [[[|[? ?] ?] []]|] eqn:?
      | |- context [if ?b then _ else _] => destruct b eqn:?
      | |- context [let '(_, _) := ?p in _] => destruct p
      end; cbn; intuition discriminate.
Qed.

Lemma fine_split ls : never_stopped ls -> network_fine ls -> forall l, In l ls -> fine_out l.
Proof. intros S (N1 & N2) l H. destruct l as [| | |t d m|t ch []|ch []]; cbn; auto; [exact (N1 _ _ _ H)|exact (N2 _ _ H)]. Qed.

Lemma tcp_errors c : forall ls, (forall l, In l ls -> fine_out l) -> let r := q_run c q_new (QStart :: ls) in
  open (fst r) /\ (forall t m, waiting_msg (q_send (fst r) t) = Some m -> In (QCall t false m) ls) /\
  (forall t m, In (QErr t m) (snd r) -> In (QCall t false m) ls /\ exists o, In (QSend t ChTimer o) ls).
Proof.
  induction ls as [|l ls IH] using rev_ind; intros F.
  - cbn. split; [now constructor|]. split; [discriminate|intros ? ? []].
  - cbv zeta in *. destruct IH as (A & B & C); [intros x Hx; apply F; apply in_or_app; now left|]. rewrite app_comm_cons, q_run_snoc. cbn [fst snd].
    assert (Fl : fine_out l) by (apply F; apply in_or_app; right; now left). destruct (open_step c _ l Fl A) as (D & E & G). split; [exact D|]. split.
    + intros t m H. apply in_or_app. destruct (E t m H) as [X|X]; [left; now apply B|right; now left].
    + intros t m H. apply in_app_or in H. destruct H as [H|H].
      * destruct (C t m H) as (X & o & Y). split; [apply in_or_app; now left|]. exists o. apply in_or_app. now left.
      * destruct (G t m H) as (X & o & Y). split; [apply in_or_app; left; now apply B|]. exists o. apply in_or_app. right. now left.
Qed.

(* ---- websocket and KCP ---- *)
Definition waiting_l (p : lpc) : option msg :=
  match p with LAcq m | LChk _ m | LMake _ m | LGo _ m | LClosed _ m | LEnter _ m | LSel _ m _ => Some m | _ => None end.
Record open_l (s : lst) : Prop := { ol_ctx : l_ctx s = true; ol_can : l_cancelled s = false; ol_cl : l_closed s = false; ol_net : l_broken s = false; ol_fin : l_final s = FIdle }.
Definition fine_out_l (l : llabel) : Prop := match l with MStop => False | MSend _ _ (NetFail _) | MWriter _ _ (NetFail _) => False | _ => True end.
Definition buffered_call (ls : list llabel) (t : nat) (m : msg) : Prop := In (MCall t ASendToQueue m) ls \/ In (MCall t ASendBuffMsg m) ls.

Ltac lfields := cbn [l_ctx l_cancelled l_closed l_excl l_shared l_chans l_field l_writers l_final l_wire l_broken l_send l_crashed w_send w_lock w_chans w_writers w_final w_wire fst snd].
Lemma take_same fl s x s1 : take fl s x = Some s1 -> exists e sh, s1 = w_lock s e sh.
Proof. unfold take, take_excl, take_shared. destruct fl, (l_excl s), (l_shared s); intros E; try discriminate; injection E as <-; eexists; eexists; reflexivity. Qed.
Lemma release_same s x : exists sh, release s x = w_lock s None sh.
Proof. unfold release. destruct (l_excl s); eexists; reflexivity. Qed.
Lemma release_if_same lk s x : exists e sh, release_if lk s x = w_lock s e sh.
Proof. unfold release_if. destruct lk; [destruct (release_same s x) as (sh & ->); eexists; eexists; reflexivity|]. exists (l_excl s), (l_shared s). now destruct s. Qed.
Ltac unlock := repeat match goal with
  | |- context [release_if ?lk ?s ?x] => let e := fresh "e" in let sh := fresh "sh" in let E := fresh "E" in destruct (release_if_same lk s x) as (e & sh & E); rewrite E; clear E
  | |- context [release ?s ?x] => let sh := fresh "sh" in let E := fresh "E" in destruct (release_same s x) as (sh & E); rewrite E; clear E
  end.

Lemma open_step_l c fl s l : fine_out_l l -> open_l s ->
  open_l (fst (l_step c fl s l)) /\
  (forall t m, waiting_l (l_send (fst (l_step c fl s l)) t) = Some m -> waiting_l (l_send s t) = Some m \/ l = MCall t ASendToQueue m \/ l = MCall t ASendBuffMsg m) /\
  (forall t m, In (MErr t m) (snd (l_step c fl s l)) -> waiting_l (l_send s t) = Some m /\ exists o, l = MSend t ChTimer o).
Proof.
  intros F H. assert (H0 := H). destruct H as [A B C D G].
  unfold l_step. destruct (l_crashed s); [cbn; intuition|]. destruct l as [| |t0 a m0|t0 ch o|i ch o|].
  - cbn. split; [now constructor|]. split; [auto|intros ? ? []].
  - destruct F.
  - destruct (l_send s t0) eqn:E; try (cbn; intuition; fail).
    destruct a; [|destruct fl|destruct fl]; cbn; (split; [now constructor|]); (split; [|intros ? ? [X|[]]; discriminate]);
      intros u v; destruct (Nat.eqb_spec u t0) as [->|N]; auto; try discriminate; intros [= <-]; auto.
  - destruct o; [|destruct F]. unfold lsend_step. destruct (l_send s t0) eqn:E;
      repeat match goal with
      | |- context [match take fl s ?x with _ => _ end] => let T := fresh "T" in destruct (take fl s x) as [?|] eqn:T; [apply take_same in T; destruct T as (? & ? & ->)|]
      | |- context [match l_field s with _ => _ end] => destruct (l_field s) eqn:?
      | |- context [if l_closed s then _ else _] => rewrite C
      | |- context [if l_broken s then _ else _] => rewrite D
      | |- context [match ch with _ => _ end] => destruct ch
      | |- context [match ?i with Some _ => _ | None => (s, []) end] => destruct i eqn:?
      | |- context [let (_, _) := ?p in _] => destruct p as [? []]
      | |- context [if Nat.ltb ?a ?b then _ else _] => destruct (Nat.ltb a b)
      end; unlock; lfields; (split; [try exact H0; now constructor|]); split.
    all: try (solve [intros u v; try destruct (Nat.eqb_spec u t0) as [->|N]; rewrite ?E; cbn; repeat match goal with |- context [if ?b then _ else _] => destruct b end; cbn; auto; discriminate]).
    all: try (intros u v X; cbn in X; intuition discriminate).
    all: intros u v X; cbn in X; destruct X as [X|[]]; injection X as <- <-; (split; [now rewrite E|eexists; reflexivity]).
  - destruct o; [|destruct F]. unfold lwriter_step. destruct (nth_error (l_writers s) i) as [[|k|t1 m1|t1 m1|t1 m1|]|]; try (cbn; intuition; fail).
    + rewrite A. lfields. split; [now constructor|]. split; [auto|intros ? ? []].
    + destruct ch; [rewrite B| |]; try (cbn; intuition; fail). destruct k as [k|]; try (cbn; intuition; fail).
      destruct (chan_at s k) as [[[|[t1 m1] q] []]|]; lfields; (split; [try exact H0; now constructor|]); (split; [auto|intros ? ? []]).
    + destruct (take fl s (OWriter i)) as [s1|] eqn:T; [apply take_same in T; destruct T as (? & ? & ->)|]; lfields; (split; [try exact H0; now constructor|]); (split; [auto|intros ? ? []]).
    + rewrite C. lfields. split; [now constructor|]. split; [auto|intros ? ? []].
    + rewrite D. unlock. lfields. split; [now constructor|]. split; [auto|intros ? ? []].
  - unfold lfinal_step. rewrite G, B. lfields. split; [exact H0|]. split; [auto|intros ? ? []].
Qed.
Lemma fine_split_l ls : never_stopped_l ls -> network_fine_l ls -> forall l, In l ls -> fine_out_l l.
Proof. intros S (N1 & N2) l H. destruct l as [| |t d m|t ch []|i ch []|]; cbn; auto; [exact (N1 _ _ _ H)|exact (N2 _ _ _ H)]. Qed.
Lemma l_run_snoc c fl s ls l : l_run c fl s (ls ++ [l]) =
  (fst (l_step c fl (fst (l_run c fl s ls)) l), snd (l_run c fl s ls) ++ snd (l_step c fl (fst (l_run c fl s ls)) l)).
Proof. rewrite l_run_app. cbn. destruct (l_step c fl (fst (l_run c fl s ls)) l). cbn. now rewrite app_nil_r. Qed.
Lemma buffered_more ls l t m : buffered_call ls t m -> buffered_call (ls ++ [l]) t m.
Proof. intros [H|H]; [left|right]; apply in_or_app; now left. Qed.
Lemma locked_errors c fl : forall ls, (forall l, In l ls -> fine_out_l l) -> let r := l_run c fl l_new (MStart :: ls) in
  open_l (fst r) /\ (forall t m, waiting_l (l_send (fst r) t) = Some m -> buffered_call ls t m) /\
  (forall t m, In (MErr t m) (snd r) -> buffered_call ls t m /\ exists o, In (MSend t ChTimer o) ls).
Proof.
  induction ls as [|l ls IH] using rev_ind; intros F.
  - cbn. split; [now constructor|]. split; [discriminate|intros ? ? []].
  - cbv zeta in *. destruct IH as (A & B & C); [intros x Hx; apply F; apply in_or_app; now left|]. rewrite app_comm_cons, l_run_snoc. cbn [fst snd].
    assert (Fl : fine_out_l l) by (apply F; apply in_or_app; right; now left). destruct (open_step_l c fl _ l Fl A) as (D & E & G). split; [exact D|]. split.
    + intros t m H. destruct (E t m H) as [X|[-> | ->]]; [apply buffered_more; now apply B|left; apply in_or_app; right; now left|right; apply in_or_app; right; now left].
    + intros t m H. apply in_app_or in H. destruct H as [H|H].
      * destruct (C t m H) as (X & o & Y). split; [now apply buffered_more|]. exists o. apply in_or_app. now left.
      * destruct (G t m H) as (X & o & Y). split; [apply buffered_more; now apply B|]. exists o. apply in_or_app. right. now left.
Qed.

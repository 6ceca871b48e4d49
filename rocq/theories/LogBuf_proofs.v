(* Lemmas on the logger's buffer. *)
From Coq Require Import List Arith Lia.
From Verif Require Import Bytes GoSlice LogBuf.
Import ListNotations.

Section P.
Variable grow : nat -> nat -> nat.

Definition arr (b : lbuf) : list byte := nth (sl_arr (lb_buf b)) (lb_heap b) [].
(* The buffer's data lies in its array, from the start. *)
Definition wf (b : lbuf) : Prop :=
  sl_off (lb_buf b) = 0 /\ sl_len (lb_buf b) <= sl_cap (lb_buf b) /\ sl_cap (lb_buf b) = length (arr b).

Lemma nth_set_same (h : list (list byte)) n x : n < length h -> nth n (set_nth n x h) [] = x.
Proof. revert n. induction h as [|y h IH]; intros [|n] L; cbn in *; try lia; auto. apply IH. lia. Qed.
Lemma nth_over (h : list (list byte)) n x : length h <= n -> set_nth n x h = h.
Proof. revert n. induction h as [|y h IH]; intros [|n] L; cbn in *; try lia; auto. now rewrite IH by lia. Qed.
Lemma set_nth_other (h : list (list byte)) n m x : n <> m -> nth m (set_nth n x h) [] = nth m h [].
Proof. revert n m. induction h as [|y h IH]; intros [|n] [|m] N; cbn; auto; congruence. Qed.
Lemma set_nth_len (h : list (list byte)) n x : length (set_nth n x h) = length h.
Proof. revert n. induction h as [|y h IH]; intros [|n]; cbn; auto. Qed.

Lemma reset_wf b : wf b -> wf (lb_reset b).
Proof. unfold wf, arr. cbn. intros (A & B & C). repeat split; auto; lia. Qed.

(* One write: in place when it fits, otherwise in a new array; the old array is left as it is. *)
Lemma write_fit b xs : wf b -> sl_len (lb_buf b) + length xs <= sl_cap (lb_buf b) ->
  let b' := lb_write grow b xs in wf b' /\ sl_arr (lb_buf b') = sl_arr (lb_buf b) /\ sl_cap (lb_buf b') = sl_cap (lb_buf b) /\ sl_len (lb_buf b') = sl_len (lb_buf b) + length xs /\
  arr b' = write_at (arr b) (sl_len (lb_buf b)) xs.
Proof.
  intros (O & L & C) F. unfold lb_write, sl_append. apply Nat.leb_le in F as F'. rewrite F'. cbn [lb_buf sl_arr sl_cap sl_len sl_off].
  assert (E : arr (LBuf (sl_write (lb_heap b) (lb_buf b) (sl_len (lb_buf b)) xs) (Slice (sl_arr (lb_buf b)) (sl_off (lb_buf b)) (sl_len (lb_buf b) + length xs) (sl_cap (lb_buf b)))) = write_at (arr b) (sl_len (lb_buf b)) xs).
  { unfold arr. cbn [lb_buf lb_heap sl_arr]. unfold sl_write. rewrite O. cbn [plus].
    destruct (lt_dec (sl_arr (lb_buf b)) (length (lb_heap b))) as [H|H]; [now rewrite nth_set_same|].
    unfold arr in C. rewrite nth_overflow in C by lia. cbn in C. assert (xs = []) as -> by (destruct xs; [reflexivity|cbn in F; lia]).
    rewrite nth_over by lia. rewrite nth_overflow by lia. assert (sl_len (lb_buf b) = 0) as -> by lia. reflexivity. }
  repeat split; auto. cbn [lb_buf sl_cap]. rewrite E. unfold write_at. rewrite !app_length, firstn_length, skipn_length, <- C. lia.
Qed.
Lemma write_grow b xs : wf b -> sl_cap (lb_buf b) < sl_len (lb_buf b) + length xs ->
  let b' := lb_write grow b xs in wf b' /\ sl_arr (lb_buf b') = length (lb_heap b) /\ sl_len (lb_buf b') = sl_len (lb_buf b) + length xs /\
  firstn (sl_len (lb_buf b')) (arr b') = firstn (sl_len (lb_buf b)) (arr b) ++ xs /\ lb_heap b' = lb_heap b ++ [arr b'].
Proof.
  intros (O & L & C) F. unfold lb_write, sl_append. destruct (Nat.leb_spec (sl_len (lb_buf b) + length xs) (sl_cap (lb_buf b))); [lia|].
  cbv zeta. cbn [lb_buf sl_arr sl_cap sl_len sl_off].
  set (g := grow _ _). set (new := sl_read (lb_heap b) (lb_buf b) ++ xs ++ repeat Byte.x00 g).
  assert (R : sl_read (lb_heap b) (lb_buf b) = firstn (sl_len (lb_buf b)) (arr b)) by (unfold sl_read, arr; now rewrite O).
  assert (E : arr (LBuf (lb_heap b ++ [new]) (Slice (length (lb_heap b)) 0 (sl_len (lb_buf b) + length xs) (sl_len (lb_buf b) + length xs + g))) = new).
  { unfold arr. cbn [lb_buf lb_heap sl_arr]. rewrite app_nth2 by lia. now rewrite Nat.sub_diag. }
  assert (Ln : length (sl_read (lb_heap b) (lb_buf b)) = sl_len (lb_buf b)) by (rewrite R, firstn_length, <- C; lia).
  rewrite E. repeat split; auto; cbn [lb_buf sl_off sl_len sl_cap]; try lia.
  - rewrite E. unfold new. rewrite !app_length, Ln, repeat_length. lia.
  - unfold new. rewrite <- R, app_assoc. rewrite firstn_app, app_length, Ln, Nat.sub_diag. cbn [firstn]. rewrite app_nil_r, firstn_all2; [reflexivity|rewrite app_length, Ln; lia].
Qed.

Definition text (b : lbuf) : list byte := firstn (sl_len (lb_buf b)) (arr b).
Lemma text_read b : wf b -> sl_read (lb_heap b) (lb_buf b) = text b.
Proof. intros (O & _). unfold sl_read, text, arr. now rewrite O. Qed.
Lemma text_len b : wf b -> length (text b) = sl_len (lb_buf b).
Proof. intros (O & L & C). unfold text. rewrite firstn_length. lia. Qed.
Lemma write_text b xs : wf b -> wf (lb_write grow b xs) /\ text (lb_write grow b xs) = text b ++ xs.
Proof.
  intros W. destruct (le_lt_dec (sl_len (lb_buf b) + length xs) (sl_cap (lb_buf b))) as [F|F].
  - destruct (write_fit b xs W F) as (W' & _ & _ & L & E). split; [exact W'|]. unfold text. rewrite L, E. unfold write_at.
    assert (H : length (firstn (sl_len (lb_buf b)) (arr b)) = sl_len (lb_buf b)) by now apply text_len.
    rewrite app_assoc, firstn_app, app_length, H, Nat.sub_diag. cbn. rewrite app_nil_r. apply firstn_all2. rewrite app_length, H. lia.
  - destruct (write_grow b xs W F) as (W' & _ & _ & E & _). split; [exact W'|exact E].
Qed.
Lemma writes_text ps : forall b, wf b -> wf (fold_left (lb_write grow) ps b) /\ text (fold_left (lb_write grow) ps b) = text b ++ concat ps.
Proof.
  induction ps as [|p ps IH]; intros b W; [cbn; now rewrite app_nil_r|]. cbn. destruct (write_text b p W) as (W' & E). destruct (IH _ W') as (W'' & ->). split; [exact W''|]. now rewrite E, <- app_assoc.
Qed.
Lemma record_ok b ps : wf b -> let '(b', s) := lb_record grow b ps in wf b' /\ s = lb_buf b' /\ sl_read (lb_heap b') s = concat ps.
Proof.
  intros W. unfold lb_record. destruct (writes_text ps (lb_reset b) (reset_wf b W)) as (W' & E). split; [exact W'|]. split; [reflexivity|]. rewrite text_read, E by exact W'. reflexivity.
Qed.
Lemma new_wf : wf new_lbuf. Proof. unfold wf, arr. cbn. auto. Qed.

Lemma skipn_add {A} n m (l : list A) : skipn n (skipn m l) = skipn (m + n) l.
Proof. revert l. induction m as [|m IH]; intros l; [reflexivity|]. destruct l; cbn; [now destruct n|apply IH]. Qed.
(* Writes that fit leave the rest of the array behind them. *)
Lemma writes_fit ps : forall b, wf b -> sl_len (lb_buf b) + length (concat ps) <= sl_cap (lb_buf b) ->
  let b' := fold_left (lb_write grow) ps b in sl_arr (lb_buf b') = sl_arr (lb_buf b) /\ arr b' = text b ++ concat ps ++ skipn (sl_len (lb_buf b) + length (concat ps)) (arr b).
Proof.
  induction ps as [|p ps IH]; intros b W F; cbn [fold_left concat length app] in *.
  - split; [reflexivity|]. rewrite Nat.add_0_r. symmetry. apply firstn_skipn.
  - rewrite app_length in *. destruct (write_fit b p W ltac:(lia)) as (W' & A & C & L & E). destruct (write_text b p W) as (_ & T).
    destruct (IH _ W') as (A' & E'); [lia|]. rewrite A'. split; [exact A|]. rewrite E', T, E, L. rewrite <- !app_assoc. f_equal. f_equal. f_equal.
    unfold write_at. pose proof (text_len b W) as Lt. unfold text in Lt. rewrite app_assoc, skipn_app, app_length, Lt.
    rewrite skipn_all2 by (rewrite app_length; lia). cbn [app]. rewrite skipn_add. f_equal. lia.
Qed.
Lemma kept_fit b1 s ps : wf b1 -> s = lb_buf b1 -> length (concat ps) <= sl_cap s ->
  let '(b2, _) := lb_record grow b1 ps in sl_read (lb_heap b2) s = firstn (sl_len s) (concat ps ++ skipn (length (concat ps)) (text b1)).
Proof.
  intros W -> F. unfold lb_record. destruct (writes_fit ps (lb_reset b1) (reset_wf b1 W)) as (A & E); [cbn; lia|].
  cbn in A. destruct W as (O & L & C). unfold sl_read. rewrite O. cbn [skipn].
  change (nth (sl_arr (lb_buf b1)) (lb_heap (fold_left (lb_write grow) ps (lb_reset b1))) []) with (nth (sl_arr (lb_buf b1)) (lb_heap (fold_left (lb_write grow) ps (lb_reset b1))) []).
  rewrite <- A. change (nth (sl_arr (lb_buf (fold_left (lb_write grow) ps (lb_reset b1)))) (lb_heap (fold_left (lb_write grow) ps (lb_reset b1))) []) with (arr (fold_left (lb_write grow) ps (lb_reset b1))).
  rewrite E. cbn [text lb_reset lb_buf sl_len firstn app plus]. change (text (lb_reset b1)) with (@nil byte). change (arr (lb_reset b1)) with (arr b1). cbn [app].
  rewrite !firstn_app. f_equal. unfold text. rewrite skipn_firstn_comm, firstn_firstn. f_equal. lia.
Qed.
End P.

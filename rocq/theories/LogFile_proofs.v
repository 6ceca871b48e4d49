(* Proofs about the logger with its files (C78). *)
From Coq Require Import ZArith List Bool Lia ZifyBool Permutation.
From Verif Require Import Bytes LogCore Spec_LogCore LogCore_proofs LogWriter Spec_LogWriter LogWriter_proofs LogFile Spec_LogFile.
Import ListNotations.
Local Open Scope Z_scope.

Lemma out_grows g l : exists x, g_out (l_step g l) = g_out g ++ x /\ (x = [] \/ exists r, x = [r]).
Proof.
  assert (N : exists x, g_out g = g_out g ++ x /\ (x = [] \/ exists r, x = [r])) by (exists []; rewrite app_nil_r; auto).
  unfold l_step. destruct (g_dead g); [exact N|]. destruct l; try exact N.
  - destruct (match by_ with Method => _ | _ => _ end); exact N.
  - destruct (nth_error (g_pend g) i) as [[o level m [w|]]|]; try exact N. destruct (look (g_flag g) caller). exact N.
  - destruct (nth_error (g_pend g) i) as [[o level m [[[t file] line]|]]|]; try exact N.
    destruct (format_header _ _ t file line level) as [h|]; [|exact N]. cbn [g_out]. eexists. split; [reflexivity|eauto].
  - destruct (g_exit g); exact N.
Qed.
Lemma new_bytes g l : match new_record g (l_step g l) with
  | Some b => map e_bytes (skipn (length (g_out g)) (g_out (l_step g l))) = [b]
  | None => skipn (length (g_out g)) (g_out (l_step g l)) = [] end.
Proof.
  destruct (out_grows g l) as (x & E & H). unfold new_record. rewrite E, skipn_app, skipn_all, Nat.sub_diag. cbn [app skipn].
  destruct H as [->|(r & ->)]; reflexivity.
Qed.

Lemma set_last {A} (old : list A) k y : set_nth (length old) y (old ++ [k]) = old ++ [y].
Proof. induction old as [|x old IH]; cbn; [reflexivity|]. now rewrite IH. Qed.
Lemma set_before {A} (old : list A) k y : forall n, (n < length old)%nat -> set_nth n y (old ++ [k]) = set_nth n y old ++ [k].
Proof. induction old as [|x old IH]; intros n Hn; cbn in Hn; [lia|]. destruct n; cbn; [reflexivity|]. now rewrite IH by lia. Qed.
Lemma set_length {A} (y : A) : forall l n, length (set_nth n y l) = length l.
Proof. induction l as [|x l IH]; intros [|n]; cbn; auto. Qed.
Lemma set_forall {A} (P : A -> Prop) y : P y -> forall l n, Forall P l -> Forall P (set_nth n y l).
Proof. intros Hy. induction l as [|x l IH]; intros [|n] F; cbn; auto; inversion F; subst; constructor; auto. Qed.
Lemma nth_last {A} (old : list A) k : nth_error (old ++ [k]) (length old) = Some k.
Proof. rewrite nth_error_app2 by lia. now rewrite Nat.sub_diag. Qed.

Section WithZone.
Variable zone : Z -> Z.
Variable n0 : Z -> list Z.

(* A Writer that SetLogFile has closed. *)
Definition closed (k : sink) : Prop := w_file (k_w k) = false /\ forall b, w_bw (k_w k) = Some b -> b_buf b = [] /\ b_err b = false.

Definition files_ok (s : lf) (cur : option Z) (cons : bool) (data : Z -> bytes) : Prop :=
  (forall p, map a_name (d_arch (f_dirs s p)) = n0 p ++ f_used s p) /\
  match cur with
  | None => f_cur s = None /\ f_sinks s = [] /\ cons = false /\ forall p, dir_text (f_dirs s p) = data p
  | Some p0 => exists old k, f_sinks s = old ++ [k] /\ f_cur s = Some (length old) /\ k_path k = p0 /\ k_cons k = cons /\ Forall closed old /\
      sound (state_of s k) /\ on_disk (state_of s k) ++ unflushed (state_of s k) = data p0 /\ forall p, p <> p0 -> dir_text (f_dirs s p) = data p
  end.

Lemma files_ext s cur cons data data' : (forall p, data p = data' p) -> files_ok s cur cons data -> files_ok s cur cons data'.
Proof.
  intros E (N & H). split; [exact N|]. destruct cur as [p0|].
  - destruct H as (old & k & H1 & H2 & H3 & H4 & H5 & H6 & H7 & H8). exists old, k. rewrite <- E. repeat split; auto. intros p Hp. rewrite <- E. auto.
  - destruct H as (H1 & H2 & H3 & H4). repeat split; auto. intros p. rewrite <- E. auto.
Qed.

(* Fields other than the files do not matter. *)
Lemma files_same s s' cur cons data : f_sinks s' = f_sinks s -> f_cur s' = f_cur s -> (forall p, f_dirs s' p = f_dirs s p) -> (forall p, f_used s' p = f_used s p) ->
  files_ok s cur cons data -> files_ok s' cur cons data.
Proof.
  intros E1 E2 E3 E4 (N & H). split; [intros p; now rewrite E3, E4|]. destruct cur as [p0|].
  - destruct H as (old & k & H1 & H2 & H3 & H4 & H5 & H6 & H7 & H8). exists old, k. unfold state_of in *. rewrite E1, E2, E3, E4. repeat split; auto. intros p Hp. rewrite E3. auto.
  - destruct H as (H1 & H2 & H3 & H4). rewrite E1, E2. repeat split; auto. intros p. rewrite E3. auto.
Qed.

(* The current Writer moves. *)
Lemma put_ok s p0 cons data old k st x :
  (forall p, map a_name (d_arch (f_dirs s p)) = n0 p ++ f_used s p) ->
  f_sinks s = old ++ [k] -> f_cur s = Some (length old) -> k_path k = p0 -> k_cons k = cons -> Forall closed old ->
  (forall p, p <> p0 -> dir_text (f_dirs s p) = data p) ->
  sound st -> holds st (n0 p0) (data p0 ++ x) ->
  files_ok (put s (length old) k st) (Some p0) cons (fun p => data p ++ if p =? p0 then x else []).
Proof.
  intros N E1 E2 E3 E4 F O S (H & H'). unfold put. split.
  - intros p. cbn [f_dirs f_used]. unfold on_path. rewrite E3. destruct (Z.eqb_spec p p0) as [->|Hp]; [exact H'|apply N].
  - exists old, (Sink (k_path k) (l_w st) (k_cons k)). cbn [f_sinks f_cur k_path k_cons]. rewrite E1, set_last. split; [reflexivity|]. split; [exact E2|].
    split; [exact E3|]. split; [exact E4|]. split; [exact F|].
    unfold state_of. cbn [k_path k_w f_dirs f_used]. unfold on_path. rewrite Z.eqb_refl. destruct st as [w d u]. cbn [l_w l_dir l_used] in *.
    split; [exact S|]. split; [rewrite Z.eqb_refl; exact H|]. intros p Hp. rewrite E3. destruct (Z.eqb_spec p p0) as [->|_]; [congruence|]. rewrite app_nil_r. auto.
Qed.

(* A flush of any Writer. *)
Lemma closed_flush (s : lf) k t : closed k -> lw_flush (state_of s k) t = state_of s k.
Proof.
  intros (Hf & Hb). unfold lw_flush, state_of. cbn [l_w l_dir l_used]. destruct (w_bw (k_w k)) as [b|] eqn:Eb; [|reflexivity].
  destruct (Hb b eq_refl) as (E & E'). unfold bw_flush. rewrite E', E. rewrite <- Eb. now destruct (k_w k).
Qed.
Lemma put_closed s p0 cons data old k n k0 : files_ok s (Some p0) cons data -> f_sinks s = old ++ [k] -> nth_error old n = Some k0 ->
  files_ok (put s n k0 (state_of s k0)) (Some p0) cons data.
Proof.
  intros (N & (old' & k' & E1 & E2 & E3 & E4 & F & S & H & O)) E Hn. rewrite E in E1. apply app_inj_tail in E1. destruct E1 as (<- & <-).
  assert (L : (n < length old)%nat) by (apply nth_error_Some; congruence).
  assert (D : forall p, on_path (f_dirs s) (k_path k0) (f_dirs s (k_path k0)) p = f_dirs s p) by (intros p; unfold on_path; destruct (Z.eqb_spec p (k_path k0)) as [->|]; reflexivity).
  assert (U : forall p, on_path (f_used s) (k_path k0) (f_used s (k_path k0)) p = f_used s p) by (intros p; unfold on_path; destruct (Z.eqb_spec p (k_path k0)) as [->|]; reflexivity).
  split.
  - intros p. cbn. rewrite D, U. apply N.
  - exists (set_nth n k0 old), k. cbn [put f_sinks f_cur state_of l_w]. assert (Sink (k_path k0) (k_w k0) (k_cons k0) = k0) as -> by now destruct k0.
    rewrite E, set_before by exact L. rewrite set_length. split; [reflexivity|]. split; [exact E2|]. split; [exact E3|]. split; [exact E4|].
    split; [apply set_forall; [|exact F]; rewrite Forall_forall in F; apply F; now apply nth_error_In in Hn|].
    unfold state_of. cbn [f_dirs f_used put l_dir l_used state_of]. rewrite D, U. split; [exact S|]. split; [exact H|]. intros p Hp. rewrite D. auto.
Qed.

Lemma flush_any s cur cons data n t : files_ok s cur cons data -> files_ok (on_sink s n (fun st => lw_flush st t)) cur cons data.
Proof.
  intros H. assert (H0 := H). destruct H as (N & H). destruct cur as [p0|].
  2:{ destruct H as (_ & E & _). unfold on_sink. rewrite E. destruct n; exact H0. }
  destruct H as (old & k & E1 & E2 & E3 & E4 & F & S & Hd & O). unfold on_sink.
  destruct (nth_error (f_sinks s) n) as [k0|] eqn:En; [|exact H0]. rewrite E1 in En.
  destruct (Nat.lt_trichotomy n (length old)) as [L|[->|L]].
  - rewrite nth_error_app1 in En by exact L. rewrite closed_flush; [now apply (put_closed s p0 cons data old k)|].
    rewrite Forall_forall in F. apply F. now apply nth_error_In in En.
  - rewrite nth_last in En. injection En as <-. destruct (flush_holds zone (state_of s k) t (n0 p0) (data p0) S) as (S' & H' & _ & _).
    { split; [exact Hd|]. unfold state_of. cbn. rewrite E3. apply N. }
    apply (files_ext _ _ _ (fun p => data p ++ if p =? p0 then [] else [])); [intros p; destruct (p =? p0); now rewrite app_nil_r|].
    apply put_ok; auto. now rewrite app_nil_r.
  - rewrite nth_error_app2 in En by lia. destruct (n - length old)%nat eqn:Q; [lia|]. cbn in En. destruct n1; discriminate.
Qed.

(* A whole SetLogFile. *)
Definition after_close (s : lf) (t : Z) : lf := match f_cur s with Some n => on_sink s n (fun st => lw_close (lw_flush st t)) | None => s end.
Lemma closing s cur cons data t : files_ok s cur cons data ->
  let s' := after_close s t in
  (forall p, map a_name (d_arch (f_dirs s' p)) = n0 p ++ f_used s' p) /\ Forall closed (f_sinks s') /\ (forall p, dir_text (f_dirs s' p) = data p).
Proof.
  intros (N & H). unfold after_close. cbv zeta. destruct cur as [p0|].
  2:{ destruct H as (-> & E & _ & O). split; [exact N|]. rewrite E. auto. }
  destruct H as (old & k & E1 & E2 & E3 & E4 & F & S & Hd & O). rewrite E2. unfold on_sink. rewrite E1, nth_last.
  assert (Hk : holds (state_of s k) (n0 p0) (data p0)) by (split; [exact Hd|unfold state_of; cbn; rewrite E3; apply N]).
  destruct (flush_holds zone (state_of s k) t (n0 p0) (data p0) S Hk) as (S1 & H1 & U1 & _).
  destruct (close_holds _ (n0 p0) (data p0) S1 H1 U1) as (S2 & (H2 & H2') & U2 & _).
  set (st := lw_close (lw_flush (state_of s k) t)) in *. rewrite U2, app_nil_r in H2.
  assert (Wf : w_file (l_w st) = false) by (unfold st, lw_close; destruct (w_file (l_w (lw_flush (state_of s k) t))) eqn:Q; [reflexivity|exact Q]).
  unfold put. cbn [f_dirs f_used f_sinks]. unfold on_path. rewrite E3. split; [|split].
  - intros p. destruct (Z.eqb_spec p p0) as [->|_]; [exact H2'|apply N].
  - rewrite E1, set_last. apply Forall_app. split; [exact F|]. constructor; [|constructor]. split; [exact Wf|]. cbn. intros b Eb.
    unfold sound in S2. rewrite Wf in S2. destruct S2 as (_ & S2). split; [|now apply S2]. unfold unflushed in U2. now rewrite Eb in U2.
  - intros p. destruct (Z.eqb_spec p p0) as [->|Hp]; [exact H2|auto].
Qed.
Lemma new_ok s cur cons data t path : files_ok s cur cons data -> files_ok (new_sink (after_close s t) path) (Some path) false data.
Proof.
  intros H. destruct (closing s cur cons data t H) as (N & F & O). split; [exact N|].
  exists (f_sinks (after_close s t)), (Sink path new_writer false). cbn. split; [reflexivity|]. split; [reflexivity|]. split; [reflexivity|]. split; [reflexivity|].
  split; [exact F|]. split; [split; [reflexivity|discriminate]|]. split; [|auto].
  unfold on_disk, unflushed, current, state_of. cbn. rewrite app_nil_r. apply O.
Qed.

Lemma rotate_opens s e : r_open e = true -> snd (rotate zone false s e) = true.
Proof.
  intros O. unfold rotate. destruct (w_file (l_w s)); [destruct (w_bw (l_w s)) as [b|]|].
  - destruct (bw_flush (l_dir s) b (r_flush e)) as [d1 b1]. destruct (d_cur (archive_file _ _ _ _ d1)) as [[? ?]|]; now rewrite O.
  - destruct (d_cur (l_dir s)) as [[? ?]|]; now rewrite O.
  - destruct (d_cur (l_dir s)) as [[? ?]|]; now rewrite O.
Qed.

Definition filed (cur : option Z) : bool := match cur with Some _ => true | None => false end.
Definition due_to (cur : option Z) (b : list byte) (p : Z) : bytes := if same cur (Some p) then map b2z b else [].
(* A record is written. *)
Lemma write_ok s cur cons data b e : files_ok s cur cons data -> opens (LWrite [] e) ->
  (forall p, NoDup (n0 p ++ f_used (write_out zone s b e) p)) ->
  files_ok (write_out zone s b e) cur cons (fun p => data p ++ due_to cur b p) /\
  f_err (write_out zone s b e) = f_err s ++ (if negb (filed cur) || cons then [b] else []).
Proof.
  intros H O ND. assert (H0 := H). destruct H as (N & H). destruct cur as [p0|].
  2:{ destruct H as (E & E' & -> & D). unfold write_out. rewrite E. cbn. split; [|reflexivity]. split; [exact N|].
      cbn. rewrite E, E'. repeat split; auto. intros p. unfold due_to. cbn. rewrite app_nil_r. apply D. }
  destruct H as (old & k & E1 & E2 & E3 & E4 & F & S & Hd & Od). revert ND. unfold write_out. rewrite E2, E1, nth_last.
  rewrite rotate_opens by apply O. cbn [negb]. rewrite andb_false_r, E4. cbn [filed negb orb]. intros ND.
  assert (Hk : holds (state_of s k) (n0 p0) (data p0)) by (split; [exact Hd|unfold state_of; cbn; rewrite E3; apply N]).
  assert (ND' : NoDup (n0 p0 ++ l_used (fst (fst (lw_write zone false (state_of s k) (map b2z b) e))))).
  { specialize (ND p0). destruct cons; cbn in ND; unfold on_path in ND; rewrite E3, Z.eqb_refl in ND; exact ND. }
  destruct (write_holds zone (state_of s k) (map b2z b) e (n0 p0) (data p0) S Hk O ND') as (S' & H' & _ & _).
  assert (D : forall p, (data p ++ due_to (Some p0) b p) = (data p ++ (if p =? p0 then map b2z b else []))).
  { intros p. unfold due_to. cbn. rewrite (Z.eqb_sym p0 p). reflexivity. }
  split.
  - apply (files_ext _ _ _ (fun p => data p ++ if p =? p0 then map b2z b else [])); [intros p; now rewrite D|].
    destruct cons.
    + apply put_ok; auto.
    + apply put_ok; auto.
  - destruct cons; cbn; [reflexivity|now rewrite app_nil_r].
Qed.

(* ---- steps ---- *)
Lemma used_on_sink s n o : (forall st, exists x, l_used (o st) = l_used st ++ x) -> forall p, exists x, f_used (on_sink s n o) p = f_used s p ++ x.
Proof.
  intros H p. unfold on_sink. destruct (nth_error (f_sinks s) n) as [k|]; [|exists []; now rewrite app_nil_r].
  cbn. unfold on_path. destruct (Z.eqb_spec p (k_path k)) as [->|_]; [apply (H (state_of s k))|exists []; now rewrite app_nil_r].
Qed.
Lemma used_write_out s b e p : exists x, f_used (write_out zone s b e) p = f_used s p ++ x.
Proof.
  assert (Z : exists x, f_used s p = f_used s p ++ x) by (exists []; now rewrite app_nil_r).
  unfold write_out. destruct (f_cur s) as [n|]; [|exact Z]. destruct (nth_error (f_sinks s) n) as [k|]; [|exact Z].
  destruct (used_of_write zone (state_of s k) (map b2z b) e) as (x & E).
  set (st := fst (fst (lw_write zone false (state_of s k) (map b2z b) e))) in *.
  assert (G : forall s1, f_used s1 = f_used s -> exists x, f_used (put s1 n k st) p = f_used s p ++ x).
  { intros s1 E1. cbn. unfold on_path. rewrite E1. destruct (Z.eqb_spec p (k_path k)) as [->|_]; [|exact Z]. exists x. exact E. }
  apply G. destruct (k_cons k), (negb _ && negb _); reflexivity.
Qed.
Lemma used_step s l p : exists x, f_used (f_step zone s l) p = f_used s p ++ x.
Proof.
  assert (Z : exists x, f_used s p = f_used s p ++ x) by (exists []; now rewrite app_nil_r).
  unfold f_step. destruct (g_dead (f_lg s)); [exact Z|]. destruct l; try exact Z.
  - destruct (f_hung s && locks l); [exact Z|]. destruct (new_record _ _) as [b|]; [|exact Z].
    unfold run_hook. destruct (used_write_out (with_lg s (l_step (f_lg s) l)) b e p) as (x & E). exists x.
    destruct (f_hook _); exact E.
  - cbn. destruct (f_cur s); [|exact Z]. apply used_on_sink. intros st. apply (step_used zone st (LClose t)). discriminate.
  - apply used_on_sink. intros st. apply (step_used zone st (LFlush t)). discriminate.
  - apply used_on_sink. intros st. exists []. rewrite app_nil_r. unfold lw_close. now destruct (w_file (l_w st)).
  - destruct (f_cur s); [|exact Z]. destruct (f_hung s); [exact Z|]. apply used_on_sink. intros st. apply (step_used zone st (LSetMax ms)). discriminate.
  - destruct (f_cur s); [|exact Z]. destruct (f_hung s); [exact Z|]. apply used_on_sink. intros st. apply (step_used zone st (LSetAge ma)). discriminate.
  - destruct (f_cur s) as [n|]; [|exact Z]. destruct (f_hung s); [exact Z|]. unfold set_cons. destruct (nth_error (f_sinks s) n); exact Z.
  - apply used_on_sink. intros st. apply (step_used zone st (LDelete now)). discriminate.
Qed.
Lemma used_run tr : forall s p, exists x, f_used (f_run zone s tr) p = f_used s p ++ x.
Proof.
  induction tr as [|l tr IH]; intros s p; cbn; [exists []; now rewrite app_nil_r|].
  destruct (IH (f_step zone s l) p) as (x & E), (used_step s l p) as (y & E'). exists (y ++ x). unfold f_run in E. now rewrite E, E', app_assoc.
Qed.

Definition hook_calm (s : lf) : Prop := forall level, f_hook s <> Some (HLogs level).
Definition next_cur (cur : option Z) (l : flabel) : option Z := match l with FSet p _ => Some p | _ => cur end.
Definition next_cons (cur : option Z) (cons : bool) (l : flabel) : bool := match l with FSet _ _ => false | FCons b => filed cur && b | _ => cons end.
Definition next_lg (g : lg) (l : flabel) : lg := match l with FLog c _ => l_step g c | _ => g end.
Definition hooked (s : lf) : bool := match f_hook s with Some _ => true | None => false end.
Definition next_hooked (h : bool) (l : flabel) : bool := match l with FHook o => match o with Some _ => true | None => false end | _ => h end.

(* The same set of the current Writer's limits. *)
Lemma tune_ok s cur cons data n f : files_ok s cur cons data -> f_cur s = Some n ->
  (forall st, sound st -> sound (f st)) -> (forall st, l_dir (f st) = l_dir st /\ l_used (f st) = l_used st /\ w_bw (l_w (f st)) = w_bw (l_w st)) ->
  files_ok (on_sink s n f) cur cons data.
Proof.
  intros H En Hs Hf. destruct H as (N & H). destruct cur as [p0|]; [|destruct H as (E & _); congruence].
  destruct H as (old & k & E1 & E2 & E3 & E4 & F & S & Hd & O). rewrite E2 in En. injection En as <-. unfold on_sink. rewrite E1, nth_last.
  apply (files_ext _ _ _ (fun p => data p ++ if p =? p0 then [] else [])); [intros p; destruct (p =? p0); now rewrite app_nil_r|].
  destruct (Hf (state_of s k)) as (D & U & B). apply put_ok; auto. split.
  - rewrite app_nil_r, <- Hd. unfold on_disk, current, unflushed. now rewrite D, B.
  - rewrite D, U. unfold state_of. cbn. rewrite E3. apply N.
Qed.

Lemma step_ok s cur cons data l : g_dead (f_lg s) = false -> f_hung s = false -> hook_calm s -> calm l -> files_ok s cur cons data ->
  (forall p, NoDup (n0 p ++ f_used (f_step zone s l) p)) ->
  let s' := f_step zone s l in
  files_ok s' (next_cur cur l) (next_cons cur cons l) (fun p => data p ++ text_of (lines_of (Some p) (lines (f_lg s) cur [l]))) /\
  f_err s' = f_err s ++ shown (f_lg s) (filed cur) cons [l] /\ f_seen s' = f_seen s ++ heard (f_lg s) (hooked s) [l] /\
  f_lg s' = next_lg (f_lg s) l /\ f_hung s' = false /\ hook_calm s' /\ hooked s' = next_hooked (hooked s) l.
Proof.
  intros D Hg Hk C H ND. cbv zeta. revert ND. unfold f_step. rewrite D. intros ND.
  assert (Z : files_ok s cur cons (fun p => data p ++ text_of (lines_of (Some p) []))) by (apply (files_ext _ _ _ data); [intros p; cbn; now rewrite app_nil_r|exact H]).
  destruct l; cbn [next_cur next_cons next_lg next_hooked lines shown heard]; rewrite ?app_nil_r; cbn [calm] in C; try contradiction.
  - rewrite Hg in *. cbn [andb] in *. pose proof (new_bytes (f_lg s) l) as B. destruct (new_record (f_lg s) (l_step (f_lg s) l)) as [b|].
    + set (s1 := with_lg s (l_step (f_lg s) l)) in *.
      assert (H1 : files_ok s1 cur cons data) by (apply (files_same s); auto).
      assert (ND1 : forall p, NoDup (n0 p ++ f_used (write_out zone s1 b e) p)).
      { intros p. specialize (ND p). unfold run_hook in ND. destruct (f_hook _); exact ND. }
      destruct (write_ok s1 cur cons data b e H1 C ND1) as (F & Er).
      assert (W : f_hook (write_out zone s1 b e) = f_hook s /\ f_seen (write_out zone s1 b e) = f_seen s /\ f_hung (write_out zone s1 b e) = false /\ f_lg (write_out zone s1 b e) = l_step (f_lg s) l).
      { unfold write_out. destruct (f_cur s1); [|auto]. destruct (nth_error (f_sinks s1) _) as [k|]; [|auto].
        unfold put. cbn [f_hook f_seen f_hung f_lg]. destruct (k_cons k), (negb _ && negb _); auto. }
      destruct W as (W1 & W2 & W3 & W4).
      assert (L : map (fun x => (cur, e_bytes x)) (skipn (length (g_out (f_lg s))) (g_out (l_step (f_lg s) l))) = [(cur, b)]).
      { destruct (skipn _ _) as [|r [|r' rs]]; try discriminate B. cbn in B |- *. now injection B as ->. }
      assert (F' : files_ok (write_out zone s1 b e) cur cons (fun p => data p ++ text_of (lines_of (Some p) [(cur, b)]))).
      { apply (files_ext _ _ _ (fun p => data p ++ due_to cur b p)); [|exact F]. intros p. f_equal. unfold due_to, text_of, lines_of. cbn.
        destruct (same cur (Some p)); cbn; [now rewrite app_nil_r|reflexivity]. }
      unfold run_hook. rewrite W1. assert (Hs : hooked s = match f_hook s with Some _ => true | None => false end) by reflexivity.
      destruct (f_hook s) as [[|level]|] eqn:Eh.
      * cbn [f_err f_seen f_lg f_hung]. rewrite Er, W2, L, B, Hs. split; [apply (files_same (write_out zone s1 b e)); auto|].
        split; [reflexivity|]. split; [reflexivity|]. split; [exact W4|]. split; [reflexivity|].
        split; [intros lv; cbn; rewrite ?W1; discriminate|]. unfold hooked. cbn. now rewrite ?W1.
      * now destruct (Hk level).
      * rewrite Er, W2, L, B, Hs, W3, W4. rewrite ?app_nil_r. split; [exact F'|]. split; [reflexivity|]. split; [reflexivity|]. split; [reflexivity|]. split; [reflexivity|].
        split; [intros lv; rewrite W1; discriminate|]. unfold hooked. now rewrite W1.
    + rewrite B. cbn [map app]. rewrite ?app_nil_r. assert ((if negb (filed cur) || cons then @nil (list byte) else []) = []) as -> by now destruct (negb (filed cur) || cons).
      assert ((if hooked s then @nil (list byte) else []) = []) as -> by now destruct (hooked s). rewrite !app_nil_r.
      split; [apply (files_same s); auto|]. repeat split; auto.
  - change (match f_cur s with Some n => on_sink s n (fun st => lw_close (lw_flush st t)) | None => s end) with (after_close s t).
    assert (Q : f_err (after_close s t) = f_err s /\ f_seen (after_close s t) = f_seen s /\ f_lg (after_close s t) = f_lg s /\ f_hung (after_close s t) = f_hung s /\ f_hook (after_close s t) = f_hook s).
    { unfold after_close, on_sink. destruct (f_cur s) as [n|]; [|auto]. destruct (nth_error (f_sinks s) n); auto. }
    destruct Q as (Q1 & Q2 & Q3 & Q4 & Q5). cbn. unfold hook_calm, hooked. cbn. rewrite Q1, Q2, Q3, Q4, Q5. split; [|repeat split; auto].
    eapply new_ok. exact Z.
  - split; [apply flush_any; exact Z|]. unfold on_sink, hook_calm, hooked. destruct (nth_error (f_sinks s) k); repeat split; auto.
  - split; [apply (files_same s); auto|]. repeat split; auto.
    unfold hook_calm. cbn. intros level ->. contradiction.
  - assert (G : files_ok match f_cur s with Some n => if f_hung s then s else on_sink s n (fun st => set_max st ms) | None => s end cur cons (fun p => data p ++ text_of (lines_of (Some p) []))).
    { destruct (f_cur s) as [n|] eqn:En; [|exact Z]. rewrite Hg. apply tune_ok; auto; intros st.
      - unfold sound, set_max. destruct (ms <? 1); auto.
      - unfold set_max. destruct (ms <? 1); auto. }
    split; [exact G|]. rewrite Hg. unfold hook_calm, hooked, on_sink. destruct (f_cur s) as [n|]; [destruct (nth_error (f_sinks s) n)|]; repeat split; auto.
  - assert (G : files_ok match f_cur s with Some n => if f_hung s then s else on_sink s n (fun st => set_age st ma) | None => s end cur cons (fun p => data p ++ text_of (lines_of (Some p) []))).
    { destruct (f_cur s) as [n|] eqn:En; [|exact Z]. rewrite Hg. apply tune_ok; auto. }
    split; [exact G|]. rewrite Hg. unfold hook_calm, hooked, on_sink. destruct (f_cur s) as [n|]; [destruct (nth_error (f_sinks s) n)|]; repeat split; auto.
  - assert (G : files_ok match f_cur s with Some n => if f_hung s then s else set_cons s n b | None => s end cur (filed cur && b) (fun p => data p ++ text_of (lines_of (Some p) []))).
    { destruct Z as (N & Z). split; [destruct (f_cur s) as [n|]; [rewrite Hg; unfold set_cons; destruct (nth_error (f_sinks s) n); exact N|exact N]|].
      destruct cur as [p0|].
      - destruct Z as (old & k & E1 & E2 & E3 & E4 & F & S & Hd & O). rewrite E2, Hg. unfold set_cons. rewrite E1, nth_last. exists old, (Sink (k_path k) (k_w k) b).
        cbn [f_sinks f_cur]. rewrite ?E1, set_last. repeat split; auto.
      - destruct Z as (E & E' & _ & O). rewrite E. repeat split; auto. }
    split; [exact G|]. rewrite Hg. unfold hook_calm, hooked, set_cons. destruct (f_cur s) as [n|]; [destruct (nth_error (f_sinks s) n)|]; repeat split; auto.
Qed.

Lemma lines_cons g cur l tr : lines g cur (l :: tr) = lines g cur [l] ++ lines (next_lg g l) (next_cur cur l) tr.
Proof. destruct l; cbn; rewrite ?app_nil_r; reflexivity. Qed.
Lemma shown_cons g cur cons l tr : shown g (filed cur) cons (l :: tr) = shown g (filed cur) cons [l] ++ shown (next_lg g l) (filed (next_cur cur l)) (next_cons cur cons l) tr.
Proof. destruct l; cbn; rewrite ?app_nil_r; reflexivity. Qed.
Lemma heard_cons g h l tr : heard g h (l :: tr) = heard g h [l] ++ heard (next_lg g l) (next_hooked h l) tr.
Proof. destruct l; cbn; rewrite ?app_nil_r; reflexivity. Qed.
Lemma lines_of_app p a b : lines_of p (a ++ b) = lines_of p a ++ lines_of p b.
Proof. unfold lines_of. now rewrite filter_app, map_app. Qed.
Lemma text_of_app a b : text_of (a ++ b) = text_of a ++ text_of b.
Proof. unfold text_of. now rewrite concat_app, map_app. Qed.

Lemma dead_run tr : forall s, g_dead (f_lg s) = true -> f_run zone s tr = s.
Proof. induction tr as [|l tr IH]; intros s D; cbn; [reflexivity|]. unfold f_step at 2. rewrite D. now apply IH. Qed.
Lemma dead_quiet tr : forall g cur cons h, g_dead g = true -> lines g cur tr = [] /\ shown g (filed cur) cons tr = [] /\ heard g h tr = [].
Proof.
  induction tr as [|l tr IH]; intros g cur cons h D; [auto|].
  assert (E : forall c, l_step g c = g) by (intros c; unfold l_step; now rewrite D).
  assert (E' : next_lg g l = g) by (destruct l; cbn; auto).
  rewrite lines_cons, shown_cons, heard_cons, E'. destruct (IH g (next_cur cur l) (next_cons cur cons l) (next_hooked h l) D) as (-> & -> & ->). rewrite !app_nil_r.
  destruct l; cbn; rewrite ?E, ?skipn_all; cbn; auto. now destruct (negb (filed cur) || cons), h.
Qed.

Definition final_cur (cur : option Z) (tr : list flabel) : option Z := fold_left next_cur tr cur.
Lemma run_ok tr : forall s cur cons data, f_hung s = false -> hook_calm s -> files_ok s cur cons data -> (forall l, In l tr -> calm l) ->
  (forall p, NoDup (n0 p ++ f_used (f_run zone s tr) p)) ->
  let s' := f_run zone s tr in
  (exists cur' cons', files_ok s' cur' cons' (fun p => data p ++ text_of (lines_of (Some p) (lines (f_lg s) cur tr)))) /\
  f_err s' = f_err s ++ shown (f_lg s) (filed cur) cons tr /\ f_seen s' = f_seen s ++ heard (f_lg s) (hooked s) tr /\
  f_lg s' = fold_left next_lg tr (f_lg s) /\ f_hung s' = false /\ hook_calm s'.
Proof.
  induction tr as [|l tr IH]; intros s cur cons data Hg Hk H C ND; cbv zeta.
  - cbn. rewrite !app_nil_r. split; [|auto]. exists cur, cons. apply (files_ext _ _ _ data); [intros p; now rewrite app_nil_r|exact H].
  - destruct (g_dead (f_lg s)) eqn:D.
    + rewrite dead_run by exact D. destruct (dead_quiet (l :: tr) (f_lg s) cur cons (hooked s) D) as (-> & -> & ->). rewrite !app_nil_r.
      split; [exists cur, cons; apply (files_ext _ _ _ data); [intros p; cbn; now rewrite app_nil_r|exact H]|]. repeat split; auto.
      assert (G : forall tr, fold_left next_lg tr (f_lg s) = f_lg s).
      { induction tr0 as [|x tr0 IHt]; [reflexivity|]. cbn. assert (next_lg (f_lg s) x = f_lg s) as -> by (destruct x; cbn; auto; unfold l_step; now rewrite D). exact IHt. }
      now rewrite G.
    + assert (ND1 : forall p, NoDup (n0 p ++ f_used (f_step zone s l) p)).
      { intros p. specialize (ND p). cbn in ND. destruct (used_run tr (f_step zone s l) p) as (x & E). unfold f_run in E. rewrite E in ND. now apply nodup_prefix in ND. }
      destruct (step_ok s cur cons data l D Hg Hk (C l (or_introl eq_refl)) H ND1) as (F1 & E1 & S1 & G1 & U1 & K1 & O1).
      destruct (IH (f_step zone s l) _ _ _ U1 K1 F1 (fun l' Hl => C l' (or_intror Hl)) ND) as ((cur' & cons' & F2) & E2 & S2 & G2 & U2 & K2).
      rewrite G1 in *. rewrite lines_cons, shown_cons, heard_cons. split; [|split; [|split; [|split; [|split]]]].
      * exists cur', cons'. apply (files_ext _ _ _ _ _ (fun p => eq_sym (eq_trans (f_equal (fun z => data p ++ text_of z) (lines_of_app (Some p) _ _)) (eq_trans (f_equal (app (data p)) (text_of_app _ _)) (app_assoc _ _ _)))) F2).
      * cbn. unfold f_run in E2. rewrite E2, E1, <- app_assoc. reflexivity.
      * cbn. unfold f_run in S2. rewrite S2, S1, O1, <- app_assoc. reflexivity.
      * exact G2.
      * exact U2.
      * exact K2.
Qed.

Lemma waiting_ok s cur cons data p : files_ok s cur cons data -> disk s p ++ waiting s p = data p.
Proof.
  intros (N & H). unfold disk, waiting. destruct cur as [p0|].
  - destruct H as (old & k & E1 & E2 & E3 & E4 & F & S & Hd & O). rewrite E1, map_app, concat_app. cbn [map concat].
    assert (concat (map (fun k => if k_path k =? p then match w_bw (k_w k) with Some b => b_buf b | None => [] end else []) old) = []) as ->.
    { clear - F. induction F as [|x l (Hf & Hx) F IH]; [reflexivity|]. cbn. rewrite IH, app_nil_r. destruct (k_path x =? p); [|reflexivity]. destruct (w_bw (k_w x)) as [b|]; [now apply Hx|reflexivity]. }
    cbn [app]. rewrite app_nil_r, E3. destruct (Z.eqb_spec p0 p) as [<-|Hp].
    + rewrite <- Hd. unfold state_of. now rewrite E3.
    + rewrite app_nil_r. apply O. auto.
  - destruct H as (E & E' & _ & O). rewrite E'. cbn. rewrite app_nil_r. apply O.
Qed.
Lemma start_ok prefix flag d : (forall p, n0 p = map a_name (d_arch (d p))) -> files_ok (new_lf prefix flag d) None false (fun p => dir_text (d p)).
Proof. intros E. split; [intros p; cbn; now rewrite app_nil_r, E|]. cbn. auto. Qed.
End WithZone.

Lemma lg_calls tr : forall g, fold_left next_lg tr g = l_run g (calls tr).
Proof.
  induction tr as [|l tr IH]; intros g; [reflexivity|]. cbn [fold_left]. rewrite IH. unfold calls. cbn [flat_map]. fold (calls tr).
  destruct l; cbn; try reflexivity.
Qed.
Lemma lines_all tr : forall g cur, map e_bytes (g_out (l_run g (calls tr))) = map e_bytes (g_out g) ++ map snd (lines g cur tr).
Proof.
  induction tr as [|l tr IH]; intros g cur; [cbn; now rewrite app_nil_r|]. rewrite lines_cons, map_app.
  rewrite <- lg_calls. cbn [fold_left]. rewrite lg_calls, (IH (next_lg g l) (next_cur cur l)), app_assoc. f_equal.
  destruct l; cbn; rewrite ?app_nil_r; try reflexivity. destruct (out_grows g l) as (x & E & _).
  rewrite E, map_app, skipn_app, skipn_all, Nat.sub_diag. cbn. now rewrite map_map.
Qed.

(* ---- the lines and the calls ---- *)
Lemma out_step g l : forall r, In r (g_out (l_step g l)) -> In r (g_out g) \/
  exists o level m w h, In (Pend o level m w) (g_pend g) /\ r = Rec o level m (h ++ content m).
Proof.
  intros r. unfold l_step. destruct (g_dead g); [auto|]. destruct l; auto.
  - destruct (match by_ with Method => _ | _ => _ end); auto.
  - destruct (nth_error (g_pend g) i) as [[o level m [w|]]|]; auto. destruct (look (g_flag g) caller). auto.
  - destruct (nth_error (g_pend g) i) as [[o level m [[[t file] line]|]]|] eqn:E; auto.
    destruct (format_header _ _ t file line level) as [h|]; auto. cbn [g_out]. rewrite in_app_iff. intros [H|[<-|[]]]; [auto|].
    right. exists o, level, m, (Some (t, file, line)), h. split; [now apply nth_error_In in E|reflexivity].
  - destruct (g_exit g); auto.
Qed.
Lemma out_from prefix flag ls : forall r, In r (g_out (l_run (new_lg prefix flag) ls)) ->
  In (LStart (e_by r) (e_level r) (e_msg r)) ls /\ exists h, e_bytes r = h ++ content (e_msg r).
Proof.
  induction ls as [|l ls IH] using rev_ind; [intros r []|]. intros r. rewrite l_run_app. cbn. intros H. apply out_step in H.
  destruct H as [H|(o & level & m & w & h & H & ->)].
  - destruct (IH r H) as (A & B). split; [apply in_or_app; now left|exact B].
  - destruct (pend_from prefix flag ls _ H) as (A & _). cbn [q_by q_level q_msg] in A. cbn. split; [apply in_or_app; now left|eauto].
Qed.
Lemma filter_true {A} (f : A -> bool) l : (forall x, In x l -> f x = true) -> filter f l = l.
Proof. induction l as [|x l IH]; cbn; [reflexivity|]. intros H. rewrite (H x) by now left. rewrite IH; auto. Qed.
Lemma calls_lines prefix flag ls : methods_only ls -> levels_ok ls -> let g := l_run (new_lg prefix flag) ls in g_dead g = false ->
  exists made, Forall2 line_of made (map e_bytes (g_out g)) /\ Permutation (due 0 ls) (made ++ under_way g).
Proof.
  intros M L g D. exists (written g). split.
  - unfold written. rewrite filter_true.
    2:{ intros r Hr. destruct (out_from prefix flag ls r Hr) as (A & _). now rewrite (M _ _ _ A). }
    assert (G : forall r, In r (g_out g) -> exists h, e_bytes r = h ++ content (e_msg r)) by (intros r Hr; apply (out_from prefix flag ls r Hr)).
    induction (g_out g) as [|r rs IH]; [constructor|]. cbn. constructor; [|apply IH; intros x Hx; apply G; now right].
    destruct (G r (or_introl eq_refl)) as (h & ->). exists h. cbn. split; [intros X; now apply content_framed|intros ->; now rewrite app_nil_r].
  - apply (run_due ls (new_lg prefix flag) D); [intros q []|exact L].
Qed.

Lemma hung_stays zone tr : forall s, f_hung s = true -> g_out (f_lg (f_run zone s tr)) = g_out (f_lg s).
Proof.
  induction tr as [|l tr IH]; intros s Hs; [reflexivity|]. cbn.
  assert (G : f_hung (f_step zone s l) = true /\ g_out (f_lg (f_step zone s l)) = g_out (f_lg s)).
  { unfold f_step. destruct (g_dead (f_lg s)) eqn:D; [auto|]. destruct l; rewrite ?Hs; cbn; auto.
    - destruct (locks l) eqn:Lk; [auto|].
      assert (E : g_out (l_step (f_lg s) l) = g_out (f_lg s)).
      { unfold l_step. rewrite D. destruct l; try discriminate Lk; auto; [destruct (match by_ with Method => _ | _ => _ end)|destruct (g_exit (f_lg s))]; reflexivity. }
      unfold new_record. rewrite E, skipn_all. cbn. auto.
    - destruct (f_cur s) as [n|]; [|auto]. unfold on_sink. destruct (nth_error (f_sinks s) n); auto.
    - unfold on_sink. destruct (nth_error (f_sinks s) k); auto.
    - unfold on_sink. destruct (nth_error (f_sinks s) k); auto.
    - destruct (f_cur s); auto.
    - destruct (f_cur s); auto.
    - destruct (f_cur s); auto.
    - unfold on_sink. destruct (nth_error (f_sinks s) k); auto. }
  destruct G as (G1 & G2). rewrite <- G2. exact (IH _ G1).
Qed.
Lemma f_run_app zone s a b : f_run zone s (a ++ b) = f_run zone (f_run zone s a) b.
Proof. apply fold_left_app. Qed.
Lemma calls_log e l : calls (map (fun c => FLog c e) l) = l.
Proof. unfold calls. induction l as [|x l IH]; [reflexivity|]. cbn [map flat_map app]. now rewrite IH. Qed.

(* A path that is never set is never touched. *)
Definition sets (p : Z) (l : flabel) : bool := match l with FSet q _ | FNew q => q =? p | _ => false end.
Definition away (p : Z) (s : lf) : Prop := Forall (fun k => k_path k <> p) (f_sinks s).
Lemma away_sink p s n f : away p s -> away p (on_sink s n f) /\ f_used (on_sink s n f) p = f_used s p.
Proof.
  intros A. unfold on_sink. destruct (nth_error (f_sinks s) n) as [k|] eqn:E; [|auto].
  assert (Ak : k_path k <> p) by (unfold away in A; rewrite Forall_forall in A; apply A; now apply nth_error_In in E).
  split; [unfold away; cbn; apply set_forall; auto|]. cbn. unfold on_path. destruct (Z.eqb_spec p (k_path k)); congruence.
Qed.
Lemma away_run zone p tr : forall s, away p s -> forallb (fun l => negb (sets p l)) tr = true -> f_used (f_run zone s tr) p = f_used s p.
Proof.
  induction tr as [|l tr IH]; intros s A H; [reflexivity|]. cbn in H. apply andb_prop in H. destruct H as (Hl & H). cbn.
  assert (G : away p (f_step zone s l) /\ f_used (f_step zone s l) p = f_used s p).
  { unfold f_step. destruct (g_dead (f_lg s)); [auto|]. destruct l; cbn in Hl.
    - destruct (f_hung s && locks l); [auto|]. destruct (new_record _ _) as [b|]; [|auto]. set (s1 := with_lg s _).
      assert (A1 : away p s1) by exact A. change (f_used s) with (f_used s1). clearbody s1. clear - A1.
      assert (W : away p (write_out zone s1 b e) /\ f_used (write_out zone s1 b e) p = f_used s1 p).
      { unfold write_out. destruct (f_cur s1) as [n|]; [|auto]. destruct (nth_error (f_sinks s1) n) as [k|] eqn:E; [|auto].
        assert (Ak : k_path k <> p) by (unfold away in A1; rewrite Forall_forall in A1; apply A1; now apply nth_error_In in E).
        assert (B : forall s2, f_sinks s2 = f_sinks s1 -> f_used s2 = f_used s1 -> forall st, away p (put s2 n k st) /\ f_used (put s2 n k st) p = f_used s1 p).
        { intros s2 E1 E2 st. split; [unfold away; cbn; rewrite E1; apply set_forall; auto|]. cbn. unfold on_path. rewrite E2. destruct (Z.eqb_spec p (k_path k)); congruence. }
        destruct (k_cons k), (negb _ && negb _); apply B; reflexivity. }
      unfold run_hook. destruct (f_hook _); exact W.
    - assert (B : forall s1, away p s1 -> away p (new_sink s1 path)).
      { intros s1 A1. unfold away. cbn. apply Forall_app. split; [exact A1|]. constructor; [cbn; lia|constructor]. }
      destruct (f_cur s) as [n|]; [|split; [now apply B|reflexivity]].
      destruct (away_sink p s n (fun st => lw_close (lw_flush st t)) A) as (A1 & A2). split; [now apply B|exact A2].
    - now apply away_sink.
    - now apply away_sink.
    - split; [|reflexivity]. unfold away. cbn. apply Forall_app. split; [exact A|]. constructor; [cbn; lia|constructor].
    - auto.
    - destruct (f_cur s); [|auto]. destruct (f_hung s); [auto|]. now apply away_sink.
    - destruct (f_cur s); [|auto]. destruct (f_hung s); [auto|]. now apply away_sink.
    - destruct (f_cur s) as [n|]; [|auto]. destruct (f_hung s); [auto|]. unfold set_cons. destruct (nth_error (f_sinks s) n) as [k|] eqn:E; [|auto].
      split; [|reflexivity]. unfold away. cbn. apply set_forall; [|exact A]. unfold away in A. rewrite Forall_forall in A. cbn. apply A. now apply nth_error_In in E.
    - now apply away_sink. }
  destruct G as (G1 & <-). now apply IH.
Qed.

(* ---- the limits of the current file ---- *)
Definition lim (w : lwriter) : Z * Z := (w_max w, w_age w).
Lemma rotate_lim zone s e : lim (l_w (fst (rotate zone false s e))) = lim (l_w s).
Proof.
  unfold rotate. destruct (w_file (l_w s)); [destruct (w_bw (l_w s)) as [b|]|].
  - destruct (bw_flush (l_dir s) b (r_flush e)) as [d1 b1]. destruct (d_cur (archive_file _ _ _ _ d1)) as [[? ?]|]; now destruct (r_open e).
  - destruct (d_cur (l_dir s)) as [[? ?]|]; now destruct (r_open e).
  - destruct (d_cur (l_dir s)) as [[? ?]|]; now destruct (r_open e).
Qed.
Lemma write_lim zone s p e : lim (l_w (fst (fst (lw_write zone false s p e)))) = lim (l_w s).
Proof.
  unfold lw_write.
  assert (A : lim (l_w (fst (if w_file (l_w s) then (s, true) else rotate zone false s (e_first e)))) = lim (l_w s)) by (destruct (w_file (l_w s)); [reflexivity|apply rotate_lim]).
  destruct (if w_file (l_w s) then (s, true) else rotate zone false s (e_first e)) as [s0 ok0]. cbn [fst] in A. destruct ok0; cbn [negb]; [|exact A].
  assert (B : lim (l_w (fst (if day zone (w_created (l_w s0)) =? day zone (e_now e) then (s0, true) else rotate zone false s0 (e_daily e)))) = lim (l_w s0)) by (destruct (_ =? _); [reflexivity|apply rotate_lim]).
  destruct (if day zone (w_created (l_w s0)) =? day zone (e_now e) then (s0, true) else rotate zone false s0 (e_daily e)) as [s1 ok1]. cbn [fst] in B. destruct ok1; cbn [negb]; [|cbn [fst]; congruence].
  assert (C : lim (l_w (fst (if w_max (l_w s1) <=? w_size (l_w s1) + zlen p + buffered (l_w s1) then rotate zone false s1 (e_sized e) else (s1, true)))) = lim (l_w s1)) by (destruct (_ <=? _); [apply rotate_lim|reflexivity]).
  destruct (if w_max (l_w s1) <=? w_size (l_w s1) + zlen p + buffered (l_w s1) then rotate zone false s1 (e_sized e) else (s1, true)) as [s2 ok2]. cbn [fst] in C. destruct ok2; cbn [negb]; [|cbn [fst]; congruence].
  destruct (w_bw (l_w s2)) as [b|]; [|cbn [fst]; congruence]. destruct (bw_write _ _ _ _) as [[[d b'] n] ok]. cbn [fst l_w]. unfold lim in *. cbn. congruence.
Qed.

Lemma nth_set {A} (y : A) : forall l n m x, nth_error l n = Some x -> nth_error (set_nth n y l) m = if Nat.eqb m n then Some y else nth_error l m.
Proof.
  induction l as [|z l IH]; intros [|n] [|m] x E; cbn in *; try discriminate; try reflexivity.
  now apply (IH n m x).
Qed.
Definition now_lim (s : lf) : option (Z * Z) := option_map lim (writer_now s).
Lemma lim_sink s n f g : (forall st, lim (l_w (f st)) = g (lim (l_w st))) -> f_cur s = Some n -> now_lim (on_sink s n f) = option_map g (now_lim s).
Proof.
  intros Hf Hn. unfold now_lim, writer_now, on_sink. rewrite Hn. destruct (nth_error (f_sinks s) n) as [k|] eqn:E; [|now rewrite Hn, E].
  cbn [put f_cur f_sinks]. rewrite Hn, (nth_set _ _ _ _ _ E), Nat.eqb_refl. cbn. now rewrite (Hf (state_of s k)).
Qed.
Lemma lim_any s n f : (forall st, lim (l_w (f st)) = lim (l_w st)) -> now_lim (on_sink s n f) = now_lim s.
Proof.
  intros Hf. unfold now_lim, writer_now, on_sink. destruct (nth_error (f_sinks s) n) as [k|] eqn:E; [|reflexivity].
  cbn [put f_cur f_sinks]. destruct (f_cur s) as [c|]; [|reflexivity]. rewrite (nth_set _ _ _ _ _ E). destruct (Nat.eqb_spec c n) as [->|]; [|reflexivity].
  rewrite E. cbn. now rewrite (Hf (state_of s k)).
Qed.
Lemma flush_lim t st : lim (l_w (lw_flush st t)) = lim (l_w st).
Proof. unfold lw_flush. destruct (w_bw (l_w st)) as [b|]; [|reflexivity]. now destruct (bw_flush _ b t). Qed.
Lemma close_lim st : lim (l_w (lw_close st)) = lim (l_w st).
Proof. unfold lw_close. now destruct (w_file (l_w st)). Qed.
Lemma lim_new s path : now_lim (new_sink s path) = Some (64 * 1024 * 1024, 31).
Proof. unfold now_lim, writer_now. cbn [new_sink f_cur f_sinks]. rewrite nth_last. reflexivity. Qed.

Definition next_lim (x : Z * Z) (l : flabel) : Z * Z :=
  match l with FSet _ _ => (64 * 1024 * 1024, 31) | FMax ms => (if 1 <=? ms then ms else fst x, snd x) | FAge ma => (fst x, ma) | _ => x end.
Lemma lim_write zone s b e : now_lim (write_out zone s b e) = now_lim s.
Proof.
  unfold write_out. destruct (f_cur s) as [n|] eqn:En; [|reflexivity]. destruct (nth_error (f_sinks s) n) as [k|] eqn:E; [|reflexivity].
  assert (G : forall s1, f_cur s1 = f_cur s -> f_sinks s1 = f_sinks s -> now_lim (put s1 n k (fst (fst (lw_write zone false (state_of s k) (map b2z b) e)))) = now_lim s).
  { intros s1 E1 E2. unfold now_lim, writer_now. cbn [put f_cur f_sinks]. rewrite E1, E2, En, (nth_set _ _ _ _ _ E), Nat.eqb_refl, E. cbn. now rewrite write_lim. }
  destruct (k_cons k), (negb _ && negb _); apply G; reflexivity.
Qed.
Lemma lim_step zone s l x : f_hung s = false -> hook_calm s -> calm l -> (forall y, now_lim s = Some y -> y = x) ->
  g_dead (f_lg s) = false -> forall y, now_lim (f_step zone s l) = Some y -> y = next_lim x l.
Proof.
  intros Hg Hk C H D y. unfold f_step. rewrite D. destruct l; cbn [calm next_lim] in *; try contradiction.
  - rewrite Hg. cbn [andb]. destruct (new_record _ _) as [b|]; [|apply H]. unfold run_hook.
    pose proof (lim_write zone (with_lg s (l_step (f_lg s) l)) b e) as E. change (now_lim (with_lg s (l_step (f_lg s) l))) with (now_lim s) in E.
    destruct (f_hook (write_out zone _ b e)); intros Y; apply H; rewrite <- E; exact Y.
  - rewrite lim_new. now intros [= <-].
  - rewrite lim_any by (intros st; apply flush_lim). apply H.
  - apply H.
  - destruct (f_cur s) as [n|] eqn:En.
    2:{ unfold now_lim, writer_now. rewrite En. discriminate. }
    rewrite Hg, (lim_sink s n _ (fun z => (if 1 <=? ms then ms else fst z, snd z))); [|intros st; unfold set_max; destruct (Z.ltb_spec ms 1), (Z.leb_spec 1 ms); try lia; reflexivity|exact En].
    destruct (now_lim s) as [z|]; [|discriminate]. cbn. intros [= <-]. now rewrite (H z eq_refl).
  - destruct (f_cur s) as [n|] eqn:En.
    2:{ unfold now_lim, writer_now. rewrite En. discriminate. }
    rewrite Hg, (lim_sink s n _ (fun z => (fst z, ma))); [|intros st; reflexivity|exact En].
    destruct (now_lim s) as [z|]; [|discriminate]. cbn. intros [= <-]. now rewrite (H z eq_refl).
  - destruct (f_cur s) as [n|] eqn:En; [|apply H]. rewrite Hg. unfold set_cons. destruct (nth_error (f_sinks s) n) as [k|] eqn:E; [|apply H].
    unfold now_lim, writer_now in *. cbn [f_cur f_sinks]. rewrite En in *. rewrite (nth_set _ _ _ _ _ E), Nat.eqb_refl. rewrite E in H. exact (H y).
Qed.
Lemma dead_step zone s l : g_dead (f_lg (f_step zone s l)) = false -> g_dead (f_lg s) = false.
Proof. intros H. destruct (g_dead (f_lg s)) eqn:D; [|reflexivity]. unfold f_step in H. rewrite D in H. congruence. Qed.
Lemma keep_calm zone s l : f_hung s = false -> hook_calm s -> calm l -> f_hung (f_step zone s l) = false /\ hook_calm (f_step zone s l).
Proof.
  intros Hg Hk C. unfold f_step. destruct (g_dead (f_lg s)); [auto|]. destruct l; cbn [calm] in C; try contradiction.
  - rewrite Hg. cbn [andb]. destruct (new_record _ _) as [b|]; [|auto]. set (s1 := with_lg s _).
    assert (W : f_hook (write_out zone s1 b e) = f_hook s /\ f_hung (write_out zone s1 b e) = false).
    { unfold write_out. destruct (f_cur s1); [|auto]. destruct (nth_error (f_sinks s1) _) as [k|]; [|auto].
      unfold put. cbn [f_hook f_hung]. destruct (k_cons k), (negb _ && negb _); auto. }
    destruct W as (W1 & W2). unfold run_hook, hook_calm. rewrite W1. destruct (f_hook s) as [[|level]|] eqn:Eh; [|now destruct (Hk level)|].
    + cbn. split; [reflexivity|]. intros lv. rewrite ?W1, ?Eh. discriminate.
    + split; [exact W2|]. intros lv. rewrite W1. discriminate.
  - unfold hook_calm, on_sink. destruct (f_cur s) as [n|]; [|auto]. destruct (nth_error (f_sinks s) n); auto.
  - unfold hook_calm, on_sink. destruct (nth_error (f_sinks s) k); auto.
  - split; [exact Hg|]. intros lv. cbn. intros ->. contradiction.
  - destruct (f_cur s) as [n|]; [|auto]. rewrite Hg. unfold hook_calm, on_sink. destruct (nth_error (f_sinks s) n); auto.
  - destruct (f_cur s) as [n|]; [|auto]. rewrite Hg. unfold hook_calm, on_sink. destruct (nth_error (f_sinks s) n); auto.
  - destruct (f_cur s) as [n|]; [|auto]. rewrite Hg. unfold hook_calm, set_cons. destruct (nth_error (f_sinks s) n); auto.
Qed.
Lemma lim_run zone tr : forall s x, f_hung s = false -> hook_calm s -> (forall l, In l tr -> calm l) -> (forall y, now_lim s = Some y -> y = x) ->
  g_dead (f_lg (f_run zone s tr)) = false -> forall y, now_lim (f_run zone s tr) = Some y -> y = fold_left next_lim tr x.
Proof.
  induction tr as [|l tr IH]; intros s x Hg Hk C H D; [exact H|]. cbn.
  assert (D1 : g_dead (f_lg (f_step zone s l)) = false).
  { destruct (g_dead (f_lg (f_step zone s l))) eqn:Q; [|reflexivity]. cbn in D. change (fold_left (f_step zone) tr (f_step zone s l)) with (f_run zone (f_step zone s l) tr) in D. rewrite dead_run in D by exact Q. congruence. }
  destruct (keep_calm zone s l Hg Hk (C l (or_introl eq_refl))) as (G1 & G2).
  apply (IH (f_step zone s l)); auto; [intros l' Hl; apply C; now right|].
  apply lim_step; auto; [apply C; now left|]. now apply dead_step in D1.
Qed.
Lemma fold_lim tr : forall m a, fold_left next_lim tr (m, a) =
  (fold_left (fun m l => match l with FSet _ _ => 64 * 1024 * 1024 | FMax ms => if 1 <=? ms then ms else m | _ => m end) tr m,
   fold_left (fun a l => match l with FSet _ _ => 31 | FAge ma => ma | _ => a end) tr a).
Proof.
  induction tr as [|l tr IH]; intros m a; [reflexivity|]. cbn [fold_left]. rewrite <- IH. f_equal. destruct l; reflexivity.
Qed.

(* Proofs about the log writer. *)
From Coq Require Import ZArith List Bool Lia ZifyBool.
From Verif Require Import LogWriter Spec_LogWriter.
Import ListNotations.
Local Open Scope Z_scope.

Lemma zlen_app {A} (a b : list A) : zlen (a ++ b) = zlen a + zlen b.
Proof. unfold zlen. rewrite app_length. lia. Qed.
Lemma zlen_nonneg {A} (a : list A) : 0 <= zlen a.
Proof. unfold zlen. lia. Qed.
Lemma zlen_zero {A} (a : list A) : zlen a = 0 -> a = [].
Proof. destruct a; [reflexivity|]. unfold zlen. cbn. lia. Qed.

(* The writer is usable: an open file has its buffer, a closed one an empty one. *)
Definition sound (s : lstate) : Prop :=
  if w_file (l_w s) then exists buf, w_bw (l_w s) = Some (BufW true false buf) /\ zlen buf <= buf_size /\ d_cur (l_dir s) <> None
  else unflushed s = [] /\ forall b, w_bw (l_w s) = Some b -> b_err b = false.

Lemma append_eq d p t c m : d_cur d = Some (c, m) -> append d p t = Dir (Some (c ++ p, t)) (d_arch d).
Proof. intros E. unfold append. now rewrite E. Qed.

Lemma flush_open d buf t c m : d_cur d = Some (c, m) ->
  exists m', bw_flush d (BufW true false buf) t = (Dir (Some (c ++ buf, m')) (d_arch d), BufW true false []).
Proof.
  intros E. unfold bw_flush. cbn. destruct buf as [|x buf].
  - exists m. destruct d as [cur ar]. cbn in E |- *. subst cur. now rewrite app_nil_r.
  - exists t. now rewrite (append_eq _ _ _ _ _ E).
Qed.

Lemma write_open d buf p t c m : d_cur d = Some (c, m) -> zlen buf <= buf_size ->
  exists c' m' buf', bw_write d (BufW true false buf) p t = (Dir (Some (c', m')) (d_arch d), BufW true false buf', zlen p, true) /\
    c' ++ buf' = c ++ buf ++ p /\ zlen buf' <= buf_size.
Proof.
  intros E Hb. unfold bw_write. cbn [b_err b_buf b_open].
  destruct (Z.leb_spec (zlen p) (buf_size - zlen buf)) as [H|H].
  { exists c, m, (buf ++ p). split; [destruct d as [cur ar]; cbn in E |- *; now subst cur|]. split; [reflexivity|]. rewrite zlen_app. lia. }
  destruct buf as [|x buf].
  - exists (c ++ p), t, []. rewrite (append_eq _ _ _ _ _ E). split; [reflexivity|]. split; [now rewrite app_nil_r|exact Hb].
  - set (b := x :: buf) in *. rewrite (append_eq _ _ _ _ _ E).
    set (k := Z.to_nat (buf_size - zlen b)).
    destruct (Z.leb_spec (zlen (skipn k p)) buf_size) as [H1|H1].
    + exists (c ++ b ++ firstn k p), t, (skipn k p). split; [reflexivity|]. split; [|exact H1].
      rewrite <- !app_assoc. now rewrite firstn_skipn.
    + rewrite (append_eq (Dir _ _) _ _ (c ++ b ++ firstn k p) t) by reflexivity.
      exists ((c ++ b ++ firstn k p) ++ skipn k p), t, []. split; [reflexivity|]. split; [|unfold zlen, buf_size; cbn; lia].
      rewrite app_nil_r, <- !app_assoc. now rewrite firstn_skipn.
Qed.

Lemma filter_none {A} (f : A -> bool) l : (forall x, In x l -> f x = true) -> filter f l = l.
Proof. induction l as [|x l IH]; cbn; [reflexivity|]. intros H. rewrite (H x) by now left. rewrite IH; auto. Qed.

Lemma put_fresh name zip c l : ~ In name (map a_name l) -> put_archive name zip c l = l ++ [Archive name zip c].
Proof.
  intros H. unfold put_archive. rewrite filter_none; [reflexivity|]. intros a Ha. destruct (Z.eqb_spec (a_name a) name) as [<-|]; [|reflexivity].
  destruct H. now apply in_map.
Qed.

Ltac fresh_buf := split; [reflexivity|]; split; [unfold zlen, buf_size; cbn; lia|cbn; congruence].

Section WithZone.
Variable zone : Z -> Z.

(* Data on disk and in the buffer, and the names used so far. *)
Definition holds (s : lstate) (names0 : list Z) (data : bytes) : Prop :=
  on_disk s ++ unflushed s = data /\ map a_name (d_arch (l_dir s)) = names0 ++ l_used s.

Lemma archive_keeps e created d c m :
  d_cur d = Some (c, m) -> ~ (r_rename e = true /\ In (time2name zone created) (map a_name (d_arch d))) ->
  concat (map a_data (d_arch (archive_file zone false e created d))) ++
    match d_cur (archive_file zone false e created d) with Some (c', _) => c' | None => [] end
  = concat (map a_data (d_arch d)) ++ c /\
  map a_name (d_arch (archive_file zone false e created d)) = map a_name (d_arch d) ++ archive_name zone e created d.
Proof.
  intros E H. unfold archive_file, archive_name. rewrite E. destruct (r_rename e) eqn:Er.
  2:{ rewrite E, app_nil_r. auto. }
  assert (H' : ~ In (time2name zone created) (map a_name (d_arch d))) by tauto.
  destruct (r_zip e); cbn.
  - rewrite (filter_none _ (d_arch d)).
    + rewrite put_fresh by exact H'. rewrite !map_app, concat_app. cbn. rewrite !app_nil_r. auto.
    + intros a Ha. destruct (Z.eqb_spec (a_name a) (time2name zone created)) as [Eq|]; [|reflexivity].
      destruct H'. rewrite <- Eq. now apply in_map.
  - rewrite put_fresh by exact H'. rewrite !map_app, concat_app. cbn. rewrite !app_nil_r. auto.
Qed.

Lemma rotate_used zs s e : exists x, l_used (fst (rotate zone zs s e)) = l_used s ++ x.
Proof.
  unfold rotate. destruct (w_file (l_w s)).
  - destruct (w_bw (l_w s)) as [b|].
    + destruct (bw_flush (l_dir s) b (r_flush e)) as [d1 b1]. cbn zeta.
      destruct (d_cur (archive_file _ _ _ _ d1)) as [[? ?]|]; destruct (r_open e); cbn; eexists; reflexivity.
    + destruct (d_cur (l_dir s)) as [[? ?]|]; destruct (r_open e); cbn; exists []; now rewrite app_nil_r.
  - destruct (d_cur (l_dir s)) as [[? ?]|]; destruct (r_open e); cbn; exists []; now rewrite app_nil_r.
Qed.

Lemma nodup_prefix {A} (a b c : list A) : NoDup (a ++ b ++ c) -> NoDup (a ++ b).
Proof. rewrite app_assoc. intros H. induction c as [|x c IH] using rev_ind; [now rewrite app_nil_r in H|]. apply IH. rewrite app_assoc in H. now apply NoDup_remove_1 in H; rewrite app_nil_r in H. Qed.

Lemma rotate_holds s e n0 data : sound s -> holds s n0 data -> r_open e = true ->
  NoDup (n0 ++ l_used (fst (rotate zone false s e))) ->
  let s' := fst (rotate zone false s e) in
  snd (rotate zone false s e) = true /\ sound s' /\ w_file (l_w s') = true /\ holds s' n0 data /\ unflushed s' = [] /\ w_max (l_w s') = w_max (l_w s) /\ w_age (l_w s') = w_age (l_w s).
Proof.
  intros S (H1 & H2) Ho. unfold rotate. unfold sound in S. destruct (w_file (l_w s)) eqn:Ef.
  - destruct S as (buf & Eb & Hl & Hc). rewrite Eb. destruct (d_cur (l_dir s)) as [[c m]|] eqn:Ec; [|congruence].
    destruct (flush_open (l_dir s) buf (r_flush e) c m Ec) as (m' & ->).
    set (d1 := Dir (Some (c ++ buf, m')) (d_arch (l_dir s))). cbn zeta.
    intros ND.
    assert (K : ~ (r_rename e = true /\ In (time2name zone (w_created (l_w s))) (map a_name (d_arch d1)))).
    { intros (Er & Hi). revert ND. destruct (d_cur (archive_file zone false e (w_created (l_w s)) d1)) as [[? ?]|]; rewrite Ho; cbn [l_used fst];
      unfold archive_name; cbn [d_cur d1]; rewrite Er; rewrite app_assoc, <- H2; intros ND; apply NoDup_remove_2 in ND; rewrite app_nil_r in ND; now apply ND. }
    destruct (archive_keeps e (w_created (l_w s)) d1 (c ++ buf) m' eq_refl K) as (A & B). clear ND K.
    assert (D : concat (map a_data (d_arch d1)) ++ c ++ buf = data).
    { rewrite <- H1. unfold on_disk, unflushed, current. rewrite Ec, Eb. cbn. now rewrite <- app_assoc. }
    destruct (archive_file zone false e (w_created (l_w s)) d1) as [cur' arch'].
    assert (H2' : map a_name arch' = n0 ++ l_used s ++ archive_name zone e (w_created (l_w s)) d1).
    { cbn in B. rewrite B. rewrite app_assoc, <- H2. reflexivity. }
    cbn [d_cur d_arch] in *. destruct cur' as [[c' m0]|]; rewrite Ho; cbn.
    + split; [reflexivity|]. split; [exists []; fresh_buf|]. split; [reflexivity|].
      split; [|auto]. split; [|exact H2']. unfold on_disk, unflushed, current. cbn. rewrite app_nil_r. now rewrite A.
    + split; [reflexivity|]. split; [exists []; fresh_buf|]. split; [reflexivity|].
      split; [|auto]. split; [|exact H2']. unfold on_disk, unflushed, current. cbn. rewrite app_nil_r. now rewrite A.
  - intros _. destruct S as (Eu & _). rewrite Eu, app_nil_r in H1. unfold on_disk, current in H1.
    destruct (d_cur (l_dir s)) as [[c m]|] eqn:Ec; rewrite Ho; cbn; unfold sound, holds, on_disk, unflushed, current; cbn; rewrite ?Ec, ?app_nil_r.
    + split; [reflexivity|]. split; [exists []; fresh_buf|]. split; [reflexivity|]. split; [|auto]. auto.
    + split; [reflexivity|]. split; [exists []; fresh_buf|]. split; [reflexivity|]. split; [|auto]. rewrite app_nil_r in H1. auto.
Qed.

Lemma used_of_write s p e : exists x, l_used (fst (fst (lw_write zone false s p e))) = l_used s ++ x.
Proof.
  unfold lw_write.
  assert (A : exists x, l_used (fst (if w_file (l_w s) then (s, true) else rotate zone false s (e_first e))) = l_used s ++ x).
  { destruct (w_file (l_w s)); [exists []; now rewrite app_nil_r|apply rotate_used]. }
  destruct (if w_file (l_w s) then (s, true) else rotate zone false s (e_first e)) as [s0 ok0]. cbn in A. destruct A as (x0 & A).
  destruct ok0; cbn [negb]; [|eauto].
  assert (B : exists x, l_used (fst (if day zone (w_created (l_w s0)) =? day zone (e_now e) then (s0, true) else rotate zone false s0 (e_daily e))) = l_used s0 ++ x).
  { destruct (_ =? _); [exists []; now rewrite app_nil_r|apply rotate_used]. }
  destruct (if day zone (w_created (l_w s0)) =? day zone (e_now e) then (s0, true) else rotate zone false s0 (e_daily e)) as [s1 ok1]. cbn in B. destruct B as (x1 & B).
  rewrite A, <- app_assoc in B. destruct ok1; cbn [negb]; [|eauto].
  assert (C : exists x, l_used (fst (if w_max (l_w s1) <=? w_size (l_w s1) + zlen p + buffered (l_w s1) then rotate zone false s1 (e_sized e) else (s1, true))) = l_used s1 ++ x).
  { destruct (_ <=? _); [apply rotate_used|exists []; now rewrite app_nil_r]. }
  destruct (if w_max (l_w s1) <=? w_size (l_w s1) + zlen p + buffered (l_w s1) then rotate zone false s1 (e_sized e) else (s1, true)) as [s2 ok2]. cbn in C. destruct C as (x2 & C).
  rewrite B, <- app_assoc in C. destruct ok2; cbn [negb]; [|eauto].
  destruct (w_bw (l_w s2)) as [b|]; [|eauto]. destruct (bw_write (l_dir s2) b p (e_write e)) as [[[d b'] n] ok]. cbn. eauto.
Qed.

Lemma write_holds s p e n0 data : sound s -> holds s n0 data -> opens (LWrite p e) ->
  NoDup (n0 ++ l_used (fst (fst (lw_write zone false s p e)))) ->
  let s' := fst (fst (lw_write zone false s p e)) in
  sound s' /\ holds s' n0 (data ++ p) /\ snd (fst (lw_write zone false s p e)) = zlen p /\ snd (lw_write zone false s p e) = true.
Proof.
  intros S H (O1 & O2 & O3) ND. cbv zeta. revert ND. unfold lw_write.
  assert (A : exists x, l_used (fst (if w_file (l_w s) then (s, true) else rotate zone false s (e_first e))) = l_used s ++ x).
  { destruct (w_file (l_w s)); [exists []; now rewrite app_nil_r|apply rotate_used]. }
  assert (A2 : let r := if w_file (l_w s) then (s, true) else rotate zone false s (e_first e) in
     NoDup (n0 ++ l_used (fst r)) -> snd r = true /\ sound (fst r) /\ w_file (l_w (fst r)) = true /\ holds (fst r) n0 data).
  { destruct (w_file (l_w s)) eqn:Ef; cbv zeta; [intros _; auto|]. intros ND. destruct (rotate_holds s (e_first e) n0 data S H O1 ND) as (P1 & P2 & P3 & P4 & _). auto. }
  destruct (if w_file (l_w s) then (s, true) else rotate zone false s (e_first e)) as [s0 ok0]. cbn [fst snd] in A, A2. destruct A as (x0 & A).
  assert (B : exists x, l_used (fst (if day zone (w_created (l_w s0)) =? day zone (e_now e) then (s0, true) else rotate zone false s0 (e_daily e))) = l_used s0 ++ x).
  { destruct (_ =? _); [exists []; now rewrite app_nil_r|apply rotate_used]. }
  assert (B2 : let r := if day zone (w_created (l_w s0)) =? day zone (e_now e) then (s0, true) else rotate zone false s0 (e_daily e) in
     sound s0 -> holds s0 n0 data -> w_file (l_w s0) = true ->
     NoDup (n0 ++ l_used (fst r)) -> snd r = true /\ sound (fst r) /\ w_file (l_w (fst r)) = true /\ holds (fst r) n0 data).
  { destruct (_ =? _); cbv zeta; [intros; auto|]. intros S0 H0 _ ND. destruct (rotate_holds s0 (e_daily e) n0 data S0 H0 O2 ND) as (P1 & P2 & P3 & P4 & _). auto. }
  destruct (if day zone (w_created (l_w s0)) =? day zone (e_now e) then (s0, true) else rotate zone false s0 (e_daily e)) as [s1 ok1]. cbn [fst snd] in B, B2. destruct B as (x1 & B).
  assert (C : exists x, l_used (fst (if w_max (l_w s1) <=? w_size (l_w s1) + zlen p + buffered (l_w s1) then rotate zone false s1 (e_sized e) else (s1, true))) = l_used s1 ++ x).
  { destruct (_ <=? _); [apply rotate_used|exists []; now rewrite app_nil_r]. }
  assert (C2 : let r := if w_max (l_w s1) <=? w_size (l_w s1) + zlen p + buffered (l_w s1) then rotate zone false s1 (e_sized e) else (s1, true) in
     sound s1 -> holds s1 n0 data -> w_file (l_w s1) = true ->
     NoDup (n0 ++ l_used (fst r)) -> snd r = true /\ sound (fst r) /\ w_file (l_w (fst r)) = true /\ holds (fst r) n0 data).
  { destruct (_ <=? _); cbv zeta; [|intros; auto]. intros S0 H0 _ ND. destruct (rotate_holds s1 (e_sized e) n0 data S0 H0 O3 ND) as (P1 & P2 & P3 & P4 & _). auto. }
  destruct (if w_max (l_w s1) <=? w_size (l_w s1) + zlen p + buffered (l_w s1) then rotate zone false s1 (e_sized e) else (s1, true)) as [s2 ok2]. cbn [fst snd] in C, C2. destruct C as (x2 & C).
  intros ND.
  assert (N0 : NoDup (n0 ++ l_used s0)).
  { destruct ok0; cbn [negb] in ND; [|exact ND]. destruct ok1; cbn [negb] in ND; [|cbn [fst] in ND; rewrite B in ND; now apply nodup_prefix in ND].
    destruct ok2; cbn [negb] in ND; [|cbn [fst] in ND; rewrite C, B, <- app_assoc in ND; now apply nodup_prefix in ND].
    destruct (w_bw (l_w s2)) as [b|]; [|cbn [fst] in ND; rewrite C, B, <- app_assoc in ND; now apply nodup_prefix in ND].
    destruct (bw_write (l_dir s2) b p (e_write e)) as [[[d b'] n] ok]. cbn [fst l_used] in ND; rewrite C, B, <- app_assoc in ND; now apply nodup_prefix in ND. }
  destruct (A2 N0) as (-> & S0 & F0 & H0). cbn [negb] in *.
  assert (N1 : NoDup (n0 ++ l_used s1)).
  { destruct ok1; cbn [negb] in ND; [|exact ND]. 
    destruct ok2; cbn [negb] in ND; [|cbn [fst] in ND; rewrite C in ND; now apply nodup_prefix in ND].
    destruct (w_bw (l_w s2)) as [b|]; [|cbn [fst] in ND; rewrite C in ND; now apply nodup_prefix in ND].
    destruct (bw_write (l_dir s2) b p (e_write e)) as [[[d b'] n] ok]. cbn [fst l_used] in ND; rewrite C in ND; now apply nodup_prefix in ND. }
  destruct (B2 S0 H0 F0 N1) as (-> & S1 & F1 & H1). cbn [negb] in *.
  assert (N2 : NoDup (n0 ++ l_used s2)).
  { destruct ok2; cbn [negb] in ND; [|exact ND]. destruct (w_bw (l_w s2)) as [b|]; [|exact ND].
    now destruct (bw_write (l_dir s2) b p (e_write e)) as [[[d b'] n] ok]. }
  destruct (C2 S1 H1 F1 N2) as (-> & S2 & F2 & H2). cbn [negb] in *. clear A2 B2 C2 ND.
  assert (S2' := S2). unfold sound in S2. rewrite F2 in S2. destruct S2 as (buf & Eb & Hl & Hc). rewrite Eb.
  destruct (d_cur (l_dir s2)) as [[c m]|] eqn:Ec; [|congruence].
  destruct (write_open (l_dir s2) buf p (e_write e) c m Ec Hl) as (c' & m' & buf' & -> & Ew & Hl'). cbn.
  split; [unfold sound; cbn; rewrite F2; exists buf'; repeat split; auto; congruence|]. split; [|auto].
  destruct H2 as (H2 & H3). split; [|exact H3]. revert H2. unfold on_disk, unflushed, current. cbn. rewrite Ec, Eb. cbn. intros <-.
  rewrite <- !app_assoc. now rewrite Ew.
Qed.

Lemma flush_holds s t n0 data : sound s -> holds s n0 data -> sound (lw_flush s t) /\ holds (lw_flush s t) n0 data /\ unflushed (lw_flush s t) = [] /\
  l_used (lw_flush s t) = l_used s /\ w_file (l_w (lw_flush s t)) = w_file (l_w s).
Proof.
  intros S H. unfold lw_flush. destruct (w_bw (l_w s)) as [b|] eqn:Eb; [|split; [exact S|]; split; [exact H|]; split; [unfold unflushed; now rewrite Eb|auto]].
  assert (S' := S). unfold sound in S. destruct (w_file (l_w s)) eqn:Ef.
  - destruct S as (buf & Eb' & Hl & Hc). rewrite Eb in Eb'. injection Eb' as ->. destruct (d_cur (l_dir s)) as [[c m]|] eqn:Ec; [|congruence].
    destruct (flush_open (l_dir s) buf t c m Ec) as (m' & ->). cbn. split; [unfold sound; cbn; exists []; fresh_buf|].
    split; [|auto]. destruct H as (H & H3). split; [|exact H3]. revert H. unfold on_disk, unflushed, current. cbn. rewrite Ec, Eb. cbn. intros <-. now rewrite app_nil_r, <- app_assoc.
  - destruct S as (Eu & He). unfold unflushed in Eu. rewrite Eb in Eu. unfold bw_flush. rewrite (He b Eb), Eu. cbn. 
    destruct H as (H & H3). unfold sound, holds, on_disk, unflushed, current in *. cbn. rewrite ?Eb in H. rewrite Eu in H |- *. split; [|repeat split; tauto]. split; [reflexivity|]. intros b0 [= <-]. now apply He.
Qed.

Lemma close_holds s n0 data : sound s -> holds s n0 data -> unflushed s = [] -> sound (lw_close s) /\ holds (lw_close s) n0 data /\ unflushed (lw_close s) = [] /\
  l_used (lw_close s) = l_used s.
Proof.
  intros S H E. unfold lw_close. assert (S' := S). unfold sound in S. destruct (w_file (l_w s)) eqn:Ef; [|auto].
  destruct S as (buf & Eb & Hl & Hc). rewrite Eb. unfold sound, holds, on_disk, unflushed, current in *. rewrite Eb in *. cbn in *. subst buf.
  repeat split; try tauto. now intros b [= <-].
Qed.

Lemma step_used s o : whole_close o -> exists x, l_used (fst (lw_step zone false s o)) = l_used s ++ x.
Proof.
  assert (Z : forall s', l_used s' = l_used s -> exists x, l_used s' = l_used s ++ x) by (intros s' E; exists []; now rewrite app_nil_r).
  assert (F : forall t, l_used (lw_flush s t) = l_used s).
  { intros t. unfold lw_flush. destruct (w_bw (l_w s)); [|reflexivity]. now destruct (bw_flush _ _ _). }
  assert (C : forall s', l_used (lw_close s') = l_used s') by (intros s'; unfold lw_close; now destruct (w_file (l_w s'))).
  intros _. destruct o; cbn; [|apply Z..]; auto; try (rewrite C; apply F).
  - destruct (used_of_write s p e) as (x & E). destruct (lw_write zone false s p e) as [[s' n] ok]. cbn in *. eauto.
  - unfold set_max. now destruct (ms <? 1).
  - unfold lw_delete. now destruct (_ <=? 0).
Qed.

Lemma step_holds s o n0 data : sound s -> holds s n0 data -> opens o -> whole_close o -> no_expiry o ->
  NoDup (n0 ++ l_used (fst (lw_step zone false s o))) ->
  sound (fst (lw_step zone false s o)) /\ holds (fst (lw_step zone false s o)) n0 (data ++ accepted [o] [snd (lw_step zone false s o)]) /\
  (is_flush o -> unflushed (fst (lw_step zone false s o)) = []).
Proof.
  intros S H O W X ND. destruct o; cbn [lw_step accepted is_flush] in *; try rewrite app_nil_r.
  - assert (L := write_holds s p e n0 data S H O). destruct (lw_write zone false s p e) as [[s' n] ok]. cbn in *.
    destruct (L ND) as (A & B & -> & _). split; [exact A|]. split; [|contradiction]. rewrite ?app_nil_r. unfold zlen. rewrite Nat2Z.id, firstn_all. exact B.
  - destruct (flush_holds s t n0 data S H) as (A & B & C & _). auto.
  - now destruct W.
  - destruct (flush_holds s t n0 data S H) as (A & B & C & _). destruct (close_holds _ n0 data A B C) as (A' & B' & C' & _). auto.
  - destruct (flush_holds s t n0 data S H) as (A & B & C & U & _). destruct (close_holds _ n0 data A B C) as (A' & B' & C' & U').
    split; [split; [reflexivity|discriminate]|]. split; [|reflexivity]. destruct B' as (B1 & B2). rewrite C', app_nil_r in B1. split; [|cbn; rewrite <- U, <- U'; exact B2].
    unfold on_disk, unflushed, current in *. cbn in *. now rewrite app_nil_r.
  - split; [|split; [|contradiction]]; unfold set_max, sound, holds, on_disk, unflushed, current in *; destruct (ms <? 1); cbn in *; auto.
  - split; [|split; [|contradiction]]; unfold set_age, sound, holds, on_disk, unflushed, current in *; cbn in *; auto.
  - now destruct (X now).
Qed.

Lemma run_used : forall os s, (forall o, In o os -> whole_close o) -> exists x, l_used (fst (lw_run zone false s os)) = l_used s ++ x.
Proof.
  induction os as [|o os IH]; intros s W; cbn; [exists []; now rewrite app_nil_r|].
  destruct (step_used s o (W o (or_introl eq_refl))) as (x & E). destruct (lw_step zone false s o) as [s1 n]. cbn in E.
  destruct (IH s1 (fun o' H => W o' (or_intror H))) as (y & E'). destruct (lw_run zone false s1 os) as [s2 ns]. cbn in *. exists (x ++ y). now rewrite E', E, app_assoc.
Qed.

Lemma run_holds : forall os s n0 data, sound s -> holds s n0 data ->
  (forall o, In o os -> opens o /\ whole_close o /\ no_expiry o) ->
  NoDup (n0 ++ l_used (fst (lw_run zone false s os))) ->
  let r := lw_run zone false s os in sound (fst r) /\ holds (fst r) n0 (data ++ accepted os (snd r)) /\
  (forall o before, os = before ++ [o] -> is_flush o -> unflushed (fst r) = []).
Proof.
  induction os as [|o os IH]; intros s n0 data S H A ND; cbv zeta.
  - cbn. rewrite app_nil_r. split; [exact S|]. split; [exact H|]. intros o [|]; discriminate.
  - destruct (A o (or_introl eq_refl)) as (O & W & X).
    assert (ND1 : NoDup (n0 ++ l_used (fst (lw_step zone false s o)))).
    { cbn in ND. destruct (lw_step zone false s o) as [s1 n]. destruct (run_used os s1 (fun o' Ho => proj1 (proj2 (A o' (or_intror Ho))))) as (x & E).
      destruct (lw_run zone false s1 os) as [s2 ns]. cbn in *. rewrite E in ND. now apply nodup_prefix in ND. }
    destruct (step_holds s o n0 data S H O W X ND1) as (S1 & H1 & F1). cbn [lw_run] in ND |- *.
    assert (Ea : forall n ns, accepted (o :: os) (n :: ns) = accepted [o] [n] ++ accepted os ns).
    { intros n ns. destruct o; cbn; try reflexivity. now rewrite app_nil_r. }
    destruct (lw_step zone false s o) as [s1 n]. cbn [fst snd] in S1, H1, F1.
    specialize (IH s1 n0 (data ++ accepted [o] [n]) S1 H1 (fun o' Ho => A o' (or_intror Ho))).
    destruct (lw_run zone false s1 os) as [s2 ns] eqn:Er. cbn [fst snd] in *. destruct (IH ND) as (S2 & H2 & F2).
    split; [exact S2|]. split; [rewrite Ea, app_assoc; exact H2|].
    intros o' before E Hf. destruct before as [|x before].
    + injection E as <- ->. cbn in Er. injection Er as <- <-. now apply F1.
    + injection E as <- E. now apply (F2 o' before).
Qed.
End WithZone.

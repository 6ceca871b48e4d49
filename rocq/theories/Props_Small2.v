(* Corner cases of C38 (a heartbeat message that is being written when the connection ends), C45
   (the count a write to the log file reports) and C91 (the IDs of websocket connections). *)
From Coq Require Import ZArith List Bool Arith Lia Sorting.Sorted.
From Verif Require Import Bytes ConnLife Props_ConnLife.
From Verif Require WsAdmit Spec_WsAdmit WsAdmit_proofs LogWriter Spec_LogWriter.
Import ListNotations.

(* ---- C38 ---- *)
Definition is_lock (i : instr) : bool := match i with ILock => true | _ => false end.
Definition is_unlock (i : instr) : bool := match i with IUnlock => true | _ => false end.
Definition crit (t : list instr) : bool := existsb is_unlock t && negb (existsb is_lock t).
Definition lock_inv (c : lcfg) (s : life) : Prop :=
  (exists n, lf_todo s = skipn n (start_prog ++ final_prog (lc_kind c))) /\
  (crit (lf_todo s) = true -> lf_lock s = true) /\ (lf_hb s = HbWrite -> lf_lock s = true /\ crit (lf_todo s) = false).
Lemma lock_step c s l : lc_kind c <> KTcp -> lock_inv c s -> lock_inv c (fst (life_step c s l)).
Proof.
  intros K ((n & T) & A & B). unfold life_step. destruct (lf_dead s); [split; eauto|].
  destruct l as [| | |fresh|].
  - cbn [fst]. destruct s as [todo ctx canc closed lock hb rd dead]. cbn [lf_todo lf_lock lf_hb] in *. subst todo. unfold main_step. cbn [lf_todo].
    assert (N : n < 18 \/ 18 <= n) by lia. destruct N as [N|N].
    + destruct c as [[] hc p1 p2]; cbn [lc_kind] in *; [now destruct K| |].
      * do 18 (destruct n as [|n]; [cbn [skipn start_prog final_prog app] in *; cbv [crit existsb is_lock is_unlock negb orb andb] in A, B;
          unfold lock_inv; cbn; unfold hook_panic; cbn; repeat (match goal with |- context [if ?b then _ else _] => destruct b | |- context [match hb with HbSelect => _ | _ => _ end] => destruct hb end; cbn);
          (split; [first [now exists 0|now exists 1|now exists 2|now exists 3|now exists 4|now exists 5|now exists 6|now exists 7|now exists 8|now exists 9|now exists 10|now exists 11|now exists 12|now exists 13|now exists 14|now exists 15|now exists 16|now exists 17|now exists 18]|]);
          try (split; intros Q; try discriminate Q; try (destruct (B Q)); try discriminate; auto; split; try reflexivity; auto)|]); lia.
      * do 18 (destruct n as [|n]; [cbn [skipn start_prog final_prog app] in *; cbv [crit existsb is_lock is_unlock negb orb andb] in A, B;
          unfold lock_inv; cbn; unfold hook_panic; cbn; repeat (match goal with |- context [if ?b then _ else _] => destruct b | |- context [match hb with HbSelect => _ | _ => _ end] => destruct hb end; cbn);
          (split; [first [now exists 0|now exists 1|now exists 2|now exists 3|now exists 4|now exists 5|now exists 6|now exists 7|now exists 8|now exists 9|now exists 10|now exists 11|now exists 12|now exists 13|now exists 14|now exists 15|now exists 16|now exists 17|now exists 18]|]);
          try (split; intros Q; try discriminate Q; try (destruct (B Q)); try discriminate; auto; split; try reflexivity; auto)|]); lia.
    + rewrite skipn_all2 in * by (destruct (lc_kind c); cbn; lia). split; [exists n; cbn; rewrite skipn_all2; [reflexivity|destruct (lc_kind c); cbn; lia]|]. now split.
  - unfold stop_call. destruct (lf_ctx s); split; eauto.
  - destruct (lf_reader s); split; eauto.
  - assert (I0 : lock_inv c s) by (split; [eauto|split; assumption]). destruct (lf_hb s) eqn:H; try exact I0. destruct (fresh && negb (is_closed c s)).
    + split; [eauto|]. cbn. split; [exact A|]. destruct (lc_kind c); [now destruct K|discriminate..].
    + unfold stop_call. destruct (lf_ctx s); [|exact I0]. split; [eauto|]. cbn. rewrite H. split; [exact A|discriminate].
  - assert (I0 : lock_inv c s) by (split; [eauto|split; assumption]). destruct (lf_hb s) eqn:H; try exact I0.
    + destruct (lf_lock s) eqn:L; [exact I0|]. split; [eauto|]. cbn. split; [auto|]. intros _. split; [reflexivity|]. destruct (crit (lf_todo s)); [now specialize (A eq_refl)|reflexivity].
    + destruct (B eq_refl) as (B1 & B2). split; [eauto|]. cbn. rewrite B2. split; discriminate.
Qed.
(* On websocket and Kcp connections a heartbeat message that is being written is written whole:
   the connection is not closed meanwhile, whoever stops it. *)
Theorem C38_not_cut_off c ls l : lc_kind c <> KTcp -> let s := fst (life_run c (life_new c) ls) in
  lf_hb s = HbWrite -> ~ In EvClose (snd (life_step c s l)).
Proof.
  intros K s H. assert (I : lock_inv c s).
  { unfold s. clear s H l. induction ls as [|x ls IH] using rev_ind.
    - split; [now exists 0|]. split; [destruct c as [[] ? ? ?]; vm_compute; intros; discriminate|discriminate].
    - destruct (run_snoc c ls (life_new c) x) as (-> & _). now apply lock_step. }
  clearbody s. destruct I as ((n & T) & _ & B). destruct (B H) as (L & C). unfold life_step. destruct (lf_dead s); [intros []|]. destruct l as [| | |fresh|].
  - unfold main_step. destruct (lf_todo s) as [|i rest] eqn:Et; [intros []|]. destruct i; cbn; unfold hook_panic; repeat (match goal with |- context [if ?b then _ else _] => destruct b | |- context [match ?b with KTcp => _ | KWs => _ | KKcp => _ end] => destruct b | |- context [match lf_hb s with HbSelect => _ | _ => _ end] => destruct (lf_hb s) end; cbn); try tauto; try (intuition discriminate).
    exfalso. assert (N : n < 18 \/ 18 <= n) by lia. destruct N as [N|N]; [|rewrite skipn_all2 in T by (destruct (lc_kind c); cbn; lia); discriminate].
    destruct (lc_kind c); [now destruct K| |]; do 18 (destruct n as [|n]; [cbn in T; try discriminate T; injection T as ->; discriminate C|]); lia.
  - unfold stop_call. destruct (lf_ctx s); cbn; intuition discriminate.
  - destruct (lf_reader s); intros [].
  - rewrite H. intros [].
  - rewrite H. intros [].
Qed.
Print Assumptions C38_not_cut_off.
Example C38_not_cut_off_case : let c := Lcfg KWs true false false in let s := fst (life_run c (life_new c) (repeat LMain 6 ++ [LTick true; LBeat; LStop; LMain; LMain])) in
  lf_hb s = HbWrite /\ lf_cancelled s = true /\ hd_error (lf_todo s) = Some ILock.
Proof. vm_compute. auto. Qed.

(* ---- C91 ---- *)
Import WsAdmit Spec_WsAdmit.
Local Open Scope Z_scope.
(* The IDs given to the connections that were opened, in order. *)
Definition ids_of (es : list wevent) : list Z := flat_map (fun e => match e with Opened _ _ c _ => [c] | _ => [] end) es.
Lemma ids_step mc s l : ids_of (snd (ws_step mc s l)) = [] /\ w_cid s <= w_cid (fst (ws_step mc s l)) \/ ids_of (snd (ws_step mc s l)) = [w_cid s + 1] /\ w_cid (fst (ws_step mc s l)) = w_cid s + 1.
Proof.
  destruct l as [r|h ok|f|n c]; cbn; [left; split; [reflexivity|lia]| |left; split; [reflexivity|lia]|left; split; [reflexivity|lia]].
  destruct (nth_error (w_reqs s) h) as [[r p]|]; [|left; cbn; split; [reflexivity|lia]]. destruct p; cbn;
    repeat (match goal with |- context [if ?b then _ else _] => destruct b | |- context [match w_auth s with None => _ | Some _ => _ end] => destruct (w_auth s) | |- context [match ?f r with None => _ | Some _ => _ end] => destruct (f r) end; cbn); (left; split; [reflexivity|lia]) || (right; split; reflexivity).
Qed.
Lemma ids_after mc tr : forall s, StronglySorted Z.lt (ids_of (ws_seen mc s tr)) /\ Forall (fun c => w_cid s < c) (ids_of (ws_seen mc s tr)).
Proof.
  induction tr as [|l tr IH]; intros s; [split; constructor|]. cbn [ws_seen]. unfold ids_of. rewrite flat_map_app. fold (ids_of (snd (ws_step mc s l))) (ids_of (ws_seen mc (fst (ws_step mc s l)) tr)).
  destruct (IH (fst (ws_step mc s l))) as (S1 & S2). destruct (ids_step mc s l) as [(-> & L)|(-> & E)]; cbn [app].
  - split; [exact S1|]. eapply Forall_impl; [|exact S2]. cbn. lia.
  - rewrite E in S2. split; [constructor; assumption|]. constructor; [lia|]. eapply Forall_impl; [|exact S2]. cbn. lia.
Qed.
(* The connections made for websocket requests get IDs that grow, whatever other servers' connections
   take IDs in between: no ID is given twice. *)
Theorem C91_ids mc auth tr : StronglySorted Z.lt (ids_of (ws_seen mc (new_wsrv auth) tr)).
Proof. apply ids_after. Qed.
Print Assumptions C91_ids.
Example C91_ids_case : let r := WsReq 1 false [] 5 true in let five h := repeat (WStep h true) 5 in
  ids_of (ws_seen 10 (new_wsrv None) ([WReq r; WReq r] ++ five 1%nat ++ [WOther 7 3] ++ five 0%nat)) = [1; 5].
Proof. reflexivity. Qed.

(* ---- C45 ---- *)
Import LogWriter Spec_LogWriter.
(* When no new file is due, a write takes as many bytes as it says, from the front; all of them
   if it reports no error. *)
Theorem C45_count zone zs s p e s' n ok : w_file (l_w s) = true -> day zone (w_created (l_w s)) = day zone (e_now e) ->
  w_size (l_w s) + zlen p + zlen (unflushed s) < w_max (l_w s) -> d_cur (l_dir s) <> None ->
  lw_write zone zs s p e = (s', n, ok) ->
  on_disk s' ++ unflushed s' = (on_disk s ++ unflushed s) ++ firstn (Z.to_nat n) p /\ 0 <= n <= zlen p /\ (ok = true -> n = zlen p).
Proof.
  intros F D M C E. unfold lw_write in E. rewrite F in E. cbn [negb] in E. rewrite (proj2 (Z.eqb_eq _ _) D) in E. cbn [negb] in E.
  assert (Bf : buffered (l_w s) = zlen (unflushed s)) by (unfold buffered, unflushed; now destruct (w_bw (l_w s))). rewrite Bf, (proj2 (Z.leb_gt _ _) M) in E. cbn [negb] in E.
  unfold on_disk, unflushed, current in *. destruct (w_bw (l_w s)) as [b|] eqn:Eb.
  2:{ injection E as <- <- <-. rewrite Eb, app_nil_r. cbn. split; [now rewrite !app_nil_r|]. unfold zlen. split; [lia|discriminate]. }
  destruct (d_cur (l_dir s)) as [[cur t0]|] eqn:Ec; [|now destruct C].
  assert (W : forall d b' n', (d, b', n', ok) = bw_write (l_dir s) b p (e_write e) ->
     (concat (map a_data (d_arch d)) ++ (match d_cur d with Some (c, _) => c | None => [] end)) ++ b_buf b' = ((concat (map a_data (d_arch (l_dir s))) ++ cur) ++ b_buf b) ++ firstn (Z.to_nat n') p /\ 0 <= n' <= zlen p /\ (ok = true -> n' = zlen p)).
  { clear E. intros d b' n' E. assert (All : forall q : bytes, firstn (Z.to_nat (zlen q)) q = q) by (intros q; unfold zlen; rewrite Nat2Z.id; apply firstn_all). assert (Pz : 0 <= zlen p) by (unfold zlen; lia).
    assert (Ap : forall q x, append (l_dir s) q x = Dir (Some (cur ++ q, x)) (d_arch (l_dir s))) by (intros; unfold append; now rewrite Ec).
    unfold bw_write in E. destruct (b_err b); [injection E as -> -> -> ->; rewrite Ec; cbn; rewrite app_nil_r; split; [reflexivity|]; split; [lia|discriminate]|].
    destruct (zlen p <=? buf_size - zlen (b_buf b)); [injection E as -> -> -> ->; cbn; rewrite Ec, All, !app_assoc; auto with zarith|].
    destruct (b_buf b) as [|y buf] eqn:Ebb.
    - destruct (b_open b); injection E as -> -> -> ->; cbn.
      + rewrite Ap. cbn. rewrite Ebb, All, !app_nil_r, <- app_assoc. auto with zarith.
      + rewrite Ec, !app_nil_r. split; [reflexivity|]. split; [lia|discriminate].
    - set (av := buf_size - zlen (y :: buf)) in *. destruct (b_open b).
      + rewrite Ap in E. unfold append in E. cbn [d_cur d_arch] in E. destruct (zlen (skipn (Z.to_nat av) p) <=? buf_size); injection E as -> -> -> ->; cbn [d_cur d_arch b_buf]; rewrite All; (split; [|auto with zarith]);
          pose proof (firstn_skipn (Z.to_nat av) p) as Q; revert Q; generalize (firstn (Z.to_nat av) p) (skipn (Z.to_nat av) p); intros u v <-; rewrite ?app_nil_r, <- !app_assoc; cbn [app]; rewrite <- ?app_assoc; reflexivity.
      + injection E as -> -> -> ->. cbn [b_buf]. rewrite Ec. assert (Lf : (length (firstn (Z.to_nat av) p) <= length p)%nat) by (rewrite firstn_length; lia). split; [|split; [unfold zlen; lia|discriminate]].
        replace (firstn (Z.to_nat (zlen (firstn (Z.to_nat av) p))) p) with (firstn (Z.to_nat av) p); [cbn [app]; rewrite <- ?app_assoc; reflexivity|].
        unfold zlen. rewrite Nat2Z.id, firstn_length. destruct (Nat.le_ge_cases (Z.to_nat av) (length p)) as [Q|Q]; [now rewrite Nat.min_l|rewrite Nat.min_r by exact Q; rewrite firstn_all; now apply firstn_all2]. }
  destruct (bw_write (l_dir s) b p (e_write e)) as [[[d b'] n'] ok'] eqn:Ew. injection E as <- <- ->. cbn. exact (W d b' n' eq_refl).
Qed.
Print Assumptions C45_count.
Definition env0 (o : bool) : renv := REnv 0 0 true true o 0.
Definition write0 : wenv := WEnv (env0 true) 0 (env0 true) (env0 true) 0.
Example C45_count_case : let zone := fun _ : Z => 0 in
  let s := fst (fst (lw_write zone false (LState new_writer (Dir None []) []) [1; 2] write0)) in
  w_file (l_w s) = true /\ day zone (w_created (l_w s)) = day zone 0 /\ w_size (l_w s) + 3 + zlen (unflushed s) < w_max (l_w s) /\ d_cur (l_dir s) <> None /\
  snd (fst (lw_write zone false s [3; 4; 5] write0)) = 3.
Proof. repeat split; vm_compute; reflexivity || discriminate. Qed.

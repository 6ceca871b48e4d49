(* Proofs for C97. *)
From Coq Require Import ZArith List Bool Lia ZifyBool.
From Verif Require Import Bytes Pack Request Request_proofs Recover Spec_Recover.
Import ListNotations.
Local Open Scope Z_scope.

Lemma begun_app a b : begun (a ++ b) = begun a ++ begun b. Proof. unfold begun. now rewrite flat_map_app. Qed.
Lemma counted_app a b : counted (a ++ b) = counted a + counted b.
Proof. unfold counted. rewrite filter_app, app_length. lia. Qed.
Lemma panics_app a b : panics (a ++ b) = (panics a + panics b)%nat.
Proof. unfold panics. now rewrite filter_app, app_length. Qed.
Lemma records_app a b : records (a ++ b) = records a ++ records b. Proof. unfold records. now rewrite flat_map_app. Qed.
Lemma counted_pos es : 0 <= counted es. Proof. unfold counted. lia. Qed.
(* names lo .. hi-1 *)
Definition seg (fs : list fn) (lo hi : Z) : list Z := firstn (Z.to_nat (hi - lo)) (skipn (Z.to_nat lo) (map fn_name fs)).
Lemma seg_nil fs lo : seg fs lo lo = []. Proof. unfold seg. now rewrite Z.sub_diag. Qed.
Lemma skipn_plus {A} n : forall m (l : list A), skipn n (skipn m l) = skipn (m + n) l.
Proof. induction m as [|m IH]; intros l; [reflexivity|]. destruct l; cbn; [now rewrite skipn_nil|apply IH]. Qed.
Lemma firstn_plus {A} n : forall m (l : list A), firstn (n + m) l = firstn n l ++ firstn m (skipn n l).
Proof. induction n as [|n IH]; intros m l; [reflexivity|]. destruct l; cbn; [now rewrite firstn_nil|]. f_equal. apply IH. Qed.
Lemma seg_app fs a b c : 0 <= a <= b -> b <= c -> seg fs a b ++ seg fs b c = seg fs a c.
Proof.
  intros H H'. unfold seg. replace (Z.to_nat (c - a)) with (Z.to_nat (b - a) + Z.to_nat (c - b))%nat by lia.
  rewrite firstn_plus, skipn_plus. now replace (Z.to_nat a + Z.to_nat (b - a))%nat with (Z.to_nat b) by lia.
Qed.
Lemma seg_one fs i f : 0 <= i -> nth_error fs (Z.to_nat i) = Some f -> seg fs i (i + 1) = [fn_name f].
Proof.
  intros H N. unfold seg. replace (i + 1 - i) with 1 by lia. apply nth_error_split in N as (l1 & l2 & -> & L).
  rewrite map_app, skipn_app, skipn_all2 by (rewrite map_length; lia). rewrite map_length, L, Nat.sub_diag. reflexivity.
Qed.

Section Chain.
Variable fs : list fn.
Notation L := (zlen fs).
Definition idx (o : rout) (P : rst -> Prop) : Prop := match o with RDone s | RPanic s => P s | RFuel => False end.
(* The next handler to begin is j, or none. *)
Definition good (lo j : Z) (s : rst) : Prop := -1 <= lo <= L /\ lo <= rs_index s /\ 0 <= j <= L /\ (rs_index s >= L \/ rs_index s + 1 = j) /\ rs_nhandlers s = L.
Definition tight (j : Z) (s : rst) : Prop := rs_index s >= L -> j = L.
Definition ispanic (o : rout) : nat := match o with RPanic _ => 1 | _ => 0 end.
(* a bound on the index *)
Definition bnd (s : rst) : Z := Z.max (rs_index s) L.

(* What running from s guarantees, where j is the next to begin; d: the index is first counted up. *)
Definition ok (d lo j : Z) (s : rst) (r : list pev * rout) : Prop :=
  let '(es, o) := r in
  bnd s + d + counted es <= 127 ->
  exists j', j <= j' /\ begun es = seg fs j j' /\
    panics es = (length (records es) + ispanic o)%nat /\
    idx o (fun s' => good lo j' s' /\ bnd s' <= bnd s + d + counted es /\ rs_msg s' = rs_msg s /\
                     (~ aborts es -> tight j s -> tight j' s')) /\
    Forall (fun id => id = m_id (rs_msg s)) (records es).
(* A loop that returned has no handler left. *)
Definition over (r : list pev * rout) : Prop := match snd r with RDone s' => rs_index s' >= L | _ => True end.

Lemma bnd_same s s1 es : rs_index s1 = rs_index s -> bnd s1 <= bnd s + counted es.
Proof. intros E. unfold bnd. rewrite E. pose proof (counted_pos es). lia. Qed.
Lemma good_j lo j s : good lo j s -> 0 <= j <= L. Proof. intros (_ & _ & H & _). exact H. Qed.

(* an event that begins nothing, followed by the rest *)
Lemma ok_cons e lo j s s1 r : (match e with Ev (HvStart _) | Ev HvPanic | Logged _ => False | _ => True end) ->
  good lo j s1 -> rs_msg s1 = rs_msg s -> bnd s1 <= bnd s + counted [e] -> (~ aborts [e] -> tight j s -> tight j s1) ->
  ok 0 lo j s1 r -> ok 0 lo j s (let '(es, o) := r in (e :: es, o)).
Proof.
  intros He G M B T K. destruct r as [es o]. unfold ok in *. change (e :: es) with ([e] ++ es). rewrite counted_app, begun_app, panics_app, records_app. intros H.
  destruct K as (j' & J & Bg & P & I & R); [lia|]. exists j'. split; [exact J|].
  assert (E1 : begun [e] = [] /\ panics [e] = O /\ records [e] = []). { destruct e as [[]| |]; try contradiction; auto. }
  destruct E1 as (-> & -> & ->). split; [exact Bg|]. split; [exact P|]. rewrite M in R. split; [|exact R].
  destruct o as [s'|s'|]; cbn [idx] in *; try contradiction; destruct I as (A1 & A2 & A3 & A4); repeat split; try apply A1; try lia; try congruence;
    intros NA Tj; apply A4; [intros X; apply NA, in_or_app; now right|apply T; [intros X; apply NA, in_or_app; now left|exact Tj]| intros X; apply NA, in_or_app; now right|apply T; [intros X; apply NA, in_or_app; now left|exact Tj]].
Qed.

(* one part, then, if it returned, another *)
Lemma ok_seq d d2 lo j s es1 s1 r : 0 <= j -> ok d lo j s (es1, RDone s1) -> (forall j1, good lo j1 s1 -> ok d2 lo j1 s1 r) -> forall mid,
  begun mid = [] -> panics mid = O -> records mid = [] -> counted mid = d2 -> ok d lo j s (let '(es2, o) := r in (es1 ++ mid ++ es2, o)).
Proof.
  intros J0 K1 K2 mid M1 M2 M3 M4. destruct r as [es2 o]. unfold ok in *. rewrite !counted_app, !begun_app, !panics_app, !records_app, M1, M2, M3, M4. intros H.
  pose proof (counted_pos es1). pose proof (counted_pos es2). pose proof (counted_pos mid).
  destruct K1 as (j1 & J1 & B1 & P1 & I1 & R1); [lia|]. cbn [idx] in I1. destruct I1 as (G1 & Bd & Ms & T1).
  destruct (K2 j1 G1) as (j2 & J2 & B2 & P2 & I2 & R2); [lia|]. exists j2. split; [lia|]. split.
  { rewrite B1, B2, app_nil_l. apply seg_app; lia. }
  split; [rewrite !app_length; cbn [ispanic length] in *; lia|].
  split.
  - destruct o as [s'|s'|]; cbn [idx] in *; try contradiction; destruct I2 as (A1 & A2 & A3 & A4).
    all: split; [exact A1|]; split; [lia|]; split; [congruence|]; intros NA Tj; apply A4; [intros X; apply NA, in_or_app; right; apply in_or_app; now right|]; apply T1; [intros X; apply NA, in_or_app; now left|exact Tj].
  - cbn [app]. apply Forall_app. split; [exact R1|]. rewrite Ms in R2. exact R2.
Qed.
(* a call of RouterSlicesNext that did not return *)
Lemma ok_next lo j s es o : good lo j s -> ok 1 lo j s (es, o) -> ok 0 lo j s (Ev HvNext :: es, o).
Proof.
  intros G K. unfold ok in *. change (Ev HvNext :: es) with ([Ev HvNext] ++ es). rewrite counted_app, begun_app, panics_app, records_app. change (counted [Ev HvNext]) with 1. change (begun [Ev HvNext]) with (@nil Z). change (panics [Ev HvNext]) with O. change (records [Ev HvNext]) with (@nil Z).
  intros H. destruct K as (j' & J & Bg & P & I & R); [lia|]. exists j'. split; [exact J|]. split; [exact Bg|]. split; [exact P|]. split; [|exact R].
  destruct o as [s'|s'|]; cbn [idx] in *; try contradiction; destruct I as (A1 & A2 & A3 & A4).
  all: split; [exact A1|]; split; [lia|]; split; [exact A3|]; intros NA; apply A4; intros X; apply NA; now right.
Qed.

Section Step.
Variable next : rst -> list pev * rout.
Variable lo : Z.
Hypothesis Hnext : forall s j, good lo j s -> ok 1 lo j s (next s).

Lemma ok_ret j s : good lo j s -> ok 0 lo j s ([], RDone s).
Proof. intros G H. exists j. split; [lia|]. split; [now rewrite seg_nil|]. split; [reflexivity|]. split; [|constructor]. cbn [idx]. split; [exact G|]. split; [cbn; lia|]. auto. Qed.
Lemma ok_panic j s : good lo j s -> ok 0 lo j s ([Ev HvPanic], RPanic s).
Proof. intros G H. exists j. split; [lia|]. split; [now rewrite seg_nil|]. split; [reflexivity|]. split; [|constructor]. cbn [idx]. split; [exact G|]. split; [cbn; lia|]. auto. Qed.

Lemma ok_act a : forall s j, good lo j s -> ok 0 lo j s (run_act next a s).
Proof.
  induction a as [| |a IH|n a IH|a IH|key v a IH|key k IH|v a IH|k IH|k IH]; intros s j G; cbn [run_act].
  - now apply ok_ret.
  - now apply ok_panic.
  - set (s1 := abort true s). destruct (run_act next a s1) as [es o] eqn:E.
    assert (Ls : s8 L = L \/ L > 127). { destruct (Z_le_gt_dec L 127); [left; apply s8_small; pose proof (zlen_nonneg fs); lia|now right]. }
    intros H0. assert (Lb : L <= 127). { pose proof (counted_pos (Ev HvAbort :: es)). unfold bnd in H0. lia. } destruct Ls as [Ls|]; [|lia].
    assert (G1 : good lo j s1). { destruct G as (A & B & C & D & F). unfold s1, abort. repeat split; cbn; rewrite ?F, ?Ls; try lia; try exact F; try (left; lia). }
    revert H0. change (ok 0 lo j s (let '(es, o) := (es, o) in (Ev HvAbort :: es, o))). apply ok_cons with s1; auto; try reflexivity.
    + unfold bnd, s1, abort. cbn [rs_index set_index]. destruct G as (_ & _ & _ & _ & F). rewrite F, Ls. unfold counted. cbn. lia.
    + intros NA. exfalso. apply NA. now left.
    + rewrite <- E. now apply IH.
  - destruct (run_act next a (goto n s)) as [es o] eqn:E. change (ok 0 lo j s (let '(es, o) := (es, o) in (Ev (HvGoto n) :: es, o))). apply ok_cons with (goto n s); auto; [now apply bnd_same|]. rewrite <- E. now apply IH.
  - destruct (next s) as [es o] eqn:E. pose proof (Hnext s j G) as K. rewrite E in K. destruct o as [s'|s'|]; [|now apply ok_next|now apply ok_next].
    destruct (run_act next a s') as [es' o'] eqn:E'. change (Ev HvNext :: es ++ es') with (Ev HvNext :: (es ++ es')). apply ok_next; [exact G|].
    pose proof (ok_seq 1 0 lo j s es s' (es', o') ltac:(destruct G as (_ & _ & C & _); lia) K) as Q. cbv beta iota in Q. apply (Q ltac:(intros j1 G1; rewrite <- E'; now apply IH) []); reflexivity.
  - destruct (run_act next a (set_keys s (kv_put key v (rs_keys s)))) as [es o] eqn:E. change (ok 0 lo j s (let '(es, o) := (es, o) in (Ev (HvSet key v) :: es, o))). apply ok_cons with (set_keys s (kv_put key v (rs_keys s))); auto; [now apply bnd_same|]. rewrite <- E. now apply IH.
  - cbv zeta. destruct (run_act next (k (kv_get key (rs_keys s))) s) as [es o] eqn:E. change (ok 0 lo j s (let '(es, o) := (es, o) in (Ev (HvGot key (kv_get key (rs_keys s))) :: es, o))). apply ok_cons with s; auto; [now apply bnd_same|]. rewrite <- E. now apply IH.
  - destruct (run_act next a (set_rresp s (Some v))) as [es o] eqn:E. change (ok 0 lo j s (let '(es, o) := (es, o) in (Ev (HvSetResp v) :: es, o))). apply ok_cons with (set_rresp s (Some v)); auto; [now apply bnd_same|]. rewrite <- E. now apply IH.
  - destruct (run_act next (k (rs_resp s)) s) as [es o] eqn:E. change (ok 0 lo j s (let '(es, o) := (es, o) in (Ev (HvGotResp (rs_resp s)) :: es, o))). apply ok_cons with s; auto; [now apply bnd_same|]. rewrite <- E. now apply IH.
  - destruct (run_act next (k (rs_msg s)) s) as [es o] eqn:E. change (ok 0 lo j s (let '(es, o) := (es, o) in (Ev (HvMsg (rs_msg s)) :: es, o))). apply ok_cons with s; auto; [now apply bnd_same|]. rewrite <- E. now apply IH.
Qed.

Lemma ok_fn f s j : good lo j s -> ok 0 lo j s (run_fn next f s).
Proof.
  intros G. destruct f as [h|n|n]; cbn [run_fn]; [now apply ok_act| |].
  - destruct (next s) as [es o] eqn:E. pose proof (Hnext s j G) as K. rewrite E in K. destruct o as [s'|s'|]; [now apply ok_next| |now apply ok_next].
    change (Ev HvNext :: es ++ [Logged (m_id (rs_msg s'))]) with (Ev HvNext :: (es ++ [Logged (m_id (rs_msg s'))])). apply ok_next; [exact G|].
    unfold ok in *. rewrite counted_app, begun_app, panics_app, records_app. change (counted [Logged (m_id (rs_msg s'))]) with 0. cbn [begun panics records flat_map filter length app]. rewrite app_nil_r. intros H.
    destruct K as (j' & J & Bg & P & I & R); [lia|]. cbn [idx ispanic] in *. destruct I as (A1 & A2 & A3 & A4). exists j'. split; [exact J|]. split; [exact Bg|]. split; [rewrite app_length; cbn; lia|]. split.
    + split; [exact A1|]. split; [lia|]. split; [exact A3|]. intros NA. apply A4. intros X. apply NA, in_or_app. now left.
    + apply Forall_app. split; [exact R|]. constructor; [now rewrite A3|constructor].
  - destruct (next s) as [es o] eqn:E. pose proof (Hnext s j G) as K. rewrite E in K. destruct o as [s'|s'|]; [|now apply ok_next|now apply ok_next].
    change (Ev HvNext :: es ++ [Timed]) with (Ev HvNext :: (es ++ [Timed] ++ [])). apply ok_next; [exact G|].
    pose proof (ok_seq 1 0 lo j s es s' ([], RDone s') ltac:(destruct G as (_ & _ & C & _); lia) K) as Q. cbv beta iota in Q. apply (Q ltac:(intros j1 G1; now apply ok_ret) [Timed]); reflexivity.
Qed.
End Step.

Lemma ok_lo d lo lo' j s r : -1 <= lo <= lo' -> ok d lo' j s r -> ok d lo j s r.
Proof.
  intros H K. destruct r as [es o]. intros B. destruct (K B) as (j' & J & Bg & P & I & R). exists j'. split; [exact J|]. split; [exact Bg|]. split; [exact P|]. split; [|exact R].
  destruct o as [s'|s'|]; cbn [idx] in *; try contradiction; destruct I as ((A & A' & A'') & A4). all: split; [|exact A4]; repeat split; try lia; apply A''.
Qed.

Lemma ok_over lo j s r d : over r -> ok d lo j s r -> ~ aborts (fst r) -> bnd s + d + counted (fst r) <= 127 -> tight j s -> 0 <= j ->
  match snd r with RDone _ => begun (fst r) = seg fs j L | _ => True end.
Proof.
  destruct r as [es [s'|s'|]]; cbn [fst snd]; auto. intros O K NA B T J. destruct (K B) as (j' & A & Bg & _ & (_ & _ & _ & T') & _). cbn in O. rewrite Bg. now rewrite (T' NA T O).
Qed.

Lemma ok_loop : forall fuel s j lo, good lo j s -> L - (rs_index s + 1) < Z.of_nat fuel -> (0 < fuel)%nat ->
  let r := rec_loop fuel fs (set_index s (s8 (rs_index s + 1))) in ok 1 lo j s r /\ (bnd s + 1 + counted (fst r) <= 127 -> over r).
Proof.
  induction fuel as [|fuel IH]; intros s j lo G Hf Hp; [lia|]. cbv zeta. cbn [rec_loop]. cbn [rs_index set_index].
  pose proof (zlen_nonneg fs) as Z0.
  destruct (Z_le_gt_dec (bnd s + 1) 127) as [Hb|Hb].
  2: { match goal with |- ok _ _ _ _ ?r /\ _ => destruct r as [es o] end. pose proof (counted_pos es). split; [intros B; lia|cbn [fst]; lia]. }
  assert (G' := G). destruct G' as (Hlo & Hi & Hj & C & Hn).
  rewrite !s8_small by (unfold bnd in Hb; lia). set (i := rs_index s + 1) in *.
  destruct (i <? L) eqn:Li.
  2: { split; [|intros _; cbn; lia]. intros B. exists j. split; [lia|]. split; [now rewrite seg_nil|]. split; [reflexivity|]. split; [|constructor]. cbn [idx]. split; [repeat split; cbn; auto; try lia; left; lia|]. split; [unfold bnd; cbn; lia|]. split; [reflexivity|]. intros _ T _. destruct C as [C|C]; [now apply T|lia]. }
  assert (Ij : i = j) by lia. replace (i <? 0) with false by lia.
  destruct (nth_error fs (Z.to_nat i)) as [f|] eqn:N. 2: { apply nth_error_None in N. unfold zlen in Li. lia. }
  set (next := fun s1 => rec_loop fuel fs (set_index s1 (s8 (rs_index s1 + 1)))).
  assert (Fu : (0 < fuel)%nat) by lia.
  assert (HN : forall s1 j1, good i j1 s1 -> ok 1 i j1 s1 (next s1) /\ (bnd s1 + 1 + counted (fst (next s1)) <= 127 -> over (next s1))).
  { intros s1 j1 G1. apply (IH s1 j1 i G1); [destruct G1 as (_ & X & _); lia|exact Fu]. }
  set (s0 := set_index s i). assert (G0 : good i (i + 1) s0) by (repeat split; cbn; auto; lia).
  pose proof (ok_fn next i (fun s1 j1 H => proj1 (HN s1 j1 H)) f s0 (i + 1) G0) as K.
  assert (Bs : bnd s0 <= bnd s) by (unfold bnd, s0; cbn; lia).
  (* the start *)
  assert (Start : forall es o, ok 0 i (i + 1) s0 (es, o) -> ok 1 lo j s (Ev (HvStart (fn_name f)) :: es, o)).
  { intros es o Q. apply (ok_lo 1 lo i); [lia|]. unfold ok in *. change (Ev (HvStart (fn_name f)) :: es) with ([Ev (HvStart (fn_name f))] ++ es). rewrite counted_app, begun_app, panics_app, records_app. change (counted [Ev (HvStart (fn_name f))]) with 0. change (panics [Ev (HvStart (fn_name f))]) with O. change (records [Ev (HvStart (fn_name f))]) with (@nil Z). change (begun [Ev (HvStart (fn_name f))]) with [fn_name f].
    intros B. destruct Q as (j' & J & Bg & P & I & R); [lia|]. exists j'. split; [lia|]. split. { rewrite Bg, <- (seg_one fs i f) by (auto; lia). rewrite <- Ij. apply seg_app; lia. }
    split; [exact P|]. split; [|exact R]. destruct o as [s'|s'|]; cbn [idx] in *; try contradiction; destruct I as (A1 & A2 & A3 & A4).
    all: split; [exact A1|]; split; [lia|]; split; [exact A3|]; intros NA _; apply A4; [intros X; apply NA; now right|]; intros X; cbn in X; lia. }
  destruct (run_fn next f s0) as [es o]. cbv zeta. destruct o as [s'|s'|]; [|split; [now apply Start|intros _; exact (Logic.I)]|split; [now apply Start|intros _; exact Logic.I]].
  change (rec_loop fuel fs (set_index s' (s8 (rs_index s' + 1)))) with (next s'). destruct (next s') as [es' o'] eqn:E'. split.
  - apply Start. pose proof (ok_seq 0 1 i (i + 1) s0 es s' (es', o') ltac:(lia) K) as Q. cbv beta iota in Q. apply (Q ltac:(intros j1 G1; rewrite <- E'; apply (HN s' j1 G1)) [Ev (HvEnd (fn_name f))]); reflexivity.
  - cbn [fst]. change (Ev (HvStart (fn_name f)) :: es ++ Ev (HvEnd (fn_name f)) :: es') with ([Ev (HvStart (fn_name f))] ++ es ++ [Ev (HvEnd (fn_name f))] ++ es'). rewrite !counted_app. change (counted [Ev (HvStart (fn_name f))]) with 0. change (counted [Ev (HvEnd (fn_name f))]) with 1. intros B.
    pose proof (counted_pos es'). destruct K as (j' & _ & _ & _ & I & _); [lia|]. cbn [idx] in I. destruct I as (A1 & A2 & _). pose proof (proj2 (HN s' j' A1)) as O. rewrite E' in O. apply O. cbn [fst]. lia.
Qed.

Lemma chain_ok m : small fs (fst (run_chain fs m)) -> let r := run_chain fs m in
  exists s0, rs_msg s0 = m /\ ok 1 (-1) 0 s0 r /\ over r /\ bnd s0 + 1 + counted (fst r) <= 127 /\ tight 0 s0.
Proof.
  intros Sm. pose proof (zlen_nonneg fs) as Z0. destruct (ok_loop (S (length fs)) (set_nhandlers (fresh_request m) L) 0 (-1)) as (K & O).
  { repeat split; cbn; auto; lia. } { cbn. unfold zlen. lia. } { lia. }
  cbn [rs_index set_nhandlers fresh_request] in K, O. change (s8 (-1 + 1)) with 0 in K, O. fold (run_chain fs m) in K, O.
  assert (B : bnd (set_nhandlers (fresh_request m) L) + 1 + counted (fst (run_chain fs m)) <= 127). { unfold small in Sm. unfold bnd. cbn [rs_index set_nhandlers fresh_request]. lia. }
  exists (set_nhandlers (fresh_request m) L). split; [reflexivity|]. split; [exact K|]. split; [now apply O|]. split; [exact B|].
  intros X. cbn in X. lia.
Qed.
End Chain.

(* The shape of a trace: what is directly before the end of a handler. *)
Inductive wf (fs : list fn) : list pev -> Prop :=
| wf_nil : wf fs []
| wf_ev e es : (forall n, e <> HvEnd n) -> wf fs es -> wf fs (Ev e :: es)
| wf_end f es : In f fs -> (forall n, f <> Timing n) -> wf fs es -> wf fs (Ev (HvEnd (fn_name f)) :: es)
| wf_time n es : In (Timing n) fs -> wf fs es -> wf fs (Timed :: Ev (HvEnd n) :: es)
| wf_log n id es : In (Recovery n) fs -> wf fs es -> wf fs (Logged id :: Ev (HvEnd n) :: es).
Lemma wf_app fs a b : wf fs a -> wf fs b -> wf fs (a ++ b).
Proof. intros A B. induction A; cbn [app]; [exact B|now apply wf_ev|now apply wf_end|now apply wf_time|now apply wf_log]. Qed.

Lemma wf_act fs next a : (forall s, wf fs (fst (next s))) -> forall s, wf fs (fst (run_act next a s)).
Proof.
  intros HN. induction a as [| |a IH|n a IH|a IH|key v a IH|key k IH|v a IH|k IH|k IH]; intros s; cbn [run_act].
  - constructor.
  - repeat constructor; discriminate.
  - specialize (IH (abort true s)). destruct (run_act _ _ _). constructor; [discriminate|exact IH].
  - specialize (IH (goto n s)). destruct (run_act _ _ _). constructor; [discriminate|exact IH].
  - pose proof (HN s) as H. destruct (next s) as [es [s'|s'|]]; cbn [fst] in H.
    + specialize (IH s'). destruct (run_act _ _ _). constructor; [discriminate|]. now apply wf_app.
    + constructor; [discriminate|exact H].
    + constructor; [discriminate|exact H].
  - specialize (IH (set_keys s (kv_put key v (rs_keys s)))). destruct (run_act _ _ _). constructor; [discriminate|exact IH].
  - cbv zeta. specialize (IH (kv_get key (rs_keys s)) s). destruct (run_act _ _ _). constructor; [discriminate|exact IH].
  - specialize (IH (set_rresp s (Some v))). destruct (run_act _ _ _). constructor; [discriminate|exact IH].
  - specialize (IH (rs_resp s) s). destruct (run_act _ _ _). constructor; [discriminate|exact IH].
  - specialize (IH (rs_msg s) s). destruct (run_act _ _ _). constructor; [discriminate|exact IH].
Qed.
Lemma shape (a b x : pev) es y : a :: (b :: es ++ [x]) ++ y = a :: b :: es ++ x :: y.
Proof. cbn. now rewrite <- app_assoc. Qed.
Lemma wf_loop fs : forall fuel s, wf fs (fst (rec_loop fuel fs s)).
Proof.
  induction fuel as [|fuel IH]; intros s; [constructor|]. cbn [rec_loop]. destruct (rs_index s <? s8 (zlen fs)); [|constructor]. destruct (rs_index s <? 0); [constructor|].
  destruct (nth_error fs _) as [f|] eqn:N; [|constructor]. apply nth_error_In in N. set (next := fun s1 => rec_loop fuel fs (set_index s1 (s8 (rs_index s1 + 1)))).
  assert (HN : forall s, wf fs (fst (next s))) by (intros s1; apply IH).
  cbv zeta. fold next. destruct f as [h|n|n]; cbn [run_fn fn_name].
  - pose proof (wf_act fs next (h_body h) HN s) as W. destruct (run_act _ _ _) as [es [s'|s'|]]; cbn [fst] in W; try (constructor; [discriminate|exact W]).
    specialize (HN s'). fold (next s'). destruct (next s') as [es' o']. constructor; [discriminate|]. apply wf_app; [exact W|]. apply (wf_end fs (User h)); [exact N|discriminate|exact HN].
  - pose proof (HN s) as W. fold (next s). destruct (next s) as [es [s'|s'|]]; cbn [fst] in W.
    + specialize (HN s'). fold (next s'). destruct (next s') as [es' o']. constructor; [discriminate|]. constructor; [discriminate|]. apply wf_app; [exact W|]. apply (wf_end fs (Recovery n)); [exact N|discriminate|exact HN].
    + specialize (HN s'). fold (next s'). destruct (next s') as [es' o']. cbn [fst]. rewrite shape. constructor; [discriminate|]. constructor; [discriminate|]. apply wf_app; [exact W|]. now apply wf_log.
    + constructor; [discriminate|]. constructor; [discriminate|exact W].
  - pose proof (HN s) as W. fold (next s). destruct (next s) as [es [s'|s'|]]; cbn [fst] in W; try (constructor; [discriminate|]; constructor; [discriminate|exact W]).
    specialize (HN s'). fold (next s'). destruct (next s') as [es' o']. cbn [fst]. rewrite shape. constructor; [discriminate|]. constructor; [discriminate|]. apply wf_app; [exact W|]. now apply wf_time.
Qed.
Lemma wf_timed fs es : wf fs es -> forall a b, es = a ++ Timed :: b -> exists n c, b = Ev (HvEnd n) :: c /\ In (Timing n) fs.
Proof.
  induction 1; intros a b E.
  - now destruct a.
  - destruct a as [|x a]; [discriminate|]. injection E as _ E. eauto.
  - destruct a as [|x a]; [discriminate|]. injection E as _ E. eauto.
  - destruct a as [|x a]; [injection E as <-; eauto|]. injection E as _ E. destruct a as [|y a]; [discriminate|]. injection E as _ E. eauto.
  - destruct a as [|x a]; [discriminate|]. injection E as _ E. destruct a as [|y a]; [discriminate|]. injection E as _ E. eauto.
Qed.
Lemma wf_logged fs es : wf fs es -> forall a id b, es = a ++ Logged id :: b -> exists n c, b = Ev (HvEnd n) :: c /\ In (Recovery n) fs.
Proof.
  induction 1; intros a id' b E.
  - now destruct a.
  - destruct a as [|x a]; [discriminate|]. injection E as _ E. eauto.
  - destruct a as [|x a]; [discriminate|]. injection E as _ E. eauto.
  - destruct a as [|x a]; [discriminate|]. injection E as _ E. destruct a as [|y a]; [discriminate|]. injection E as _ E. eauto.
  - destruct a as [|x a]; [injection E as _ <-; eauto|]. injection E as _ E. destruct a as [|y a]; [discriminate|]. injection E as _ E. eauto.
Qed.
Lemma name_inj fs f g : NoDup (map fn_name fs) -> In f fs -> In g fs -> fn_name f = fn_name g -> f = g.
Proof.
  induction fs as [|x fs IH]; cbn; [intros _ []|]. intros D. inversion D as [|? ? ND D']; subst. intros [->|F] [->|G] E; auto.
  - exfalso. apply ND. rewrite E. now apply in_map.
  - exfalso. apply ND. rewrite <- E. now apply in_map.
Qed.
Lemma wf_ended fs n es : NoDup (map fn_name fs) -> In (Timing n) fs -> wf fs es -> forall a b, es = a ++ Ev (HvEnd n) :: b -> exists a', a = a' ++ [Timed].
Proof.
  intros D T W. induction W; intros a b E.
  - now destruct a.
  - destruct a as [|x a]; [injection E as -> _; destruct (H n); reflexivity|]. injection E as _ E. destruct (IHW _ _ E) as (a' & ->). now exists (x :: a').
  - destruct a as [|x a]. { injection E as E _. exfalso. apply (H0 n). apply (name_inj fs); auto. } injection E as _ E. destruct (IHW _ _ E) as (a' & ->). now exists (x :: a').
  - destruct a as [|x a]; [discriminate|]. injection E as <- E. destruct a as [|y a]; [now exists []|]. injection E as _ E. destruct (IHW _ _ E) as (a' & ->). now exists (Timed :: y :: a').
  - destruct a as [|x a]; [discriminate|]. injection E as _ E. destruct a as [|y a]. { injection E as E _. subst n0. exfalso. assert (X : Timing n = Recovery n) by (now apply (name_inj fs)). discriminate. } injection E as _ E. destruct (IHW _ _ E) as (a' & ->). now exists (x :: y :: a').
Qed.

(* Without the two handlers the model is that of Request.v. *)
Definition same (r : list pev * rout) (q : list hev * hout) : Prop :=
  fst r = map Ev (fst q) /\ match snd r, snd q with RDone s, HDone s' => s = s' | RPanic _, HPanicked | RFuel, HFuel => True | _, _ => False end.
Lemma same_act n1 n2 a : (forall s, same (n1 s) (n2 s)) -> forall s, same (run_act n1 a s) (run_hact true n2 a s).
Proof.
  intros HN. assert (K : forall e r q, same r q -> same (let '(es, o) := r in (Ev e :: es, o)) (let '(es, o) := q in (e :: es, o))).
  { intros e [es o] [es' o'] (A & B). cbn [fst snd] in *. split; [cbn; now rewrite A|exact B]. }
  induction a as [| |a IH|n a IH|a IH|key v a IH|key k IH|v a IH|k IH|k IH]; intros s; cbn [run_act run_hact]; cbv zeta; try (apply K; apply IH).
  - now split.
  - now split.
  - destruct (HN s) as (A & B). destruct (n1 s) as [es o], (n2 s) as [es' o']. cbn [fst snd] in *. subst es. destruct o as [s1|s1|], o' as [s2| |]; try contradiction; try (split; [reflexivity|exact I]).
    subst s2. destruct (IH s1) as (A & B). destruct (run_act _ _ _), (run_hact _ _ _ _). cbn [fst snd] in *. split; [cbn; now rewrite A, map_app|exact B].
Qed.
Lemma same_loop hs : forall fuel s, same (rec_loop fuel (map User hs) s) (slices_loop fuel hs s).
Proof.
  induction fuel as [|fuel IH]; intros s; [now split|]. cbn [rec_loop slices_loop]. assert (E : zlen (map User hs) = zlen hs) by (unfold zlen; now rewrite map_length). rewrite E.
  destruct (_ <? _); [|now split]. destruct (_ <? _); [now split|]. rewrite nth_error_map. destruct (nth_error hs _) as [h|]; cbn [option_map]; [|now split]. cbv zeta. cbn [run_fn fn_name].
  destruct (same_act (fun s1 => rec_loop fuel (map User hs) (set_index s1 (s8 (rs_index s1 + 1)))) (fun s1 => slices_loop fuel hs (set_index s1 (s8 (rs_index s1 + 1)))) (h_body h) (fun s1 => IH _) s) as (A & B).
  destruct (run_act _ _ _) as [es o], (run_hact _ _ _ _) as [es' o']. cbn [fst snd] in *. subst es. destruct o as [s1|s1|], o' as [s2| |]; try contradiction; try (split; [reflexivity|exact I]).
  subst s2. destruct (IH (set_index s1 (s8 (rs_index s1 + 1)))) as (A & B'). destruct (rec_loop _ _ _), (slices_loop _ _ _). cbn [fst snd] in *. split; [cbn; rewrite A, map_app; reflexivity|exact B'].
Qed.

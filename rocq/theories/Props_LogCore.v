(* C61-C64: log records, headers and the isolation level. *)
From Coq Require Import String ZArith List Bool Lia Permutation.
From Verif Require Import Bytes LogCore Spec_LogCore LogCore_proofs.
Import ListNotations.
Local Open Scope list_scope.
Local Open Scope Z_scope.

(* C61, for non-empty messages: whatever the other goroutines do, a step writes nothing or
   one record, of a call that was made and has looked at the clock and its caller; its bytes
   are the header for the flags and prefix then in force, the message unchanged, and the
   message's own final newline or else one more. *)
Theorem C61_framing_partial : forall prefix flag ls l, let s := l_run (new_lg prefix flag) ls in
  g_out (l_step s l) = g_out s \/
  exists by_ level m b t file line h, g_out (l_step s l) = g_out s ++ [Rec by_ level m b] /\
    In (LStart by_ level m) ls /\
    (exists before i caller after, ls = before ++ LLook i t caller :: after /\ (file, line) = place_seen (flags_now flag before) caller) /\
    format_header (prefix_now prefix ls) (flags_now flag ls) t file line level = Some h /\
    (m <> [] -> framed h m b).
Proof.
  intros prefix flag ls l s. pose proof (now_ok prefix flag ls) as N. cbv zeta in N. fold s in N. unfold l_step. destruct (g_dead s); [now left|]. destruct (N eq_refl) as (<- & <-). destruct l; try (now left).
  - destruct (match by_ with Method => g_iso s >? level | _ => false end); now left.
  - destruct (nth_error (g_pend s) i) as [[o level m [w|]]|]; try (now left). destruct (look (g_flag s) caller). now left.
  - destruct (nth_error (g_pend s) i) as [[o level m [[[t file] line]|]]|] eqn:E; try (now left).
    destruct (format_header (g_prefix s) (g_flag s) t file line level) as [h|] eqn:H; [right|now left].
    destruct (pend_from prefix flag ls _ (nth_error_In _ _ E)) as (A & B). exists o, level, m, (h ++ content m), t, file, line, h.
    split; [reflexivity|]. split; [exact A|]. split; [exact (B t file line eq_refl)|]. split; [exact H|]. intros X. now apply content_framed.
  - destruct (g_exit s); now left.
Qed.
Print Assumptions C61_framing_partial.

Definition t0 := Time 2023 4 5 6 7 8 9012345.
Definition here := Some (str "/home/zinx/a.go", 42).
(* Two goroutines: the second call is written first, with the prefix set in between; one
   message brings its newline, one does not. *)
Example C61_case :
  map e_bytes (g_out (l_run (new_lg (str "Z") 51) [LStart Method 1 (str "one"); LStart Method 2 (str "two" ++ [nl]); LLook 0 t0 here; LLook 1 t0 here; LEmit 1; LSetPrefix []; LEmit 0])) =
  [str "<Z>2023/04/05 06:07:08 [WARN]a.go:42: two" ++ [nl]; str "2023/04/05 06:07:08 [INFO]a.go:42: one" ++ [nl]].
Proof. vm_compute. reflexivity. Qed.

(* C61 is false of an empty message (Infof("")): no newline is written and the next record
   continues on the same line. *)
Theorem C61_empty_refuted : forall prefix flag t c, exists ls r, g_out (l_run (new_lg prefix flag) ls) = [r] /\
  ls = [LStart Method 1 []; LLook 0 t c; LEmit 0] /\ exists h, e_bytes r = h /\ ~ framed h (e_msg r) (e_bytes r).
Proof.
  intros prefix flag t c. eexists. eexists. split; [|split; [reflexivity|]].
  - unfold l_run, new_lg. cbn [fold_left]. unfold l_step at 3. cbn [g_dead g_iso g_pend app g_prefix g_flag g_out g_exit]. change (0 >? 1) with false. cbn iota.
    unfold l_step at 2. cbn [g_dead g_pend nth_error g_prefix g_flag g_iso g_out g_exit]. rewrite (surjective_pairing (look flag c)). cbn [set_nth].
    unfold l_step. cbn [g_dead g_pend nth_error g_prefix g_flag g_iso g_out g_exit drop_nth].
    destruct (header_total prefix flag t (fst (look flag c)) (snd (look flag c)) 1 ltac:(lia)) as (h & H).
    assert (format_header prefix flag t (fst (look flag c)) (snd (look flag c)) 1 = Some (match format_header prefix flag t (fst (look flag c)) (snd (look flag c)) 1 with Some h => h | None => [] end)) as -> by now rewrite H.
    cbn [g_out app]. reflexivity.
  - cbn [e_bytes e_msg]. eexists. split; [reflexivity|]. intros [_ F]. change (content []) with (@nil byte) in F.
    assert (~ ends_nl []) as N by (intros (m & E); destruct m; discriminate). specialize (F N).
    rewrite !app_nil_r in F. apply (f_equal (@List.length byte)) in F. rewrite app_length in F. cbn in F. lia.
Qed.
Print Assumptions C61_empty_refuted.

(* C62: whatever the goroutines do, while the process lives the records of the level methods
   that are written or still under way are exactly those made at a level not below the
   isolation level then in force. *)
Theorem C62_isolation : forall prefix flag ls, levels_ok ls -> let s := l_run (new_lg prefix flag) ls in g_dead s = false ->
  Permutation (due 0 ls) (written s ++ under_way s).
Proof. intros prefix flag ls L s D. apply (run_due ls (new_lg prefix flag) D); [intros q []|exact L]. Qed.
Print Assumptions C62_isolation.

(* One goroutine: exactly those records, in the order of the calls. *)
Theorem C62_sequence : forall prefix flag p, levels_ok (solo p) -> let s := l_run (new_lg prefix flag) (solo p) in g_dead s = false ->
  g_pend s = [] /\ written s = due 0 (solo p).
Proof. intros prefix flag p L s D. exact (solo_due p (new_lg prefix flag) eq_refl D L). Qed.
Print Assumptions C62_sequence.

(* Debug, then level 2, then Debug, Warn, Stack and Fatal: Debug and Warn once each and the
   Fatal record before the process exits. *)
Definition prog : list (llabel * time * option (list byte * Z)) :=
  map (fun l => (l, t0, here)) [LStart Method 0 (str "a"); LSetLevel 2; LStart Method 0 (str "b"); LStart Method 2 (str "c"); LStart FromStack 3 (str "d"); LStart Method 5 (str "e")].
Example C62_case : levels_ok (solo prog) /\ g_dead (l_run (new_lg [] 51) (solo prog)) = false /\
  written (l_run (new_lg [] 51) (solo prog)) = [(0, str "a"); (2, str "c"); (5, str "e")] /\
  g_dead (l_run (new_lg [] 51) (solo prog ++ [LExit])) = true.
Proof.
  split; [|vm_compute; auto]. intros level m H. cbn [solo prog map flat_map solo1 app In] in H.
  repeat (destruct H as [H|H]; [try discriminate H; injection H as <- <-; lia|]). destruct H.
Qed.

(* C62 is false of Stack: it writes a record of level Error whatever the isolation level. *)
Theorem C62_stack_refuted : forall prefix flag t c v m, v > LogError -> exists r,
  g_out (l_run (new_lg prefix flag) [LSetLevel v; LStart FromStack LogError m; LLook 0 t c; LEmit 0]) = [r] /\ e_level r < v.
Proof.
  intros prefix flag t c v m V. unfold l_run, new_lg. cbn [fold_left]. unfold l_step at 4. cbn [g_dead g_iso g_pend app g_prefix g_flag g_out g_exit].
  unfold l_step at 3. cbn [g_dead g_iso g_pend app g_prefix g_flag g_out g_exit].
  unfold l_step at 2. cbn [g_dead g_pend nth_error g_prefix g_flag g_iso g_out g_exit]. rewrite (surjective_pairing (look flag c)). cbn [set_nth].
  unfold l_step. cbn [g_dead g_pend nth_error g_prefix g_flag g_iso g_out g_exit drop_nth].
  destruct (header_total prefix flag t (fst (look flag c)) (snd (look flag c)) LogError ltac:(unfold LogError; lia)) as (h & ->).
  eexists. split; [reflexivity|]. cbn [e_level]. lia.
Qed.
Print Assumptions C62_stack_refuted.

(* C63: every non-negative int, every width up to 32, is written in decimal, padded to the
   width; that writing is unique. *)
Theorem C63_decimal : forall i wid, nat63 i -> wid <= 32 -> exists l, itoa i wid = Some l /\ padded i wid l.
Proof. exact itoa_ok. Qed.
Print Assumptions C63_decimal.
Theorem C63_unique : forall n wid l l', padded n wid l -> padded n wid l' -> l = l'.
Proof. exact padded_unique. Qed.
Print Assumptions C63_unique.
(* Largest int; padding; zero; width 32; a negative number comes out as its 64-bit pattern
   (line numbers and dates are never negative); width 33 would overrun the buffer. *)
Example C63_case : itoa (2^63-1) 4 = Some (str "9223372036854775807") /\ itoa 7 4 = Some (str "0007") /\ itoa 0 (-1) = Some (str "0") /\
  itoa 0 3 = Some (str "000") /\ itoa 5 32 = Some (repeat "0"%byte 31 ++ str "5") /\ itoa (-1) 2 = Some (str "18446744073709551615") /\ itoa 5 33 = None.
Proof. vm_compute. auto 10. Qed.

(* C64 when some time flag is set: the header is the prefix, date, time, level tag, file and
   line the flags ask for, for every combination of flags. *)
Theorem C64_header_partial : forall prefix flag t file line level, time_ok t -> 0 <= level <= 5 -> nat63 line -> timed flag = true ->
  exists h, format_header prefix flag t file line level = Some h /\ header_is prefix flag t file line level h.
Proof. exact header_ok. Qed.
Print Assumptions C64_header_partial.
Example C64_case : time_ok t0 /\ timed 63 = true /\
  format_header (str "p") 63 t0 (str "/x/y.go") 7 5 = Some (str "<p>2023/04/05 06:07:08.009012 [FATAL]y.go:7: ") /\
  format_header [] 9 t0 (str "/x/y.go") 7 5 = Some (str "2023/04/05 /x/y.go:7: ") /\
  format_header [] 36 t0 (str "/x/y.go") 7 0 = Some (str "06:07:08.009012 [DEBUG]").
Proof. split; [unfold time_ok, nat63, t0; cbn; lia|]. vm_compute. auto. Qed.

(* C64 is false without a time flag: neither level nor file is printed, whatever the other
   flags. *)
Theorem C64_untimed_refuted : forall prefix flag t file line level, timed flag = false -> on flag 5 = true \/ wants_file flag = true ->
  exists h, format_header prefix flag t file line level = Some h /\ ~ header_is prefix flag t file line level h.
Proof.
  intros prefix flag t file line level T W. exists (prefix_text prefix). split; [now apply untimed_header|]. intros (d & c & w & _ & _ & Pw & E).
  rewrite <- (app_nil_r (prefix_text prefix)) in E at 1. apply app_inv_head in E. symmetry in E.
  apply app_eq_nil in E. destruct E as [_ E]. apply app_eq_nil in E. destruct E as [_ E]. apply app_eq_nil in E. destruct E as [E1 E2].
  destruct W as [W|W]; rewrite W in *.
  - revert E1. unfold level_text. repeat match goal with |- context [if ?b then _ else _] => destruct b end; discriminate.
  - destruct Pw as (name & n & _ & _ & ->). destruct name; discriminate.
Qed.
Print Assumptions C64_untimed_refuted.
Example C64_untimed_case : timed 48 = false /\ on 48 5 = true /\ wants_file 48 = true /\ format_header (str "p") 48 t0 (str "/x/y.go") 7 5 = Some (str "<p>").
Proof. vm_compute. auto. Qed.

(* A call overtaken by AddFlag has not looked up its caller: the record shows an empty file
   and line 0. *)
Theorem C64_race_refuted : exists ls r, g_out (l_run (new_lg [] 3) ls) = [r] /\ ls = [LStart Method 1 (str "x"); LLook 0 t0 here; LAddFlag 8; LEmit 0] /\
  e_bytes r = str "2023/04/05 06:07:08 :0: x" ++ [nl].
Proof. eexists. eexists. split; [|split; [reflexivity|]]; vm_compute; reflexivity. Qed.
Print Assumptions C64_race_refuted.

(* Vocabulary of C78: where the lines of the log go. *)
From Coq Require Import ZArith List Bool.
From Verif Require Import Bytes LogCore Spec_LogCore LogWriter Spec_LogWriter LogFile.
Import ListNotations.
Local Open Scope Z_scope.

(* The log calls of a schedule, without the files. *)
Definition calls (tr : list flabel) : list llabel := flat_map (fun l => match l with FLog c _ => [c] | _ => [] end) tr.

(* The lines completed, in order, each with the file SetLogFile set last. *)
Fixpoint lines (g : lg) (cur : option Z) (tr : list flabel) : list (option Z * list byte) :=
  match tr with
  | [] => []
  | FLog l _ :: r => map (fun x => (cur, e_bytes x)) (skipn (length (g_out g)) (g_out (l_step g l))) ++ lines (l_step g l) cur r
  | FSet p _ :: r => lines g (Some p) r
  | _ :: r => lines g cur r
  end.
Definition same (a b : option Z) : bool := match a, b with Some x, Some y => x =? y | None, None => true | _, _ => false end.
Definition lines_of (p : option Z) (ls : list (option Z * list byte)) : list (list byte) := map snd (filter (fun x => same (fst x) p) ls).
Definition text_of (ls : list (list byte)) : bytes := map b2z (concat ls).

(* A file's archives and current file; and what its Writers have not written yet. *)
Definition dir_text (d : dir) : bytes := concat (map a_data (d_arch d)) ++ match d_cur d with Some (c, _) => c | None => [] end.
Definition disk (s : lf) (p : Z) : bytes := dir_text (f_dirs s p).
Definition waiting (s : lf) (p : Z) : bytes :=
  concat (map (fun k => if k_path k =? p then match w_bw (k_w k) with Some b => b_buf b | None => [] end else []) (f_sinks s)).

(* Files open; archives do not expire; SetLogFile runs apart from the log calls; the hook does not log. *)
Definition calm (l : flabel) : Prop :=
  match l with
  | FLog _ e => opens (LWrite [] e)
  | FCloseFile _ | FNew _ | FDelete _ _ => False
  | FHook (Some (HLogs _)) => False
  | _ => True
  end.
(* No two archives of a file have the same name. *)
Definition distinct_names (d : Z -> dir) (s : lf) : Prop := forall p, NoDup (map a_name (d_arch (d p)) ++ f_used s p).

(* What standard error shows: the lines while no file is set, and copies while SetCons is on. *)
Fixpoint shown (g : lg) (filed cons : bool) (tr : list flabel) : list (list byte) :=
  match tr with
  | [] => []
  | FLog l _ :: r =>
    (if negb filed || cons then map e_bytes (skipn (length (g_out g)) (g_out (l_step g l))) else []) ++ shown (l_step g l) filed cons r
  | FSet _ _ :: r => shown g true false r
  | FCons b :: r => shown g filed (filed && b) r
  | _ :: r => shown g filed cons r
  end.
(* What the hook is given: the lines completed while there is one. *)
Fixpoint heard (g : lg) (hooked : bool) (tr : list flabel) : list (list byte) :=
  match tr with
  | [] => []
  | FLog l _ :: r => (if hooked then map e_bytes (skipn (length (g_out g)) (g_out (l_step g l))) else []) ++ heard (l_step g l) hooked r
  | FHook h :: r => heard g (match h with Some _ => true | None => false end) r
  | _ :: r => heard g hooked r
  end.

(* A line of a call: header, the message, and its newline (C61). *)
Definition line_of (c : Z * list byte) (b : list byte) : Prop := exists h, (snd c <> [] -> framed h (snd c) b) /\ (snd c = [] -> b = h).
Definition methods_only (ls : list llabel) : Prop := forall o level m, In (LStart o level m) ls -> o = Method.

(* The limits of the file set last: those set since, or 64 MiB and 31 days. *)
Definition size_in_force (tr : list flabel) : Z :=
  fold_left (fun m l => match l with FSet _ _ => 64 * 1024 * 1024 | FMax ms => if 1 <=? ms then ms else m | _ => m end) tr (64 * 1024 * 1024).
Definition age_in_force (tr : list flabel) : Z :=
  fold_left (fun a l => match l with FSet _ _ => 31 | FAge ma => ma | _ => a end) tr 31.
Definition writer_now (s : lf) : option lwriter :=
  match f_cur s with Some n => match nth_error (f_sinks s) n with Some k => Some (k_w k) | None => None end | None => None end.

(* Model of where the configuration is read from:
   - init of zconf/env.go 27-42, which runs before the init of zconf.go (files of a package in the order of their names);
   - GetConfigFilePath (44-46), which Reload reads the file of (zconf/zconf.go 142-166).
   filepath.Clean, Join, IsAbs and Abs of the standard library are written after their documentation, for Unix.
   Simplified: os.Getwd does not fail and gives the same name both times; paths are lists of characters. *)
From Coq Require Import List Bool Ascii String.
Import ListNotations.

Notation path := (list ascii).
Definition slash : ascii := "/"%char.
Definition dot : path := list_ascii_of_string ".".
Definition dotdot : path := list_ascii_of_string "..".
Definition eqp (a b : path) : bool := if list_eq_dec ascii_dec a b then true else false.

(* path/filepath IsAbs (called at env.go 37 through Abs) *)
Definition is_abs (p : path) : bool := match p with c :: _ => Ascii.eqb c slash | [] => false end.
(* strings.Split and strings.Join at "/", as Clean and Join (env.go 34, 37) work *)
Fixpoint split (p : path) : list path :=
  match p with
  | [] => [[]]
  | c :: p' =>
    if Ascii.eqb c slash then [] :: split p'
    else match split p' with s :: r => (c :: s) :: r | [] => [[c]] end
  end.
Fixpoint join (l : list path) : path :=
  match l with
  | [] => []
  | [s] => s
  | s :: r => s ++ slash :: join r
  end.

(* path/filepath Clean (env.go 34 and 37, through Join and Abs): one element; the elements kept so far, the last first *)
Definition clean_step (rooted : bool) (kept : list path) (s : path) : list path :=
  if eqp s [] || eqp s dot then kept
  else if eqp s dotdot then
    match kept with
    | top :: rest => if eqp top dotdot then s :: kept else rest
    | [] => if rooted then [] else [s]
    end
  else s :: kept.
Definition clean (p : path) : path :=
  let body := join (rev (fold_left (clean_step (is_abs p)) (split p) [])) in
  if is_abs p then slash :: body else match body with [] => dot | _ => body end.

(* path/filepath Join of two elements (env.go 34; Abs, env.go 37) *)
Definition join2 (a b : path) : path :=
  match a, b with
  | [], [] => []
  | [], _ => clean b
  | _, _ => clean (a ++ slash :: b)
  end.
(* path/filepath Abs (env.go 37) *)
Definition abs (pwd p : path) : path := if is_abs p then clean p else join2 pwd p.

(* env.go 18, 27-42: the variable's value ([] when not set) and the working directory's name *)
Definition default_path : path := list_ascii_of_string "/conf/zinx.json".
Definition config_path (env pwd : path) : path := abs pwd (match env with [] => join2 pwd default_path | _ => env end).

(* A program: its environment and working directory may change; configFilePath (env.go 23-25) is set once. *)
Record prog := Prog { p_env : path; p_pwd : path; p_conf : path }.
Inductive plabel := LSetenv (e : path) | LChdir (d : path) | LReload.
(* env.go 27-42 *)
Definition p_start (env pwd : path) : prog := Prog env pwd (config_path env pwd).
(* zconf.go 142-166: the name the file is looked for by *)
Definition p_step (s : prog) (l : plabel) : prog * list path :=
  match l with
  | LSetenv e => (Prog e (p_pwd s) (p_conf s), [])
  | LChdir d => (Prog (p_env s) d (p_conf s), [])
  | LReload => (s, [p_conf s])
  end.
(* zconf.go 258: init reads the file once; then any calls *)
Fixpoint p_run (s : prog) (ls : list plabel) : prog * list path :=
  match ls with
  | [] => (s, [])
  | l :: ls' => let '(s1, e1) := p_step s l in let '(s2, e2) := p_run s1 ls' in (s2, e1 ++ e2)
  end.

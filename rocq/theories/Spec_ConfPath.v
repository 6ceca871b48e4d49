(* What C111 says: which file a path names for the operating system. *)
From Coq Require Import List Bool Ascii String.
From Verif Require Import ConfPath.
Import ListNotations.

(* A file system: files and directories are numbers.  A symbolic link to a directory is an entry whose directory
   has another parent than the one the entry is in. *)
Record fs := Fs { root : nat; is_dir : nat -> bool; child : nat -> path -> option nat; parent : nat -> nat }.
(* Going on by one element of a path, and by several; only directories can be gone on from. *)
Definition walk1 (f : fs) (d : nat) (s : path) : option nat :=
  if is_dir f d then
    if eqp s [] || eqp s dot then Some d else if eqp s dotdot then Some (parent f d) else child f d s
  else None.
Fixpoint walk (f : fs) (d : nat) (l : list path) : option nat :=
  match l with
  | [] => Some d
  | s :: r => match walk1 f d s with Some d1 => walk f d1 r | None => None end
  end.
(* The file a path names in working directory cwd. *)
Definition names (f : fs) (cwd : nat) (p : path) : option nat := walk f (if is_abs p then root f else cwd) (split p).
(* The file the user means: that of ZINX_CONFIG_FILE_PATH, conf/zinx.json in the working directory if it is not set or empty. *)
Definition meant (f : fs) (cwd : nat) (env : path) : option nat :=
  names f cwd (match env with [] => list_ascii_of_string "conf/zinx.json" | _ => env end).

(* No symbolic links to directories. *)
Definition no_links (f : fs) : Prop := parent f (root f) = root f /\ forall d s c, child f d s = Some c -> parent f c = d.
(* An element that is a name. *)
Definition a_name (s : path) : Prop := s <> [] /\ s <> dot /\ s <> dotdot /\ ~ In slash s.
(* An absolute path without empty elements, "." and "..", as the working directory is told. *)
Definition plain (p : path) : Prop := exists l, p = slash :: join l /\ Forall a_name l.
(* The names the configuration file is opened by in a history of a program started so. *)
Definition opened (env pwd : path) (ls : list plabel) : list path := snd (p_run (p_start env pwd) (LReload :: ls)).

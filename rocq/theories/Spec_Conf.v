(* What C65 and C66 say.  A user sets a field by giving it another value than Go's zero
   value; that is all a Config can express. *)
From Coq Require Import ZArith List Bool.
From Verif Require Import Bytes Conf.
Import ListNotations.
Local Open Scope Z_scope.

Definition overrides {A} (zero user old new : A) : Prop := (user <> zero -> new = user) /\ (user = zero -> new = old).
Definition str_ok (u g r : config) (f : sfield) : Prop := overrides [] (strs u f) (strs g f) (strs r f).
Definition int_ok (u g r : config) (f : ifield) : Prop := overrides 0 (ints u f) (ints g f) (ints r f).
Definition bool_ok (u g r : config) (f : bfield) : Prop := overrides false (bools u f) (bools g f) (bools r f).
(* C65 *)
Definition overlaid (u g r : config) : Prop := (forall f, str_ok u g r f) /\ (forall f, int_ok u g r f) /\ (forall f, bool_ok u g r f).

(* The zero Config. *)
Definition nothing_set : config := Config (fun _ => []) (fun _ => 0) (fun _ => false).

(* C66: the logger does what the configuration says. *)
Definition reflects (g : config) (l : logger) : Prop :=
  o_level l = ints g LogIsolationLevel /\
  (strs g LogFile <> [] -> exists w, o_file l = Some w /\ w_dir w = strs g LogDir /\ w_file w = strs g LogFile /\ w_cons w = bools g LogCons /\
     (ints g LogSaveDays > 0 -> w_age w = ints g LogSaveDays) /\ (ints g LogFileSize > 0 -> w_size w = ints g LogFileSize)) /\
  (strs g LogFile = [] -> o_file l = None).

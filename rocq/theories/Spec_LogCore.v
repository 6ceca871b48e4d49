(* What C61-C64 say: decimal numbers, header layout, framing, and which records are due. *)
From Coq Require Import String ZArith List Bool.
From Verif Require Import Bytes LogCore.
Import ListNotations.
Local Open Scope list_scope.
Local Open Scope Z_scope.

(* l is the decimal writing of n, padded with zeros to width wid (at least one digit) and
   with no other leading zero. *)
Definition is_digit (d : byte) : Prop := 48 <= b2z d <= 57.
Definition value (l : list byte) : Z := fold_left (fun a d => 10 * a + (b2z d - 48)) l 0.
Definition padded (n wid : Z) (l : list byte) : Prop :=
  Forall is_digit l /\ value l = n /\
  Z.max wid 1 <= Z.of_nat (length l) /\
  (Z.of_nat (length l) = Z.max wid 1 \/ exists d l', l = d :: l' /\ b2z d <> 48).

(* The last component of a path; a slash that is the very first byte is not a separator. *)
Definition base_name (file name : list byte) : Prop :=
  (exists dir, dir <> [] /\ file = dir ++ str "/" ++ name /\ ~ In "/"%byte name) \/
  (name = file /\ forall dir rest, file = dir ++ str "/" ++ rest -> dir = []).

Definition date_text (t : time) (x : list byte) : Prop :=
  exists y m d, padded (t_year t) 4 y /\ padded (t_month t) 2 m /\ padded (t_day t) 2 d /\
    x = y ++ str "/" ++ m ++ str "/" ++ d ++ str " ".
Definition clock_text (micro : bool) (t : time) (x : list byte) : Prop :=
  exists h m s u, padded (t_hour t) 2 h /\ padded (t_min t) 2 m /\ padded (t_sec t) 2 s /\
    (if micro then exists u', padded (t_nano t / 1000) 6 u' /\ u = str "." ++ u' else u = []) /\
    x = h ++ str ":" ++ m ++ str ":" ++ s ++ u ++ str " ".
Definition level_text (level : Z) : list byte :=
  if level =? 0 then str "[DEBUG]" else if level =? 1 then str "[INFO]" else if level =? 2 then str "[WARN]"
  else if level =? 3 then str "[ERROR]" else if level =? 4 then str "[PANIC]" else str "[FATAL]".
Definition place_text (short : bool) (file : list byte) (line : Z) (x : list byte) : Prop :=
  exists name n, (if short then base_name file name else name = file) /\ padded line 1 n /\
    x = name ++ str ":" ++ n ++ str ": ".
Definition prefix_text (prefix : list byte) : list byte :=
  match prefix with [] => [] | _ => str "<" ++ prefix ++ str ">" end.

(* The flags by bit: 0 date, 1 time, 2 microseconds, 3 long file, 4 short file, 5 level. *)
Definition on (flag k : Z) : bool := Z.testbit flag k.
Definition timed (flag : Z) : bool := on flag 0 || on flag 1 || on flag 2.
Definition wants_file (flag : Z) : bool := on flag 3 || on flag 4.

(* The header the flags ask for. *)
Definition header_is (prefix : list byte) (flag : Z) (t : time) (file : list byte) (line level : Z) (h : list byte) : Prop :=
  exists d c w,
    (if on flag 0 then date_text t d else d = []) /\
    (if on flag 1 || on flag 2 then clock_text (on flag 2) t c else c = []) /\
    (if wants_file flag then place_text (on flag 4) file line w else w = []) /\
    h = prefix_text prefix ++ d ++ c ++ (if on flag 5 then level_text level else []) ++ w.

(* What time.Now and runtime.Caller give. *)
Definition nat63 (z : Z) : Prop := 0 <= z < 2^63.
Definition time_ok (t : time) : Prop :=
  nat63 (t_year t) /\ nat63 (t_month t) /\ nat63 (t_day t) /\ nat63 (t_hour t) /\ nat63 (t_min t) /\ nat63 (t_sec t) /\ nat63 (t_nano t).

(* A record: header, message unchanged, and the newline the message has or else one more. *)
Definition ends_nl (m : list byte) : Prop := exists m', m = m' ++ [nl].
Definition framed (h m b : list byte) : Prop :=
  (ends_nl m -> b = h ++ m) /\ (~ ends_nl m -> b = h ++ m ++ [nl]).

(* The records due from the level methods, the isolation level starting at iso. *)
Fixpoint due (iso : Z) (ls : list llabel) : list (Z * list byte) :=
  match ls with
  | [] => []
  | LStart Method level m :: r => if iso <=? level then (level, m) :: due iso r else due iso r
  | LSetLevel v :: r => due v r
  | _ :: r => due iso r
  end.
(* The level methods have levels 0 to 5. *)
Definition levels_ok (ls : list llabel) : Prop := forall level m, In (LStart Method level m) ls -> 0 <= level <= 5.
Definition by_method (o : origin) : bool := match o with Method => true | _ => false end.
Definition written (s : lg) : list (Z * list byte) := map (fun r => (e_level r, e_msg r)) (filter (fun r => by_method (e_by r)) (g_out s)).
Definition under_way (s : lg) : list (Z * list byte) := map (fun q => (q_level q, q_msg q)) (filter (fun q => by_method (q_by q)) (g_pend s)).

(* The prefix and the flags in force after the calls in ls. *)
Definition prefix_now (p0 : list byte) (ls : list llabel) : list byte :=
  fold_left (fun p l => match l with LSetPrefix q => q | _ => p end) ls p0.
Definition flags_now (f0 : Z) (ls : list llabel) : Z :=
  fold_left (fun f l => match l with LResetFlags g => g | LAddFlag g => Z.lor f g | _ => f end) ls f0.
(* What a call sees of its caller under the given flags. *)
Definition place_seen (flag : Z) (caller : option (list byte * Z)) : list byte * Z :=
  if wants_file flag then match caller with Some c => c | None => (str "unknown-file", 0) end else ([], 0).

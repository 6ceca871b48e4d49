(* Model of zlog/logger_core.go: headers, records and the isolation level, with calls from
   any number of goroutines.  A call is three steps: the isolation level is checked; OutPut
   reads the clock, the flags and the caller's file and line (198-214, the lock given up
   around runtime.Caller); then, under the lock, it formats and writes (216-239).  What is written is delivered as one
   Write to the console or the log file; the file itself is LogWriter.v.  Not modelled: the hook of SetLogHook, the
   panic Panic/Panicf raise in their caller after the record is written, failed writes. *)
From Coq Require Import ZArith List Bool String.
From Verif Require Import Bytes.
Import ListNotations.
Local Open Scope Z_scope.
Notation str := list_byte_of_string.

(* logger_core.go 36-44 *)
Definition BitDate := 1.
Definition BitTime := 2.
Definition BitMicroSeconds := 4.
Definition BitLongFile := 8.
Definition BitShortFile := 16.
Definition BitLevel := 32.
Definition has (flag bits : Z) : bool := negb (Z.land flag bits =? 0).

(* logger_core.go 48-66 *)
Definition LogError := 3.
Definition LogFatal := 5.
Definition levels : list (list byte) := [str "[DEBUG]"; str "[INFO]"; str "[WARN]"; str "[ERROR]"; str "[PANIC]"; str "[FATAL]"].

(* logger_core.go 433-454: itoa writes to the buffer.  None: b[-1], which panics. *)
Definition digit_of (u : Z) : byte := z2b (u mod 10 + 48).
Fixpoint itoa_loop (bp : nat) (u wid : Z) (b : list byte) : option (list byte) :=
  if (0 <? u) || (0 <? wid) then
    match bp with O => None | S bp' => itoa_loop bp' (u / 10) (wid - 1) (digit_of u :: b) end
  else Some b.
Definition itoa (i wid : Z) : option (list byte) :=
  let u := u64 i in if (u =? 0) && (wid <=? 1) then Some [z2b 48] else itoa_loop 32 u wid [].

Record time := Time { t_year : Z; t_month : Z; t_day : Z; t_hour : Z; t_min : Z; t_sec : Z; t_nano : Z }.

(* Go: writes one after the other; a panic leaves the rest undone. *)
Definition cat (a b : option (list byte)) : option (list byte) :=
  match a, b with Some x, Some y => Some (x ++ y) | _, _ => None end.
Infix "+++" := cat (at level 60, right associativity).

(* logger_core.go 178-186: the part after the last '/', unless that is the first byte. *)
Fixpoint after_slash (file : list byte) (i : nat) : list byte :=
  match i with
  | O => file
  | S i' => if Byte.eqb (nth i file "000"%byte) "/" then skipn (S i) file else after_slash file i'
  end.
Definition short_name (file : list byte) : list byte := after_slash file (List.length file - 1).

(* logger_core.go 131-194: formatHeader.  None: a panic. *)
Definition format_header (prefix : list byte) (flag : Z) (t : time) (file : list byte) (line level : Z) : option (list byte) :=
  Some (match prefix with [] => [] | _ => str "<" ++ prefix ++ str ">" end) +++
  (if has flag (BitDate + BitTime + BitMicroSeconds) then
     (if has flag BitDate
      then itoa (t_year t) 4 +++ Some (str "/") +++ itoa (t_month t) 2 +++ Some (str "/") +++ itoa (t_day t) 2 +++ Some (str " ")
      else Some []) +++
     (if has flag (BitTime + BitMicroSeconds)
      then itoa (t_hour t) 2 +++ Some (str ":") +++ itoa (t_min t) 2 +++ Some (str ":") +++ itoa (t_sec t) 2 +++
           (if has flag BitMicroSeconds then Some (str ".") +++ itoa (Z.quot (t_nano t) 1000) 6 else Some []) +++ Some (str " ")
      else Some []) +++
     (if has flag BitLevel then (if level <? 0 then None else nth_error levels (Z.to_nat level)) else Some []) +++
     (if has flag (BitShortFile + BitLongFile)
      then Some (if has flag BitShortFile then short_name file else file) +++ Some (str ":") +++ itoa line (-1) +++ Some (str ": ")
      else Some [])
   else Some []).

(* logger_core.go 221-225: the content and the line break. *)
Definition nl : byte := "010"%byte.
Definition content (s : list byte) : list byte :=
  s ++ (match rev s with [] => [] | c :: _ => if Byte.eqb c nl then [] else [nl] end).

(* Who called OutPut: a level method (246-334, which checks the isolation level and, for
   Fatal, exits afterwards), Stack (336-344) or the user directly. *)
Inductive origin := Method | FromStack | Direct.
(* A call of OutPut under way: q_where is None until the clock and the caller are read. *)
Record pend := Pend { q_by : origin; q_level : Z; q_msg : list byte; q_where : option (time * list byte * Z) }.
(* A record written. *)
Record rec := Rec { e_by : origin; e_level : Z; e_msg : list byte; e_bytes : list byte }.
(* g_exit: some Fatal call has written its record and is about to exit the process. *)
Record lg := Lg {
  g_prefix : list byte; g_flag : Z; g_iso : Z; g_pend : list pend; g_out : list rec; g_exit : bool; g_dead : bool
}.
(* logger_core.go 102-112 *)
Definition new_lg (prefix : list byte) (flag : Z) : lg := Lg prefix flag 0 [] [] false false.

Inductive llabel :=
| LStart (by_ : origin) (level : Z) (s : list byte)
| LLook (i : nat) (t : time) (caller : option (list byte * Z))   (* the i-th call under way reads clock and caller *)
| LEmit (i : nat)                                                (* the i-th call under way formats and writes *)
| LExit                                                          (* os.Exit *)
| LSetLevel (v : Z) | LResetFlags (f : Z) | LAddFlag (f : Z) | LSetPrefix (p : list byte).

Fixpoint drop_nth {A} (i : nat) (l : list A) : list A :=
  match l, i with [], _ => [] | _ :: l', O => l' | x :: l', S i' => x :: drop_nth i' l' end.
Fixpoint set_nth {A} (i : nat) (y : A) (l : list A) : list A :=
  match l, i with [], _ => [] | _ :: l', O => y :: l' | x :: l', S i' => x :: set_nth i' y l' end.

(* 198-214 *)
Definition look (flag : Z) (caller : option (list byte * Z)) : list byte * Z :=
  if has flag (BitShortFile + BitLongFile)
  then match caller with Some c => c | None => (str "unknown-file", 0) end else ([], 0).

Definition l_step (s : lg) (l : llabel) : lg :=
  if g_dead s then s else
  match l with
  | LStart o level m =>
    (* 242-244: Stack and OutPut do not check *)
    if (match o with Method => g_iso s >? level | _ => false end) then s
    else Lg (g_prefix s) (g_flag s) (g_iso s) (g_pend s ++ [Pend o level m None]) (g_out s) (g_exit s) false
  | LLook i t caller =>
    match nth_error (g_pend s) i with
    | Some (Pend o level m None) =>
      let (file, line) := look (g_flag s) caller in
      Lg (g_prefix s) (g_flag s) (g_iso s) (set_nth i (Pend o level m (Some (t, file, line))) (g_pend s)) (g_out s) (g_exit s) false
    | _ => s
    end
  | LEmit i =>
    match nth_error (g_pend s) i with
    | Some (Pend o level m (Some (t, file, line))) =>
      let rest := drop_nth i (g_pend s) in
      match format_header (g_prefix s) (g_flag s) t file line level with
      | None => Lg (g_prefix s) (g_flag s) (g_iso s) rest (g_out s) (g_exit s) false
      | Some h => Lg (g_prefix s) (g_flag s) (g_iso s) rest (g_out s ++ [Rec o level m (h ++ content m)])
                     (g_exit s || match o with Method => level =? LogFatal | _ => false end) false
      end
    | _ => s
    end
  | LExit => if g_exit s then Lg (g_prefix s) (g_flag s) (g_iso s) (g_pend s) (g_out s) true true else s   (* 307, 315 *)
  | LSetLevel v => Lg (g_prefix s) (g_flag s) v (g_pend s) (g_out s) (g_exit s) false                 (* 425-427 *)
  | LResetFlags f => Lg (g_prefix s) f (g_iso s) (g_pend s) (g_out s) (g_exit s) false                (* 356-360 *)
  | LAddFlag f => Lg (g_prefix s) (Z.lor (g_flag s) f) (g_iso s) (g_pend s) (g_out s) (g_exit s) false (* 364-368 *)
  | LSetPrefix p => Lg p (g_flag s) (g_iso s) (g_pend s) (g_out s) (g_exit s) false                   (* 372-376 *)
  end.
Definition l_run (s : lg) (ls : list llabel) : lg := fold_left l_step ls s.

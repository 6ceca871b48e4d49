(* Model of zutils/witer.go, the rotating log file writer. *)
From Coq Require Import ZArith List Bool.
Import ListNotations.
Local Open Scope Z_scope.

Definition zlen {A} (l : list A) : Z := Z.of_nat (length l).
Definition bytes := list Z.

(* Times are nanoseconds since 1970, UTC; [zone t] is the local offset at t. *)
Definition microsecond : Z := 1000.
Definition day_length : Z := 86400000000000.

(* The directory: the file at the configured path (contents, modification time),
   and the archived files, oldest first: the time in the name, whether it is the
   zip archive (contents here: uncompressed) or the renamed plain file, contents. *)
Record archive := Archive { a_name : Z; a_zip : bool; a_data : bytes }.
Record dir := Dir { d_cur : option (bytes * Z); d_arch : list archive }.

(* bufio.NewWriter (4096): the buffer, the sticky error and whether the file under it is still open. *)
Record bufw := BufW { b_open : bool; b_err : bool; b_buf : bytes }.
Definition buf_size : Z := 4096.

(* witer.go 25-40: Writer; [w_file] says file <> nil (the file is the one under
   bw).  Path components and the console flag (a copy to stderr) are left out. *)
Record lwriter := LWriter { w_file : bool; w_bw : option bufw; w_size : Z; w_max : Z; w_age : Z; w_created : Z }.
(* [l_used] is not in the program: the names given to archived files so far. *)
Record lstate := LState { l_w : lwriter; l_dir : dir; l_used : list Z }.

(* witer.go 18-22, 42-61: New. The flushing daemon (62-66) is the LFlush label below. *)
Definition new_writer : lwriter := LWriter false None 0 (1024 * 1024 * 64) 31 0.

(* A write to the file: it succeeds iff the file is open (disk full and the like are
   not modelled); O_APPEND. *)
Definition append (d : dir) (p : bytes) (t : Z) : dir :=
  match d_cur d with
  | Some (c, _) => Dir (Some (c ++ p, t)) (d_arch d)
  | None => d
  end.

(* bufio.Writer.Flush. *)
Definition bw_flush (d : dir) (b : bufw) (t : Z) : dir * bufw :=
  if b_err b then (d, b)
  else match b_buf b with
       | [] => (d, b)
       | _ => if b_open b then (append d (b_buf b) t, BufW true false []) else (d, BufW false true (b_buf b))
       end.

(* bufio.Writer.Write: the bytes taken, and whether there was no error. *)
Definition bw_write (d : dir) (b : bufw) (p : bytes) (t : Z) : dir * bufw * Z * bool :=
  if b_err b then (d, b, 0, false)
  else
    let avail := buf_size - zlen (b_buf b) in
    if zlen p <=? avail then (d, BufW (b_open b) false (b_buf b ++ p), zlen p, true)
    else match b_buf b with
         | [] => if b_open b then (append d p t, b, zlen p, true) else (d, BufW false true [], 0, false)
         | _ =>
           let now := firstn (Z.to_nat avail) p in
           let rest := skipn (Z.to_nat avail) p in
           if b_open b then
             let d1 := append d (b_buf b ++ now) t in
             if zlen rest <=? buf_size then (d1, BufW true false rest, zlen p, true)
             else (append d1 rest t, BufW true false [], zlen p, true)
           else (d, BufW false true (b_buf b ++ now), zlen now, false)
         end.

(* What the system does during one rotation: the clock, the time of the final flush,
   whether rename, zip and open succeed, the time a new file gets. *)
Record renv := REnv { r_now : Z; r_flush : Z; r_rename : bool; r_zip : bool; r_open : bool; r_new : Z }.

Section WithZone.
Variable zone : Z -> Z.
(* The configured path ends in ".zip". *)
Variable zip_suffix : bool.

Definition local (t : Z) : Z := t + zone t.
(* witer.go 103-107, 156: the first ten characters of the RFC3339 time. *)
Definition day (t : Z) : Z := local t / day_length.
(* witer.go 199-201: time2name, microseconds of local time. *)
Definition time2name (t : Z) : Z := local t / microsecond.

(* Creating a file of that name replaces one that is there. *)
Definition put_archive (name : Z) (zip : bool) (c : bytes) (l : list archive) : list archive :=
  filter (fun a => negb ((a_name a =? name) && Bool.eqb (a_zip a) zip)) l ++ [Archive name zip c].

(* witer.go 138-150 and ZipToFile: rename the file, compress it, remove the
   renamed one.  With a ".zip" suffix the archive has the name of the renamed file, so
   creating it truncates that file, and the remove deletes it.  A remove that fails and
   the partial archive of a failed compression are not modelled. *)
Definition archive_file (e : renv) (created : Z) (d : dir) : dir :=
  match d_cur d with
  | None => d
  | Some (c, _) =>
    if r_rename e then
      let name := time2name created in
      if zip_suffix then Dir None (filter (fun a => negb ((a_name a =? name) && a_zip a)) (d_arch d))
      else if r_zip e then Dir None (put_archive name true c (filter (fun a => negb ((a_name a =? name) && negb (a_zip a))) (d_arch d)))
      else Dir None (put_archive name false c (d_arch d))
    else d
  end.

(* The name used, if any. *)
Definition archive_name (e : renv) (created : Z) (d : dir) : list Z :=
  match d_cur d with Some _ => if r_rename e then [time2name created] else [] | None => [] end.

(* witer.go 130-166: rotate; false is an error. *)
Definition rotate (s : lstate) (e : renv) : lstate * bool :=
  let w := l_w s in
  let '(d, bw, size, used) :=
    if w_file w then
      match w_bw w with
      | Some b => let '(d1, b1) := bw_flush (l_dir s) b (r_flush e) in
                  (archive_file e (w_created w) d1, Some (BufW false (b_err b1) (b_buf b1)), 0, l_used s ++ archive_name e (w_created w) d1)
      | None => (l_dir s, None, 0, l_used s)
      end
    else (l_dir s, w_bw w, w_size w, l_used s) in
  let '(size, created) := match d_cur d with Some (c, t) => (zlen c, t) | None => (size, r_now e) end in
  if r_open e then
    let d' := match d_cur d with Some _ => d | None => Dir (Some ([], r_new e)) (d_arch d) end in
    (LState (LWriter true (Some (BufW true false [])) size (w_max w) (w_age w) created) d' used, true)
  else (LState (LWriter (w_file w) bw size (w_max w) (w_age w) created) d used, false).

(* The system during one Write: up to three rotations, the clock, the time of a write to the file. *)
Record wenv := WEnv { e_first : renv; e_now : Z; e_daily : renv; e_sized : renv; e_write : Z }.

Definition buffered (w : lwriter) : Z := match w_bw w with Some b => zlen (b_buf b) | None => 0 end.

(* witer.go 92-128: Write; the number of bytes accepted and whether the error is nil. *)
Definition lw_write (s : lstate) (p : bytes) (e : wenv) : lstate * Z * bool :=
  let '(s0, ok0) := if w_file (l_w s) then (s, true) else rotate s (e_first e) in
  if negb ok0 then (s0, 0, false)
  else
    let '(s1, ok1) := if day (w_created (l_w s0)) =? day (e_now e) then (s0, true) else rotate s0 (e_daily e) in
    if negb ok1 then (s1, 0, false)
    else
      let '(s2, ok2) := if w_max (l_w s1) <=? w_size (l_w s1) + zlen p + buffered (l_w s1) then rotate s1 (e_sized e) else (s1, true) in
      if negb ok2 then (s2, 0, false)
      else match w_bw (l_w s2) with
           | None => (s2, 0, false) (* nil bw: not reachable *)
           | Some b =>
             let '(d, b', n, ok) := bw_write (l_dir s2) b p (e_write e) in
             let w := l_w s2 in
             (LState (LWriter (w_file w) (Some b') (w_size w + n) (w_max w) (w_age w) (w_created w)) d (l_used s2), n, ok)
           end.

(* witer.go 222-229: flush. *)
Definition lw_flush (s : lstate) (t : Z) : lstate :=
  let w := l_w s in
  match w_bw w with
  | None => s
  | Some b => let '(d, b') := bw_flush (l_dir s) b t in
              LState (LWriter (w_file w) (Some b') (w_size w) (w_max w) (w_age w) (w_created w)) d (l_used s)
  end.

(* witer.go 209-220: close. *)
Definition lw_close (s : lstate) : lstate :=
  let w := l_w s in
  if w_file w then
    LState (LWriter false (match w_bw w with Some b => Some (BufW false (b_err b) (b_buf b)) | None => None end)
                    (w_size w) (w_max w) (w_age w) (w_created w)) (l_dir s) (l_used s)
  else s.

(* witer.go 168-197: delete and name2time: removes the zip archives whose time, read as
   UTC, is more than maxAge days ago (AddDate as 24-hour days). *)
Definition lw_delete (s : lstate) (now : Z) : lstate :=
  let w := l_w s in
  if w_age w <=? 0 then s
  else LState w (Dir (d_cur (l_dir s))
         (filter (fun a => negb (a_zip a && (a_name a * microsecond <? now - w_age w * day_length))) (d_arch (l_dir s)))) (l_used s).

(* What can happen to the log.  Close (witer.go 203-206) takes the lock twice: LClose
   is the call with nothing in between, LFlush and LCloseFile are its parts.  LRestart: Close,
   then New on the same path (maybe by another process). *)
Inductive lop :=
| LWrite (p : bytes) (e : wenv)
| LFlush (t : Z)
| LCloseFile
| LClose (t : Z)
| LRestart (t : Z)
| LSetMax (ms : Z)   (* witer.go 75-83 *)
| LSetAge (ma : Z)   (* witer.go 68-73 *)
| LDelete (now : Z).

Definition set_max (s : lstate) (ms : Z) : lstate :=
  if ms <? 1 then s else let w := l_w s in LState (LWriter (w_file w) (w_bw w) (w_size w) ms (w_age w) (w_created w)) (l_dir s) (l_used s).
Definition set_age (s : lstate) (ma : Z) : lstate :=
  let w := l_w s in LState (LWriter (w_file w) (w_bw w) (w_size w) (w_max w) ma (w_created w)) (l_dir s) (l_used s).

(* The result: bytes accepted (0 for the other calls). *)
Definition lw_step (s : lstate) (o : lop) : lstate * Z :=
  match o with
  | LWrite p e => let '(s', n, _) := lw_write s p e in (s', n)
  | LFlush t => (lw_flush s t, 0)
  | LCloseFile => (lw_close s, 0)
  | LClose t => (lw_close (lw_flush s t), 0)
  | LRestart t => (LState new_writer (l_dir (lw_close (lw_flush s t))) (l_used s), 0)
  | LSetMax ms => (set_max s ms, 0)
  | LSetAge ma => (set_age s ma, 0)
  | LDelete now => (lw_delete s now, 0)
  end.

Fixpoint lw_run (s : lstate) (os : list lop) : lstate * list Z :=
  match os with
  | [] => (s, [])
  | o :: os' => let '(s1, n) := lw_step s o in let '(s2, ns) := lw_run s1 os' in (s2, n :: ns)
  end.
End WithZone.

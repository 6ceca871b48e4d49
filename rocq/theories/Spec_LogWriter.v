(* Vocabulary of the log writer properties. *)
From Coq Require Import ZArith List Bool.
From Verif Require Import LogWriter.
Import ListNotations.
Local Open Scope Z_scope.

(* A new Writer on a directory with any log file and archives in it. *)
Definition start (d : dir) : lstate := LState new_writer d [].
Definition current (s : lstate) : bytes := match d_cur (l_dir s) with Some (c, _) => c | None => [] end.
(* The rotated files, oldest first, and the current file. *)
Definition on_disk (s : lstate) : bytes := concat (map a_data (d_arch (l_dir s))) ++ current s.
(* Bytes still in the writer's buffer. *)
Definition unflushed (s : lstate) : bytes := match w_bw (l_w s) with Some b => b_buf b | None => [] end.

(* The bytes the Write calls accepted, in order. *)
Fixpoint accepted (os : list lop) (ns : list Z) : bytes :=
  match os, ns with
  | LWrite p _ :: os', n :: ns' => firstn (Z.to_nat n) p ++ accepted os' ns'
  | _ :: os', _ :: ns' => accepted os' ns'
  | _, _ => []
  end.
Definition records (os : list lop) : list bytes := flat_map (fun o => match o with LWrite p _ => [p] | _ => [] end) os.

(* Opening the log file succeeds; renaming it succeeds. *)
Definition opens (o : lop) : Prop :=
  match o with LWrite _ e => r_open (e_first e) = true /\ r_open (e_daily e) = true /\ r_open (e_sized e) = true | _ => True end.
Definition renames (o : lop) : Prop :=
  match o with LWrite _ e => r_rename (e_first e) = true /\ r_rename (e_daily e) = true /\ r_rename (e_sized e) = true | _ => True end.
(* No Write between the two halves of Close. *)
Definition whole_close (o : lop) : Prop := o <> LCloseFile.
Definition no_expiry (o : lop) : Prop := forall now, o <> LDelete now.
Definition no_restart (o : lop) : Prop := forall t, o <> LRestart t.
(* No archive gets a name another one has. *)
Definition names_distinct (d : dir) (s : lstate) : Prop := NoDup (map a_name (d_arch d) ++ l_used s).
Definition is_flush (o : lop) : Prop := match o with LFlush _ | LClose _ | LRestart _ => True | _ => False end.
(* New, then SetMaxSize. *)
Definition start_with (d : dir) (ms : Z) : lstate := set_max (start d) ms.
(* Every maximum set during the run is at most M. *)
Definition max_at_most (M : Z) (o : lop) : Prop := match o with LSetMax ms => ms <= M | _ => True end.
(* The files of the log: the archives, and the current file with what is still to be flushed to it. *)
Definition log_files (s : lstate) : list bytes := map a_data (d_arch (l_dir s)) ++ [current s ++ unflushed s].
Definition files_of (d : dir) : list bytes := map a_data (d_arch d) ++ [match d_cur d with Some (c, _) => c | None => [] end].

(* The clock and file time readings an operation may use, in order. *)
Definition rotation_readings (r : renv) : list Z := [r_now r; r_flush r; r_new r].
Definition readings (o : lop) : list Z :=
  match o with
  | LWrite _ e => rotation_readings (e_first e) ++ [e_now e] ++ rotation_readings (e_daily e) ++ rotation_readings (e_sized e) ++ [e_write e]
  | LFlush t | LClose t | LRestart t => [t]
  | _ => []
  end.
(* From one reading to the next the local time does not go back, and archiving
   the old file takes at least a microsecond. *)
Definition rotation_takes_time (zone : Z -> Z) (r : renv) : Prop := time2name zone (r_flush r) < time2name zone (r_new r).
Definition slow (zone : Z -> Z) (o : lop) : Prop :=
  match o with LWrite _ e => rotation_takes_time zone (e_first e) /\ rotation_takes_time zone (e_daily e) /\ rotation_takes_time zone (e_sized e) | _ => True end.
Fixpoint not_back (last : Z) (ts : list Z) : Prop :=
  match ts with [] => True | t :: ts' => last <= t /\ not_back t ts' end.
(* The log was left by an earlier session: archives named in order, before the file's last write and before [t]. *)
Definition in_order (l : list Z) : Prop := forall a b before mid after, l = before ++ a :: mid ++ b :: after -> a < b.
Definition old_log (zone : Z -> Z) (d : dir) (t : Z) : Prop :=
  in_order (map a_name (d_arch d)) /\ (forall n, In n (map a_name (d_arch d)) -> n < t) /\
  match d_cur d with Some (_, m) => time2name zone m <= t /\ forall n, In n (map a_name (d_arch d)) -> n < time2name zone m | None => True end.
Definition steady (zone : Z -> Z) (d : dir) (os : list lop) : Prop :=
  exists t, old_log zone d t /\ not_back t (map (time2name zone) (flat_map readings os)) /\ forall o, In o os -> slow zone o.
(* The age set last; a new Writer keeps 31 days. *)
Definition age_set (os : list lop) : Z :=
  fold_left (fun a o => match o with LSetAge ma => ma | LRestart _ => 31 | _ => a end) os 31.

(* The day at the local time: [zone] is what is added to UTC, and a day has 86400 seconds. *)
Definition local_day (zone : Z -> Z) (t : Z) : Z := (t + zone t) / (86400 * 1000000000).
(* The records written, each with the local day on which its Write was called. *)
Definition dated (zone : Z -> Z) (os : list lop) : list (Z * bytes) :=
  flat_map (fun o => match o with LWrite p e => [(local_day zone (e_now e), p)] | _ => [] end) os.
Definition text (records : list (Z * bytes)) : bytes := concat (map snd records).
Definition one_day (records : list (Z * bytes)) : Prop := exists D, forall r, In r records -> fst r = D.
(* No Write lasts past midnight. *)
Definition within_day (zone : Z -> Z) (o : lop) : Prop :=
  match o with
  | LWrite _ e => local_day zone (r_now (e_first e)) = local_day zone (e_now e) /\ local_day zone (r_now (e_daily e)) = local_day zone (e_now e) /\
                  local_day zone (r_now (e_sized e)) = local_day zone (e_now e)
  | _ => True
  end.
(* The file stays open. *)
Definition stays_open (o : lop) : Prop := forall t, o <> LClose t /\ o <> LRestart t /\ o <> LCloseFile.

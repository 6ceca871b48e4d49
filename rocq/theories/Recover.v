(* Model of znet/defaultrouterfunc.go: the handlers RouterRecovery and RouterTime in a list
   of slice handlers, with the request of Request.v.  Unlike there, a panic keeps the state in
   which it leaves the request, because RouterRecovery goes on with it.  panic(nil) and a stack frame
   whose function name has no dot (getInfo would panic) are left out. *)
From Coq Require Import ZArith List Bool String.
From Verif Require Import Bytes Pack Request Decimal.
Import ListNotations.
Local Open Scope Z_scope.

(* A handler: the user's, or one of the two; each with a name for the trace. *)
Inductive fn := User (h : handler) | Recovery (name : Z) | Timing (name : Z).
Definition fn_name (f : fn) : Z := match f with User h => h_name h | Recovery n | Timing n => n end.

Inductive pev :=
| Ev (e : hev)
| Logged (id : Z)      (* the record of RouterRecovery, with the message ID *)
| Timed.               (* the line RouterTime prints *)
Inductive rout := RDone (s : rst) | RPanic (s : rst) | RFuel.

(* User code, as in Request.v (run_hact), in slice mode. *)
Fixpoint run_act (next : rst -> list pev * rout) (a : hact) (s : rst) : list pev * rout :=
  match a with
  | HRet => ([], RDone s)
  | HPanic => ([Ev HvPanic], RPanic s)
  | HAbort k => let '(es, o) := run_act next k (abort true s) in (Ev HvAbort :: es, o)
  | HGoto n k => let '(es, o) := run_act next k (goto n s) in (Ev (HvGoto n) :: es, o)
  | HNext k =>
    let '(es, o) := next s in
    match o with
    | RDone s' => let '(es', o') := run_act next k s' in (Ev HvNext :: es ++ es', o')
    | _ => (Ev HvNext :: es, o)
    end
  | HSet key v k => let '(es, o) := run_act next k (set_keys s (kv_put key v (rs_keys s))) in (Ev (HvSet key v) :: es, o)
  | HGet key k => let v := kv_get key (rs_keys s) in let '(es, o) := run_act next (k v) s in (Ev (HvGot key v) :: es, o)
  | HSetResp v k => let '(es, o) := run_act next k (set_rresp s (Some v)) in (Ev (HvSetResp v) :: es, o)
  | HGetResp k => let '(es, o) := run_act next (k (rs_resp s)) s in (Ev (HvGotResp (rs_resp s)) :: es, o)
  | HMsg k => let '(es, o) := run_act next (k (rs_msg s)) s in (Ev (HvMsg (rs_msg s)) :: es, o)
  end.

(* One handler.  defaultrouterfunc.go 32-47: RouterRecovery calls RouterSlicesNext under a
   deferred recover.  51-56: RouterTime prints after RouterSlicesNext has returned. *)
Definition run_fn (next : rst -> list pev * rout) (f : fn) (s : rst) : list pev * rout :=
  match f with
  | User h => run_act next (h_body h) s
  | Recovery _ =>
    let '(es, o) := next s in
    match o with
    | RPanic s' => (Ev HvNext :: es ++ [Logged (m_id (rs_msg s'))], RDone s')
    | _ => (Ev HvNext :: es, o)
    end
  | Timing _ =>
    let '(es, o) := next s in
    match o with
    | RDone s' => (Ev HvNext :: es ++ [Timed], RDone s')
    | _ => (Ev HvNext :: es, o)
    end
  end.

(* request.go 229-235: the loop of RouterSlicesNext after its index++ (as Request.slices_loop). *)
Fixpoint rec_loop (fuel : nat) (fs : list fn) (s : rst) : list pev * rout :=
  match fuel with
  | O => ([], RFuel)
  | S fuel' =>
    if rs_index s <? s8 (zlen fs) then
      if rs_index s <? 0 then ([], RPanic s)
      else
        match nth_error fs (Z.to_nat (rs_index s)) with
        | None => ([], RPanic s)
        | Some f =>
          let next s1 := rec_loop fuel' fs (set_index s1 (s8 (rs_index s1 + 1))) in
          let '(es, o) := run_fn next f s in
          match o with
          | RDone s' => let '(es', o') := next s' in (Ev (HvStart (fn_name f)) :: es ++ Ev (HvEnd (fn_name f)) :: es', o')
          | _ => (Ev (HvStart (fn_name f)) :: es, o)
          end
        end
    else ([], RDone s)
  end.
(* msghandler.go 397-398: BindRouterSlices, then RouterSlicesNext, on a new request. *)
Definition run_chain (fs : list fn) (m : message) : list pev * rout :=
  rec_loop (S (List.length fs)) fs (set_index (set_nhandlers (fresh_request m) (zlen fs)) 0).

(* The text of the record: defaultrouterfunc.go 58-76.  A stack frame: function name, file, line. *)
Record frame := Frame { f_func : list byte; f_file : list byte; f_line : Z }.
Definition text (s : string) : list byte := list_byte_of_string s.
(* strings.Split(s, sep)[1] for a one byte sep; None: index out of range. *)
Fixpoint until (c : byte) (s : list byte) : list byte :=
  match s with [] => [] | b :: s' => if Byte.eqb b c then [] else b :: until c s' end.
Fixpoint after (c : byte) (s : list byte) : option (list byte) :=
  match s with [] => None | b :: s' => if Byte.eqb b c then Some s' else after c s' end.
Definition second_part (s : list byte) : option (list byte) := option_map (until "."%byte) (after "."%byte s).
(* path.Base of a path that does not end in a slash *)
Fixpoint last_part (s acc : list byte) : list byte :=
  match s with [] => rev acc | b :: s' => if Byte.eqb b "/"%byte then last_part s' [] else last_part s' (b :: acc) end.
Definition base (file : list byte) : list byte := last_part file [].
(* 70-71; lines are numbered from 1 *)
Definition info_line (f : frame) : option (list byte) :=
  option_map (fun n => text "funcname:" ++ n ++ text " filename:" ++ base (f_file f) ++ text " LineNo:" ++ format_uint (f_line f) ++ [z2b 10]) (second_part (f_func f)).
(* 58-76: getInfo(3): runtime.Caller(i) is the i-th frame, getInfo's own being 0. *)
Fixpoint info_loop (n i : nat) (stack : list frame) : option (list byte) :=
  match n with
  | O => Some []
  | S n' =>
    match nth_error stack i with
    | None => Some []
    | Some f => match info_line f, info_loop n' (S i) stack with Some a, Some b => Some (a ++ b) | _, _ => None end
    end
  end.
(* 17-21: StackBegin = 3, StackEnd = 5 *)
Definition get_info (stack : list frame) : option (list byte) := info_loop 3 3 stack.

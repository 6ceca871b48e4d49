(* Vocabulary for what one request runs, on traces only. *)
From Coq Require Import ZArith List Bool.
From Verif Require Import Pack Request.
Import ListNotations.
Local Open Scope Z_scope.

(* Handlers (or phases) started and finished, in order. *)
Definition starts (es : list hev) : list Z :=
  flat_map (fun e => match e with HvStart n => [n] | _ => [] end) es.
Definition ends (es : list hev) : list Z :=
  flat_map (fun e => match e with HvEnd n => [n] | _ => [] end) es.
(* Number of RouterSlicesNext calls made by user code. *)
Definition next_calls (es : list hev) : Z :=
  Z.of_nat (length (filter (fun e => match e with HvNext => true | _ => false end) es)).
Definition no_abort (es : list hev) : Prop := ~ In HvAbort es.
Definition no_panic (es : list hev) : Prop := ~ In HvPanic es.
Definition no_goto (es : list hev) : Prop := forall s, ~ In (HvGoto s) es.

(* The last redirection asked for in a piece of trace. *)
Inductive redirect := NoRedirect | Stop | Continue (s : Z).
Fixpoint last_redirect (es : list hev) : redirect :=
  match es with
  | [] => NoRedirect
  | e :: es' =>
    match last_redirect es' with
    | NoRedirect =>
      match e with HvAbort => Stop | HvGoto s => Continue s | _ => NoRedirect end
    | r => r
    end
  end.

(* What has to run after phase n whose body had trace [es]: PreHandle is 0,
   Handle 1, PostHandle 2; None means that nothing more runs.  A negative target
   leads to PreHandle. *)
Definition valid_phase (s : Z) : option Z :=
  if s <? 0 then Some 0 else if s <? 3 then Some s else None.
Definition following (n : Z) (es : list hev) : option Z :=
  match last_redirect es with
  | NoRedirect => valid_phase (n + 1)
  | Stop => None
  | Continue s => valid_phase s
  end.

(* The run came to its regular end. *)
Definition completed (o : hout) : bool := match o with HDone _ => true | _ => false end.

(* A piece of trace inside one phase. *)
Definition inside (es : list hev) : Prop := starts es = [] /\ ends es = [].

(* [body_trace finished a es]: es is what the code [a] does by itself, for some
   values read; [finished] says whether it ran to its end.  RouterSlicesNext has
   nothing to run in a router phase and may panic. *)
Inductive body_trace : bool -> hact -> list hev -> Prop :=
| BT_ret : body_trace true HRet []
| BT_panic : body_trace false HPanic [HvPanic]
| BT_abort f k es : body_trace f k es -> body_trace f (HAbort k) (HvAbort :: es)
| BT_goto f n k es : body_trace f k es -> body_trace f (HGoto n k) (HvGoto n :: es)
| BT_next f k es : body_trace f k es -> body_trace f (HNext k) (HvNext :: es)
| BT_next_panic k : body_trace false (HNext k) [HvNext]
| BT_set f key v k es : body_trace f k es -> body_trace f (HSet key v k) (HvSet key v :: es)
| BT_get f key v k es : body_trace f (k v) es -> body_trace f (HGet key k) (HvGot key v :: es)
| BT_set_resp f v k es : body_trace f k es -> body_trace f (HSetResp v k) (HvSetResp v :: es)
| BT_get_resp f v k es : body_trace f (k v) es -> body_trace f (HGetResp k) (HvGotResp v :: es)
| BT_msg f m k es : body_trace f (k m) es -> body_trace f (HMsg k) (HvMsg m :: es).

(* The user's code for a phase. *)
Definition code_of (r : router) (n : Z) : hact :=
  match n with 0 => r_pre r | 1 => r_handle r | _ => r_post r end.

(* [phase_run r complete first es]: es is a legal run of the phases of r that
   begins with phase [first]; when [complete] is false it may break off. *)
Inductive phase_run (r : router) (complete : bool) : option Z -> list hev -> Prop :=
| PR_over : phase_run r complete None []
| PR_cut n : complete = false -> phase_run r complete n []
| PR_cut_in n es : complete = false -> inside es -> body_trace false (code_of r n) es ->
    phase_run r complete (Some n) (HvStart n :: es)
| PR_phase n es rest :
    inside es -> body_trace true (code_of r n) es -> phase_run r complete (following n es) rest ->
    phase_run r complete (Some n) (HvStart n :: es ++ HvEnd n :: rest).

(* The last value stored under a key, and the last response stored. *)
Definition last_set (key : Z) (es : list hev) : option Z :=
  fold_left (fun cur e => match e with HvSet k v => if k =? key then Some v else cur | _ => cur end)
    es None.
Definition last_response (es : list hev) : option Z :=
  fold_left (fun cur e => match e with HvSetResp v => Some v | _ => cur end) es None.

(* Everything the handlers read is what was last stored before, and the message
   is the request's. *)
Definition reads_back (m : message) (es : list hev) : Prop :=
  forall t1 e t2, es = t1 ++ e :: t2 ->
  match e with
  | HvGot key v => v = last_set key t1
  | HvGotResp v => v = last_response t1
  | HvMsg m' => m' = m
  | _ => True
  end.

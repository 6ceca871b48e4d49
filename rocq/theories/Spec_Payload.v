(* What the handlers should see: the messages of Reader.v as values of their own. *)
From Coq Require Import ZArith List Bool.
From Verif Require Import Bytes Pack FrameDecoder Chain Decoders Reader GoSlice Payload.
Import ListNotations.

(* The reader of Reader.v with the given decoder and no further interceptors. *)
Definition reader_with (d : dec) : reader :=
  {| rd_fd := option_map new_frame_decoder (field_of d);
     rd_chain := {| bd_head := match d with DNone => None | DTlv => Some tlv_intercept | DLtv => Some ltv_intercept | DHtlv => Some htlv_intercept end;
                    bd_body := []; bd_tail := Some msg_handle_intercept |} |}.

Record vst := Vst { v_reader : reader; v_msgs : list (Z * list byte); v_up : bool }.
Definition of_requests (qs : list req) : list (Z * list byte) := flat_map (fun q => match seen q with Some p => [p] | None => [] end) qs.
Definition v_step (k : link) (size : nat) (s : vst) (l : plabel) : vst * list pev :=
  match l with
  | PRead chunk =>
    if v_up s && fits k size chunk then
      let '(qs, st, r) := read_chunk (v_reader s) chunk in
      (Vst r (v_msgs s ++ of_requests qs) match st with Running => true | _ => false end, [])
    else (s, [])
  | PLook i => match nth_error (v_msgs s) i with Some (id, bs) => (s, [Saw i id bs]) | None => (s, []) end
  | PWrite i o b =>
    match nth_error (v_msgs s) i with
    | Some (id, bs) => if o <? length bs then (Vst (v_reader s) (set_nth i (id, set_nth o b bs) (v_msgs s)) (v_up s), []) else (s, [])
    | None => (s, [])
    end
  end.
Fixpoint v_run (k : link) (size : nat) (s : vst) (ls : list plabel) : vst * list pev :=
  match ls with
  | [] => (s, [])
  | l :: ls' => let (s1, e1) := v_step k size s l in let (s2, e2) := v_run k size s1 ls' in (s2, e1 ++ e2)
  end.
Definition v_new (d : dec) : vst := Vst (reader_with d) [] true.

(* The reads of a run. *)
Definition reads (ls : list plabel) : list (list byte) := flat_map (fun l => match l with PRead c => [c] | _ => [] end) ls.
Definition nobody_writes (ls : list plabel) : Prop := forall i o b, ~ In (PWrite i o b) ls.

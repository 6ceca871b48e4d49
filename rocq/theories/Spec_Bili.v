(* What a device of the bili example expects (comments of the router files): the
   answer to a frame has head code A1 and the function code of the frame, and
   repeats the device code (7 bytes), the card number (4 bytes) or the whole body. *)
From Coq Require Import ZArith List.
From Verif Require Import Bytes Spec_Htlv.
Import ListNotations.
Local Open Scope Z_scope.

(* The number of leading body bytes the answer repeats, and the length of the
   answer's body, per function code; None: the whole body. *)
Definition repeated (code : Z) : option (Z * Z) :=
  if code =? 16 then Some (7, 30) else if code =? 19 then Some (4, 14) else None.

(* y is a proper answer to x. *)
Definition answers (x y : htlv) : Prop :=
  b2z (hf_head y) = 161 /\ hf_code y = hf_code x /\
  match repeated (b2z (hf_code x)) with
  | Some (n, total) => ztake n (hf_body y) = ztake n (hf_body x) /\ zlen (hf_body y) = total
  | None => hf_body y = hf_body x
  end.

(* A device frame of one of the functions 10, 13, 14, 16 (hexadecimal) with a body
   long enough to hold what the answer repeats. *)
Definition askable (x : htlv) : Prop :=
  (let c := b2z (hf_code x) in c = 16 \/ c = 19 \/ c = 20 \/ c = 22) /\
  zlen (hf_body x) <= 254 /\
  match repeated (b2z (hf_code x)) with Some (n, _) => n <= zlen (hf_body x) | None => True end.

(* What a connection keeps of the bytes it has read: the bytes not yet handed on. *)
From Coq Require Import ZArith List.
From Verif Require Import Bytes FrameDecoder Reader.
Import ListNotations.
Local Open Scope Z_scope.

Definition kept (r : reader) : list byte := match rd_fd r with Some d => fd_in d | None => [] end.

(* Vocabulary of the properties of what the players' clients are sent. *)
From Coq Require Import ZArith List Bool.
From Verif Require Import Aoi Spec_Aoi World Spec_World.
Import ListNotations.
Local Open Scope Z_scope.

(* What a client shows: for each player ID where that player is drawn, None if not at all. *)
Definition screen := Z -> option (Z * Z).
(* A message changes the player it is about and no other: "gone" (201) takes the player
   away, "here" (200 with Tp 2) and "list" (202) draw the player, "moved" (200 with Tp 4)
   redraws a player who is already drawn. *)
Definition draw (v : screen) (m : msg) : screen := fun p =>
  if p =? m_pid m then
    if m_id m =? 201 then None
    else if m_id m =? 202 then m_at m
    else if (m_id m =? 200) && (m_tp m =? 2) then m_at m
    else if (m_id m =? 200) && (m_tp m =? 4) then match v p with Some _ => m_at m | None => None end
    else v p
  else v p.
(* The screen of player q's client after what was sent to it, in order. *)
Definition screen_of (q : Z) (ms : list msg) : screen := fold_left draw (filter (fun m => m_to m =? q) ms) (fun _ => None).

(* qs are the players, each once, whose last position is in a grid that neighbours g. *)
Definition players_around (a : aoi) (cx cy : Z) (h : list wop) (g : Z) (qs : list Z) : Prop :=
  NoDup qs /\ forall q, In q qs <-> exists x z k, last_pos h q = Some (x, z) /\ gid_by_pos a x z = Some k /\ near cx cy g k.

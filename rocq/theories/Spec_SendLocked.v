(* Vocabulary of the send properties for websocket and KCP connections. *)
From Coq Require Import List Bool Arith.
From Verif Require Import Bytes SendQueue Spec_Send SendLocked.
Import ListNotations.

(* The sends of one kind (through the buffer or direct) that returned nil, in order. *)
Fixpoint nils (b : bool) (tr : list lev) : list (nat * msg) :=
  match tr with
  | [] => []
  | MOk t b' m :: tr' => if Bool.eqb b b' then (t, m) :: nils b tr' else nils b tr'
  | _ :: tr' => nils b tr'
  end.
(* The messages of one kind on the wire, in order. *)
Definition wired (b : bool) (w : list (bool * nat * msg)) : list (nat * msg) :=
  map (fun x => (snd (fst x), snd x)) (filter (fun x => Bool.eqb b (fst (fst x))) w).
(* The bytes on the wire. *)
Definition wire_bytes (w : list (bool * nat * msg)) : list byte := concat (map snd w).

Definition of_goroutine (t : nat) (l : list (nat * msg)) : list msg := map snd (filter (fun x => fst x =? t) l).

Definition no_panic_l (tr : list lev) : Prop := (forall t, ~ In (MPanic t) tr) /\ ~ In MCrash tr.
Definition no_send_buff (ls : list llabel) : Prop := forall t m, ~ In (MCall t ASendBuffMsg m) ls.

(* The messages goroutine t asked to send, through the buffer or directly, in order. *)
Fixpoint asked_l (t : nat) (b : bool) (tr : list lev) : list msg :=
  match tr with
  | [] => []
  | MBegin u b' m :: tr' => if (u =? t) && Bool.eqb b' b then m :: asked_l t b tr' else asked_l t b tr'
  | _ :: tr' => asked_l t b tr'
  end.
Definition never_stopped_l (ls : list llabel) : Prop := ~ In MStop ls.
Definition network_fine_l (ls : list llabel) : Prop :=
  (forall t ch n, ~ In (MSend t ch (NetFail n)) ls) /\ (forall i ch n, ~ In (MWriter i ch (NetFail n)) ls).
(* Only the goroutines already there move: no new call. *)
Definition goes_on_l (l : llabel) : Prop :=
  match l with MSend _ _ NetOk | MWriter _ _ NetOk => True | _ => False end.

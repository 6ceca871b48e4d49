(* Vocabulary of the send properties, over the recorded events only. *)
From Coq Require Import List Bool Arith.
From Verif Require Import Bytes SendQueue.
Import ListNotations.

(* The sends that returned nil, with their goroutine, in order. *)
Fixpoint oks (tr : list qev) : list (nat * msg) :=
  match tr with
  | [] => []
  | QOk t m :: tr' => (t, m) :: oks tr'
  | _ :: tr' => oks tr'
  end.
(* The messages whose send, by goroutine t, returned nil. *)
Definition oks_of (t : nat) (tr : list qev) : list msg := map snd (filter (fun x => fst x =? t) (oks tr)).
(* The messages goroutine t asked to send, in order. *)
Fixpoint asked (t : nat) (tr : list qev) : list msg :=
  match tr with
  | [] => []
  | QBegin u m :: tr' => if u =? t then m :: asked t tr' else asked t tr'
  | _ :: tr' => asked t tr'
  end.
Inductive subseq {A} : list A -> list A -> Prop :=
| sub_nil : subseq [] []
| sub_skip x l k : subseq l k -> subseq l (x :: k)
| sub_take x l k : subseq l k -> subseq (x :: l) (x :: k).

Definition prefix {A} (p l : list A) : Prop := exists rest, l = p ++ rest.

(* Kinds of schedules. *)
Definition buffered_only (ls : list qlabel) : Prop := forall t m, ~ In (QCall t true m) ls.
Definition direct_only (ls : list qlabel) : Prop := forall t m, ~ In (QCall t false m) ls.
Definition never_stopped (ls : list qlabel) : Prop := ~ In QStop ls.
Definition network_fine (ls : list qlabel) : Prop :=
  (forall t ch n, ~ In (QSend t ch (NetFail n)) ls) /\ (forall ch n, ~ In (QWriter ch (NetFail n)) ls).
Definition one_buffered_sender (ls : list qlabel) : Prop := exists t0, forall t m, In (QCall t false m) ls -> t = t0.

Definition no_panic (tr : list qev) : Prop := (forall t, ~ In (QPanic t) tr) /\ ~ In QCrash tr.
(* Only the goroutines already there move, and the network works: no new call, no Stop. *)
Definition goes_on (l : qlabel) : Prop := match l with QSend _ _ NetOk | QWriter _ NetOk => True | _ => False end.

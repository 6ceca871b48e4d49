From Coq Require Import ZArith List Bool Lia.
From Verif Require Import Bytes Pack FrameDecoder Chain Decoders Spec_Codec Reader Request Dispatch Workers Spec_Workers SendQueue Spec_Send Spec_EndToEnd.
From Verif Require Import Props_Codec Props_Workers.
Import ListNotations.

Lemma begun_activity c tr : begun c tr = flat_map (fun x => match x with ABegin j => [content j] | AEnd _ => [] end) (activity c tr).
Proof.
  induction tr as [|e tr IH]; [reflexivity|]. unfold begun, activity in *. cbn [flat_map]. rewrite flat_map_app, <- IH. destruct e; try reflexivity; destruct (Nat.eqb c0 c); reflexivity.
Qed.
Lemma begun_prefix c tr : one_at_a_time (sent c tr) (activity c tr) -> prefix (begun c tr) (map content (sent c tr)).
Proof.
  rewrite begun_activity. induction 1 as [js|j js|j js acts _ (r & IH)].
  - exists (map content js). reflexivity.
  - exists (map content js). reflexivity.
  - exists r. cbn [flat_map map app]. now rewrite IH.
Qed.
Lemma prefix_trans {A} (x y z : list A) : prefix x y -> prefix y z -> prefix x z.
Proof. intros (r & ->) (r' & ->). exists (r ++ r'). now rewrite app_assoc. Qed.
Lemma prefix_map {A B} (f : A -> B) x y : prefix x y -> prefix (map f x) (map f y).
Proof. intros (r & ->). exists (map f r). apply map_app. Qed.
Lemma prefix_firstn {A} n (l : list A) : prefix (firstn n l) l.
Proof. exists (skipn n l). symmetry. apply firstn_skipn. Qed.

Lemma read_prefix f msgs chunks : Forall msg_ok msgs -> prefix (concat chunks) (concat (map (bytes_of (packer f)) msgs)) ->
  exists n, map seen (fst (fst (run_reader (reader_of f) chunks))) = map Some (firstn n msgs).
Proof.
  intros F (rest & E). change (concat (map (bytes_of (packer f)) msgs)) with (wire (packer f) msgs) in E. symmetry in E. destruct f; cbn [packer reader_of] in *.
  - destruct (C04_prompt_delivery_tlv msgs chunks rest F E) as (qs & r & -> & S & _). exists (length qs). exact S.
  - destruct (C04_prompt_delivery_ltv msgs chunks rest F E) as (qs & r & -> & S & _). exists (length qs). exact S.
Qed.

Lemma handled_prefix f cf ls s tr c msgs chunks : cf_mode cf <> ModeDynamicBind -> (pool_size cf > 0)%nat -> server_run cf ls = Some (s, tr) ->
  Forall msg_ok msgs -> prefix (concat chunks) (concat (map (bytes_of (packer f)) msgs)) -> passed_on (reader_of f) chunks c tr ->
  exists n, prefix (begun c tr) (map Some (firstn n msgs)).
Proof.
  intros M P R F W (rest & A). destruct (read_prefix f msgs chunks F W) as (n & S). exists n. rewrite <- S. apply (prefix_trans _ (map content (sent c tr))); [|now exists rest].
  apply begun_prefix. exact (C23_order_partial cf ls s tr M P R c).
Qed.


(** Specification: a list of suggestions as a user expects it (C76). *)
From Coq Require Import Sorted.
From Verif Require Import Base S_Collection.
Local Open Scope nat_scope.

(** Best (least) doc ids first, no text twice, and each the text of the completion with that doc id. *)
Record tidy (c : collection) (out : list (nat * list N)) : Prop := {
  ti_order : StronglySorted lt (map fst out);
  ti_once : NoDup (map snd out);
  ti_real : forall d s, In (d, s) out -> exists ids, is_doc c d ids /\ s = text c ids
}.

(** Specification: typing out a completion (C71). *)
From Verif Require Import Base S_Order S_Vocab M_Auto S_Collection S_Found S_Starts.
Local Open Scope nat_scope.

(** The query is the text of the completion with the doc id [d]; spaces at the front and repeated spaces do not count. *)
Definition typed_out (c : collection) (r : request) (d : nat) (ids : list N) : Prop :=
  is_doc c d ids /\ squeeze (rq_text r) = text c ids.
(** No other completion starts with the text of this one. *)
Definition continued_by_none (c : collection) (d : nat) (ids : list N) : Prop :=
  forall d' ids', is_doc c d' ids' -> is_prefix (text c ids) (text c ids') -> d' = d.

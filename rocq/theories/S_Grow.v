(** Specification: a collection that grows (C61). *)
From Verif Require Import Base S_Order S_Vocab S_Parse M_Auto S_Collection S_Found S_Meta.
Local Open Scope nat_scope.

(** [c'] has the completions of [c], with doc ids given by [f], and possibly more. (Doc ids, term ids and positions may all change.) *)
Definition grows (f : nat -> nat) (c c' : collection) : Prop :=
  forall d ids, is_doc c d ids -> exists ids', is_doc c' (f d) ids' /\ words_of c' ids' = words_of c ids.
(** No complete token of the query is new in [c']. *)
Definition no_new_token (c c' : collection) (r : request) : Prop :=
  forall ts last t, query_split (rq_text r) ts last -> In t ts -> In t (terms c') -> In t (terms c).
(** The first completion of a collection, which prefix search with the integer dictionary finds or not (F2). *)
Definition is_first (c : collection) (d : nat) : Prop := nth_error (docs c) 0 = Some d.

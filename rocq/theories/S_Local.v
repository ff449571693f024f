(** Specification: collections with the same matches for a request (C77). *)
From Verif Require Import Base S_Order S_Parse M_Auto S_Collection.
Local Open Scope nat_scope.

(** The completion with doc id [d] and words [ws] matches the query of the request [r]. *)
Definition matches (c : collection) (r : request) (d : nat) (ws : list (list N)) : Prop :=
  exists ids ts last, is_doc c d ids /\ words_of c ids = ws /\ query_split (rq_text r) ts last /\
    if rq_conj r then conj_match c ts last ws else prefix_match ts last ws.
(** The completions that match are the same, with the same doc ids. The other completions, their number, and the words of the dictionary may differ. *)
Definition same_matches (r : request) (c c' : collection) : Prop := forall d ws, matches c r d ws <-> matches c' r d ws.

(** F1 and F2 excluded. *)
Definition no_first_term (c : collection) (r : request) : Prop :=
  forall ts last, query_split (rq_text r) ts last -> first_term_ok c last.
Definition no_first_completion (c : collection) (r : request) : Prop :=
  rq_conj r = false -> forall ts last, query_split (rq_text r) ts last -> first_completion_ok c ts last.

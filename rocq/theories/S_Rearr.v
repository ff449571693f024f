(** Specification: requests that differ only in the arrangement of their complete tokens. *)
From Verif Require Import Base S_Parse M_Auto S_Collection.
(** The last tokens are equal. The complete tokens of a conjunctive search may be in another order and be repeated; those of a prefix
    search are equal (only the spaces between them may differ). *)
Definition rearranged (r1 r2 : request) : Prop :=
  rq_conj r1 = rq_conj r2 /\ rq_k r1 = rq_k r2 /\
  exists ts1 ts2 last, query_split (rq_text r1) ts1 last /\ query_split (rq_text r2) ts2 last /\
    if rq_conj r1 then forall t, In t ts1 <-> In t ts2 else ts1 = ts2.

(** Requests that differ only in complete tokens that are no words of the collection (C75): such tokens are added to a conjunctive search or removed, besides
    the rearrangement. *)
Definition same_known (c : collection) (r1 r2 : request) : Prop :=
  rq_conj r1 = rq_conj r2 /\ rq_k r1 = rq_k r2 /\
  exists ts1 ts2 last, query_split (rq_text r1) ts1 last /\ query_split (rq_text r2) ts2 last /\
    if rq_conj r1 then forall t, In t (terms c) -> (In t ts1 <-> In t ts2) else ts1 = ts2.
(** A prefix search for completions that contain some word that no completion contains. *)
Definition unknown_word (c : collection) (r : request) : Prop :=
  rq_conj r = false /\ exists ts last t, query_split (rq_text r) ts last /\ In t ts /\ ~ In t (terms c).

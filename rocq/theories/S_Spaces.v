(** Specification: spaces that do not matter in a query (C74). *)
From Verif Require Import Base M_Auto.
Local Open Scope nat_scope.

(** Two queries that differ only in the number of spaces: a space may be put in front of a query, and next to another space; or removed there. *)
Inductive respaced : list N -> list N -> Prop :=
| rs_refl : forall q, respaced q q
| rs_sym : forall q q', respaced q q' -> respaced q' q
| rs_trans : forall q q' q'', respaced q q' -> respaced q' q'' -> respaced q q''
| rs_front : forall q, respaced q (32%N :: q)
| rs_next : forall a b, respaced (a ++ 32%N :: b) (a ++ 32%N :: 32%N :: b).

(** Two requests that differ only in that. *)
Definition same_request (r r' : request) : Prop := rq_conj r = rq_conj r' /\ rq_k r = rq_k r' /\ respaced (rq_text r) (rq_text r').

(** Specification: the queries that the blocked index answers incompletely (F5). *)
From Verif Require Import Base S_Blocked.
Local Open Scope nat_scope.

(** All terms of the query are in one block, and the first document of this block has all of them. *)
Definition misses_first (bounds : list nat) (posts : list (list nat)) (q : list nat) : Prop :=
  exists i d, Forall (in_block bounds i) q /\ leads bounds posts i d /\ Forall (has_term posts d) q.

(** The number of postings of the terms a + 1, ..., b. *)
Definition load (posts : list (list nat)) (a b : nat) : nat := length (concat (firstn (b - a) (skipn a posts))).
(** The last terms of the blocks after term [a]: a block ends at the first term at which it has at least [m] postings, the last block at the last term. *)
Fixpoint cuts (m : nat) (posts : list (list nat)) (a : nat) (bounds : list nat) : Prop :=
  match bounds with
  | [] => a = length posts
  | b :: bounds' => a < b <= length posts /\ (b = length posts \/ m <= load posts a b) /\ (forall t, a < t < b -> load posts a t < m) /\ cuts m posts b bounds'
  end.

(** Specification of top-k results. *)
From Coq Require Import Sorted Permutation.
From Verif Require Import Base.

(** [out] lists the min(k, |all|) smallest elements of the multiset [all], in order. *)
Definition k_smallest (k : nat) (all out : list nat) : Prop :=
  StronglySorted le out /\ length out = Nat.min k (length all) /\
  exists rest, Permutation all (out ++ rest) /\ forall x y, In x out -> In y rest -> x <= y.

(** [out] lists the k smallest distinct elements of [all] (all of them if there are at most k), in
    increasing order: an element of [all] can only be missing if [out] is full and it is larger
    than everything in [out]. *)
Definition k_smallest_distinct (k : nat) (all out : list nat) : Prop :=
  StronglySorted lt out /\ length out <= k /\
  (forall x, In x out -> In x all) /\
  (forall y, In y all -> In y out \/ (length out = k /\ forall x, In x out -> x < y)).

(** Range-minimum queries: [p] is the leftmost position of a minimum of positions [a..b]. *)
Definition is_rmq (l : list nat) (a b p : nat) : Prop :=
  a <= p <= b /\ (forall i, a <= i <= b -> nth p l 0 <= nth i l 0) /\
  (forall i, a <= i < p -> nth p l 0 < nth i l 0).

Definition rmq_ok (l : list nat) (rmq : nat -> nat -> res nat) : Prop :=
  forall a b, a <= b -> b < length l -> exists p, rmq a b = Ok p /\ is_rmq l a b p.

(** The elements at positions [a, b). *)
Definition segment (l : list nat) (a b : nat) : list nat := firstn (b - a) (skipn a l).

(** [r] is the outcome of a search that writes its results [ds] to a vector of [n] scores: undefined behaviour if they do
    not fit. *)
Definition outcome (n : nat) (ds : list nat) (r : res (nat * list nat)) : Prop :=
  (length ds <= n /\ exists sc', r = Ok (length ds, sc') /\ length sc' = n /\ firstn (length ds) sc' = ds) \/
  (n < length ds /\ r = UB).

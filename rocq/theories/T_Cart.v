(** C20: range-minimum queries return the leftmost position of a minimum. *)
From Coq Require Import ZArith.
From Verif Require Import Base S_TopK M_Bp M_Cart P_Cart.
Local Open Scope nat_scope.

(** Missing from the full statement: lists of 2^30 - 1 elements or more (C20_long_refuted), for which 2n + 2 no longer fits the signed 32-bit
    type of excesses. *)
Theorem C20_rmq_leftmost_partial : forall l, (2 * N.of_nat (length l) + 2 < 2147483648)%N ->
  exists t, ct_build l = Ok t /\
    forall a b, a <= b -> b < length l ->
      exists p, ct_rmq t a b = Ok p /\ a <= p <= b /\
        (forall i, a <= i <= b -> nth p l 0 <= nth i l 0) /\ (forall i, a <= i < p -> nth p l 0 < nth i l 0).
Proof. exact cartesian_rmq. Qed.
Print Assumptions C20_rmq_leftmost_partial.

Example C20_nonvacuous :
  (do t <- ct_build [5; 3; 7; 3; 9; 1; 1; 4];
   do p1 <- ct_rmq t 0 4; do p2 <- ct_rmq t 2 4; do p3 <- ct_rmq t 2 7; do p4 <- ct_rmq t 6 7; Ok [p1; p2; p3; p4]) = Ok [1; 3; 5; 6].
Proof. vm_compute. reflexivity. Qed.

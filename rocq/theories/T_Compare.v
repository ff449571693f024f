(** C41: comparison functions decide the lexicographic order. *)
From Verif Require Import Base S_Order M_Compare P_Compare.
Local Open Scope Z_scope.

(** Exactly when the byte comparison decides the lexicographic order: unless both strings contain a NUL at the same
    place after the same bytes (F14), where only the lengths are compared. *)
Theorem C41_byte_range_compare_partial : forall l r, ~ same_cstr l r ->
  (byte_range_compare l r < 0 <-> lex_lt l r) /\
  (byte_range_compare l r = 0 <-> l = r) /\
  (byte_range_compare l r > 0 <-> lex_lt r l).
Proof. exact byte_compare_correct. Qed.
Print Assumptions C41_byte_range_compare_partial.

Theorem C41_byte_range_compare_same_cstr : forall l r, same_cstr l r ->
  byte_range_compare l r = Z.of_nat (length l) - Z.of_nat (length r) /\
  byte_range_compare_n l r (length r) = Z.of_nat (Nat.min (length l) (length r)) - Z.of_nat (length r).
Proof. exact (fun l r H => conj (byte_compare_same l r H) (byte_compare_n_same l r H)). Qed.
Print Assumptions C41_byte_range_compare_same_cstr.

(** In particular a string without NUL is compared correctly with any other. *)
Theorem C41_nul_free_enough : forall l r, nul_free l \/ nul_free r -> ~ same_cstr l r.
Proof. intros l r [H|H]; [exact (nul_free_not_same_l l r H)|exact (nul_free_not_same_r l r H)]. Qed.
Print Assumptions C41_nul_free_enough.

Theorem C41_uint32_range_compare : forall l r,
  (uint32_range_compare l r < 0 <-> lex_lt l r) /\
  (uint32_range_compare l r = 0 <-> l = r) /\
  (uint32_range_compare l r > 0 <-> lex_lt r l).
Proof. exact uint32_compare_correct. Qed.
Print Assumptions C41_uint32_range_compare.

Theorem C41_byte_range_compare_bounded_partial : forall l r, ~ same_cstr l r ->
  (byte_range_compare_n l r (length r) < 0 <-> lex_lt l r) /\
  (byte_range_compare_n l r (length r) = 0 <-> is_prefix r l) /\
  (byte_range_compare_n l r (length r) > 0 <-> lex_lt r l /\ ~ is_prefix r l).
Proof. exact byte_compare_n_correct. Qed.
Print Assumptions C41_byte_range_compare_bounded_partial.

Theorem C41_uint32_range_compare_bounded : forall l r,
  (uint32_range_compare_n l r (length r) < 0 <-> lex_lt l r) /\
  (uint32_range_compare_n l r (length r) = 0 <-> is_prefix r l) /\
  (uint32_range_compare_n l r (length r) > 0 <-> lex_lt r l /\ ~ is_prefix r l).
Proof. exact uint32_compare_n_correct. Qed.
Print Assumptions C41_uint32_range_compare_bounded.

(** F14. *)
Theorem C41_byte_range_compare_nul_refuted :
  exists l r, l <> r /\ byte_range_compare l r = 0.
Proof. exact byte_compare_nul_wrong. Qed.
Print Assumptions C41_byte_range_compare_nul_refuted.

Example C41_nonvacuous :
  nul_free [97;98;99]%N /\ nul_free [97;98]%N /\ byte_range_compare [97;98;99]%N [97;98]%N > 0
  /\ byte_range_compare_n [97;98;99]%N [97;98]%N 2 = 0.
Proof. repeat split; try (repeat constructor); reflexivity. Qed.
Example C41_nonvacuous_nul :
  ~ same_cstr [97;0;99]%N [97;98]%N /\ byte_range_compare [97;0;99]%N [97;98]%N < 0 /\
  same_cstr [97;0;99;99]%N [97;0;100]%N /\ byte_range_compare [97;0;99;99]%N [97;0;100]%N > 0.
Proof.
  split; [apply C41_nul_free_enough; right; repeat constructor|]. split; [reflexivity|].
  split; [|reflexivity]. exists [97]%N, [99;99]%N, [100]%N. repeat split. repeat constructor.
Qed.

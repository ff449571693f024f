(** Model of the comparison functions of include/util_types.hpp. No proofs. *)
From Verif Require Import Base.
Local Open Scope Z_scope.

(** libc strncmp, used by util_types.hpp:150-168: compares at most [n] bytes as
    unsigned chars and stops at a NUL. Only the sign of the result is specified
    by C; the model returns -1, 0 or 1. The lists are the bytes of the two
    ranges; callers never pass [n] beyond either length. *)
Fixpoint strncmp (l r : list N) (n : nat) {struct n} : Z :=
  match n with
  | O => 0
  | S n' =>
      match l, r with
      | x :: l', y :: r' =>
          if (x <? y)%N then -1
          else if (y <? x)%N then 1
          else if (x =? 0)%N then 0
          else strncmp l' r' n'
      | _, _ => 0
      end
  end.

(** util_types.hpp:150-158 byte_range_compare(l, r). *)
Definition byte_range_compare (l r : list N) : Z :=
  let size_l := Z.of_nat (length l) in
  let size_r := Z.of_nat (length r) in
  let n := if size_l <? size_r then length l else length r in
  let cmp := strncmp l r n in
  if negb (cmp =? 0) then cmp else size_l - size_r.

(** util_types.hpp:160-168 byte_range_compare(l, r, n); requires 0 < n <= |r|. *)
Definition byte_range_compare_n (l r : list N) (n : nat) : Z :=
  let m := if (length l <? n)%nat then length l else n in
  let cmp := strncmp l r m in
  if negb (cmp =? 0) then cmp else Z.of_nat m - Z.of_nat n.

(** util_types.hpp:170-180 uint32_range_compare(l, r). *)
Fixpoint uint32_range_compare (l r : list N) : Z :=
  match l, r with
  | x :: l', y :: r' =>
      if (x <? y)%N then -1 else if (y <? x)%N then 1 else uint32_range_compare l' r'
  | _, _ => Z.of_nat (length l) - Z.of_nat (length r)
  end.

(** util_types.hpp:182-196 uint32_range_compare(l, r, n); requires 0 < n <= |r|. *)
Fixpoint uint32_range_compare_n (l r : list N) (n : nat) {struct n} : Z :=
  match n with
  | O => 0
  | S n' =>
      match l, r with
      | x :: l', y :: r' =>
          if (x <? y)%N then -1 else if (y <? x)%N then 1 else uint32_range_compare_n l' r' n'
      | _, _ => -1
      end
  end.

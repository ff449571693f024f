(** Model of include/succinct_rmq/cartesian_tree.hpp. No proofs. *)
From Coq Require Import ZArith.
From Verif Require Import Base M_Word M_Bits M_Darray M_Rs M_Bp.
Local Open Scope nat_scope.

(** cartesian_tree.hpp:48-52: pop while val < m_stack.back(), one bit for each. The stack's top comes first. *)
Fixpoint ct_pop (val : nat) (stack : list nat) (b : bvb) : res (list nat * bvb) :=
  match stack with
  | [] => Ok ([], b)
  | x :: rest => if val <? x then do b <- bvb_push b true; ct_pop val rest b else Ok (stack, b)
  end.
(** cartesian_tree.hpp:44-55 push_back, comparing with std::less. *)
Definition ct_push (st : list nat * bvb) (val : nat) : res (list nat * bvb) :=
  let (stack, b) := st in
  do b <- bvb_push b false;
  do (stack, b) <- ct_pop val stack b;
  Ok (val :: stack, b).
(** cartesian_tree.hpp:82-84. *)
Fixpoint ct_pushes (l : list nat) (st : list nat * bvb) : res (list nat * bvb) :=
  match l with
  | [] => Ok st
  | x :: l => do st <- ct_push st x; ct_pushes l st
  end.
(** As above: cartesian_tree.hpp:82-84. *)
Fixpoint push_ones (n : nat) (b : bvb) : res bvb :=
  match n with
  | 0 => Ok b
  | S n => do b <- bvb_push b true; push_ones n b
  end.
(** cartesian_tree.hpp:57-68 finalize. *)
Definition ct_finalize (st : list nat * bvb) : res bvb :=
  let (stack, b) := st in
  do b <- bvb_push b false;
  do b <- push_ones (length stack) b;
  do b <- bvb_push b true;
  bvb_reverse b.
(** cartesian_tree.hpp:79-86 build, 142-146: the bp_vector takes over the builder's words and size. *)
Definition ct_build (l : list nat) : res bpv :=
  do st <- ct_pushes l ([], bvb_empty);
  do b <- ct_finalize st;
  bp_build {| v_words := b_words b; v_size := b_size b |} false true.

(** cartesian_tree.hpp:125-127 size. *)
Definition ct_size (p : bpv) : nat := v_size (rs_bv (bp_rs p)) / 2 - 1.
(** cartesian_tree.hpp:88-119 rmq. Where unsigned subtractions would wrap around (b not below the size, or rank0_w above it) the model
    gives UB. *)
Definition ct_rmq (p : bpv) (a b : nat) : res nat :=
  if a =? b then Ok a
  else
    let n := ct_size p in
    if (n <=? b) || (n <? a) then UB
    else
      do t <- rs_select true (bp_rs p) (n - b - 1);
      let exc_t := to_i32 (Z.of_nat t - 2 * Z.of_nat (n - b - 1)) in
      do x <- rs_select true (bp_rs p) (n - b);
      do y <- rs_select true (bp_rs p) (n - a);
      do (w, exc_w) <- excess_rmq p x y;
      let rank0_w := Z.to_nat ((Z.of_nat w - exc_w) mod 18446744073709551616 / 2) in
      do e <- i32 (exc_t - 1);
      if (e <=? exc_w)%Z then Ok b else if n <? rank0_w then UB else Ok (n - rank0_w).

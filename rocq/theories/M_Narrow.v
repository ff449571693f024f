(** include/uint_vec.hpp with the arithmetic of its class argument UintType, of [bits] bits (M_Find has unbounded integers). No proofs. *)
From Verif Require Import Base M_Find.
Local Open Scope nat_scope.

Section Narrow.
  (** sizeof(UintType) * 8 (uint_vec.hpp:9-10). *)
  Variable bits : nat.

  (** Conversion to UintType (uint_vec.hpp:22, 42-43, 76, 79, 133). *)
  Definition narrow (x : N) : N := (x mod 2 ^ N.of_nat bits)%N.

  (** uint_vec.hpp:30-44, as M_Find.range_sums; v, prev_upper and the elements of m_data are of type UintType. *)
  Fixpoint narrow_sums (from : list N) (ps : list nat) (end_ run within : nat) (prev last : N) : res (list N) :=
    match from with
    | [] => Ok []
    | v :: from' =>
        do (ps, end_, run, within, prev) <-
           (if within =? run then
              do (ps', e', run') <- next_run ps end_;
              Ok (ps', e', run', 0, last)
            else Ok (ps, end_, run, within, prev));
        let x := narrow (narrow v + prev) in
        do rest <- narrow_sums from' ps end_ run (within + 1) prev x;
        Ok (x :: rest)
    end.
  (** uint_vec.hpp:18-47. *)
  Definition uv_build (from : list N) (pointers : list nat) : res (list N) :=
    match pointers with
    | start :: end_ :: ps => narrow_sums from ps end_ (end_ - start) 0 0 0
    | _ => UB
    end.

  (** uint_vec.hpp:76-81 find(range, id): the sum id + prev_upper is of type UintType (for at least 32 bits). *)
  Definition uv_find (acc : nat -> res N) (itr : nat -> nat -> res N) (r_begin r_end : nat) (id : N) : res (option nat) :=
    do pu <- prev_upper acc r_begin;
    match r_end with
    | O => UB
    | S hi => find acc itr (narrow (narrow id + pu)) r_begin hi
    end.
  (** find(range, range) (uint_vec.hpp:83-105) adds integers of 64 bits: M_Find.uv_find_range. *)
End Narrow.

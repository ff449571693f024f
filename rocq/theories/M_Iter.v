(** Interface of posting-list iterators (ListType::iterator of inverted_index.hpp; concrete
    instance: M_CompactEf). next() and next_geq() return the value under the new position, which is
    what [i_deref] of the new iterator gives. No proofs. *)
From Verif Require Import Base.

(** inverted_index.hpp:98-105; ef/compact_ef.hpp:86-225. *)
Record iter_ops (It : Type) := {
  i_deref : It -> nat;              (* operator* *)
  i_has_next : It -> bool;          (* has_next() *)
  i_next : It -> res It;            (* next(), operator++ *)
  i_next_geq : It -> nat -> res It; (* next_geq(lower_bound) *)
  i_access0 : It -> res It;         (* access(0) *)
  i_size : It -> nat;               (* size() *)
}.
Arguments i_deref {It} _ _.
Arguments i_has_next {It} _ _.
Arguments i_next {It} _ _.
Arguments i_next_geq {It} _ _ _.
Arguments i_access0 {It} _ _.
Arguments i_size {It} _ _.

(** Model of compact_ef::iterator::intersects, include/ef/compact_ef.hpp:215-225. No proofs. *)
From Verif Require Import Base M_CompactEf.
Local Open Scope nat_scope.

(** ef/compact_ef.hpp:219-223: the loop; [cnt] = size() - i. *)
Fixpoint c_intersects_from (cnt : nat) (it : ceit) (lo hi : N) : res bool :=
  match cnt with
  | 0 => Ok false
  | S cnt' =>
      do it <- c_next it;
      if (hi <? c_val it)%N then Ok false
      else if (lo <=? c_val it)%N && (c_val it <=? hi)%N then Ok true
      else c_intersects_from cnt' it lo hi
  end.
(** ef/compact_ef.hpp:215-225 intersects; range::contains (util_types.hpp:56-59). *)
Definition c_intersects (it : ceit) (lo hi : N) : res bool :=
  do it <- c_access it 0;
  if (hi <? c_val it)%N then Ok false
  else if (lo <=? c_val it)%N && (c_val it <=? hi)%N then Ok true
  else c_intersects_from (c_size it - 1) it lo hi.

(** Specification: how large the numbers stored for one trie level get (C25). *)
From Verif Require Import Base.
Local Open Scope nat_scope.

(** The largest elements of all groups of siblings, added up. *)
Definition level_total (groups : list (list N)) : N := fold_right N.add 0%N (map (fun g => last g 0%N) groups).

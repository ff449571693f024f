(** Model of the files of queries that preprocess.sh leaves for test/test_locate_prefix.cpp. No proofs. *)
From Verif Require Import Base S_Python M_Prep.
Local Open Scope nat_scope.

(** test_data/partition_queries_by_length.py:11-12: the first six files are named queries.length=1 to queries.length=6, the last one
    queries.length=7+, a name the test does not open (test_locate_prefix.cpp:84-92). The bytes of a file, [None] if there is none with that name. *)
Definition named {py : python} (files : list (list N)) (n : nat) : option (list N) :=
  if (1 <=? n) && (n <=? 6) then Some (encode (nth (n - 1) files [])) else None.
